(** The theorems about regenerating the stored files
    Statements only: every proof is [exact] a lemma of T_GenFile.v with the same statement.
    Below each theorem, Print Assumptions lists the axioms it uses. *)
From Coq Require Import Reals ZArith QArith Qreals Lra Lia Bool String Ascii.
From Coquelicot Require Import Coquelicot.
From Coq Require Import List.
From Verif Require Import M_Py M_Plate M_K M_Tables M_Shape M_Expr M_RealArith M_GenFile S_Plate S_Bardell S_Energy S_Ritz S_GenFile.
Import ListNotations.
Open Scope string_scope.
Open Scope R_scope.
From Verif Require T_GenFile.

(** C83: the polynomials of the generators: for every number i from 4 on, F[i], its derivative and its second derivative are the function of
    the literature formula and its derivatives, as functions of a real variable. *)
Theorem C83_functions : forall d i, (4 <= i)%nat -> exists p, gen_fun d i = Ok p /\ forall x, poly_at p x = Derive_n (bardell i) d x.
Proof. exact T_GenFile.t_C83_functions. Qed.
Print Assumptions C83_functions.

(** C83: and the numbers the generator computes are rational and exactly the integrals of the products. *)
Theorem C83_integrals : forall d e i k, (4 <= i)%nat -> (4 <= k)%nat -> exists q, gen_integral d e i k = Ok q /\ Q2R q = exact_int d e i k.
Proof. exact T_GenFile.t_C83_integrals. Qed.
Print Assumptions C83_integrals.

(** C83: whatever polynomial is printed, Python's eval of the text at any xi gives the value of the polynomial there; a text
    contains no quote, no backslash and no line end. *)
Theorem C83_texts : forall p (x y : R), eval (A := RA) Rdec x y (str_poly p) = Ok (poly_at p x) /\ plain (str_poly p).
Proof. exact T_GenFile.t_C83_texts. Qed.
Print Assumptions C83_texts.

(** C83: a rational number that is printed is read back as the same number, with or without a division, positive, negative or zero. *)
Theorem C83_numbers : forall q (x y : R), eval (A := RA) Rdec x y (str_rational q) = Ok (Q2R q).
Proof. exact T_GenFile.t_C83_numbers. Qed.
Print Assumptions C83_numbers.

(** C83: two rational numbers are printed alike exactly if they are equal. *)
Theorem C83_injective : forall q r, str_rational q = str_rational r <-> (q == r)%Q.
Proof. exact T_GenFile.t_C83_injective. Qed.
Print Assumptions C83_injective.

(** C83: whatever dictionaries are written, with ints or pairs of ints as keys and texts without quotes, backslashes and line ends, importing the
    file gives these dictionaries. *)
Theorem C83_import : forall head ds, one_line head -> (head = "" \/ exists t, head = "#" ++ t)%string ->
  (forall nm d, In (nm, d) ds -> starts_with_letter nm /\ one_line nm /\ forall kv, In kv d -> key_ok (fst kv) /\ plain (snd kv)) ->
  import_file (head ++ newline ++ fold_right (fun x t => convert_to_str (snd x) (fst x) ++ t) "" ds) = Some ds.
Proof. exact T_GenFile.t_C83_import. Qed.
Print Assumptions C83_import.

(** C83: the file of pre-integrated terms, generated for any number N of functions: the generator finishes, the file can be imported, and the tables so
    obtained give the exact integral for any two functions with numbers from 4 up to N, whatever plain texts the entries with a smaller number get;
    those entries are in the file as they were printed, and the file has no others. *)
Theorem C83_file : forall file low N, one_line file -> (forall nm i k, plain (low nm i k)) ->
  exists text m, ii_file file low N = Ok text /\ import_file text = Some m /\
    (forall i k, (4 <= i < N)%nat -> (4 <= k < N)%nat -> let t := imported RA Rdec m in
       t_ff t i k = Ok (exact_int 0 0 i k) /\ t_fxi_f t i k = Ok (exact_int 1 0 i k) /\ t_fxi_fxi t i k = Ok (exact_int 1 1 i k) /\
       t_fxixi_f t i k = Ok (exact_int 2 0 i k) /\ t_fxixi_fxi t i k = Ok (exact_int 2 1 i k) /\ t_fxixi_fxixi t i k = Ok (exact_int 2 2 i k)) /\
    map fst m = ["ii_FF"; "ii_FXI_F"; "ii_FXI_FXI"; "ii_FXIXI_F"; "ii_FXIXI_FXI"; "ii_FXIXI_FXIXI"]%string /\
    (forall nm i k, In nm (map fst m) -> ((i < 4 \/ k < 4) -> i < N -> k < N -> dict_get (module_get m nm) [i; k] = Ok (low nm i k))%nat /\
       ((N <= i \/ N <= k)%nat -> dict_get (module_get m nm) [i; k] = Err KeyError)).
Proof. exact T_GenFile.t_C83_file. Qed.
Print Assumptions C83_file.

(** C83: so with a regenerated file the assembly for a clamped plate is exact for any number of terms up to N - 4 in each direction: both
    assembly functions compute what they would with exact integrals, errors included. *)
Theorem C83_clamped : forall file low N text m_ , one_line file -> (forall nm i k, plain (low nm i k)) -> ii_file file low N = Ok text -> import_file text = Some m_ ->
  forall c m n (D ABD : @arr RA) a b Nxx Nyy Nxy, specifies c Clamped Clamped Clamped Clamped -> (m + 4 <= N)%nat -> (n + 4 <= N)%nat ->
  let t := imported RA Rdec m_ in
  calc_K_KG_D t D a b Nxx Nyy Nxy c m n = calc_K_KG_D exact_tables D a b Nxx Nyy Nxy c m n /\
  calc_K_KG_ABD t ABD a b Nxx Nyy Nxy c m n = calc_K_KG_ABD exact_tables ABD a b Nxx Nyy Nxy c m n.
Proof. exact T_GenFile.t_C83_clamped. Qed.
Print Assumptions C83_clamped.

(** C83: the file of shape functions, generated for any number of functions: it can be imported, FXI gives for every i from 4 up to N a text that evaluates
    at every xi to the function of the literature formula, and the other texts are those that were printed. *)
Theorem C83_shapes : forall file low prod N, one_line file -> (forall i, plain (low i)) -> (forall i j, plain (prod i j)) ->
  exists text m, S_file file low prod N = Ok text /\ import_file text = Some m /\
    (forall i, (4 <= i < N)%nat -> exists s, dict_get (module_get m "FXI") [i] = Ok s /\ forall x y, eval (A := RA) Rdec x y s = Ok (bardell i x)) /\
    (forall i, (i < 4)%nat -> (i < N)%nat -> dict_get (module_get m "FXI") [i] = Ok (low i)) /\
    (forall i j, (i < N)%nat -> (j < N)%nat -> dict_get (module_get m "S") [i; j] = Ok (prod i j)).
Proof. exact T_GenFile.t_C83_shapes. Qed.
Print Assumptions C83_shapes.

(** C83: the stored tables are what the generator prints: for numbers from 4 to 29 every stored text is literally the text of the number the generator
    computes. *)
Theorem C83_stored_tables : forall i k, (4 <= i < 30)%nat -> (4 <= k < 30)%nat ->
  let printed t d e := exists q, gen_integral d e i k = Ok q /\ M_Expr.lookup t i k = Ok (str_rational q) in
  printed ii_FF 0%nat 0%nat /\ printed ii_FXI_F 1%nat 0%nat /\ printed ii_FXI_FXI 1%nat 1%nat /\
  printed ii_FXIXI_F 2%nat 0%nat /\ printed ii_FXIXI_FXI 2%nat 1%nat /\ printed ii_FXIXI_FXIXI 2%nat 2%nat.
Proof. exact T_GenFile.t_C83_stored_tables. Qed.
Print Assumptions C83_stored_tables.

(** C83: and so are the stored shape functions, for numbers from 4 to 49. *)
Theorem C83_stored_functions : forall i, (4 <= i < 50)%nat -> exists p, gen_fun 0 i = Ok p /\ nth_error FXI i = Some (str_poly p).
Proof. exact T_GenFile.t_C83_stored_functions. Qed.
Print Assumptions C83_stored_functions.

(** Example: the texts printed for the function with number 7 and for an integral, a whole file for five functions with 0.5 for the entries of the first four,
    and what is read back from it; the file name and these texts meet the hypotheses. *)
Example C83_ex :
  (p <- gen_fun 0 7 ;; Ok (str_poly p)) = Ok "3*xi**7/16 - 7*xi**5/16 + 5*xi**3/16 - xi/16"%string /\
  (q <- gen_integral 0 2 4 4 ;; Ok (str_rational q)) = Ok "-4/105"%string /\ str_rational (-3 # 1) = "-3"%string /\ str_poly [0; 0; 1; -1]%Q = "-xi**3 + xi**2"%string /\
  one_line "write_pre_integrated_terms.py" /\ plain "0.5" /\
  match ii_file "write_pre_integrated_terms.py" (fun _ _ _ => "0.5"%string) 5 with
  | Ok text => match import_file text with
               | Some m => dict_get (module_get m "ii_FXIXI_FXIXI") [4; 4]%nat = Ok "2/5"%string /\ dict_get (module_get m "ii_FF") [4; 3]%nat = Ok "0.5"%string /\
                           dict_get (module_get m "ii_FF") [4; 5]%nat = Err KeyError
               | None => False
               end
  | Err _ => False
  end.
Proof. exact T_GenFile.t_C83_ex. Qed.
