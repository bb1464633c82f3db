(** The generators as a whole: composipy/pre_integrated_component/write_pre_integrated_terms.py and write_shape_function.py, from the
    polynomials to the text of the files _ii_F.py and _S.py, and what importing such a file makes of the text.
    A sympy polynomial in one symbol with Rational coefficients is represented by the list of its coefficients, constant term first; sympy
    computes with these exactly. The functions with numbers below 4 have Float coefficients in the scripts (1/2 is a Python float): the
    texts of the entries made from them are a parameter. *)
From Coq Require Import ZArith QArith Bool String Ascii List.
From Verif Require Import M_Py M_K M_Expr.
Import ListNotations.
Open Scope string_scope.

(** ** Numbers and polynomials *)
Fixpoint nat_fact (n : nat) : Z := match n with O => 1 | S k => Z.of_nat n * nat_fact k end%Z.
Fixpoint nat_fact2 (n : nat) : Z := match n with O => 1 | S O => 1 | S (S k) => Z.of_nat n * nat_fact2 k end%Z.
(** sp.factorial of an integer; None is zoo *)
Definition sp_factorial (z : Z) : option Z := if Z.ltb z 0 then None else Some (nat_fact (Z.to_nat z)).
(** sp.factorial2 of an integer: ValueError for an even negative one *)
Definition sp_factorial2 (z : Z) : res Q :=
  if Z.leb 0 z then Ok (inject_Z (nat_fact2 (Z.to_nat z)))
  else if Z.even z then Err ValueError
  else Ok (inject_Z (z * (-1) ^ ((1 - z) / 2)) / inject_Z (nat_fact2 (Z.to_nat (- z))))%Q.
(** sums, products, derivatives, and integrals over [-1, 1] of polynomials; coefficients are kept in lowest terms as sympy does *)
Fixpoint sp_add (p q : list Q) : list Q :=
  match p, q with [], _ => q | _, [] => p | c :: p', d :: q' => Qred (c + d) :: sp_add p' q' end.
Definition sp_scale (c : Q) (p : list Q) : list Q := map (fun d => Qred (c * d)) p.
Fixpoint sp_mul (p q : list Q) : list Q := match p with [] => [] | c :: p' => sp_add (sp_scale c q) (0%Q :: sp_mul p' q) end.
Fixpoint diff_from (k : Z) (p : list Q) : list Q := match p with [] => [] | c :: p' => Qred (inject_Z k * c) :: diff_from (k + 1) p' end.
Definition sp_diff (p : list Q) : list Q := match p with [] => [] | _ :: p' => diff_from 1 p' end.
Fixpoint sp_diffs (n : nat) (p : list Q) : list Q := match n with O => p | S k => sp_diff (sp_diffs k p) end.
Fixpoint integ_from (k : nat) (p : list Q) : Q :=
  match p with [] => 0%Q | c :: p' => Qred ((if Nat.even k then c * (2 # Pos.of_nat (S k)) else 0) + integ_from (S k) p')%Q end.
Definition sp_integrate (p : list Q) : Q := integ_from 0 p.
(** c * sym**k *)
Definition monomial (c : Q) (k : nat) : list Q := (repeat 0%Q k ++ [c])%list.

(** write_pre_integrated_terms.py:45-50 : one term of the loop of _orth_polynomials; divided by zoo it is 0 *)
Definition orth_summand (r n : Z) : res (list Q) :=
  d <- sp_factorial2 (2 * r - 2 * n - 7) ;;
  Ok (match sp_factorial n, sp_factorial (r - 2 * n - 1) with
      | Some nf, Some e => monomial (Qred (inject_Z ((-1) ^ n) * d / inject_Z (2 ^ n * nf * e))) (Z.to_nat (r - 2 * n - 1))
      | _, _ => []
      end).
(** write_pre_integrated_terms.py:28-52 (write_shape_function.py:22-47) : _orth_polynomials *)
Definition orth_poly (r : Z) : res (list Q) :=
  fold_left (fun acc n => s <- acc ;; t <- orth_summand r (Z.of_nat n) ;; Ok (sp_add s t)) (seq 0 (Z.to_nat (r / 2 + 1))) (Ok []).
(** write_pre_integrated_terms.py:77-80 : F[i], FXI[i], FXIXI[i] for i >= 4 (d = 0, 1, 2 derivatives) *)
Definition gen_fun (d i : nat) : res (list Q) := p <- orth_poly (Z.of_nat i + 1) ;; Ok (sp_diffs d p).
(** write_pre_integrated_terms.py:86-100 : the integral of the product of two of them *)
Definition gen_integral (d e i k : nat) : res Q := p <- gen_fun d i ;; q <- gen_fun e k ;; Ok (sp_integrate (sp_mul p q)).

(** ** Texts *)
Definition digit_char (z : Z) : ascii := ascii_of_nat (48 + Z.to_nat z).
Fixpoint dec_digits (fuel : nat) (z : Z) (acc : string) : string :=
  match fuel with
  | O => acc
  | S f => let acc' := String (digit_char (z mod 10)) acc in if Z.eqb (z / 10) 0 then acc' else dec_digits f (z / 10) acc'
  end.
(** str of a non-negative int *)
Definition str_int (z : Z) : string := dec_digits (S (Z.to_nat (Z.log2 z))) z "".
Definition str_nat (n : nat) : string := str_int (Z.of_nat n).
(** str of a sympy term |c| * xi**k with c in lowest terms, not 0: 3*xi**7/16, xi/8, 1/48 *)
Definition str_term (c : Q) (k : nat) : string :=
  let p := Z.abs (Qnum c) in
  let over := if Pos.eqb (Qden c) 1 then "" else "/" ++ str_int (Zpos (Qden c)) in
  match k with
  | O => str_int p ++ over
  | S k' => (if Z.eqb p 1 then "" else str_int p ++ "*") ++ "xi" ++ (match k' with O => "" | _ => "**" ++ str_nat k end) ++ over
  end.
(** the terms of a polynomial, highest power first, the zero ones left out *)
Fixpoint terms_from (k : nat) (p : list Q) : list (Q * nat) :=
  match p with [] => [] | c :: p' => (terms_from (S k) p' ++ (if Qeq_bool c 0 then [] else [(Qred c, k)]))%list end.
Definition negative (c : Q) : bool := Z.ltb (Qnum c) 0.
Fixpoint str_rest (l : list (Q * nat)) : string :=
  match l with
  | [] => ""
  | (c, k) :: l' => (if negative c then " - " else " + ") ++ str_term c k ++ str_rest l'
  end.
(** str of a sympy polynomial *)
Definition str_poly (p : list Q) : string :=
  match terms_from 0 p with
  | [] => "0"
  | (c, k) :: l => (if negative c then "-" else "") ++ str_term c k ++ str_rest l
  end.
(** str of a sympy Rational *)
Definition str_rational (c : Q) : string := str_poly [c].

(** str of a dictionary key: an int (one number) or a tuple of two ints *)
Definition str_key (key : list nat) : string :=
  match key with
  | [i] => str_nat i
  | [i; k] => "(" ++ str_nat i ++ ", " ++ str_nat k ++ ")"
  | _ => ""
  end.
Definition newline : string := String (ascii_of_nat 10) "".
Definition quote : ascii := ascii_of_nat 39.
Definition backslash : ascii := ascii_of_nat 92.
(** write_pre_integrated_terms.py:55-69 : convert_to_str *)
Definition str_item (kv : list nat * string) : string := "    " ++ str_key (fst kv) ++ ": " ++ String quote (snd kv ++ String quote ("," ++ newline)).
Definition convert_to_str (d : list (list nat * string)) (name : string) : string :=
  name ++ " = {" ++ newline ++ fold_right (fun kv t => str_item kv ++ t) "" d ++ "}" ++ newline ++ newline ++ newline.

Definition quoted (s : string) : string := String quote (s ++ String quote "").
Definition range2 (N : nat) : list (nat * nat) := list_prod (seq 0 N) (seq 0 N).
(** the six dictionaries by name, with the numbers of derivatives *)
Definition six : list (string * (nat * nat)) :=
  [("ii_FF", (0, 0)); ("ii_FXI_F", (1, 0)); ("ii_FXI_FXI", (1, 1)); ("ii_FXIXI_F", (2, 0)); ("ii_FXIXI_FXI", (2, 1)); ("ii_FXIXI_FXIXI", (2, 2))]%nat.
(** write_pre_integrated_terms.py:83-100 : one entry; [low] stands for the texts of entries made from Float coefficients *)
Definition entry_text (low : string -> nat -> nat -> string) (name : string) (d e i k : nat) : res string :=
  if Nat.ltb i 4 || Nat.ltb k 4 then Ok (low name i k) else q <- gen_integral d e i k ;; Ok (str_rational q).
Definition gen_dict (low : string -> nat -> nat -> string) (N : nat) (name : string) (d e : nat) : res (list (list nat * string)) :=
  mapM (fun ik => t <- entry_text low name d e (fst ik) (snd ik) ;; Ok ([fst ik; snd ik], t)) (range2 N).
Fixpoint join (l : list string) : string := match l with [] => "" | [s] => s | s :: l' => s ++ ", " ++ join l' end.
(** write_pre_integrated_terms.py:103-104 : [file] is __file__ *)
Definition ii_header (file : string) : string :=
  "# This file is generated by " ++ file ++ ", it contains the preintegrated terms" ++ newline ++ newline ++
  "__all__ = [" ++ join (map (fun x => quoted (fst x)) six) ++ "]" ++ newline ++ newline ++ newline.
(** write_pre_integrated_terms.py:72-110 with n_terms = N : the text of _ii_F.py *)
Definition ii_file (file : string) (low : string -> nat -> nat -> string) (N : nat) : res string :=
  ds <- mapM (fun x => d <- gen_dict low N (fst x) (fst (snd x)) (snd (snd x)) ;; Ok (fst x, d)) six ;;
  Ok (ii_header file ++ fold_right (fun x t => convert_to_str (snd x) (fst x) ++ t) "" ds).

(** write_shape_function.py:66-90 with n_terms = N : the text of _S.py; [low] gives the first four texts of FXI, [prod] those of S *)
Definition S_file (file : string) (low : nat -> string) (prod : nat -> nat -> string) (N : nat) : res string :=
  fs <- mapM (fun i => if Nat.ltb i 4 then Ok ([i], low i) else p <- gen_fun 0 i ;; Ok ([i], str_poly p)) (seq 0 N) ;;
  Ok ("# This file is generated by " ++ file ++ ", it contains shape function " ++ newline ++ newline ++
      "__all__ = [" ++ join [quoted "FXI"; quoted "S"] ++ "]" ++ newline ++ newline ++ newline ++
      convert_to_str fs "FXI" ++ convert_to_str (map (fun ij => ([fst ij; snd ij], prod (fst ij) (snd ij))) (range2 N)) "S").

(** ** Importing a file of this shape: Python's reading of comments, blank lines, the list __all__ and dictionaries with int or
    tuple keys and plain quoted texts, one entry per line. Anything else is rejected here (None). *)
Fixpoint lines (s : string) : list string :=
  match s with
  | EmptyString => [""]
  | String c t => if Ascii.eqb c (ascii_of_nat 10) then "" :: lines t
                  else match lines t with l :: r => String c l :: r | [] => [String c ""] end
  end.
(** [s] without the prefix [p] *)
Fixpoint skip (p s : string) : option string :=
  match p with
  | EmptyString => Some s
  | String c p' => match s with String d s' => if Ascii.eqb c d then skip p' s' else None | EmptyString => None end
  end.
Definition read_nat (s : string) : option (nat * string) :=
  let '(z, n, r) := digits 0 0 s in if Z.eqb n 0 then None else Some (Z.to_nat z, r).
Definition read_key (s : string) : option (list nat * string) :=
  match skip "(" s with
  | Some t => match read_nat t with
              | Some (i, u) => match skip ", " u with
                               | Some v => match read_nat v with
                                           | Some (k, w) => option_map (fun z => ([i; k], z)) (skip ")" w)
                                           | None => None
                                           end
                               | None => None
                               end
              | None => None
              end
  | None => option_map (fun ir => ([fst ir], snd ir)) (read_nat s)
  end.
(** up to the closing quote; a backslash would start an escape *)
Fixpoint read_quoted (s : string) : option (string * string) :=
  match s with
  | EmptyString => None
  | String c t => if Ascii.eqb c quote then Some ("", t) else if Ascii.eqb c backslash then None
                  else option_map (fun r => (String c (fst r), snd r)) (read_quoted t)
  end.
Definition read_item (l : string) : option (list nat * string) :=
  match skip "    " l with
  | Some s => match read_key s with
              | Some (k, t) => match skip (": " ++ String quote "") t with
                               | Some u => match read_quoted u with
                                           | Some (v, w) => if String.eqb w "," then Some (k, v) else None
                                           | None => None
                                           end
                               | None => None
                               end
              | None => None
              end
  | None => None
  end.
(** NAME = { *)
Fixpoint read_name (l : string) : option string :=
  if String.eqb l " = {" then Some "" else match l with EmptyString => None | String c t => option_map (String c) (read_name t) end.
Definition ignored (l : string) : bool :=
  String.eqb l "" || match skip "#" l with Some _ => true | None => false end || match skip "__all__ = " l with Some _ => true | None => false end.
Fixpoint read_lines (cur : option (string * list (list nat * string))) (ls : list string) : option (list (string * list (list nat * string))) :=
  match ls with
  | [] => match cur with None => Some [] | Some _ => None end
  | l :: r => match cur with
              | None => if ignored l then read_lines None r else match read_name l with Some nm => read_lines (Some (nm, [])) r | None => None end
              | Some (nm, d) => if String.eqb l "}" then option_map (cons (nm, d)) (read_lines None r)
                                else match read_item l with Some kv => read_lines (Some (nm, (d ++ [kv])%list)) r | None => None end
              end
  end.
(** the dictionaries a file defines *)
Definition import_file (s : string) : option (list (string * list (list nat * string))) := read_lines None (lines s).
Fixpoint key_eqb (a b : list nat) : bool := match a, b with [], [] => true | x :: a', y :: b' => Nat.eqb x y && key_eqb a' b' | _, _ => false end.
(** d[key]: the last binding of a key counts *)
Definition dict_get (d : list (list nat * string)) (key : list nat) : res string :=
  match find (fun kv => key_eqb (fst kv) key) (rev d) with Some kv => Ok (snd kv) | None => Err KeyError end.
Definition module_get (m : list (string * list (list nat * string))) (name : string) : list (list nat * string) :=
  match find (fun x => String.eqb (fst x) name) m with Some x => snd x | None => [] end.
(** functions.py:14-50 on an imported module *)
Definition imported (A : arith) (dec : Z -> Z -> num A) (m : list (string * list (list nat * string))) : tables A :=
  let at_ name i k := s <- dict_get (module_get m name) [i; k] ;; eval (A := A) dec (nint A 0) (nint A 0) s in
  Tables A (at_ "ii_FF") (at_ "ii_FXI_F") (at_ "ii_FXI_FXI") (at_ "ii_FXIXI_F") (at_ "ii_FXIXI_FXI") (at_ "ii_FXIXI_FXIXI").
