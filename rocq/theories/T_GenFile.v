(** Proofs of the theorems about regenerating the stored files *)
From Coq Require Import Reals ZArith QArith Qreals Lra Lia Bool String Ascii.
From Coquelicot Require Import Coquelicot.
From Coq Require Import List.
From Verif Require Import M_Py M_Plate M_K M_Tables M_Shape M_Expr M_RealArith M_GenFile S_Plate S_Bardell S_Energy S_Ritz S_GenFile L_K L_Poly L_Shape L_Ritz L_Legendre L_Quad L_TabV L_TabX L_GenFile T_Plate T_Compare T_Gen L_FirstK T_Stored.
Import ListNotations.
Open Scope string_scope.
Open Scope R_scope.

(** ** the polynomials *)
Lemma at_qeval p x : poly_at p x = qeval p x.
Proof. reflexivity. Qed.
Lemma at_add p : forall q x, poly_at (sp_add p q) x = poly_at p x + poly_at q x.
Proof. induction p as [|c p IH]; intros [|d q] x; cbn [sp_add poly_at]; try lra. rewrite IH, Q2R_red, Q2R_plus. lra. Qed.
Lemma at_scale c p x : poly_at (sp_scale c p) x = Q2R c * poly_at p x.
Proof. unfold sp_scale. induction p as [|d p IH]; cbn [map poly_at]; [lra|]. rewrite IH, Q2R_red, Q2R_mult. lra. Qed.
Lemma at_mul p : forall q x, poly_at (sp_mul p q) x = poly_at p x * poly_at q x.
Proof. induction p as [|c p IH]; intros q x; cbn [sp_mul poly_at]; [lra|]. rewrite at_add, at_scale. cbn [poly_at]. rewrite IH, Q2R_0. lra. Qed.
Lemma at_diff_from p : forall k x, poly_at (diff_from k p) x = IZR k * poly_at p x + x * qeval (qderiv p) x.
Proof.
  induction p as [|c p IH]; intros k x; cbn [diff_from poly_at qderiv qeval]; [lra|]. rewrite IH, qeval_add, Q2R_red, Q2R_mult. cbn [qeval]. unfold inject_Z.
  rewrite Q2R_Z, Q2R_0, plus_IZR. change (qeval p x) with (poly_at p x). ring.
Qed.
Lemma at_diff p x : poly_at (sp_diff p) x = qeval (qderiv p) x.
Proof. destruct p as [|c p]; [reflexivity|]. cbn [sp_diff qderiv]. rewrite at_diff_from, qeval_add. cbn [qeval]. rewrite Q2R_0. change (qeval p x) with (poly_at p x). ring. Qed.
Lemma at_diff_is p x : is_derive (poly_at p) x (poly_at (sp_diff p) x).
Proof. rewrite at_diff. apply (qeval_derive p x). Qed.
Lemma at_diffs n p x : poly_at (sp_diffs n p) x = Derive_n (poly_at p) n x.
Proof.
  revert x. induction n as [|n IH]; intros x; cbn [sp_diffs Derive_n]; [reflexivity|]. rewrite (Derive_ext _ (poly_at (sp_diffs n p))) by (intros; symmetry; apply IH).
  symmetry. apply is_derive_unique, at_diff_is.
Qed.
Lemma integ_qint p : forall k, Q2R (integ_from k p) = Q2R (qint_k k p).
Proof.
  induction p as [|c p IH]; intros k; cbn [integ_from qint_k]; [reflexivity|]. rewrite Q2R_red, Q2R_plus, IH. destruct (Nat.even k); [|rewrite Q2R_0; ring].
  rewrite Q2R_red, Q2R_plus. reflexivity.
Qed.
Lemma at_integrate p : is_RInt (poly_at p) (-1) 1 (Q2R (sp_integrate p)).
Proof. unfold sp_integrate. rewrite integ_qint. apply (qint_RInt p). Qed.
Lemma at_monomial c k x : poly_at (monomial c k) x = Q2R c * x ^ k.
Proof. rewrite at_qeval. apply qeval_mono. Qed.

(** ** the generator *)
Lemma nat_fact_eq n : nat_fact n = zfact n.
Proof. reflexivity. Qed.
Lemma nat_fact2_eq n : nat_fact2 n = zdfact n.
Proof. reflexivity. Qed.
Lemma sp_fact2_odd j : exists d, sp_factorial2 (2 * Z.of_nat j - 1) = Ok d /\ Q2R d = IZR (zdfact (2 * j - 1)).
Proof.
  unfold sp_factorial2. destruct j as [|j].
  - eexists. split; [reflexivity|]. transitivity (Q2R 1); [apply Qeq_eqR; vm_compute; reflexivity|rewrite Q2R_1; reflexivity].
  - destruct (Z.leb_spec 0 (2 * Z.of_nat (S j) - 1)); [|lia]. eexists. split; [reflexivity|]. unfold inject_Z. rewrite Q2R_Z, nat_fact2_eq.
    replace (Z.to_nat (2 * Z.of_nat (S j) - 1)) with (2 * S j - 1)%nat by lia. reflexivity.
Qed.
Lemma orth_fold l : forall s (f : nat -> res (list Q)) (g : nat -> R -> R), (forall n, In n l -> exists p, f n = Ok p /\ forall x, poly_at p x = g n x) ->
  exists p, fold_left (fun acc n => s <- acc ;; t <- f n ;; Ok (sp_add s t)) l (Ok s) = Ok p /\ forall x, poly_at p x = poly_at s x + fold_right Rplus 0 (map (fun n => g n x) l).
Proof.
  induction l as [|n l IH]; intros s f g H; cbn [fold_left map fold_right]; [exists s; split; [reflexivity|intros; ring]|].
  destruct (H n (or_introl eq_refl)) as (p & P & V). cbn [bind]. rewrite P. cbn [bind].
  destruct (IH (sp_add s p) f g) as (r & R1 & R2); [intros; apply H; right; assumption|]. exists r. split; [exact R1|]. intros x. rewrite R2, at_add, V. ring.
Qed.
Lemma fold_rplus_app l m : fold_right Rplus 0 (l ++ m)%list = fold_right Rplus 0 l + fold_right Rplus 0 m.
Proof. induction l as [|x l IH]; cbn [List.app fold_right]; [lra|]. rewrite IH. lra. Qed.
Lemma fold_rplus_zero {X} (g : X -> R) l : (forall n, In n l -> g n = 0) -> fold_right Rplus 0 (map g l) = 0.
Proof. induction l as [|x l IH]; intros H; cbn [map fold_right]; [reflexivity|]. rewrite (H x (or_introl eq_refl)), IH by (intros; apply H; right; assumption). lra. Qed.
Lemma orth_value i : (4 <= i)%nat -> exists p, orth_poly (Z.of_nat i + 1) = Ok p /\ forall x, poly_at p x = bardell i x.
Proof.
  intros L. unfold orth_poly. set (g := fun n x => if Nat.leb (2 * n) i then bardell_term i n x else 0).
  assert (D := Nat.div_mod i 2 ltac:(lia)). assert (Md := Nat.mod_upper_bound i 2 ltac:(lia)).
  assert (Dz : ((Z.of_nat i + 1) / 2 = Z.of_nat ((i + 1) / 2))%Z) by (rewrite Nat2Z.inj_div, Nat2Z.inj_add; reflexivity).
  assert (D' := Nat.div_mod (i + 1) 2 ltac:(lia)). assert (Md' := Nat.mod_upper_bound (i + 1) 2 ltac:(lia)).
  rewrite Dz. replace (Z.to_nat (Z.of_nat ((i + 1) / 2) + 1)) with (S ((i + 1) / 2)) by lia.
  destruct (orth_fold (seq 0 (S ((i + 1) / 2))) [] (fun n => orth_summand (Z.of_nat i + 1) (Z.of_nat n)) g) as (p & P & V).
  - intros n Hn. apply in_seq in Hn. unfold orth_summand. replace (2 * (Z.of_nat i + 1) - 2 * Z.of_nat n - 7)%Z with (2 * Z.of_nat (i - 2 - n) - 1)%Z by lia.
    destruct (sp_fact2_odd (i - 2 - n)) as (d & -> & Dv). cbn [bind]. unfold sp_factorial. destruct (Z.ltb_spec (Z.of_nat n) 0); [lia|]. rewrite Nat2Z.id. unfold g.
    destruct (Nat.leb_spec (2 * n) i) as [H2|H2]; destruct (Z.ltb_spec (Z.of_nat i + 1 - 2 * Z.of_nat n - 1) 0); try lia; [|eexists; split; [reflexivity|intros; reflexivity]].
    eexists. split; [reflexivity|]. intros x. rewrite at_monomial, Q2R_red. replace (Z.to_nat (Z.of_nat i + 1 - 2 * Z.of_nat n - 1)) with (i - 2 * n)%nat by lia.
    change nat_fact with zfact. assert (F1 := zfact_pos n). assert (F2 := zfact_pos (i - 2 * n)). assert (E2 : (0 < 2 ^ Z.of_nat n)%Z) by (apply Z.pow_pos_nonneg; lia).
    rewrite Q2R_div. 2: { intros E. apply Qeq_eqR in E. unfold inject_Z in E. rewrite Q2R_Z, Q2R_0 in E. apply eq_IZR in E. assert (0 < 2 ^ Z.of_nat n * zfact n * zfact (i - 2 * n))%Z by (apply Z.mul_pos_pos; [apply Z.mul_pos_pos|]; assumption). lia. }
    rewrite Q2R_mult, Dv. unfold inject_Z. rewrite !Q2R_Z, !mult_IZR, <- !pow_IZR. unfold bardell_term. replace (2 * i - 2 * n - 5)%nat with (2 * (i - 2 - n) - 1)%nat by lia. reflexivity.
  - exists p. split; [exact P|]. intros x. rewrite V. cbn [poly_at]. rewrite (seq_split_at (S (i / 2)) (S ((i + 1) / 2))) by lia. rewrite map_app, fold_rplus_app.
    rewrite (fold_rplus_zero _ (seq (S (i / 2)) _)).
    + replace (bardell i x) with (fold_right Rplus 0 (map (fun n => bardell_term i n x) (seq 0 (S (i / 2))))) by (destruct i as [|[|[|[|i]]]]; try lia; reflexivity).
      rewrite Rplus_0_l, Rplus_0_r. f_equal. apply map_ext_in. intros n Hn. apply in_seq in Hn. unfold g. destruct (Nat.leb_spec (2 * n) i); [reflexivity|lia].
    + intros n Hn. apply in_seq in Hn. unfold g. destruct (Nat.leb_spec (2 * n) i); [lia|reflexivity].
Qed.

(*@ C83: the polynomials of the generators: for every number i from 4 on, F[i], its derivative and its second derivative are the function of
    the literature formula and its derivatives, as functions of a real variable. @*)
Lemma t_C83_functions : forall d i, (4 <= i)%nat -> exists p, gen_fun d i = Ok p /\ forall x, poly_at p x = Derive_n (bardell i) d x.
Proof.
  intros d i H. destruct (orth_value i H) as (p & P & V). unfold gen_fun. rewrite P. cbn [bind]. eexists. split; [reflexivity|]. intros x. rewrite at_diffs. apply Derive_n_ext. exact V.
Qed.
(*@ C83: and the numbers the generator computes are rational and exactly the integrals of the products. @*)
Lemma t_C83_integrals : forall d e i k, (4 <= i)%nat -> (4 <= k)%nat -> exists q, gen_integral d e i k = Ok q /\ Q2R q = exact_int d e i k.
Proof.
  intros d e i k Hi Hk. destruct (t_C83_functions d i Hi) as (p & P & Vp). destruct (t_C83_functions e k Hk) as (r & R1 & Vr).
  unfold gen_integral. rewrite P. cbn [bind]. rewrite R1. cbn [bind]. eexists. split; [reflexivity|]. unfold exact_int. symmetry. apply is_RInt_unique.
  apply (is_RInt_ext (poly_at (sp_mul p r))); [|apply at_integrate]. intros x _. rewrite at_mul, Vp, Vr. reflexivity.
Qed.
(*@ C83: whatever polynomial is printed, Python's eval of the text at any xi gives the value of the polynomial there; a text
    contains no quote, no backslash and no line end. @*)
Lemma t_C83_texts : forall p (x y : R), eval (A := RA) Rdec x y (str_poly p) = Ok (poly_at p x) /\ plain (str_poly p).
Proof. intros p x y. split; [apply eval_poly|apply plain_poly]. Qed.
(*@ C83: a rational number that is printed is read back as the same number, with or without a division, positive, negative or zero. @*)
Lemma t_C83_numbers : forall q (x y : R), eval (A := RA) Rdec x y (str_rational q) = Ok (Q2R q).
Proof. intros q x y. unfold str_rational. rewrite eval_poly. f_equal. cbn [poly_at]. ring. Qed.
(*@ C83: two rational numbers are printed alike exactly if they are equal. @*)
Lemma t_C83_injective : forall q r, str_rational q = str_rational r <-> (q == r)%Q.
Proof.
  intros q r. split; intros H.
  - assert (A := t_C83_numbers q 0 0). rewrite H, t_C83_numbers in A. apply eqR_Qeq. congruence.
  - unfold str_rational, str_poly. cbn [terms_from List.app]. rewrite (Qred_complete q r H). replace (Qeq_bool r 0) with (Qeq_bool q 0); [reflexivity|].
    apply eq_true_iff_eq. rewrite !Qeq_bool_iff, H. reflexivity.
Qed.
(*@ C83: whatever dictionaries are written, with ints or pairs of ints as keys and texts without quotes, backslashes and line ends, importing the
    file gives these dictionaries. @*)
Lemma t_C83_import : forall head ds, one_line head -> (head = "" \/ exists t, head = "#" ++ t)%string ->
  (forall nm d, In (nm, d) ds -> starts_with_letter nm /\ one_line nm /\ forall kv, In kv d -> key_ok (fst kv) /\ plain (snd kv)) ->
  import_file (head ++ newline ++ fold_right (fun x t => convert_to_str (snd x) (fst x) ++ t) "" ds) = Some ds.
Proof.
  intros head ds O Hd H. unfold import_file. rewrite skip_line; [apply import_dicts, H|exact O|]. destruct Hd as [-> |(t & ->)]; reflexivity.
Qed.

(** ** the files *)
Definition exact_q (d e i k : nat) : Q := match gen_integral d e i k with Ok q => q | Err _ => 0%Q end.
Lemma gen_exact d e i k : (4 <= i)%nat -> (4 <= k)%nat -> gen_integral d e i k = Ok (exact_q d e i k) /\ Q2R (exact_q d e i k) = exact_int d e i k.
Proof. intros Hi Hk. unfold exact_q. destruct (t_C83_integrals d e i k Hi Hk) as (q & -> & V). split; [reflexivity|exact V]. Qed.
Definition text_at (low : string -> nat -> nat -> string) nm d e i k : string := if Nat.ltb i 4 || Nat.ltb k 4 then low nm i k else str_rational (exact_q d e i k).
Lemma entry_ok low nm d e i k : entry_text low nm d e i k = Ok (text_at low nm d e i k).
Proof.
  unfold entry_text, text_at. destruct (Nat.ltb_spec i 4); [reflexivity|]. destruct (Nat.ltb_spec k 4); [reflexivity|]. cbn [orb].
  rewrite (proj1 (gen_exact d e i k ltac:(assumption) ltac:(assumption))). reflexivity.
Qed.
Definition dict_of low N nm d e : list (list nat * string) := map (fun ik => ([fst ik; snd ik], text_at low nm d e (fst ik) (snd ik))) (range2 N).
Lemma gen_dict_ok low N nm d e : gen_dict low N nm d e = Ok (dict_of low N nm d e).
Proof. unfold gen_dict, dict_of. apply mapM_ok. intros [i k] _. cbn [fst snd]. rewrite entry_ok. reflexivity. Qed.
Definition module_of low N : list (string * list (list nat * string)) := map (fun x => (fst x, dict_of low N (fst x) (fst (snd x)) (snd (snd x)))) six.
Lemma ii_file_ok file low N : ii_file file low N = Ok (ii_header file ++ fold_right (fun x t => convert_to_str (snd x) (fst x) ++ t) "" (module_of low N)).
Proof.
  unfold ii_file. rewrite (mapM_ok _ (fun x => (fst x, dict_of low N (fst x) (fst (snd x)) (snd (snd x))))); [reflexivity|].
  intros x _. rewrite gen_dict_ok. reflexivity.
Qed.
Lemma text_plain low nm d e i k : (forall nm i k, plain (low nm i k)) -> plain (text_at low nm d e i k).
Proof. intros H. unfold text_at. destruct (_ || _)%bool; [apply H|apply plain_poly]. Qed.
Lemma skip_blank t : read_lines None (lines (newline ++ t)) = read_lines None (lines t).
Proof. reflexivity. Qed.
Lemma head_lines a file b names t : one_line file -> one_line a -> one_line b -> one_line names -> (exists u, a = "#" ++ u) -> (exists u, names = "__all__ = " ++ u) ->
  read_lines None (lines (a ++ file ++ b ++ newline ++ newline ++ names ++ newline ++ newline ++ newline ++ t)) = read_lines None (lines t).
Proof.
  intros Of Oa Ob On (u & Ea) (v & En).
  replace (a ++ file ++ b ++ newline ++ newline ++ names ++ newline ++ newline ++ newline ++ t)
    with ((a ++ file ++ b) ++ newline ++ newline ++ names ++ newline ++ newline ++ newline ++ t) by (rewrite !sapp_assoc; reflexivity).
  rewrite skip_line; [|apply line_app; [exact Oa|apply line_app; assumption]|subst a; reflexivity]. rewrite skip_blank.
  rewrite skip_line; [|exact On|subst names; reflexivity]. rewrite !skip_blank. reflexivity.
Qed.
Lemma header_lines file t : one_line file -> read_lines None (lines (ii_header file ++ t)) = read_lines None (lines t).
Proof.
  intros O. unfold ii_header. rewrite !sapp_assoc.
  rewrite <- (head_lines "# This file is generated by " file ", it contains the preintegrated terms" ("__all__ = [" ++ join (map (fun x => quoted (fst x)) six) ++ "]") t); try (apply line_lit; reflexivity).
  - rewrite !sapp_assoc. reflexivity.
  - exact O.
  - eexists. reflexivity.
  - eexists. reflexivity.
Qed.
Lemma six_names x : In x six -> starts_with_letter (fst x) /\ one_line (fst x).
Proof.
  intros H. cbn in H. repeat (destruct H as [<-|H]; [split; [eexists _, _; split; [reflexivity|cbn; lia]|apply line_lit; reflexivity]|]). destruct H.
Qed.
Lemma module_ok low N : (forall nm i k, plain (low nm i k)) ->
  forall nm d, In (nm, d) (module_of low N) -> starts_with_letter nm /\ one_line nm /\ forall kv, In kv d -> key_ok (fst kv) /\ plain (snd kv).
Proof.
  intros P nm d H. unfold module_of in H. apply in_map_iff in H. destruct H as (x & E & X). injection E as <- <-. destruct (six_names x X) as [A B]. split; [exact A|]. split; [exact B|].
  intros kv K. apply in_map_iff in K. destruct K as ([i k] & <- & _). cbn [fst snd]. split; [right; reflexivity|apply text_plain, P].
Qed.
Lemma import_ii file low N : one_line file -> (forall nm i k, plain (low nm i k)) ->
  import_file (ii_header file ++ fold_right (fun x t => convert_to_str (snd x) (fst x) ++ t) "" (module_of low N)) = Some (module_of low N).
Proof. intros O P. unfold import_file. rewrite header_lines by exact O. apply import_dicts, module_ok, P. Qed.
Lemma key_eqb_eq a : forall b, key_eqb a b = true -> a = b.
Proof.
  induction a as [|x a IH]; intros [|y b] H; try discriminate; [reflexivity|]. cbn [key_eqb] in H. apply andb_prop in H. destruct H as [H1 H2].
  apply Nat.eqb_eq in H1. rewrite H1, (IH b H2). reflexivity.
Qed.
Lemma key_eqb_refl a : key_eqb a a = true.
Proof. induction a as [|x a IH]; [reflexivity|]. cbn [key_eqb]. rewrite Nat.eqb_refl. exact IH. Qed.
Lemma dict_get_map {X} (key : X -> list nat) (f : X -> string) (l : list X) x : In x l -> (forall y, In y l -> key y = key x -> f y = f x) ->
  dict_get (map (fun y => (key y, f y)) l) (key x) = Ok (f x).
Proof.
  intros I U. unfold dict_get. destruct (find _ _) as [kv|] eqn:F.
  - apply find_some in F. destruct F as [F1 F2]. apply in_rev in F1. apply in_map_iff in F1. destruct F1 as (y & <- & Y). cbn [fst snd] in *. apply key_eqb_eq in F2. rewrite (U y Y F2). reflexivity.
  - exfalso. assert (N := find_none _ _ F (key x, f x)). cbn [fst] in N. rewrite key_eqb_refl in N. discriminate N. apply -> in_rev. apply in_map_iff. exists x. split; [reflexivity|exact I].
Qed.
Lemma dict_get_none {X} (key : X -> list nat) (f : X -> string) (l : list X) k : (forall y, In y l -> key y <> k) -> dict_get (map (fun y => (key y, f y)) l) k = Err KeyError.
Proof.
  intros U. unfold dict_get. destruct (find _ _) as [kv|] eqn:F; [|reflexivity]. exfalso. apply find_some in F. destruct F as [F1 F2]. apply in_rev in F1.
  apply in_map_iff in F1. destruct F1 as (y & <- & Y). cbn [fst] in F2. apply key_eqb_eq in F2. exact (U y Y F2).
Qed.
Lemma range2_in N i k : In (i, k) (range2 N) <-> (i < N)%nat /\ (k < N)%nat.
Proof. unfold range2. rewrite in_prod_iff, !in_seq. lia. Qed.
Lemma dict_of_get low N nm d e i k : (i < N)%nat -> (k < N)%nat -> dict_get (dict_of low N nm d e) [i; k] = Ok (text_at low nm d e i k).
Proof.
  intros Hi Hk. unfold dict_of. apply (dict_get_map (fun ik => [fst ik; snd ik]) (fun ik => text_at low nm d e (fst ik) (snd ik)) (range2 N) (i, k)); [apply range2_in; lia|].
  intros [y1 y2] _ E. cbn [fst snd] in *. injection E as -> ->. reflexivity.
Qed.
Lemma dict_of_none low N nm d e i k : (N <= i)%nat \/ (N <= k)%nat -> dict_get (dict_of low N nm d e) [i; k] = Err KeyError.
Proof.
  intros H. unfold dict_of. apply (dict_get_none (fun ik => [fst ik; snd ik])). intros [y1 y2] Y E. apply range2_in in Y. cbn [fst snd] in E. injection E as -> ->. lia.
Qed.
Lemma module_six low N : forall nm d e, In (nm, (d, e)) six -> module_get (module_of low N) nm = dict_of low N nm d e.
Proof. intros nm d e H. cbn in H. repeat (destruct H as [H|H]; [injection H as <- <- <-; reflexivity|]). destruct H. Qed.
Lemma text_value_at low nm d e i k : (4 <= i)%nat -> (4 <= k)%nat -> eval (A := RA) Rdec (nint RA 0) (nint RA 0) (text_at low nm d e i k) = Ok (exact_int d e i k).
Proof.
  intros Hi Hk. unfold text_at. destruct (Nat.ltb_spec i 4); [lia|]. destruct (Nat.ltb_spec k 4); [lia|]. cbn [orb].
  rewrite t_C83_numbers. rewrite (proj2 (gen_exact d e i k Hi Hk)). reflexivity.
Qed.

(*@ C83: the file of pre-integrated terms, generated for any number N of functions: the generator finishes, the file can be imported, and the tables so
    obtained give the exact integral for any two functions with numbers from 4 up to N, whatever plain texts the entries with a smaller number get;
    those entries are in the file as they were printed, and the file has no others. @*)
Lemma t_C83_file : forall file low N, one_line file -> (forall nm i k, plain (low nm i k)) ->
  exists text m, ii_file file low N = Ok text /\ import_file text = Some m /\
    (forall i k, (4 <= i < N)%nat -> (4 <= k < N)%nat -> let t := imported RA Rdec m in
       t_ff t i k = Ok (exact_int 0 0 i k) /\ t_fxi_f t i k = Ok (exact_int 1 0 i k) /\ t_fxi_fxi t i k = Ok (exact_int 1 1 i k) /\
       t_fxixi_f t i k = Ok (exact_int 2 0 i k) /\ t_fxixi_fxi t i k = Ok (exact_int 2 1 i k) /\ t_fxixi_fxixi t i k = Ok (exact_int 2 2 i k)) /\
    map fst m = ["ii_FF"; "ii_FXI_F"; "ii_FXI_FXI"; "ii_FXIXI_F"; "ii_FXIXI_FXI"; "ii_FXIXI_FXIXI"]%string /\
    (forall nm i k, In nm (map fst m) -> ((i < 4 \/ k < 4) -> i < N -> k < N -> dict_get (module_get m nm) [i; k] = Ok (low nm i k))%nat /\
       ((N <= i \/ N <= k)%nat -> dict_get (module_get m nm) [i; k] = Err KeyError)).
Proof.
  intros file low N O P. eexists _, (module_of low N). split; [apply ii_file_ok|]. split; [apply import_ii; assumption|]. split; [|split; [reflexivity|]].
  - intros i k Hi Hk t. unfold t, imported. cbn [t_ff t_fxi_f t_fxi_fxi t_fxixi_f t_fxixi_fxi t_fxixi_fxixi].
    repeat split;
      [rewrite (module_six low N "ii_FF" 0 0)|rewrite (module_six low N "ii_FXI_F" 1 0)|rewrite (module_six low N "ii_FXI_FXI" 1 1)
      |rewrite (module_six low N "ii_FXIXI_F" 2 0)|rewrite (module_six low N "ii_FXIXI_FXI" 2 1)|rewrite (module_six low N "ii_FXIXI_FXIXI" 2 2)];
      try (cbn; tauto); rewrite dict_of_get by lia; cbn [bind]; apply text_value_at; lia.
  - intros nm i k H. change (map fst (module_of low N)) with (map fst six) in H. apply in_map_iff in H. destruct H as ([nm' [d e]] & <- & H). cbn [fst]. rewrite (module_six low N nm' d e H). split.
    + intros L Hi Hk. rewrite dict_of_get by assumption. unfold text_at. destruct (Nat.ltb_spec i 4); [reflexivity|]. destruct (Nat.ltb_spec k 4); [reflexivity|]. lia.
    + apply dict_of_none.
Qed.
Lemma clamped_idx_N c m n N : specifies c Clamped Clamped Clamped Clamped -> (m + 4 <= N)%nat -> (n + 4 <= N)%nat ->
  exists idx, compute_constraints c m n = Ok idx /\
  forall p, In p (su_idx idx) \/ In p (sv_idx idx) \/ In p (sw_idx idx) -> (4 <= fst p < N)%nat /\ (4 <= snd p < N)%nat.
Proof.
  intros Sp Hm Hn. destruct (t_C34_index_sets c _ _ _ _ m n Sp) as (idx & fx & fy & E & Fx & Fy & Bx & By & RM & Su & Sv & _).
  exists idx. split; [exact E|]. rewrite Su, Sv. intros [i j] I. assert (J : In (i, j) (sw_idx idx)) by tauto.
  destruct (row_major_in _ _ _ _ _ RM J) as [Ii Ij]. rewrite Forall_forall in Bx, By. specialize (Bx i Ii). specialize (By j Ij).
  destruct Fx as (_ & _ & Ax & _), Fy as (_ & _ & Ay & _). rewrite Forall_forall in Ax, Ay. specialize (Ax i Ii). specialize (Ay j Ij).
  assert (Z : forall x, admissible Clamped Clamped x -> (4 <= x)%nat).
  { intros x (H0 & H1 & H2 & H3). cbn in *. destruct x as [|[|[|[|x]]]]; [discriminate H0|discriminate H1|discriminate H2|discriminate H3|lia]; reflexivity. }
  cbn [fst snd]. apply Z in Ax. apply Z in Ay. lia.
Qed.
(*@ C83: so with a regenerated file the assembly for a clamped plate is exact for any number of terms up to N - 4 in each direction: both
    assembly functions compute what they would with exact integrals, errors included. @*)
Lemma t_C83_clamped : forall file low N text m_ , one_line file -> (forall nm i k, plain (low nm i k)) -> ii_file file low N = Ok text -> import_file text = Some m_ ->
  forall c m n (D ABD : @arr RA) a b Nxx Nyy Nxy, specifies c Clamped Clamped Clamped Clamped -> (m + 4 <= N)%nat -> (n + 4 <= N)%nat ->
  let t := imported RA Rdec m_ in
  calc_K_KG_D t D a b Nxx Nyy Nxy c m n = calc_K_KG_D exact_tables D a b Nxx Nyy Nxy c m n /\
  calc_K_KG_ABD t ABD a b Nxx Nyy Nxy c m n = calc_K_KG_ABD exact_tables ABD a b Nxx Nyy Nxy c m n.
Proof.
  intros file low N text m_ O P F I c m n D ABD a b Nxx Nyy Nxy Sp Hm Hn t.
  destruct (t_C83_file file low N O P) as (text' & m' & F' & I' & V & _). assert (text' = text) by congruence. subst text'. assert (m' = m_) by congruence. subst m'.
  assert (A : agree4 t exact_tables (fun i => (4 <= i < N)%nat)).
  { intros i k Hi Hk. destruct (V i k Hi Hk) as (H1 & H2 & H3 & H4 & H5 & H6). unfold t. rewrite H1, H2, H3, H4, H5, H6. repeat split. }
  destruct (clamped_idx_N c m n N Sp Hm Hn) as (idx & E & X). split.
  - apply (same_D _ _ _ A _ _ _ _ _ _ _ _ _ idx E). intros p Hp. apply X. tauto.
  - apply (same_ABD _ _ _ A _ _ _ _ _ _ _ _ _ idx E). exact X.
Qed.
Definition fun_q (i : nat) : list Q := match gen_fun 0 i with Ok p => p | Err _ => [] end.
Lemma fun_q_ok i : (4 <= i)%nat -> gen_fun 0 i = Ok (fun_q i) /\ forall x, poly_at (fun_q i) x = bardell i x.
Proof. intros H. unfold fun_q. destruct (t_C83_functions 0 i H) as (p & -> & V). split; [reflexivity|exact V]. Qed.
Definition fxi_text (low : nat -> string) i : string := if Nat.ltb i 4 then low i else str_poly (fun_q i).
Definition S_module (low : nat -> string) (prod : nat -> nat -> string) N : list (string * list (list nat * string)) :=
  [("FXI", map (fun i => ([i], fxi_text low i)) (seq 0 N)); ("S", map (fun ij => ([fst ij; snd ij], prod (fst ij) (snd ij))) (range2 N))].
(*@ C83: the file of shape functions, generated for any number of functions: it can be imported, FXI gives for every i from 4 up to N a text that evaluates
    at every xi to the function of the literature formula, and the other texts are those that were printed. @*)
Lemma t_C83_shapes : forall file low prod N, one_line file -> (forall i, plain (low i)) -> (forall i j, plain (prod i j)) ->
  exists text m, S_file file low prod N = Ok text /\ import_file text = Some m /\
    (forall i, (4 <= i < N)%nat -> exists s, dict_get (module_get m "FXI") [i] = Ok s /\ forall x y, eval (A := RA) Rdec x y s = Ok (bardell i x)) /\
    (forall i, (i < 4)%nat -> (i < N)%nat -> dict_get (module_get m "FXI") [i] = Ok (low i)) /\
    (forall i j, (i < N)%nat -> (j < N)%nat -> dict_get (module_get m "S") [i; j] = Ok (prod i j)).
Proof.
  intros file low prod N O P Q0.
  assert (G : mapM (fun i => if Nat.ltb i 4 then Ok ([i], low i) else p <- gen_fun 0 i ;; Ok ([i], str_poly p)) (seq 0 N) = Ok (map (fun i => ([i], fxi_text low i)) (seq 0 N))).
  { apply mapM_ok. intros i _. unfold fxi_text. destruct (Nat.ltb_spec i 4); [reflexivity|]. rewrite (proj1 (fun_q_ok i ltac:(assumption))). reflexivity. }
  assert (T : forall i, plain (fxi_text low i)) by (intros i; unfold fxi_text; destruct (Nat.ltb i 4); [apply P|apply plain_poly]).
  eexists _, (S_module low prod N). split; [unfold S_file; rewrite G; reflexivity|]. split; [|split; [|split]].
  - unfold import_file.
    assert (I := import_dicts (S_module low prod N)). cbn [S_module fold_right fst snd] in I. rewrite sapp_nil in I.
    rewrite <- (head_lines "# This file is generated by " file ", it contains shape function " ("__all__ = [" ++ join [quoted "FXI"; quoted "S"] ++ "]")) in I; try (apply line_lit; reflexivity); try exact O; try (eexists; reflexivity).
    rewrite !sapp_assoc in I. apply I. intros nm d [E|[E|[]]]; injection E as <- <-.
    + split; [eexists _, _; split; [reflexivity|cbn; lia]|]. split; [apply line_lit; reflexivity|]. intros kv K. apply in_map_iff in K. destruct K as (i & <- & _). split; [left; reflexivity|apply T].
    + split; [eexists _, _; split; [reflexivity|cbn; lia]|]. split; [apply line_lit; reflexivity|]. intros kv K. apply in_map_iff in K. destruct K as (i & <- & _). split; [right; reflexivity|apply Q0].
  - intros i Hi. exists (fxi_text low i). split.
    + apply (dict_get_map (fun i => [i]) (fxi_text low) (seq 0 N) i); [apply in_seq; lia|]. intros y _ E. injection E as ->. reflexivity.
    + intros x y. unfold fxi_text. destruct (Nat.ltb_spec i 4); [lia|]. rewrite eval_poly. rewrite (proj2 (fun_q_ok i ltac:(assumption))). reflexivity.
  - intros i H4 HN. replace (low i) with (fxi_text low i) by (unfold fxi_text; destruct (Nat.ltb_spec i 4); [reflexivity|lia]).
    apply (dict_get_map (fun i => [i]) (fxi_text low) (seq 0 N) i); [apply in_seq; lia|]. intros y _ E. injection E as ->. reflexivity.
  - intros i j Hi Hj. apply (dict_get_map (fun ij => [fst ij; snd ij]) (fun ij => prod (fst ij) (snd ij)) (range2 N) (i, j)); [apply range2_in; lia|].
    intros [y1 y2] _ E. cbn [fst snd] in *. injection E as -> ->. reflexivity.
Qed.

(** ** the stored files *)
Definition canonical (t : list (list string)) : bool :=
  forallb (fun i => forallb (fun k => match M_Expr.lookup t i k with
    | Ok s => match text_poly s with Some [v] => String.eqb s (str_rational v) | Some [] => String.eqb s "0" | _ => false end
    | Err _ => false end) (seq 4 26)) (seq 4 26).
Lemma canonical_all : canonical ii_FF = true /\ canonical ii_FXI_F = true /\ canonical ii_FXI_FXI = true /\ canonical ii_FXIXI_F = true /\ canonical ii_FXIXI_FXI = true /\ canonical ii_FXIXI_FXIXI = true.
Proof. repeat split; vm_compute; reflexivity. Qed.
Lemma stored_text t d e i k : canonical t = true -> (4 <= i < 30)%nat -> (4 <= k < 30)%nat ->
  (s <- M_Expr.lookup t i k ;; eval (A := RA) Rdec (nint RA 0) (nint RA 0) s) = Ok (exact_int d e i k) ->
  exists q, gen_integral d e i k = Ok q /\ M_Expr.lookup t i k = Ok (str_rational q).
Proof.
  intros C0 Hi Hk V. destruct (gen_exact d e i k ltac:(lia) ltac:(lia)) as [G Gv]. exists (exact_q d e i k). split; [exact G|].
  unfold canonical in C0. rewrite forallb_forall in C0. specialize (C0 i ltac:(apply in_seq; lia)). rewrite forallb_forall in C0. specialize (C0 k ltac:(apply in_seq; lia)).
  destruct (M_Expr.lookup t i k) as [s|]; [|discriminate C0]. cbn [bind] in V. f_equal. unfold text_poly in C0. destruct (parse s) as [x|] eqn:Ps; [|discriminate C0].
  destruct (to_poly x) as [p|] eqn:Px; [|discriminate C0]. unfold eval in V. rewrite Ps, (to_poly_eval x p _ _ Px) in V.
  assert (Vq : qeval p (nint RA 0) = Q2R (exact_q d e i k)) by congruence. clear V. cbn [RA nint] in Vq.
  destruct p as [|v [|? ?]]; [| |discriminate C0]; apply String.eqb_eq in C0; cbn [qeval] in Vq.
  - rewrite C0. change "0"%string with (str_rational 0). apply t_C83_injective. apply eqR_Qeq. rewrite <- Vq, Q2R_0. reflexivity.
  - rewrite C0. apply t_C83_injective. apply eqR_Qeq. rewrite <- Vq. ring.
Qed.
(*@ C83: the stored tables are what the generator prints: for numbers from 4 to 29 every stored text is literally the text of the number the generator
    computes. @*)
Lemma t_C83_stored_tables : forall i k, (4 <= i < 30)%nat -> (4 <= k < 30)%nat ->
  let printed t d e := exists q, gen_integral d e i k = Ok q /\ M_Expr.lookup t i k = Ok (str_rational q) in
  printed ii_FF 0%nat 0%nat /\ printed ii_FXI_F 1%nat 0%nat /\ printed ii_FXI_FXI 1%nat 1%nat /\
  printed ii_FXIXI_F 2%nat 0%nat /\ printed ii_FXIXI_FXI 2%nat 1%nat /\ printed ii_FXIXI_FXIXI 2%nat 2%nat.
Proof.
  intros i k Hi Hk printed. destruct canonical_all as (C1 & C2 & C3 & C4 & C5 & C6). destruct (t_C75_exact i k Hi Hk) as (V1 & V2 & V3 & V4 & V5 & V6). unfold printed.
  split; [apply stored_text; assumption|]. split; [apply stored_text; assumption|]. split; [apply stored_text; assumption|]. split; [apply stored_text; assumption|]. split; apply stored_text; assumption.
Qed.
(*@ C83: and so are the stored shape functions, for numbers from 4 to 49. @*)
Lemma t_C83_stored_functions : forall i, (4 <= i < 50)%nat -> exists p, gen_fun 0 i = Ok p /\ nth_error FXI i = Some (str_poly p).
Proof.
  assert (H : forallb (fun i => match gen_fun 0 i, nth_error FXI i with Ok p, Some s => String.eqb s (str_poly p) | _, _ => false end) (seq 4 46) = true) by (vm_compute; reflexivity).
  intros i Hi. rewrite forallb_forall in H. specialize (H i ltac:(apply in_seq; lia)). destruct (gen_fun 0 i) as [p|]; [|discriminate H]. exists p. split; [reflexivity|].
  destruct (nth_error FXI i) as [s|]; [|discriminate H]. apply String.eqb_eq in H. rewrite H. reflexivity.
Qed.
(*@ Example: the texts printed for the function with number 7 and for an integral, a whole file for five functions with 0.5 for the entries of the first four,
    and what is read back from it; the file name and these texts meet the hypotheses. @*)
Example t_C83_ex :
  (p <- gen_fun 0 7 ;; Ok (str_poly p)) = Ok "3*xi**7/16 - 7*xi**5/16 + 5*xi**3/16 - xi/16"%string /\
  (q <- gen_integral 0 2 4 4 ;; Ok (str_rational q)) = Ok "-4/105"%string /\ str_rational (-3 # 1) = "-3"%string /\ str_poly [0; 0; 1; -1]%Q = "-xi**3 + xi**2"%string /\
  one_line "write_pre_integrated_terms.py" /\ plain "0.5" /\
  match ii_file "write_pre_integrated_terms.py" (fun _ _ _ => "0.5"%string) 5 with
  | Ok text => match import_file text with
               | Some m => dict_get (module_get m "ii_FXIXI_FXIXI") [4; 4]%nat = Ok "2/5"%string /\ dict_get (module_get m "ii_FF") [4; 3]%nat = Ok "0.5"%string /\
                           dict_get (module_get m "ii_FF") [4; 5]%nat = Err KeyError
               | None => False
               end
  | Err _ => False
  end.
Proof.
  split; [vm_compute; reflexivity|]. split; [vm_compute; reflexivity|]. split; [vm_compute; reflexivity|]. split; [vm_compute; reflexivity|].
  split; [apply line_lit; reflexivity|]. split; [plain_lit|]. vm_compute. repeat split.
Qed.
