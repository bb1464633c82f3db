(** The stored texts as polynomials. *)
From Coq Require Import Reals ZArith QArith Qreals Lra Lia Bool String Ascii.
From Coquelicot Require Import Coquelicot.
From Coq Require Import List.
From Verif Require Import M_Py M_K M_Tables M_Shape M_Expr M_RealArith S_Bardell L_Poly L_Parse.
Import ListNotations.
Open Scope R_scope.

Definition text_poly (s : string) : option (list Q) :=
  match parse s with Some e => to_poly e | None => None end.

Definition polys : list (list Q) :=
  Eval vm_compute in map (fun s => match text_poly s with Some p => p | None => [] end) FXI.
Lemma polys_ok : map text_poly FXI = map Some polys.
Proof. vm_compute. reflexivity. Qed.
Definition fpoly (i : nat) : list Q := nth i polys [].

Lemma FXI_length : List.length FXI = 50%nat.
Proof. reflexivity. Qed.
Lemma FXI_text i : (i < 50)%nat -> exists s e, nth_error FXI i = Some s /\ parse s = Some e /\ to_poly e = Some (fpoly i).
Proof.
  intros Hi. assert (H := f_equal (fun l => nth_error l i) polys_ok). cbn beta in H. rewrite !nth_error_map in H.
  destruct (nth_error FXI i) as [s|] eqn:E; [|apply nth_error_None in E; rewrite FXI_length in E; lia].
  cbn [option_map] in H. destruct (nth_error polys i) as [p|] eqn:P; [|discriminate H]. cbn [option_map] in H.
  injection H as H. unfold text_poly in H. destruct (parse s) as [e|] eqn:F; [|discriminate H].
  exists s, e. split; [reflexivity|]. split; [exact F|]. unfold fpoly. rewrite (nth_error_nth _ _ _ P). exact H.
Qed.

(** ** Bardell's formula as a polynomial *)
Definition mono (c : Q) (k : nat) : list Q := repeat 0%Q k ++ [c].
Lemma qeval_mono c k x : qeval (mono c k) x = Q2R c * x ^ k.
Proof.
  induction k as [|k IH]; cbn [mono repeat app qeval pow]; [lra|].
  change (repeat 0%Q k ++ [c]) with (mono c k). rewrite IH, Q2R_0. lra.
Qed.
Definition bcoef (i n : nat) : Q :=
  Qred (((-1) ^ Z.of_nat n * zdfact (2 * i - 2 * n - 5)) # Z.to_pos (2 ^ Z.of_nat n * zfact n * zfact (i - 2 * n))).
Definition bpoly (i : nat) : list Q :=
  match i with
  | 0%nat => [1#2; (-3)#4; 0; 1#4]
  | 1%nat => [1#8; (-1)#8; (-1)#8; 1#8]
  | 2%nat => [1#2; 3#4; 0; (-1)#4]
  | 3%nat => [(-1)#8; (-1)#8; 1#8; 1#8]
  | _ => fold_right qadd [] (map (fun n => mono (bcoef i n) (i - 2 * n)) (seq 0 (S (i / 2))))
  end%Q.

Lemma zfact_pos n : (0 < zfact n)%Z.
Proof. induction n; cbn [zfact]; lia. Qed.
Lemma bcoef_R i n : Q2R (bcoef i n) =
  (-1) ^ n * IZR (zdfact (2 * i - 2 * n - 5)) / (2 ^ n * IZR (zfact n) * IZR (zfact (i - 2 * n))).
Proof.
  unfold bcoef. rewrite Q2R_red. unfold Q2R. cbn [Qnum Qden].
  assert (P := zfact_pos n). assert (P' := zfact_pos (i - 2 * n)).
  assert (E : (0 < 2 ^ Z.of_nat n)%Z) by (apply Z.pow_pos_nonneg; lia).
  rewrite Z2Pos.id by lia.
  rewrite !mult_IZR, <- !pow_IZR. reflexivity.
Qed.
Lemma bardell_poly i x : bardell i x = qeval (bpoly i) x.
Proof.
  destruct i as [|[|[|[|i]]]]; [cbn -[Q2R]; unfold Q2R; cbn; lra..|].
  unfold bardell, bpoly. set (l := seq 0 _). generalize l. clear l. intros l.
  induction l as [|n l IH]; [reflexivity|].
  cbn [map fold_right]. rewrite qeval_add, <- IH, qeval_mono, bcoef_R. reflexivity.
Qed.

(** equality of polynomials up to trailing zeros and equivalent fractions *)
Fixpoint qpeqb (p q : list Q) : bool :=
  match p, q with
  | [], _ => forallb (fun c => Qeq_bool c 0) q
  | _, [] => forallb (fun c => Qeq_bool c 0) p
  | c :: p', d :: q' => Qeq_bool c d && qpeqb p' q'
  end.
Lemma qeval_zero p x : forallb (fun c => Qeq_bool c 0) p = true -> qeval p x = 0.
Proof.
  induction p as [|c p IH]; cbn [forallb qeval]; [reflexivity|]. intros H. apply andb_prop in H. destruct H as [H1 H2].
  rewrite IH by exact H2. apply Qeq_bool_eq, Qeq_eqR in H1. rewrite H1, Q2R_0. lra.
Qed.
Lemma qpeqb_eval p : forall q x, qpeqb p q = true -> qeval p x = qeval q x.
Proof.
  induction p as [|c p IH]; intros [|d q] x H; cbn [qpeqb] in H.
  - reflexivity.
  - symmetry. apply (qeval_zero (d :: q)), H.
  - apply (qeval_zero (c :: p)), H.
  - apply andb_prop in H. destruct H as [H1 H2]. cbn [qeval]. rewrite (IH q x H2).
    apply Qeq_bool_eq, Qeq_eqR in H1. rewrite H1. reflexivity.
Qed.
Lemma stored_are_bardell : forallb (fun i => qpeqb (fpoly i) (bpoly i)) (seq 0 50) = true.
Proof. vm_compute. reflexivity. Qed.
Lemma fpoly_bardell i x : (i < 50)%nat -> qeval (fpoly i) x = bardell i x.
Proof.
  intros Hi. rewrite bardell_poly. apply qpeqb_eval.
  assert (H := stored_are_bardell). rewrite forallb_forall in H. apply H. apply in_seq. lia.
Qed.

Lemma fxi_value i x : (i < 50)%nat -> fxi (A := RA) Rdec i x = Ok (bardell i x).
Proof.
  intros Hi. destruct (FXI_text i Hi) as (s & e & Hs & He & Hp).
  unfold fxi. rewrite Hs. cbn [bind]. unfold eval. rewrite He, (to_poly_eval _ _ x x Hp), fpoly_bardell by exact Hi. reflexivity.
Qed.

(** ** The two-variable texts *)
Fixpoint expr_eqb (x y : expr) : bool :=
  match x, y with
  | EInt z, EInt w => Z.eqb z w
  | EDec m e, EDec m' e' => Z.eqb m m' && Z.eqb e e'
  | EXi, EXi => true
  | EEta, EEta => true
  | ENeg a, ENeg b => expr_eqb a b
  | EAdd a b, EAdd c d => expr_eqb a c && expr_eqb b d
  | ESub a b, ESub c d => expr_eqb a c && expr_eqb b d
  | EMul a b, EMul c d => expr_eqb a c && expr_eqb b d
  | EDiv a b, EDiv c d => expr_eqb a c && expr_eqb b d
  | EPow a n, EPow b m => expr_eqb a b && Nat.eqb n m
  | _, _ => false
  end.
Lemma expr_eqb_eq x : forall y, expr_eqb x y = true -> x = y.
Proof.
  induction x; intros []; cbn [expr_eqb]; try discriminate; intros H;
    repeat match goal with H : _ && _ = true |- _ => apply andb_prop in H; destruct H end;
    try apply Z.eqb_eq in H; try apply Z.eqb_eq in H0; try apply Nat.eqb_eq in H0; subst; try reflexivity;
    repeat match goal with IH : forall y, expr_eqb ?x y = true -> _ , H : expr_eqb ?x _ = true |- _ => apply IH in H; subst end;
    reflexivity.
Qed.
(** xi replaced by eta *)
Fixpoint swap (x : expr) : expr :=
  match x with
  | EXi => EEta
  | EEta => EEta
  | EInt z => EInt z
  | EDec m e => EDec m e
  | ENeg a => ENeg (swap a)
  | EAdd a b => EAdd (swap a) (swap b)
  | ESub a b => ESub (swap a) (swap b)
  | EMul a b => EMul (swap a) (swap b)
  | EDiv a b => EDiv (swap a) (swap b)
  | EPow a n => EPow (swap a) n
  end.
Lemma eval_swap {A : arith} (dec : Z -> Z -> num A) x xi eta : eval_expr dec xi eta (swap x) = eval_expr dec eta eta x.
Proof. induction x; cbn [swap eval_expr]; rewrite ?IHx, ?IHx1, ?IHx2; reflexivity. Qed.

(** each text, and the same with eta, parsed once *)
Definition eta_check (f : string) : bool :=
  match parse f, parse (xi_to_eta f) with Some x, Some y => expr_eqb y (swap x) | _, _ => false end.
Lemma eta_checked : forallb eta_check FXI = true.
Proof. vm_cast_no_check (eq_refl true). Qed.
Lemma eta_text f x : In f FXI -> parse f = Some x -> parse (xi_to_eta f) = Some (swap x).
Proof.
  intros I H. assert (C := eta_checked). rewrite forallb_forall in C. specialize (C f I). unfold eta_check in C. rewrite H in C.
  destruct (parse (xi_to_eta f)) as [y|]; [|discriminate C]. apply expr_eqb_eq in C. congruence.
Qed.
Lemma xi_first_ok : map String.length xi_first = repeat 50%nat 50.
Proof. vm_compute. reflexivity. Qed.
Lemma get_some s : forall j, (j < String.length s)%nat -> exists c, String.get j s = Some c.
Proof. induction s as [|c s IH]; intros j H; [cbn in H; lia|]. destruct j as [|j]; [eexists; reflexivity|]. cbn in H. apply IH. lia. Qed.
Lemma S_value i j xi eta : (i < 50)%nat -> (j < 50)%nat ->
  sxieta_ij (A := RA) Rdec (i, j) xi eta = Ok (bardell i xi * bardell j eta).
Proof.
  intros Hi Hj.
  destruct (FXI_text i Hi) as (f & x & Hf & Hx & Px). destruct (FXI_text j Hj) as (g & y & Hg & Hy & Py).
  assert (Hy' := eta_text g y (nth_error_In _ _ Hg) Hy).
  assert (Hr : exists row c, nth_error xi_first i = Some row /\ String.get j row = Some c).
  { assert (H := f_equal (fun l => nth_error l i) xi_first_ok). cbn beta in H. rewrite nth_error_map, (nth_error_repeat _ Hi) in H.
    destruct (nth_error xi_first i) as [row|]; [|discriminate H]. exists row. injection H as H.
    destruct (get_some row j ltac:(lia)) as [c Hc]. exists c. split; [reflexivity|exact Hc]. }
  destruct Hr as (row & c & Hr & Hc).
  assert (V : forall z, z = EMul x (swap y) \/ z = EMul (swap y) x -> eval_expr (A := RA) Rdec xi eta z = Ok (bardell i xi * bardell j eta)).
  { intros z [->| ->]; cbn [eval_expr];
      rewrite eval_swap, (to_poly_eval _ _ xi eta Px), (to_poly_eval _ _ eta eta Py), !fpoly_bardell by assumption; cbn [bind RA nmul].
    - reflexivity.
    - rewrite Rmult_comm. reflexivity. }
  unfold sxieta_ij. cbn [fst snd]. unfold S_text. rewrite Hf, Hg, Hr, Hc. cbv zeta.
  assert (T : exists s, (match c with "1"%char => Ok (("(" ++ f ++ ")") ++ "*" ++ ("(" ++ xi_to_eta g ++ ")"))
      | _ => Ok (("(" ++ xi_to_eta g ++ ")") ++ "*" ++ ("(" ++ f ++ ")")) end)%string = Ok s /\
      (parse s = Some (EMul x (swap y)) \/ parse s = Some (EMul (swap y) x))).
  { destruct c as [[] [] [] [] [] [] [] []]; (eexists; split; [reflexivity|]);
      first [right; apply (parse_product _ _ _ _ Hy' Hx)|left; apply (parse_product _ _ _ _ Hx Hy')]. }
  destruct T as (s & Es & Ps).
  set (Q := eval (A := RA) Rdec xi eta s = Ok (bardell i xi * bardell j eta)). assert (HQ : Q).
  { unfold Q, eval. destruct Ps as [-> | ->]; apply V; [left|right]; reflexivity. }
  assert (E2 : forall (r : res string), r = Ok s -> (u <- r ;; eval (A := RA) Rdec xi eta u) = Ok (bardell i xi * bardell j eta)).
  { intros r ->. exact HQ. }
  apply E2. exact Es.
Qed.
