(** The stored integrals against the exact ones: consequences of the checks in L_Tab.v. *)
From Coq Require Import Reals ZArith QArith Qreals Qabs Lra Lia Bool String.
From Coquelicot Require Import Coquelicot.
From Coq Require Import List.
From Verif Require Import M_Py M_K M_Tables M_Shape M_Expr M_RealArith S_Mat S_Bardell S_Energy L_Poly L_Shape L_Tab.
Import ListNotations.
Open Scope R_scope.


Definition dpoly (d i : nat) : list Q := nth i (match d with 0%nat => p0 | 1%nat => p1 | _ => p2 end) [].
Lemma p0_polys : p0 = firstn 30 polys. Proof. vm_compute. reflexivity. Qed.
Lemma p1_p0 : p1 = map qderiv p0. Proof. vm_compute. reflexivity. Qed.
Lemma p2_p1 : p2 = map qderiv p1. Proof. vm_compute. reflexivity. Qed.
Lemma dpoly_0 i : (i < 30)%nat -> dpoly 0 i = fpoly i.
Proof. intros H. unfold dpoly, fpoly. rewrite p0_polys. rewrite <- (firstn_skipn 30 polys) at 2. rewrite app_nth1; [reflexivity|exact H]. Qed.
Lemma dpoly_1 i : dpoly 1 i = qderiv (dpoly 0 i).
Proof. unfold dpoly. rewrite p1_p0. apply (map_nth qderiv p0 [] i). Qed.
Lemma dpoly_2 i : dpoly 2 i = qderiv (dpoly 1 i).
Proof. unfold dpoly. rewrite p2_p1. apply (map_nth qderiv p1 [] i). Qed.

Lemma bardell_Dn d i : (i < 30)%nat -> (d <= 2)%nat -> forall x, Derive_n (bardell i) d x = qeval (dpoly d i) x.
Proof.
  intros Hi Hd.
  assert (H0 : forall x, bardell i x = qeval (dpoly 0 i) x).
  { intros x. rewrite dpoly_0 by exact Hi. symmetry. apply fpoly_bardell. lia. }
  assert (H1 : forall x, Derive (bardell i) x = qeval (dpoly 1 i) x).
  { intros x. rewrite (Derive_ext _ _ x H0), qeval_Derive, dpoly_1. reflexivity. }
  destruct d as [|[|[|d]]]; [exact H0|exact H1| |lia].
  intros x. cbn [Derive_n]. transitivity (Derive (qeval (dpoly 1 i)) x).
  - apply Derive_ext. exact H1.
  - rewrite qeval_Derive, dpoly_2. reflexivity.
Qed.

(** the integer forms of the derivatives *)
Definition zlist (d : nat) := match d with 0%nat => z0 | 1%nat => z1 | _ => z2 end.
Definition mlist (d : nat) := match d with 0%nat => m0 | 1%nat => m1 | _ => m2 end.
Lemma forms_at ps : forall zs, forms_ok ps zs = true -> forall i, (i < List.length ps)%nat -> exists z, nth_error zs i = Some z /\ form_ok (nth i ps []) z = true.
Proof.
  induction ps as [|p ps IH]; intros [|z zs] H i Hi; cbn [forms_ok] in H; try discriminate H; [cbn in Hi; lia|].
  apply andb_prop in H. destruct H as [H1 H2]. destruct i as [|i]; [exists z; split; [reflexivity|exact H1]|]. cbn in Hi. apply (IH zs H2 i). lia.
Qed.
Lemma zform_at d i : (i < 30)%nat -> exists z, nth_error (zlist d) i = Some z /\ form_ok (dpoly d i) z = true.
Proof. intros H. unfold dpoly, zlist. destruct d as [|[|d]]; apply forms_at; [exact z0_ok|exact H|exact z1_ok|exact H|exact z2_ok|exact H]. Qed.
Lemma mlist_at d i z : nth_error (zlist d) i = Some z -> nth_error (mlist d) i = Some (mform z).
Proof. intros H. unfold mlist. destruct d as [|[|d]]; [rewrite m0_ok|rewrite m1_ok|rewrite m2_ok]; rewrite nth_error_map; unfold zlist in H; rewrite H; reflexivity. Qed.
Lemma exact_int_form p q i k z w : (p <= 2)%nat -> (q <= 2)%nat -> (i < 30)%nat -> (k < 30)%nat ->
  form_ok (dpoly p i) z = true -> form_ok (dpoly q k) w = true ->
  exact_int p q i k = IZR (zdot (snd z) (moments (snd w))) / (IZR (fst z) * IZR (fst w) * IZR scale) /\ 0 < IZR (fst z) /\ 0 < IZR (fst w).
Proof.
  intros Hp Hq Hi Hk Z W.
  assert (D := form_eval _ _ 0 Z). assert (D' := form_eval _ _ 0 W). destruct D as (_ & Dz & Lz). destruct D' as (_ & Dw & Lw).
  split; [|split; assumption]. unfold exact_int. apply is_RInt_unique.
  apply (is_RInt_ext (fun x => scal (/ (IZR (fst z) * IZR (fst w))) (x ^ 0 * zeval (snd z) x * zeval (snd w) x))).
  { intros x _. rewrite (bardell_Dn p i Hi Hp), (bardell_Dn q k Hk Hq), (proj1 (form_eval _ _ x Z)), (proj1 (form_eval _ _ x W)).
    change (/ (IZR (fst z) * IZR (fst w)) * (x ^ 0 * zeval (snd z) x * zeval (snd w) x) = zeval (snd z) x / IZR (fst z) * (zeval (snd w) x / IZR (fst w))).
    cbn [pow]. field. lra. }
  evar_last; [apply @is_RInt_scal, (zdot2_RInt (snd z) (snd w) 0); [cbn; exact Lz|exact Lw]|]. cbn [skipn].
  change (/ (IZR (fst z) * IZR (fst w)) * (IZR (zdot (snd z) (moments (snd w))) / IZR scale) = IZR (zdot (snd z) (moments (snd w))) / (IZR (fst z) * IZR (fst w) * IZR scale)).
  field. split; [apply not_0_IZR; discriminate|lra].
Qed.
Lemma exact_int_sym p q i k : exact_int p q i k = exact_int q p k i.
Proof. unfold exact_int. apply RInt_ext. intros. apply Rmult_comm. Qed.

(** [v] is the value read at (i, k) *)
Definition tab_at (t : list (list string)) (i k : nat) : res R :=
  s <- lookup t i k ;; eval (A := RA) Rdec 0 0 s.
Lemma row_ok_at r p qs : row_ok r p qs = true -> forall k q, nth_error qs k = Some q ->
  exists s, nth_error r k = Some s /\ entry_ok s p q = true.
Proof.
  revert qs. induction r as [|s r IH]; intros [|q0 qs] H k q Hk; cbn [row_ok] in H; try discriminate H.
  - destruct k; discriminate Hk.
  - apply andb_prop in H. destruct H as [H1 H2]. destruct k as [|k].
    + injection Hk as <-. exists s. split; [reflexivity|exact H1].
    + apply (IH qs H2 k q Hk).
Qed.
Lemma tab_ok_at t ps qs : tab_ok t ps qs = true -> forall i k p q, nth_error ps i = Some p -> nth_error qs k = Some q ->
  exists s, lookup t i k = Ok s /\ entry_ok s p q = true.
Proof.
  revert ps. induction t as [|r t IH]; intros [|p0' ps] H i k p q Hi Hk; cbn [tab_ok] in H; try discriminate H.
  - destruct i; discriminate Hi.
  - apply andb_prop in H. destruct H as [H1 H2]. destruct i as [|i].
    + injection Hi as <-. destruct (row_ok_at _ _ _ H1 _ _ Hk) as (s & Hs & He). exists s.
      split; [|exact He]. unfold lookup. cbn [nth_error]. rewrite Hs. reflexivity.
    + destruct (IH ps H2 i k p q Hi Hk) as (s & Hs & He). exists s. split; [|exact He].
      unfold lookup in Hs |- *. cbn [nth_error]. exact Hs.
Qed.

Definition epsR : R := 1 / 100000000.
Definition close (r : res R) (x : R) : Prop := exists v, r = Ok v /\ Rabs (v - x) <= epsR /\ Rabs v <= 8/5.
Lemma tab_ok_value t p q i k : tab_ok t (zlist p) (mlist q) = true -> (p <= 2)%nat -> (q <= 2)%nat -> (i < 30)%nat -> (k < 30)%nat ->
  close (tab_at t i k) (exact_int p q i k).
Proof.
  intros H Hp Hq Hi Hk. destruct (zform_at p i Hi) as (z & Z & Fz). destruct (zform_at q k Hk) as (w & W & Fw).
  destruct (exact_int_form p q i k z w Hp Hq Hi Hk Fz Fw) as (-> & Pz & Pw).
  destruct (tab_ok_at _ _ _ H _ _ _ _ Z (mlist_at _ _ _ W)) as (s & Hs & He).
  unfold entry_ok, text_poly in He. cbn [fst snd mform] in He. destruct (parse s) as [e|] eqn:P; [|discriminate He].
  destruct (to_poly e) as [[|v [|? ?]]|] eqn:T; try discriminate He.
  apply andb_prop in He. destruct He as [H1 H2]. apply Z.leb_le, IZR_le in H1. apply Z.leb_le, IZR_le in H2.
  rewrite ?mult_IZR, ?abs_IZR, ?minus_IZR, ?mult_IZR in H1. rewrite ?mult_IZR, ?abs_IZR in H2.
  exists (Q2R v). unfold Q2R.
  assert (Hd : 0 < IZR (Zpos (Qden v))) by (apply IZR_lt; reflexivity).
  assert (Hsc : 0 < IZR scale) by (apply IZR_lt; reflexivity).
  set (S := IZR scale) in *. clearbody S. set (d := IZR (Zpos (Qden v))) in *. set (n := IZR (Qnum v)) in *. set (N := IZR (zdot _ _)) in *.
  set (u := IZR (fst z)) in *. set (u' := IZR (fst w)) in *.
  assert (Huu : 0 < u * u' * S) by (repeat apply Rmult_lt_0_compat; assumption).
  split; [|split].
  - unfold tab_at. rewrite Hs. cbn [bind]. unfold eval. rewrite P, (to_poly_eval _ _ 0 0 T). cbn [qeval]. unfold Q2R. fold n d. f_equal. lra.
  - replace (n * / d - N / (u * u' * S)) with ((n * (u * u' * S) - d * N) * / (d * (u * u' * S))) by (field; repeat split; lra).
    rewrite Rabs_mult, (Rabs_right (/ _)) by (apply Rle_ge, Rlt_le, Rinv_0_lt_compat, Rmult_lt_0_compat; assumption).
    apply (Rmult_le_reg_r (d * (u * u' * S))); [apply Rmult_lt_0_compat; assumption|].
    rewrite Rmult_assoc, Rinv_l by (apply Rgt_not_eq, Rmult_lt_0_compat; assumption). unfold epsR. lra.
  - rewrite Rabs_mult, (Rabs_right (/ _)) by (apply Rle_ge, Rlt_le, Rinv_0_lt_compat; assumption).
    apply (Rmult_le_reg_r d); [assumption|]. rewrite Rmult_assoc, Rinv_l by lra. lra.
Qed.

(** all stored entries are accurate, and at most 8/5 in absolute value *)
Lemma stored_close i k : (i < 30)%nat -> (k < 30)%nat ->
  close (t_ff stored_R i k) (exact_int 0 0 i k) /\ close (t_fxi_f stored_R i k) (exact_int 1 0 i k) /\
  close (t_fxi_fxi stored_R i k) (exact_int 1 1 i k) /\ close (t_fxixi_f stored_R i k) (exact_int 2 0 i k) /\
  close (t_fxixi_fxi stored_R i k) (exact_int 2 1 i k) /\ close (t_fxixi_fxixi stored_R i k) (exact_int 2 2 i k).
Proof.
  intros Hi Hk.
  split; [|split; [|split; [|split; [|split]]]]; apply (tab_ok_value _ _ _ i k) ; try lia.
  - exact ok_FF.
  - exact ok_FXI_F.
  - exact ok_FXI_FXI.
  - exact ok_FXIXI_F.
  - exact ok_FXIXI_FXI.
  - exact ok_FXIXI_FXIXI.
Qed.
