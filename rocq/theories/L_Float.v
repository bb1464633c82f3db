(** Lemmas connecting the boolean float tests with what the doubles denote. *)
From Coq Require Import Reals ZArith Bool Lra Lia List.
From Flocq Require Import Core.Core IEEE754.BinarySingleNaN.
From Verif Require Import M_Float S_Validate.
Open Scope R_scope.

Lemma denotes_fin : forall x : f64, is_finite x = true -> denotes x (B2R x).
Proof. intros x H; split; auto. Qed.

Lemma denotes_inj : forall x r s, denotes x r -> denotes x s -> r = s.
Proof. intros x r s [_ A] [_ B]; congruence. Qed.

Lemma f64_cases : forall x : f64, x = fnan \/ x = finf \/ x = fninf \/ is_finite x = true.
Proof. intros [s|[|]| |s m e H]; auto. Qed.

Lemma flt_fin : forall x y : f64, is_finite x = true -> is_finite y = true ->
  (flt x y = true <-> B2R x < B2R y).
Proof.
  intros x y Hx Hy. unfold flt. rewrite Bltb_correct by assumption.
  case Rlt_bool_spec; intros H; split; intros A; try reflexivity; try discriminate; lra.
Qed.

Lemma feq_fin : forall x y : f64, is_finite x = true -> is_finite y = true ->
  (feq x y = true <-> B2R x = B2R y).
Proof.
  intros x y Hx Hy. unfold feq. rewrite Beqb_correct by assumption.
  case Req_bool_spec; intros H; split; intros A; try reflexivity; try discriminate; congruence.
Qed.

Lemma denotes_nan : forall r, ~ denotes fnan r.
Proof. intros r [H _]; discriminate. Qed.
Lemma denotes_inf : forall r, ~ denotes finf r.
Proof. intros r [H _]; discriminate. Qed.
Lemma denotes_ninf : forall r, ~ denotes fninf r.
Proof. intros r [H _]; discriminate. Qed.

Ltac den :=
  repeat match goal with
  | H : denotes fnan _ |- _ => elim (denotes_nan _ H)
  | H : denotes finf _ |- _ => elim (denotes_inf _ H)
  | H : denotes fninf _ |- _ => elim (denotes_ninf _ H)
  | H : exists _, _ |- _ => destruct H
  | H : _ /\ _ |- _ => destruct H
  | H : _ \/ _ |- _ => destruct H
  end.

Lemma flt_less : forall x y, flt x y = true <-> less x y.
Proof.
  intros x y.
  destruct (f64_cases x) as [->|[->|[->|Hx]]];
  destruct (f64_cases y) as [->|[->|[->|Hy]]].
  16: {
    rewrite flt_fin by assumption. unfold less. split.
    - intros H; left; exists (B2R x), (B2R y); auto using denotes_fin.
    - intros [[r [s [[_ A] [[_ B] C]]]]|[[A _]|[A _]]].
      + subst; assumption.
      + subst x; discriminate.
      + subst y; discriminate. }
  all: split; intros A; [try discriminate A|].
  all: try (destruct x as [? |[|]| | ? ? ? ?]; discriminate).
  all: try (destruct y as [? |[|]| | ? ? ? ?]; discriminate).
  all: try (unfold less in *; den; try discriminate; try congruence; reflexivity).
  all: unfold less; try (right; left; split; [reflexivity|]; (left; reflexivity) || (right; eexists; apply denotes_fin; assumption)).
  all: try (right; right; split; [reflexivity|]; eexists; apply denotes_fin; assumption).
  all: unfold less in A; den; subst; try discriminate; try congruence.
  all: try (destruct x as [? |[|]| | ? ? ? ?]; try discriminate; reflexivity).
  all: try (destruct y as [? |[|]| | [|] ? ? ?]; try discriminate; reflexivity).
Qed.

Lemma feq_same : forall x y, feq x y = true <-> same_number x y.
Proof.
  intros x y.
  destruct (f64_cases x) as [->|[->|[->|Hx]]];
  destruct (f64_cases y) as [->|[->|[->|Hy]]].
  16: {
    rewrite feq_fin by assumption. unfold same_number. split.
    - intros H; left; exists (B2R x). split; [|rewrite H]; auto using denotes_fin.
    - intros [[r [[_ A] [_ B]]]|[[A _]|[A _]]].
      + congruence.
      + subst x; discriminate.
      + subst x; discriminate. }
  all: split; intros A; [try discriminate A|].
  all: try (unfold same_number in *; den; subst; try discriminate; try congruence; reflexivity).
  all: try (unfold same_number; auto; fail).
  all: try (destruct x as [? |[|]| | [|] ? ? ?]; discriminate).
  all: try (destruct y as [? |[|]| | [|] ? ? ?]; discriminate).
Qed.

Lemma same_number_sym : forall x y, same_number x y -> same_number y x.
Proof. unfold same_number; intros x y H; den; eauto 6. Qed.

Lemma same_number_trans : forall x y z, same_number x y -> same_number y z -> same_number x z.
Proof.
  unfold same_number; intros x y z H1 H2; den; subst; den; auto.
  left. exists x1. split; auto. rewrite (denotes_inj y x1 x0) by assumption. assumption.
Qed.

Lemma same_number_refl : forall x, x <> fnan <-> same_number x x.
Proof.
  intros x; split.
  - intros H. destruct (f64_cases x) as [->|[->|[->|Hx]]]; unfold same_number; try congruence; auto.
    left; exists (B2R x); auto using denotes_fin.
  - intros H ->. unfold same_number in H; den; discriminate.
Qed.

Lemma f_of_Z_exp_denotes : forall m e, (Z.abs m < 2 ^ 53)%Z -> (-1074 <= e <= 971)%Z ->
  denotes (f_of_Z_exp m e) (IZR m * bpow radix2 e).
Proof.
  intros m e Hm He.
  generalize (binary_normalize_correct 53 1024 f64_prec f64_emax mode_NE m e false).
  cbv zeta.
  assert (F : generic_format radix2 (FLT_exp (3 - 1024 - 53) 53) (F2R (Float radix2 m e))).
  { apply generic_format_FLT. exists (Float radix2 m e); cbn; [reflexivity|exact Hm|lia]. }
  rewrite round_generic; [|apply valid_rnd_round_mode|exact F].
  rewrite Rlt_bool_true.
  - intros [A [B _]]. split; assumption.
  - unfold F2R; cbn [Fnum Fexp]. rewrite Rabs_mult, (Rabs_pos_eq (bpow radix2 e)) by apply bpow_ge_0.
    rewrite <- abs_IZR.
    apply Rlt_le_trans with (bpow radix2 53 * bpow radix2 e).
    + apply Rmult_lt_compat_r; [apply bpow_gt_0|].
      rewrite <- IZR_Zpower by lia. apply IZR_lt. exact Hm.
    + rewrite <- bpow_plus. apply bpow_le. lia.
Qed.

Lemma fone_denotes : denotes fone 1.
Proof.
  replace 1 with (IZR 1 * bpow radix2 0) by (cbn; lra).
  apply f_of_Z_exp_denotes; cbn; lia.
Qed.
Lemma fhalf_denotes : denotes fhalf (1/2).
Proof.
  replace (1/2) with (IZR 1 * bpow radix2 (-1)) by (cbn; lra).
  apply f_of_Z_exp_denotes; cbn; lia.
Qed.
Lemma fopp_denotes : forall x r, denotes x r -> denotes (fopp x) (- r).
Proof.
  intros x r [A B]. split; unfold fopp; [rewrite is_finite_Bopp|rewrite B2R_Bopp, B]; auto.
Qed.
Lemma fzero_denotes : denotes fzero 0.
Proof. split; reflexivity. Qed.

(** flt against a finite bound *)
Lemma flt_denotes_r : forall x l r, denotes l r ->
  (flt x l = false <-> (x = fnan \/ x = finf \/ exists s, denotes x s /\ r <= s)).
Proof.
  intros x l r Hl. split.
  - intros H. destruct (f64_cases x) as [->|[->|[->|Hx]]]; auto.
    + assert (flt fninf l = true) by (apply flt_less; right; left; split; [reflexivity|right; eauto]). congruence.
    + right; right. exists (B2R x). split; [apply denotes_fin; auto|].
      apply Rnot_lt_le. intros C.
      assert (flt x l = true).
      { destruct Hl as [Fl Rl]. apply flt_fin; auto. rewrite Rl. exact C. }
      congruence.
  - intros H. destruct (flt x l) eqn:E; [|reflexivity]. apply flt_less in E.
    destruct H as [->|[->|[s [Hs Le]]]]; unfold less in E; den; subst; try discriminate; den; try discriminate.
    pose proof (denotes_inj _ _ _ Hs H). pose proof (denotes_inj _ _ _ Hl H0). lra.
Qed.

Lemma fgt_denotes_r : forall x u r, denotes u r ->
  (fgt x u = false <-> (x = fnan \/ x = fninf \/ exists s, denotes x s /\ s <= r)).
Proof.
  intros x u r Hl. split.
  - intros H. destruct (f64_cases x) as [->|[->|[->|Hx]]]; auto.
    + assert (fgt finf u = true) by (apply (flt_less u finf); right; right; split; [reflexivity|eauto]). congruence.
    + right; right. exists (B2R x). split; [apply denotes_fin; auto|].
      apply Rnot_lt_le. intros C.
      assert (fgt x u = true).
      { destruct Hl as [Fl Rl]. apply (flt_fin u x); auto. rewrite Rl. exact C. }
      congruence.
  - intros H. destruct (fgt x u) eqn:E; [|reflexivity]. unfold fgt in E. apply (flt_less u x) in E.
    destruct H as [->|[->|[s [Hs Le]]]]; unfold less in E; den; subst; try discriminate; den; try discriminate.
    pose proof (denotes_inj _ _ _ Hs H0). pose proof (denotes_inj _ _ _ Hl H). lra.
Qed.

Lemma nbz_spec : forall x, flt x fzero = false <-> not_below_zero x.
Proof. intros x. unfold not_below_zero. apply flt_denotes_r. apply fzero_denotes. Qed.

Lemma half_spec : forall x, (flt x (fopp fhalf) = false /\ fgt x fhalf = false) <-> not_outside_half x.
Proof.
  intros x. rewrite (flt_denotes_r x _ _ (fopp_denotes _ _ fhalf_denotes)).
  rewrite (fgt_denotes_r x _ _ fhalf_denotes). unfold not_outside_half. split.
  - intros [A B]. den; subst; auto; den; try discriminate.
    right. exists x1. split; auto. pose proof (denotes_inj x x0 x1 ltac:(assumption) ltac:(assumption)). lra.
  - intros [->|[r [Hr [A B]]]]; [auto|]. split; right; right; exists r; auto.
Qed.

Lemma is_zero_spec : forall x, feq x fzero = true <-> is_zero x.
Proof.
  intros x. rewrite feq_same. unfold same_number, is_zero. split.
  - intros H; den; try discriminate. pose proof (denotes_inj _ _ _ H0 fzero_denotes). subst; auto.
  - intros H; left; exists 0; auto using fzero_denotes.
Qed.

(** integrality *)
Lemma f_is_integer_spec : forall x, f_is_integer x = true <-> exists z, denotes x (IZR z).
Proof.
  intros [s|s| |s m e H]; cbn [f_is_integer].
  - split; [|reflexivity]. intros _. exists 0%Z. split; reflexivity.
  - split; [discriminate|]. intros [z [A _]]; discriminate.
  - split; [discriminate|]. intros [z [A _]]; discriminate.
  - destruct (Z.leb_spec 0 e) as [He|He]; cbn [orb].
    + split; [|reflexivity]. intros _. exists (cond_Zopp s (Z.pos m) * 2 ^ e)%Z. split; [reflexivity|].
      cbn [B2R]. unfold F2R; cbn [Fnum Fexp]. rewrite mult_IZR. f_equal. symmetry. apply (IZR_Zpower radix2). exact He.
    + assert (P : (0 < 2 ^ (- e))%Z) by (apply Z.pow_pos_nonneg; lia).
      assert (B : bpow radix2 e * IZR (2 ^ (- e)) = 1).
      { rewrite (IZR_Zpower radix2) by lia. rewrite <- bpow_plus. replace (e + - e)%Z with 0%Z by lia. reflexivity. }
      assert (B1 : forall q, q * IZR (2 ^ (- e)) * bpow radix2 e = q) by (intros q; rewrite Rmult_assoc, (Rmult_comm (IZR _)), B; ring).
      assert (B2 : forall q, q * bpow radix2 e * IZR (2 ^ (- e)) = q) by (intros q; rewrite Rmult_assoc, B; ring).
      rewrite Z.eqb_eq. split.
      * intros Hd. apply Z.mod_divide in Hd; [|lia]. destruct Hd as [q Hq].
        exists (cond_Zopp s q). split; [reflexivity|].
        cbn [B2R]. unfold F2R; cbn [Fnum Fexp]. rewrite Hq.
        destruct s; cbn [cond_Zopp]; [rewrite !opp_IZR|]; rewrite mult_IZR; [rewrite Ropp_mult_distr_l|]; apply B1.
      * intros [z [_ Hz]]. cbn [B2R] in Hz. unfold F2R in Hz; cbn [Fnum Fexp] in Hz.
        apply Z.mod_divide; [lia|].
        exists (cond_Zopp s z). apply eq_IZR. rewrite mult_IZR.
        destruct s; cbn [cond_Zopp] in *; rewrite ?opp_IZR in *; rewrite <- Hz; rewrite ?Ropp_mult_distr_l, ?Ropp_involutive; symmetry; apply B2.
Qed.

Lemma f_to_Z_spec : forall x z, denotes x (IZR z) -> f_to_Z x = z.
Proof.
  intros [s|s| |s m e H] z [A Hz]; try discriminate; cbn [B2R f_to_Z] in *.
  - apply eq_IZR in Hz. exact Hz.
  - unfold F2R in Hz; cbn [Fnum Fexp] in Hz.
    destruct (Z.leb_spec 0 e) as [He|He].
    + apply eq_IZR. rewrite <- Hz. destruct s; cbn [cond_Zopp]; rewrite ?opp_IZR, mult_IZR, (IZR_Zpower radix2) by lia;
      change (Z.neg m) with (- Z.pos m)%Z; rewrite ?opp_IZR; ring.
    + assert (P : (0 < 2 ^ (- e))%Z) by (apply Z.pow_pos_nonneg; lia).
      assert (B : bpow radix2 e * IZR (2 ^ (- e)) = 1).
      { rewrite (IZR_Zpower radix2) by lia. rewrite <- bpow_plus. replace (e + - e)%Z with 0%Z by lia. reflexivity. }
      assert (B1 : forall q, q * IZR (2 ^ (- e)) * bpow radix2 e = q) by (intros q; rewrite Rmult_assoc, (Rmult_comm (IZR _)), B; ring).
      assert (B2 : forall q, q * bpow radix2 e * IZR (2 ^ (- e)) = q) by (intros q; rewrite Rmult_assoc, B; ring).
      assert (Q : (Z.pos m = cond_Zopp s z * 2 ^ (- e))%Z).
      { apply eq_IZR. rewrite mult_IZR.
        destruct s; cbn [cond_Zopp] in *; [change (Z.neg m) with (- Z.pos m)%Z in Hz|]; rewrite ?opp_IZR in *; rewrite <- Hz; rewrite ?Ropp_mult_distr_l, ?Ropp_involutive; symmetry; apply B2. }
      rewrite Q, Z.div_mul by lia. destruct s; cbn [cond_Zopp]; lia.
Qed.
