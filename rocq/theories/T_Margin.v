(** Proofs of the sign of the maximum-stress margins and the critical mode *)
From Coq Require Import Reals ZArith Bool List String Lia Lra.
From Flocq Require Import Core.Core IEEE754.BinarySingleNaN.
From Verif Require Import M_Py M_Float M_Margin S_Validate S_Margin L_Float.
Import ListNotations.
Open Scope string_scope.
Open Scope list_scope.
Open Scope R_scope.

Notation fexp64 := (SpecFloat.fexp 53 1024).
Notation rnd64 := (round radix2 fexp64 (round_mode mode_NE)).

#[local] Instance v64 : Valid_exp fexp64 := fexp_correct 53 1024 f64_prec.
#[local] Instance m64 : Monotone_exp fexp64 := fexp_monotone 53 1024.
#[local] Instance p64 : Prec_gt_0 53 := f64_prec.
#[local] Instance e64 : Prec_lt_emax 53 1024 := f64_emax.

Lemma fmt : forall x : f64, generic_format radix2 fexp64 (B2R x).
Proof. intros x. apply generic_format_B2R. Qed.

Lemma fmt1 : generic_format radix2 fexp64 1.
Proof. rewrite <- (proj2 fone_denotes). apply fmt. Qed.

Lemma fone_R : B2R fone = 1. Proof. exact (proj2 fone_denotes). Qed.
Lemma fone_fin : is_finite fone = true. Proof. exact (proj1 fone_denotes). Qed.
Lemma fone_sign : Bsign fone = false. Proof. vm_compute. reflexivity. Qed.

Lemma bnd : bpow radix2 1024 > 2.
Proof. change 2 with (bpow radix2 1). apply bpow_lt. lia. Qed.

(** rounding a number below 1 - 2^-54 gives a double below 1 *)
Lemma pred1 : pred radix2 fexp64 1 = 1 - bpow radix2 (-53).
Proof.
  change 1 with (bpow radix2 0) at 1. rewrite pred_bpow. reflexivity.
Qed.

Lemma rnd_lt1 : forall v, v < 1 - bpow radix2 (-53) / 2 -> rnd64 v < 1.
Proof.
  intros v H.
  apply Rle_lt_trans with (pred radix2 fexp64 1).
  - apply round_N_le_midp; [apply v64| |].
    + apply generic_format_pred; [apply v64|apply fmt1].
    + rewrite succ_pred; [|apply v64|apply fmt1]. rewrite pred1. lra.
  - rewrite pred1. pose proof (bpow_gt_0 radix2 (-53)). lra.
Qed.

Lemma rnd_ge1 : forall v, 1 <= v -> 1 <= rnd64 v.
Proof. intros v H. apply round_ge_generic; [apply v64|apply valid_rnd_round_mode|apply fmt1|exact H]. Qed.

Lemma rnd_ge0 : forall v, 0 <= v -> 0 <= rnd64 v.
Proof. intros v H. apply round_ge_generic; [apply v64|apply valid_rnd_round_mode|apply generic_format_0|exact H]. Qed.

Lemma rnd_lt0 : forall q : f64, B2R q < 1 -> rnd64 (B2R q - 1) < 0.
Proof.
  intros q H.
  assert (G : B2R q <= 1 - bpow radix2 (-53)).
  { rewrite <- pred1. apply pred_ge_gt; [apply v64|apply fmt|apply fmt1|exact H]. }
  apply Rle_lt_trans with (- bpow radix2 (-53)).
  2: pose proof (bpow_gt_0 radix2 (-53)); lra.
  apply round_le_generic; [apply v64|apply valid_rnd_round_mode| |lra].
  apply generic_format_opp. apply generic_format_bpow. cbn. lia.
Qed.

(** q - 1 is negative exactly when q is below 1, for every double q *)
Lemma sub1_sign : forall q : f64, flt (fsub q fone) fzero = flt q fone.
Proof.
  intros q. destruct (f64_cases q) as [->|[->|[->|Fq]]].
  - vm_compute; reflexivity.
  - vm_compute; reflexivity.
  - vm_compute; reflexivity.
  - pose proof (@Bminus_correct 53 1024 f64_prec f64_emax mode_NE q fone Fq fone_fin) as M.
    rewrite fone_R in M. fold (fsub q fone) in M.
    destruct (Rlt_bool_spec (Rabs (rnd64 (B2R q - 1))) (bpow radix2 1024)) as [L|L] in M.
    + destruct M as [MR [MF _]].
      destruct (flt q fone) eqn:E.
      * apply flt_fin; [exact MF|reflexivity|]. rewrite MR. apply flt_fin in E; [|exact Fq|exact fone_fin].
        rewrite fone_R in E. cbn [B2R fzero]. apply rnd_lt0. exact E.
      * destruct (flt (fsub q fone) fzero) eqn:E2; [|reflexivity].
        apply flt_fin in E2; [|exact MF|reflexivity]. rewrite MR in E2. cbn [B2R fzero] in E2.
        assert (1 <= B2R q).
        { apply Rnot_lt_le. intros C. assert (flt q fone = true); [|congruence].
          apply flt_fin; [exact Fq|exact fone_fin|]. rewrite fone_R. exact C. }
        pose proof (rnd_ge0 (B2R q - 1) ltac:(lra)). lra.
    + destruct M as [MO MS]. rewrite fone_sign in MS. cbn in MS.
      assert (I : fsub q fone = fninf).
      { apply B2SF_inj. rewrite MO, MS. reflexivity. }
      rewrite I. symmetry. apply flt_fin; [exact Fq|exact fone_fin|]. rewrite fone_R.
      destruct q as [s|s| |s m e Hm]; try discriminate; cbn in MS; subst s; cbn [B2R].
      pose proof (F2R_lt_0 radix2 (Float radix2 (Z.neg m) e) ltac:(cbn; lia)). cbn in *. lra.
Qed.

(** the rounded quotient of two non-negative doubles is below 1 exactly when the numerator is smaller *)
Lemma div_lt1_fin : forall t d : f64, is_finite t = true -> is_finite d = true ->
  0 <= B2R t -> 0 < B2R d -> flt (fdiv t d) fone = flt t d.
Proof.
  intros t d Ft Fd Ht Hd.
  pose proof (@Bdiv_correct 53 1024 f64_prec f64_emax mode_NE t d ltac:(lra)) as M.
  fold (fdiv t d) in M.
  assert (Lt : B2R t < B2R d -> rnd64 (B2R t / B2R d) < 1).
  { intros H. apply rnd_lt1.
    assert (S : succ radix2 fexp64 (B2R t) <= B2R d) by (apply succ_le_lt; auto using v64, fmt).
    rewrite succ_eq_pos in S by exact Ht.
    assert (U : Rabs (B2R t) * bpow radix2 (- (53)) < ulp radix2 fexp64 (B2R t)) by (apply (ulp_FLT_gt radix2 (3 - 1024 - 53) 53)).
    rewrite (Rabs_pos_eq _ Ht) in U.
    set (u := bpow radix2 (-53)) in *. assert (0 < u <= 1/2).
    { unfold u. split; [apply bpow_gt_0|]. replace (1/2) with (bpow radix2 (-1)) by (cbn; lra). apply bpow_le; lia. }
    change (- (53))%Z with (-53)%Z in U. fold u in U.
    apply Rmult_lt_reg_r with (B2R d); [exact Hd|].
    unfold Rdiv at 1. rewrite Rmult_assoc, Rinv_l by lra.
    nra. }
  assert (Ge : B2R d <= B2R t -> 1 <= rnd64 (B2R t / B2R d)).
  { intros H. apply rnd_ge1. apply Rmult_le_reg_r with (B2R d); [exact Hd|].
    unfold Rdiv. rewrite Rmult_assoc, Rinv_l by lra. lra. }
  assert (P : 0 <= rnd64 (B2R t / B2R d)).
  { apply rnd_ge0. apply Rmult_le_reg_r with (B2R d); [exact Hd|].
    unfold Rdiv. rewrite Rmult_assoc, Rinv_l by lra. lra. }
  destruct (Rlt_bool_spec (Rabs (rnd64 (B2R t / B2R d))) (bpow radix2 1024)) as [L|L] in M.
  - destruct M as [MR [MF _]]. rewrite Ft in MF.
    destruct (flt t d) eqn:E.
    + apply flt_fin; [exact MF|exact fone_fin|]. rewrite MR, fone_R. apply Lt. apply flt_fin in E; auto.
    + destruct (flt (fdiv t d) fone) eqn:E2; [|reflexivity].
      apply flt_fin in E2; [|exact MF|exact fone_fin]. rewrite MR, fone_R in E2.
      assert (B2R d <= B2R t).
      { apply Rnot_lt_le. intros C. assert (flt t d = true); [|congruence]. apply flt_fin; auto. }
      specialize (Ge H). lra.
  - destruct (Rlt_le_dec (B2R t) (B2R d)) as [C|C].
    + specialize (Lt C). rewrite Rabs_pos_eq in L by exact P. pose proof bnd. lra.
    + assert (flt t d = false) as ->.
      { destruct (flt t d) eqn:E; [|reflexivity]. apply flt_fin in E; auto. lra. }
      assert (Hp : 0 < B2R t) by lra.
      assert (St : Bsign t = false).
      { destruct t as [s|s| |[|] m e Hm]; try discriminate; try reflexivity; cbn in Hp; [lra|].
        pose proof (F2R_lt_0 radix2 (Float radix2 (Z.neg m) e) ltac:(cbn; lia)). cbn in Hp, H. lra. }
      assert (Sd : Bsign d = false).
      { destruct d as [s|s| |[|] m e Hm]; try discriminate; try reflexivity; cbn in Hd; [lra|].
        pose proof (F2R_lt_0 radix2 (Float radix2 (Z.neg m) e) ltac:(cbn; lia)). cbn in Hd, H. lra. }
      rewrite St, Sd in M. assert (fdiv t d = finf) as -> by (apply B2SF_inj; rewrite M; reflexivity).
      vm_compute; reflexivity.
Qed.

Lemma sign_false_pos : forall m e H, 0 < B2R (B754_finite false m e H : f64).
Proof. intros. cbn. apply F2R_gt_0. cbn. lia. Qed.
Lemma sign_true_neg : forall m e H, B2R (B754_finite true m e H : f64) < 0.
Proof. intros. cbn. apply F2R_lt_0. cbn. lia. Qed.

Lemma div_lt1 : forall t d : f64, flt t fzero = false -> Bsign d = false ->
  flt (fdiv t d) fone = flt t d.
Proof.
  intros t d Ht Hd.
  assert (T0 : forall m e H, t <> B754_finite true m e H).
  { intros m e H ->. assert (flt (B754_finite true m e H) fzero = true); [|congruence].
    apply flt_fin; [reflexivity|reflexivity|]. apply sign_true_neg. }
  destruct d as [sd|sd| |sd md ed Hmd]; cbn in Hd; try subst sd.
  - destruct t as [[|]|[|]| |[|] m e Hm]; try (vm_compute; reflexivity); try discriminate.
  - destruct t as [[|]|[|]| |[|] m e Hm]; try (vm_compute; reflexivity); try discriminate.
  - destruct t as [[|]|[|]| |[|] m e Hm]; try (vm_compute; reflexivity); try discriminate.
  - assert (D : 0 < B2R (B754_finite false md ed Hmd : f64)) by apply sign_false_pos.
    destruct t as [st|[|]| |[|] m e Hm].
    + apply div_lt1_fin; auto; cbn; lra.
    + discriminate.
    + vm_compute; reflexivity.
    + vm_compute; reflexivity.
    + exfalso; eapply T0; reflexivity.
    + apply div_lt1_fin; auto. apply Rlt_le, sign_false_pos.
Qed.

Lemma abs_sign : forall x : f64, x <> fnan -> Bsign (fabs x) = false.
Proof. intros [s|s| |s m e H] N; try reflexivity. Qed.

Lemma quot_sign : forall t d : f64, flt t fzero = false -> Bsign d = false ->
  flt (fsub (fdiv t d) fone) fzero = flt t d.
Proof. intros t d A B. rewrite sub1_sign. apply div_lt1; assumption. Qed.

Lemma no_cross : forall t x : f64, flt t fzero = false -> flt x fzero = true -> flt t x = false.
Proof.
  intros t x Ht Hx. destruct (flt t x) eqn:E; [|reflexivity].
  destruct (is_finite t) eqn:Ft, (is_finite x) eqn:Fx.
  - apply flt_fin in E; auto. apply flt_fin in Hx; auto.
    assert (flt t fzero = true); [|congruence]. apply flt_fin; auto. lra.
  - destruct x as [?|[|]| |? ? ? ?]; try discriminate. destruct t as [?|[|]| |[|] ? ? ?]; discriminate.
  - destruct t as [?|[|]| |? ? ? ?]; try discriminate. destruct x as [?|[|]| |[|] ? ? ?]; discriminate.
  - destruct t as [?|[|]| |? ? ? ?], x as [?|[|]| |? ? ? ?]; discriminate.
Qed.

Lemma nan_quot : forall t, fsub (fdiv t fnan) fone = fnan.
Proof. intros [?|?| |? ? ? ?]; reflexivity. Qed.
Lemma flt_nan_l : forall t, flt fnan t = false.
Proof. intros [?|?| |? ? ? ?]; reflexivity. Qed.
Lemma flt_nan_r : forall t, flt t fnan = false.
Proof. intros [?|[|]| |[|] ? ? ?]; reflexivity. Qed.

(*@ C31. Tension, for every double (NaN, infinities, subnormals included) and every allowable the constructor
    accepts: the margin is negative exactly when the stress exceeds the allowable, or the stress is the negative
    zero and the allowable positive. @*)
Lemma t_C31_tension : forall t sigma, not_below_zero t ->
  (less (margin_t t sigma) fzero <-> (less t sigma \/ (sigma = fnzero /\ less fzero t))).
Proof.
  intros t sigma Ht. apply nbz_spec in Ht. rewrite <- !flt_less. unfold margin_t, mask_negative.
  destruct (flt sigma fzero) eqn:E.
  - (* negative stress *)
    rewrite quot_sign by (auto; reflexivity). rewrite Ht. split; [discriminate|].
    intros [C|[-> C]]; [|discriminate]. rewrite (no_cross _ _ Ht E) in C. discriminate.
  - destruct sigma as [[|]|s| |[|] m e Hm].
    + (* negative zero *)
      rewrite sub1_sign.
      destruct t as [[|]|[|]| |[|] m e Hm]; try discriminate Ht; vm_compute; split; intros; auto; try discriminate;
      try tauto; destruct H as [H|[_ H]]; try discriminate; auto.
    + rewrite quot_sign by (auto; reflexivity). split; [auto|]. intros [C|[C _]]; [exact C|discriminate].
    + destruct s; [discriminate|]. rewrite quot_sign by (auto; reflexivity). split; [auto|]. intros [C|[C _]]; [exact C|discriminate].
    + change B754_nan with fnan. rewrite nan_quot, flt_nan_l, flt_nan_r.
      split; [discriminate|]. intros [C|[C _]]; discriminate.
    + exfalso. assert (flt (B754_finite true m e Hm) fzero = true); [|congruence].
      apply flt_fin; [reflexivity|reflexivity|apply sign_true_neg].
    + rewrite quot_sign by (auto; reflexivity). split; [auto|]. intros [C|[C _]]; [exact C|discriminate].
Qed.

Lemma flt_fopp0 : forall x : f64, flt (fopp x) fzero = fgt x fzero.
Proof. intros [[|]|[|]| |[|] m e H]; reflexivity. Qed.

(*@ C31. Compression: the margin is negative exactly when the stress is below minus the allowable. @*)
Lemma t_C31_compression : forall c sigma, not_below_zero c ->
  (less (margin_c c sigma) fzero <-> less c (fopp sigma)).
Proof.
  intros c sigma Hc. apply nbz_spec in Hc. rewrite <- !flt_less. unfold margin_c, mask_positive.
  destruct (fgt sigma fzero) eqn:E.
  - rewrite quot_sign by (auto; reflexivity). change (fabs fzero) with fzero. rewrite Hc.
    rewrite <- flt_fopp0 in E. rewrite (no_cross _ _ Hc E). tauto.
  - destruct sigma as [s|[|]| |[|] m e Hm]; try discriminate E.
    + rewrite quot_sign by (auto; reflexivity). destruct s; cbn [fabs Babs fopp Bopp negb]; [tauto|].
      replace (flt c (B754_zero true)) with (flt c (B754_zero false)); [tauto|].
      destruct c as [[|]|[|]| |[|] ? ? ?]; reflexivity.
    + rewrite quot_sign by (auto; reflexivity). cbn [fabs Babs fopp Bopp negb]. tauto.
    + change (fabs B754_nan) with fnan. change (fopp B754_nan) with fnan. rewrite nan_quot, flt_nan_l, flt_nan_r. tauto.
    + rewrite quot_sign by (auto; reflexivity). cbn [fabs Babs fopp Bopp negb]. tauto.
Qed.

(*@ C31. Shear: the margin is negative exactly when the magnitude of the shear stress exceeds the allowable. @*)
Lemma t_C31_shear : forall s tau, not_below_zero s ->
  (less (margin_s s tau) fzero <-> less s (fabs tau)).
Proof.
  intros s tau Hs. apply nbz_spec in Hs. rewrite <- !flt_less. unfold margin_s.
  destruct (f64_cases tau) as [-> |H].
  - change (fabs fnan) with fnan. rewrite nan_quot, flt_nan_l, flt_nan_r. tauto.
  - rewrite quot_sign; [tauto|exact Hs|]. apply abs_sign. intros ->. destruct H as [C|[C|C]]; discriminate.
Qed.

(*@ C31. The same for finite numbers, in terms of the reals they denote: with allowables r, p, q >= 0 and stresses
    x, y (not the negative zero in tension), the three margins are negative exactly when x > r, x < -p, |y| > q. @*)
Lemma t_C31_reals : forall t c s sigma tau r p q x y,
  denotes t r -> denotes c p -> denotes s q -> 0 <= r -> 0 <= p -> 0 <= q ->
  denotes sigma x -> denotes tau y -> sigma <> fnzero ->
  (less (margin_t t sigma) fzero <-> x > r) /\
  (less (margin_c c sigma) fzero <-> x < - p) /\
  (less (margin_s s tau) fzero <-> Rabs y > q).
Proof.
  intros t c s sigma tau r p q x y Ht Hc Hs Pr Pp Pq Hx Hy NZ.
  assert (LL : forall a b u v, denotes a u -> denotes b v -> (less a b <-> u < v)).
  { intros a b u v [A1 A2] [B1 B2]. rewrite <- flt_less, flt_fin by assumption. rewrite A2, B2. tauto. }
  split; [|split].
  - rewrite t_C31_tension by (right; right; eauto). rewrite (LL t sigma r x) by assumption.
    split; [intros [C|[C _]]; [lra|contradiction]|intros C; left; lra].
  - rewrite t_C31_compression by (right; right; eauto). rewrite (LL c (fopp sigma) p (- x)) by auto using fopp_denotes. lra.
  - rewrite t_C31_shear by (right; right; eauto). rewrite (LL s (fabs tau) q (Rabs y)); [lra|assumption|].
    destruct Hy as [H1 H2]. split; unfold fabs; [rewrite is_finite_Babs; exact H1|rewrite B2R_Babs, H2; reflexivity].
Qed.

(*@ C31. No stress in the direction checked gives margin +inf: for a positive (finite or infinite) allowable the
    tension margin is +inf when the stress is negative or +0, the compression margin when it is positive or a zero. @*)
Lemma t_C31_infinite : forall t sigma, less fzero t ->
  ((less sigma fzero \/ sigma = fzero) -> margin_t t sigma = finf) /\
  ((less fzero sigma \/ is_zero sigma) -> margin_c t sigma = finf).
Proof.
  intros t sigma Ht. rewrite <- flt_less in Ht.
  assert (D0 : fsub (fdiv t fzero) fone = finf).
  { destruct t as [[|]|[|]| |[|] m e H]; try discriminate; reflexivity. }
  split; intros H; unfold margin_t, margin_c, mask_negative, mask_positive, fgt.
  - destruct H as [H|H].
    + rewrite <- flt_less in H. rewrite H. exact D0.
    + subst. exact D0.
  - destruct H as [H|H].
    + rewrite <- flt_less in H. unfold flt in H. rewrite H. exact D0.
    + replace (Bltb fzero sigma) with false.
      * assert (fabs sigma = fzero) as ->; [|exact D0].
        destruct H as [H1 H2]. destruct sigma as [s|s| |s m e Hm]; try discriminate; [reflexivity|].
        cbn in H2. apply eq_0_F2R in H2. destruct s; discriminate.
      * symmetry. destruct (Bltb fzero sigma) eqn:E; [|reflexivity].
        destruct H as [H1 H2]. apply (flt_fin fzero sigma) in E; [|reflexivity|exact H1]. cbn [fzero B2R] in E. lra.
Qed.

(*@ C31. The exception to the documented meaning: a stress of exactly -0.0 is reported as margin -inf in tension,
    whatever the positive allowable, although +0.0 is reported as +inf. @*)
Lemma t_C31_negative_zero_refuted : forall t, less fzero t ->
  margin_t t fnzero = fninf /\ margin_t t fzero = finf.
Proof.
  intros t Ht. rewrite <- flt_less in Ht. split; destruct t as [[|]|[|]| |[|] m e H]; try discriminate; reflexivity.
Qed.

(*@ C31. At the allowable itself the margin is exactly zero. @*)
Lemma t_C31_zero_at_allowable : forall t r, denotes t r -> 0 < r ->
  is_zero (margin_t t t) /\ is_zero (margin_c t (fopp t)) /\ is_zero (margin_s t t).
Proof.
  intros t r [Ft Rt] Hr.
  assert (S : exists m e H, t = B754_finite false m e H).
  { destruct t as [s|s| |[|] m e H]; try discriminate; cbn in Rt; subst r; eauto.
    - lra.
    - pose proof (F2R_lt_0 radix2 (Float radix2 (Z.neg m) e) ltac:(cbn; lia)). cbn in *. lra. }
  assert (Q : fdiv t t = fone).
  { assert (NZ : B2R t <> 0) by (rewrite Rt; lra).
    pose proof (@Bdiv_correct 53 1024 f64_prec f64_emax mode_NE t t NZ) as M. fold (fdiv t t) in M.
    replace (B2R t / B2R t) with 1 in M by (field; exact NZ).
    rewrite round_generic in M; [|apply valid_rnd_round_mode|apply fmt1].
    rewrite Rlt_bool_true in M by (rewrite Rabs_pos_eq by lra; pose proof bnd; lra).
    destruct M as [MR [MF MS]]. rewrite Ft in MF.
    apply B2R_Bsign_inj; auto using fone_fin.
    - rewrite MR, fone_R. reflexivity.
    - rewrite fone_sign. rewrite MS by (destruct (fdiv t t); try discriminate; reflexivity).
      destruct (Bsign t); reflexivity. }
  assert (Z : is_zero (fsub fone fone)).
  { split; [vm_compute; reflexivity|]. vm_compute. reflexivity. }
  assert (NN : flt t fzero = false).
  { destruct S as [m [e [H ->]]]. reflexivity. }
  unfold margin_t, margin_c, margin_s, mask_negative, mask_positive.
  destruct S as [m [e [H E]]].
  assert (A1 : fabs t = t) by (rewrite E; reflexivity).
  assert (A2 : fgt (fopp t) fzero = false) by (rewrite E; reflexivity).
  assert (A3 : fabs (fopp t) = t) by (rewrite E; reflexivity).
  rewrite NN, A2, A3, A1, Q. auto.
Qed.

(*@ C31, example: allowable 2, stresses 3, 2, -0.0 and the next double above 2. @*)
Example t_C31_example :
  flt (margin_t (f_of_Z 2) (f_of_Z 3)) fzero = true /\
  feq (margin_t (f_of_Z 2) (f_of_Z 2)) fzero = true /\
  flt (margin_t (f_of_Z 2) (f_of_Z_exp 4503599627370497 (-51))) fzero = true /\
  not_below_zero (f_of_Z 2).
Proof.
  split; [vm_compute; reflexivity|]. split; [vm_compute; reflexivity|]. split; [vm_compute; reflexivity|].
  apply nbz_spec. vm_compute. reflexivity.
Qed.

(** ** critical *)

(** order-preserving map of the non-NaN doubles into the reals *)
Definition ext (x : f64) : R :=
  match x with
  | B754_infinity false => bpow radix2 1024
  | B754_infinity true => - bpow radix2 1024
  | _ => B2R x
  end.

Lemma flt_ext : forall x y, x <> fnan -> y <> fnan -> (flt x y = true <-> ext x < ext y).
Proof.
  assert (B : forall x : f64, is_finite x = true -> ext x = B2R x /\ - bpow radix2 1024 < B2R x < bpow radix2 1024).
  { intros x Hx. split; [destruct x as [?|[|]| |? ? ? ?]; try discriminate; reflexivity|].
    pose proof (abs_B2R_lt_emax 53 1024 x). apply Rabs_def2 in H. lra. }
  pose proof (bpow_gt_0 radix2 1024) as P.
  intros x y Nx Ny.
  destruct (f64_cases x) as [-> |[-> |[-> |Hx]]]; [congruence| | |];
  (destruct (f64_cases y) as [-> |[-> |[-> |Hy]]]; [congruence| | |]).
  - cbn; split; [discriminate|lra].
  - cbn; split; [discriminate|lra].
  - destruct (B y Hy) as [-> ?]. cbn [ext finf]. split; [|lra]. destruct y as [?|[|]| |[|] ? ? ?]; discriminate.
  - cbn; split; [lra|reflexivity].
  - cbn; split; [discriminate|lra].
  - destruct (B y Hy) as [-> ?]. cbn [ext fninf]. split; [lra|]. destruct y as [?|[|]| |[|] ? ? ?]; try discriminate; reflexivity.
  - destruct (B x Hx) as [-> ?]. cbn [ext finf]. split; [lra|]. destruct x as [?|[|]| |[|] ? ? ?]; try discriminate; reflexivity.
  - destruct (B x Hx) as [-> ?]. cbn [ext fninf]. split; [|lra]. destruct x as [?|[|]| |[|] ? ? ?]; discriminate.
  - destruct (B x Hx) as [-> _]. destruct (B y Hy) as [-> _]. apply flt_fin; assumption.
Qed.

Lemma flt_ext_false : forall x y, x <> fnan -> y <> fnan -> (flt x y = false <-> ext y <= ext x).
Proof.
  intros x y A B. pose proof (flt_ext x y A B). destruct (flt x y).
  - split; [discriminate|]. assert (ext x < ext y) by tauto. lra.
  - split; [|reflexivity]. intros _. apply Rnot_lt_le. intros C. apply H in C. discriminate.
Qed.

Lemma argmin_spec : forall l best,
  (forall n v, In (n, v) (best :: l) -> v <> fnan) ->
  exists k v, nth_error (best :: l) k = Some (argmin best l, v) /\
    (forall j n' v', nth_error (best :: l) j = Some (n', v') -> flt v' v = false) /\
    (forall j n' v', (j < k)%nat -> nth_error (best :: l) j = Some (n', v') -> flt v v' = true).
Proof.
  induction l as [|c t IH]; intros best N.
  - exists 0%nat, (snd best). cbn. destruct best as [n v]. cbn. split; [reflexivity|]. split.
    + intros [|[|j]] n' v' H; try discriminate. injection H as <- <-.
      assert (v <> fnan) by (eapply N; left; reflexivity). apply flt_ext_false; auto. lra.
    + intros j n' v' H; lia.
  - assert (Nb : snd best <> fnan) by (apply (N (fst best)); left; destruct best; reflexivity).
    assert (Nc : snd c <> fnan) by (apply (N (fst c)); right; left; destruct c; reflexivity).
    cbn [argmin]. destruct (flt (snd c) (snd best)) eqn:E.
    + destruct (IH c) as [k [v [A [B C]]]]; [intros n v H; apply (N n v); right; exact H|].
      assert (Nv : v <> fnan) by (apply (N (argmin c t)); right; eapply nth_error_In; exact A).
      assert (Vc : ext v <= ext (snd c)).
      { apply flt_ext_false; auto. apply (B 0%nat (fst c)). destruct c; reflexivity. }
      apply flt_ext in E; auto.
      exists (S k), v. split; [exact A|]. split.
      * intros [|j] n' v' H; [|eapply B; exact H]. cbn in H. injection H as ->. apply flt_ext_false; cbn in *; auto. lra.
      * intros [|j] n' v' L H; [|eapply C; [|exact H]; lia]. cbn in H. injection H as ->. apply flt_ext; cbn in *; auto. lra.
    + destruct (IH best) as [k [v [A [B C]]]].
      { intros n v [H|H]; apply (N n v); [left; exact H|right; right; exact H]. }
      assert (Nv : v <> fnan).
      { apply nth_error_In in A. destruct A as [A|A]; apply (N (argmin best t)); [left; exact A|right; right; exact A]. }
      assert (Vb : ext v <= ext (snd best)).
      { apply flt_ext_false; auto. apply (B 0%nat (fst best)). destruct best; reflexivity. }
      apply flt_ext_false in E; auto.
      destruct k as [|k].
      * exists 0%nat, v. split; [exact A|]. split; [|intros j n' v' L; lia].
        intros [|[|j]] n' v' H.
        -- apply (B 0%nat n'). exact H.
        -- cbn in H. injection H as ->. apply flt_ext_false; cbn in *; auto. lra.
        -- apply (B (S j) n'). exact H.
      * exists (S (S k)), v. split; [exact A|].
        assert (Vb' : ext v < ext (snd best)).
        { apply flt_ext; auto. apply (C 0%nat (fst best)); [lia|]. destruct best; reflexivity. }
        split.
        -- intros [|[|j]] n' v' H.
           ++ apply (B 0%nat n'). exact H.
           ++ cbn in H. injection H as ->. apply flt_ext_false; cbn in *; auto. lra.
           ++ apply (B (S j) n'). exact H.
        -- intros [|[|j]] n' v' L H.
           ++ apply (C 0%nat n'); [lia|exact H].
           ++ cbn in H. injection H as ->. apply flt_ext; cbn in *; auto. lra.
           ++ apply (C (S j) n'); [lia|exact H].
Qed.

Lemma is_nan_iff : forall x : f64, is_nan x = true <-> x = fnan.
Proof. intros [?|?| |? ? ? ?]; cbn; split; try discriminate; reflexivity. Qed.

Lemma fill_not_nan : forall x, fill_nan x <> fnan.
Proof. intros x. unfold fill_nan. destruct (is_nan x) eqn:E; [discriminate|]. intros ->. discriminate. Qed.
Lemma fill_id : forall x, x <> fnan -> fill_nan x = x.
Proof. intros x H. unfold fill_nan. destruct (is_nan x) eqn:E; [|reflexivity]. apply is_nan_iff in E. contradiction. Qed.

Lemma idxmin_spec : forall l n, idxmin l = Some n ->
  exists k v, nth_error l k = Some (n, v) /\
    (forall j n' v', nth_error l j = Some (n', v') -> flt (fill_nan v') (fill_nan v) = false) /\
    (forall j n' v', (j < k)%nat -> nth_error l j = Some (n', v') -> flt (fill_nan v) (fill_nan v') = true) /\
    exists j n' v', nth_error l j = Some (n', v') /\ v' <> fnan.
Proof.
  intros l n H. unfold idxmin in H.
  destruct (forallb (fun c => is_nan (snd c)) l) eqn:F; [discriminate|].
  set (g := fun c : string * f64 => (fst c, fill_nan (snd c))) in *.
  destruct (map g l) as [|c t] eqn:M; [discriminate|]. injection H as <-.
  assert (G : forall k, nth_error (c :: t) k = option_map g (nth_error l k)).
  { intros k. rewrite <- M. apply nth_error_map. }
  destruct (argmin_spec t c) as [k [v [A [B C]]]].
  { intros n v Hi. rewrite <- M in Hi. apply in_map_iff in Hi. destruct Hi as [[n1 v1] [Hi _]].
    unfold g in Hi. injection Hi as <- <-. apply fill_not_nan. }
  rewrite G in A. destruct (nth_error l k) as [[n1 v1]|] eqn:K; [|discriminate]. cbn in A. injection A as <- <-.
  exists k, v1. split; [exact K|]. split; [|split].
  - intros j n' v' Hj. apply (B j n'). rewrite G, Hj. reflexivity.
  - intros j n' v' L Hj. apply (C j n'); [exact L|]. rewrite G, Hj. reflexivity.
  - assert (X : exists c0, In c0 l /\ is_nan (snd c0) = false).
    { clear -F. induction l as [|a l IH]; [discriminate|]. cbn in F. destruct (is_nan (snd a)) eqn:E.
      - unfold f64 in *. rewrite E in F. destruct (IH F) as [c0 [H1 H2]]. exists c0; split; [right|]; auto.
      - exists a; split; [left|]; auto. }
    destruct X as [[n' v'] [Hi Hn]]. apply In_nth_error in Hi. destruct Hi as [j Hj].
    exists j, n', v'. split; [exact Hj|]. intros ->. discriminate.
Qed.

(*@ C33. The critical column is missing exactly when all five margins are NaN. @*)
Lemma t_C33_missing : forall a st,
  critical a st = None <-> (forall n v, In (n, v) (margin_columns a st) -> v = fnan).
Proof.
  intros a st. unfold critical, idxmin.
  destruct (forallb (fun c => is_nan (snd c)) (margin_columns a st)) eqn:F.
  - split; [|reflexivity]. intros _ n v Hi. rewrite forallb_forall in F. apply F in Hi. apply is_nan_iff. exact Hi.
  - cbn [margin_columns map]. split; [discriminate|]. intros H.
    assert (T : forallb (fun c => is_nan (snd c)) (margin_columns a st) = true); [|congruence].
    apply forallb_forall. intros [n v] Hi. apply is_nan_iff. apply (H n v Hi).
Qed.

(*@ C33. Whenever some margin is neither NaN nor +inf, the critical column names a margin that is not NaN, is not
    greater than any other non-NaN margin of the row, and is strictly smaller than every non-NaN margin before it
    in the order t1, c1, t2, c2, s. @*)
Lemma t_C33_smallest : forall a st n0 v0,
  In (n0, v0) (margin_columns a st) -> v0 <> fnan -> v0 <> finf ->
  exists k n v, critical a st = Some n /\ nth_error (margin_columns a st) k = Some (n, v) /\ v <> fnan /\
    (forall j n' v', nth_error (margin_columns a st) j = Some (n', v') -> ~ less v' v) /\
    (forall j n' v', (j < k)%nat -> nth_error (margin_columns a st) j = Some (n', v') -> v' <> fnan -> less v v').
Proof.
  intros a st n0 v0 Hi N0 I0.
  destruct (critical a st) as [n|] eqn:E.
  2: { rewrite t_C33_missing in E. elim N0. eapply E; eauto. }
  destruct (idxmin_spec _ _ E) as [k [v [A [B [C _]]]]].
  assert (Nv : v <> fnan).
  { intros ->. apply In_nth_error in Hi. destruct Hi as [j Hj]. specialize (B _ _ _ Hj).
    rewrite (fill_id v0 N0) in B. change (fill_nan fnan) with finf in B.
    destruct v0 as [?|[|]| |? ? ? ?]; try discriminate; [elim I0|elim N0]; reflexivity. }
  exists k, n, v. split; [reflexivity|]. split; [exact A|]. split; [exact Nv|]. split.
  - intros j n' v' Hj L. apply flt_less in L. specialize (B _ _ _ Hj). rewrite (fill_id v Nv) in B.
    rewrite fill_id in B; [congruence|]. intros ->. destruct v as [?|[|]| |[|] ? ? ?]; discriminate.
  - intros j n' v' L Hj N'. apply flt_less. specialize (C _ _ _ L Hj). rewrite !fill_id in C by assumption. exact C.
Qed.

(*@ C33. In the remaining rows (every non-NaN margin is +inf and there is one) the first column is named, whether
    or not its own margin is NaN. @*)
Lemma t_C33_all_infinite : forall a st n0,
  In (n0, finf) (margin_columns a st) ->
  (forall n v, In (n, v) (margin_columns a st) -> v = fnan \/ v = finf) ->
  critical a st = Some "margin_t1".
Proof.
  intros a st n0 Hi H.
  destruct (critical a st) as [n|] eqn:E.
  2: { rewrite t_C33_missing in E. specialize (E _ _ Hi). discriminate. }
  destruct (idxmin_spec _ _ E) as [k [v [A [B [C _]]]]].
  destruct k as [|k]; [cbn in A; congruence|]. exfalso.
  assert (F : forall n' v', In (n', v') (margin_columns a st) -> fill_nan v' = finf).
  { intros n' v' Hin. destruct (H _ _ Hin) as [-> | ->]; reflexivity. }
  specialize (C 0%nat _ _ ltac:(lia) eq_refl).
  rewrite (F n v) in C by (eapply nth_error_In; exact A).
  rewrite (F "margin_t1") in C by (left; reflexivity). discriminate.
Qed.

(*@ C33. So a NaN margin can be named critical although a margin that is not NaN exists: a ply with the default
    tension allowable 0 and no stress, but positive other allowables. @*)
Lemma t_C33_nan_named_refuted : exists a st,
  critical a st = Some "margin_t1" /\ In ("margin_t1", fnan) (margin_columns a st) /\ In ("margin_c1", finf) (margin_columns a st).
Proof.
  exists (FAllow fzero fone fone fone fone), (FStress fzero fzero fzero).
  vm_compute. split; [reflexivity|]. split; [left; reflexivity|right; left; reflexivity].
Qed.

(*@ C33. Zero stress with the default zero allowables has no critical mode. @*)
Lemma t_C33_zero_allowables : forall st, is_zero (fs_1 st) -> is_zero (fs_2 st) -> is_zero (fs_12 st) ->
  critical (FAllow fzero fzero fzero fzero fzero) st = None.
Proof.
  intros [x y z] Hx Hy Hz. cbn in *.
  assert (Z : forall x, is_zero x -> exists s, x = B754_zero s).
  { intros x0 [H1 H2]. destruct x0 as [s|s| |s m e Hm]; try discriminate; eauto.
    cbn in H2. apply eq_0_F2R in H2. destruct s; discriminate. }
  destruct (Z _ Hx) as [[|] ->], (Z _ Hy) as [[|] ->], (Z _ Hz) as [[|] ->]; vm_compute; reflexivity.
Qed.

(*@ C33, example: sigma1 = 3 against t1 = 2 beats |tau| = 3 against s = 4. @*)
Example t_C33_example :
  critical (FAllow (f_of_Z 2) (f_of_Z 5) (f_of_Z 1) (f_of_Z 1) (f_of_Z 4)) (FStress (f_of_Z 3) fzero (f_of_Z (-3)))
  = Some "margin_t1".
Proof. vm_compute. reflexivity. Qed.

(*@ C31. Row by row: the row has five margins, under the names margin_t1, margin_c1, margin_t2, margin_c2, margin_s in this order, and each is
    negative exactly when the allowable of that name is exceeded (a stress of -0.0 apart). @*)
Lemma t_C31_columns : forall a st, accepted a -> fs_1 st <> fnzero -> fs_2 st <> fnzero ->
  map fst (margin_columns a st) = ["margin_t1"; "margin_c1"; "margin_t2"; "margin_c2"; "margin_s"] /\
  forall n v, In (n, v) (margin_columns a st) -> (less v fzero <-> exceeds a st n).
Proof.
  intros a st (A1 & A2 & A3 & A4 & A5) N1 N2. split; [reflexivity|].
  intros n v [H|[H|[H|[H|[H|[]]]]]]; assert (En := f_equal fst H); assert (Ev := f_equal snd H); cbn [fst snd] in En, Ev; subst n v; clear H.
  - rewrite t_C31_tension by assumption. split; [intros [H|[H _]]; [constructor; exact H|contradiction]|intros H; inversion H; left; assumption].
  - rewrite t_C31_compression by assumption. split; [intros H; constructor; exact H|intros H; inversion H; assumption].
  - rewrite t_C31_tension by assumption. split; [intros [H|[H _]]; [constructor; exact H|contradiction]|intros H; inversion H; left; assumption].
  - rewrite t_C31_compression by assumption. split; [intros H; constructor; exact H|intros H; inversion H; assumption].
  - rewrite t_C31_shear by assumption. split; [intros H; constructor; exact H|intros H; inversion H; assumption].
Qed.
(*@ C33. When some allowable is exceeded, the critical column names one that is. @*)
Lemma t_C33_failure : forall a st n, accepted a -> fs_1 st <> fnzero -> fs_2 st <> fnzero -> exceeds a st n ->
  exists n', critical a st = Some n' /\ exceeds a st n'.
Proof.
  intros a st n A N1 N2 X. destruct (t_C31_columns a st A N1 N2) as [E H].
  assert (I : exists v, In (n, v) (margin_columns a st)).
  { inversion X; eexists; unfold margin_columns; cbn [In]; eauto 8. }
  destruct I as (v0 & I). assert (L0 := proj2 (H n v0 I) X).
  assert (V0 : v0 <> fnan) by (intros ->; rewrite <- flt_less, flt_nan_l in L0; discriminate).
  assert (W0 : v0 <> finf) by (intros ->; rewrite <- flt_less in L0; discriminate).
  destruct (t_C33_smallest a st n v0 I V0 W0) as (k & n' & v & C & K & Nv & Le & _).
  exists n'. split; [exact C|]. apply (H n' v (nth_error_In _ _ K)). apply In_nth_error in I. destruct I as (j & J).
  specialize (Le j n v0 J). rewrite <- flt_less in *. assert (Z : fzero <> fnan) by discriminate.
  apply flt_ext in L0; [|assumption|assumption]. apply flt_ext; [assumption|assumption|].
  destruct (Rlt_or_le (ext v0) (ext v)) as [C1|C1]; [|lra]. exfalso. apply Le. apply flt_ext; assumption.
Qed.
(*@ C31, C33, example: a row over its second compression allowable only. @*)
Example t_C33_ex2 : let a := FAllow (f_of_Z 9) (f_of_Z 9) (f_of_Z 9) (f_of_Z 2) (f_of_Z 9) in let st := FStress (f_of_Z 1) (f_of_Z (-3)) (f_of_Z 1) in
  accepted a /\ exceeds a st "margin_c2" /\ critical a st = Some "margin_c2".
Proof.
  cbv zeta. split; [|split].
  - repeat split; apply nbz_spec; vm_compute; reflexivity.
  - constructor. apply flt_less. vm_compute. reflexivity.
  - vm_compute. reflexivity.
Qed.
