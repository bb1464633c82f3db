(** Proofs of the theorems on the conversion of arguments to floats. *)
From Coq Require Import Reals ZArith Lra Lia Bool String.
From Flocq Require Import Core.Core IEEE754.BinarySingleNaN.
From Coq Require Import List.
From Verif Require Import M_Py M_Float M_Validate S_Validate S_Round S_OptFloat L_Float L_Round L_MatFloat T_OptFloat.
Open Scope R_scope.

#[local] Instance valid64 : Valid_exp fexp64 := fexp_correct 53 1024 f64_prec.
Lemma rnd_top : rnd64 (bp 1024 - bp 970) = bp 1024.
Proof.
  assert (D : bp 1024 = bp 54 * bp 970) by (rewrite <- bpow_plus; reflexivity). assert (P := bpow_gt_0 radix2 970).
  unfold round, scaled_mantissa, cexp. rewrite (mag_unique _ _ 1024).
  - change (fexp64 1024) with 971%Z. change (round_mode mode_NE) with ZnearestE.
    replace ((bp 1024 - bp 970) * bp (- (971))) with (IZR (2 ^ 53) - / 2).
    2: { rewrite Rmult_minus_distr_r, <- !bpow_plus. cbn. lra. }
    assert (Fl : Zfloor (IZR (2 ^ 53) - / 2) = (2 ^ 53 - 1)%Z).
    { apply Zfloor_imp. rewrite plus_IZR, minus_IZR. lra. }
    unfold Znearest. rewrite Fl. rewrite Rcompare_Eq by (rewrite minus_IZR; lra).
    replace (negb (Z.even (2 ^ 53 - 1))) with true by reflexivity.
    rewrite (Zceil_imp (2 ^ 53)).
    + unfold F2R. cbn [Fnum Fexp]. change (IZR (2 ^ 53)) with (bp 53). rewrite <- bpow_plus. reflexivity.
    + rewrite minus_IZR. lra.
  - replace (1024 - 1)%Z with 1023%Z by lia. assert (E : bp 1023 = bp 53 * bp 970) by (rewrite <- bpow_plus; reflexivity).
    assert (bp 54 = 18014398509481984) by reflexivity. assert (bp 53 = 9007199254740992) by reflexivity.
    rewrite Rabs_pos_eq; rewrite ?D, ?E; nra.
Qed.
Lemma rnd_range r : 0 <= r -> rnd64 r < bp 1024 <-> r < bp 1024 - bp 970.
Proof.
  intros Hr. assert (P := bpow_gt_0 radix2 970). split; intros H.
  - apply Rnot_le_lt. intros L. apply (rnd_mono _ _) in L. rewrite rnd_top in L. lra.
  - assert (G : generic_format radix2 fexp64 (bp 1024 - bp 971)).
    { replace (bp 1024 - bp 971) with (F2R (Float radix2 (2 ^ 53 - 1) 971)).
      - apply (generic_format_FLT radix2 (-1074) 53). apply FLT_spec with (Float radix2 (2 ^ 53 - 1) 971); [reflexivity|cbn; lia|cbn; lia].
      - unfold F2R. cbn [Fnum Fexp]. rewrite minus_IZR. change (IZR (2 ^ 53)) with (bp 53). rewrite Rmult_minus_distr_r, <- bpow_plus, Rmult_1_l. reflexivity. }
    destruct (round_N_pt radix2 fexp64 (fun x => negb (Z.even x)) r) as [_ N]. specialize (N _ G).
    change (round radix2 fexp64 (Znearest (fun x => negb (Z.even x))) r) with (rnd64 r) in N.
    assert (E : bp 971 = 2 * bp 970) by (change 971%Z with (1 + 970)%Z; rewrite bpow_plus; reflexivity). rewrite E in N.
    revert N. unfold Rabs. repeat destruct Rcase_abs; lra.
Qed.
Lemma rnd_range_abs r : Rabs (rnd64 r) < bp 1024 <-> Rabs r < bp 1024 - bp 970.
Proof.
  destruct (Rle_or_lt 0 r) as [S|S].
  - rewrite !Rabs_pos_eq; [apply rnd_range, S|exact S|]. rewrite <- rnd_0. apply rnd_mono, S.
  - assert (E : rnd64 r = - rnd64 (- r)) by (rewrite <- (Ropp_involutive r) at 1; apply round_NE_opp).
    assert (0 <= rnd64 (- r)) by (rewrite <- rnd_0; apply rnd_mono; lra).
    rewrite E, Rabs_Ropp, Rabs_pos_eq, Rabs_left by assumption. apply rnd_range. lra.
Qed.
Lemma of_Z z : (Rabs (IZR z) < bp 1024 - bp 970 -> fin (f_of_Z z) /\ B2R (f_of_Z z) = rnd64 (IZR z)) /\
  (bp 1024 - bp 970 <= Rabs (IZR z) -> is_finite (f_of_Z z) = false).
Proof.
  assert (C := @binary_normalize_correct 53 1024 f64_prec f64_emax mode_NE z 0 false). cbn zeta in C.
  fold (f_of_Z_exp z 0) in C. fold (f_of_Z z) in C. replace (F2R (Float radix2 z 0)) with (IZR z) in C by (unfold F2R; cbn; ring).
  split; intros H.
  - rewrite Rlt_bool_true in C by (apply rnd_range_abs, H). destruct C as (V & F & _). split; assumption.
  - rewrite Rlt_bool_false in C.
    + destruct (f_of_Z z) as [s|s| |s m e h]; try reflexivity; discriminate C.
    + apply Rnot_lt_le. intros L. apply rnd_range_abs in L. lra.
Qed.

(*@ C01: what the arguments convert to. None never converts; False and True are 0 and 1; a float is itself; an int becomes a double nearest
    to it, the int itself up to 2^53, and does not convert exactly when its magnitude is at least 2^1024 - 2^970. @*)
Lemma t_C01_conversion : forall parse,
  to_float parse PNone = None /\
  (forall b, exists x, to_float parse (PBool b) = Some x /\ denotes x (if b then 1 else 0)) /\
  (forall x, to_float parse (PFloat x) = Some x) /\
  (forall z, to_float parse (PInt z) = None <-> (2 ^ 1024 - 2 ^ 970 <= Z.abs z)%Z) /\
  (forall z x, to_float parse (PInt z) = Some x -> nearest x (IZR z) /\ ((Z.abs z <= 2 ^ 53)%Z -> denotes x (IZR z))).
Proof.
  assert (K : forall z, bp 1024 - bp 970 <= Rabs (IZR z) <-> (2 ^ 1024 - 2 ^ 970 <= Z.abs z)%Z).
  { intros z. rewrite <- abs_IZR. change (bp 1024) with (IZR (2 ^ 1024)). change (bp 970) with (IZR (2 ^ 970)). rewrite <- minus_IZR.
    split; [apply le_IZR|apply IZR_le]. }
  intros parse. split; [reflexivity|]. split; [|split; [reflexivity|split]].
  - intros [|]; [exists fone|exists fzero]; (split; [reflexivity|]); [exact fone_val|exact fzero_denotes].
  - intros z. rewrite <- K. unfold to_float. destruct (of_Z z) as [A B]. destruct (Rle_or_lt (bp 1024 - bp 970) (Rabs (IZR z))) as [H|H].
    + rewrite (B H). split; auto.
    + rewrite (proj1 (A H)). split; [discriminate|lra].
  - intros z x E. unfold to_float in E. destruct (of_Z z) as [A B]. destruct (Rle_or_lt (bp 1024 - bp 970) (Rabs (IZR z))) as [H|H].
    + rewrite (B H) in E. discriminate.
    + destruct (A H) as [F V]. rewrite F in E. assert (Ex : x = f_of_Z z) by congruence. subst x. clear E. split.
      * split; [exact F|]. intros w _. rewrite V. apply rnd_nearest.
      * intros L. split; [exact F|]. rewrite V. apply round_generic; [apply valid_rnd_round_mode|].
        destruct (Z.eq_dec (Z.abs z) (2 ^ 53)) as [Q|Q].
        -- assert (z = 2 ^ 53 \/ z = - 2 ^ 53)%Z as [-> | ->] by lia.
           ++ change (IZR (2 ^ 53)) with (bp 53). apply generic_format_bpow. cbn. lia.
           ++ rewrite opp_IZR. apply generic_format_opp. change (IZR (2 ^ 53)) with (bp 53). apply generic_format_bpow. cbn. lia.
        -- apply (generic_format_FLT radix2 (-1074) 53). apply FLT_spec with (Float radix2 z 0); [unfold F2R; cbn; ring|cbn; lia|cbn; lia].
Qed.

(*@ C01: so True is accepted wherever 1 is, and the same material results. @*)
Lemma t_C01_bool : forall parse v12 g12 th, exists z,
  to_float parse (PBool true) = Some z /\ denotes z 1 /\
  ortho_init parse (oargs5 (PBool true) (PBool true) v12 g12 th) = ortho_init parse (oargs5 (PInt 1) (PInt 1) v12 g12 th).
Proof. intros parse v12 g12 th. exists fone. split; [reflexivity|]. split; [exact fone_val|reflexivity]. Qed.
