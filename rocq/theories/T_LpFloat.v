(** Proofs of the theorems on laminates given by lamination parameters in binary64 *)
From Coq Require Import Reals ZArith Lra Lia Bool String.
From Coquelicot Require Import Coquelicot.
From Flocq Require Import Core.Core IEEE754.BinarySingleNaN.
From Coq Require Import List.
From Verif Require Import M_Py M_Float M_FloatArith M_RealArith M_Validate M_Material M_Laminate M_Plate M_K M_MatFloat M_LamArith M_LayupFloat M_LpFloat M_Optimize S_Mat S_Laminate S_Plate S_Bardell S_Energy S_K S_Ritz S_Eigen S_Compare S_Stored S_Validate S_Round S_LamRound S_MatFloat S_Sens S_LayupFloat S_LpFloat S_Optimize L_Mat L_Lam L_LamAlg L_Float L_Round L_K L_Ritz L_Energy L_LamRound L_MatFloat L_LayupFloat T_Laminate T_LamRound T_MatFloat T_Compare T_Round T_Sens T_LayupFloat.
Import ListNotations.
Open Scope R_scope.

(** ** approximations with errors in units of q *)
Definition ap (q e w : R) (x : f64) (t : R) : Prop := fin x /\ Rabs (B2R x - t) <= e * unit * q /\ Rabs t <= w * q.
Section Ap.
Variable q : R.
Hypothesis Hq : bp (-200) <= q <= bp 190.
Lemma q_pos : 0 < q. Proof. assert (P := bpow_gt_0 radix2 (-200)). lra. Qed.
Lemma q_tiny : bp (-1075) <= / 100 * unit * q.
Proof.
  assert (P := bpow_gt_0 radix2 (-200)). apply Rle_trans with (bp (-7) * bp (-53) * bp (-200)); [rewrite <- !bpow_plus; apply bpow_le; lia|]. rewrite <- unit_bp. assert (u := unit_val).
  apply Rmult_le_compat; try (apply Rmult_le_pos); try lra; try apply bpow_ge_0. apply Rmult_le_compat_r; [lra|]. cbn. lra.
Qed.
Lemma ap_size e w x t : ap q e w x t -> 0 <= e * unit <= / 100 -> Rabs (B2R x) <= (w + / 100) * q.
Proof.
  intros (F & E & W) H. assert (Q := q_pos). replace (B2R x) with ((B2R x - t) + t) by ring. apply Rle_trans with (1 := Rabs_triang _ _).
  assert (e * unit * q <= / 100 * q) by (apply Rmult_le_compat_r; lra). lra.
Qed.
Lemma q_big w : 0 <= w <= 100 -> w * q <= bp 900.
Proof. intros H. apply Rle_trans with (bp 7 * bp 190); [apply Rmult_le_compat; [lra| |cbn; lra|lra]; left; apply q_pos|]. rewrite <- bpow_plus. apply bpow_le. lia. Qed.
Lemma big : bp 900 <= bp 1023. Proof. apply bpow_le. lia. Qed.
(** one rounding of a value known up to [e] *)
Lemma ap_round x z t e w : fin x -> B2R x = rnd64 z -> Rabs (z - t) <= e * unit * q -> Rabs t <= w * q -> 0 <= e * unit <= / 100 -> 0 <= w -> ap q (e + w + / 20) w x t.
Proof.
  intros F E1 E2 W He Hw. split; [exact F|]. split; [|exact W]. assert (Q := q_pos). assert (u := unit_val). assert (T := q_tiny). destruct (rnd_err z) as (d & h & Hd & Hh & E). rewrite E1, E.
  replace (z * (1 + d) + h - t) with ((z - t) + z * d + h) by ring.
  assert (Z : Rabs z <= (w + / 100) * q).
  { replace z with ((z - t) + t) by ring. apply Rle_trans with (1 := Rabs_triang _ _). assert (e * unit * q <= / 100 * q) by (apply Rmult_le_compat_r; lra). lra. }
  apply Rle_trans with (1 := Rabs_triang _ _). apply Rle_trans with (Rabs (z - t) + Rabs (z * d) + Rabs h); [apply Rplus_le_compat_r, Rabs_triang|].
  rewrite Rabs_mult. assert (Rabs z * Rabs d <= (w + / 100) * q * unit) by (apply Rmult_le_compat; try apply Rabs_pos; assumption). nra.
Qed.
Lemma ap_xi e w x t (xi : f64) : ap q e w x t -> fin xi -> Rabs (B2R xi) <= 1001 / 1000 -> 0 <= e * unit <= / 200 -> 0 <= w <= 10 -> ap q (1001 / 1000 * e + 1001 / 1000 * w + / 20) (1001 / 1000 * w) (fmul x xi) (t * B2R xi).
Proof.
  intros A Fx Bx He Hw. assert (Sz := ap_size _ _ _ _ A ltac:(lra)). destruct A as (F & E & W). assert (Q := q_pos). assert (X0 := Rabs_pos (B2R xi)).
  destruct (mul_rnd x xi F Fx) as [F' E'].
  { rewrite Rabs_mult. apply Rle_trans with (Rabs (B2R x) * (1001 / 1000)); [apply Rmult_le_compat_l; [apply Rabs_pos|exact Bx]|]. assert (H := q_big (2 * (w + / 100)) ltac:(lra)). assert (Bg := big). assert (0 <= (w + / 100) * q) by (apply Rmult_le_pos; lra). lra. }
  apply (ap_round _ _ _ _ _ F' E'); try lra.
  - replace (B2R x * B2R xi - t * B2R xi) with ((B2R x - t) * B2R xi) by ring. rewrite Rabs_mult. apply Rle_trans with (Rabs (B2R x - t) * (1001 / 1000)); [apply Rmult_le_compat_l; [apply Rabs_pos|exact Bx]|]. lra.
  - rewrite Rabs_mult. apply Rle_trans with (Rabs t * (1001 / 1000)); [apply Rmult_le_compat_l; [apply Rabs_pos|exact Bx]|]. lra.
Qed.
Lemma ap_add e w x t e' w' y s : ap q e w x t -> ap q e' w' y s -> 0 <= e * unit -> 0 <= e' * unit -> (e + e') * unit <= / 100 -> 0 <= w <= 10 -> 0 <= w' <= 10 -> ap q (e + e' + (w + w') + / 20) (w + w') (fadd x y) (t + s).
Proof.
  intros A B He He' Hs Hw Hw'. assert (SA := ap_size _ _ _ _ A ltac:(lra)). assert (SB := ap_size _ _ _ _ B ltac:(lra)). destruct A as (F & E & W), B as (F1 & E1 & W1). assert (Q := q_pos).
  destruct (add_rnd x y F F1) as [F' E'].
  { apply Rle_trans with (1 := Rabs_triang _ _). assert (H := q_big (w + / 100 + (w' + / 100)) ltac:(lra)). assert (Bg := big). lra. }
  apply (ap_round _ _ _ _ _ F' E'); try lra.
  - replace (B2R x + B2R y - (t + s)) with ((B2R x - t) + (B2R y - s)) by ring. apply Rle_trans with (1 := Rabs_triang _ _). lra.
  - apply Rle_trans with (1 := Rabs_triang _ _). lra.
Qed.
Lemma ap_opp e w x t : ap q e w x t -> ap q e w (fopp x) (- t).
Proof. intros (F & E & W). split; [apply fopp_fin, F|]. rewrite fopp_val, Rabs_Ropp. replace (- B2R x - - t) with (- (B2R x - t)) by ring. rewrite Rabs_Ropp. auto. Qed.
Lemma ap_half e w x t : ap q e w x t -> 0 <= e * unit <= / 100 -> 0 <= w <= 10 -> ap q (e + w + / 20) w (fdiv x (f_of_Z 2)) (t / 2).
Proof.
  intros A He Hw. assert (Sz := ap_size _ _ _ _ A He). destruct A as (F & E & W). assert (Q := q_pos).
  assert (V2 : B2R (f_of_Z 2) = 2) by (unfold B2R; cbn; unfold F2R; cbn; lra).
  assert (H2 : forall z, Rabs (z / 2) <= Rabs z) by (intros z; unfold Rdiv; rewrite Rabs_mult, (Rabs_pos_eq (/ 2)) by lra; assert (T := Rabs_pos z); lra).
  destruct (div_rnd x (f_of_Z 2) F) as [F' E']; [lra| |].
  { rewrite V2. apply Rle_trans with (1 := H2 _). assert (H := q_big (w + / 100) ltac:(lra)). assert (Bg := big). lra. }
  rewrite V2 in E'. apply (ap_round _ _ _ _ _ F' E'); try lra.
  - replace (B2R x / 2 - t / 2) with ((B2R x - t) / 2) by field. apply Rle_trans with (1 := H2 _). lra.
  - apply Rle_trans with (1 := H2 _). lra.
Qed.
Lemma ap_weak e w e' w' x t : ap q e w x t -> e <= e' -> w <= w' -> ap q e' w' x t.
Proof. intros (F & E & W) He Hw. assert (Q := q_pos). assert (u := unit_val). split; [exact F|]. split; [apply Rle_trans with (1 := E)|apply Rle_trans with (1 := W)]; repeat (apply Rmult_le_compat_r; [lra|]); assumption. Qed.

(** the brackets *)
Definition bracketsR (I1 I2 I3 I4 I5 x1 x2 x3 x4 : R) : mat3 :=
  M3 (I1 + I2*x1 + I3*x3) (-I3*x3 + I4) (I2*x2/2 + I3*x4) (-I3*x3 + I4) (I1 - I2*x1 + I3*x3) (I2*x2/2 - I3*x4) (I2*x2/2 + I3*x4) (I2*x2/2 - I3*x4) (-I3*x3 + I5).
Lemma brackets_ap E U1 U2 U3 U4 U5 (x1 x2 x3 x4 : f64) I1 I2 I3 I4 I5 : 10 <= E -> E * unit <= / 500 ->
  ap q E (3/4) U1 I1 -> ap q E (3/4) U2 I2 -> ap q E (3/4) U3 I3 -> ap q E (3/4) U4 I4 -> ap q E (3/4) U5 I5 ->
  (fin x1 /\ Rabs (B2R x1) <= 1001 / 1000) -> (fin x2 /\ Rabs (B2R x2) <= 1001 / 1000) -> (fin x3 /\ Rabs (B2R x3) <= 1001 / 1000) -> (fin x4 /\ Rabs (B2R x4) <= 1001 / 1000) ->
  forall i j, (i < 3)%nat -> (j < 3)%nat -> ap q (4 * E) (23/10) (brackets U1 U2 U3 U4 U5 x1 x2 x3 x4 i j) (as_arr (bracketsR I1 I2 I3 I4 I5 (B2R x1) (B2R x2) (B2R x3) (B2R x4)) i j).
Proof.
  intros HE HU A1 A2 A3 A4 A5 [F1 X1] [F2 X2] [F3 X3] [F4 X4]. assert (u := unit_val). assert (ET : 20 * unit <= / 1000) by lra.
  assert (P21 := ap_xi _ _ _ _ x1 A2 F1 X1 ltac:(nra) ltac:(lra)). assert (P22 := ap_xi _ _ _ _ x2 A2 F2 X2 ltac:(nra) ltac:(lra)).
  assert (P33 := ap_xi _ _ _ _ x3 A3 F3 X3 ltac:(nra) ltac:(lra)). assert (P34 := ap_xi _ _ _ _ x4 A3 F4 X4 ltac:(nra) ltac:(lra)).
  assert (N33 := ap_xi _ _ _ _ x3 (ap_opp _ _ _ _ A3) F3 X3 ltac:(nra) ltac:(lra)).
  assert (H22 := ap_half _ _ _ _ P22 ltac:(nra) ltac:(lra)).
  assert (S1 := ap_add _ _ _ _ _ _ _ _ A1 P21 ltac:(nra) ltac:(nra) ltac:(nra) ltac:(lra) ltac:(lra)).
  assert (D1 := ap_add _ _ _ _ _ _ _ _ A1 (ap_opp _ _ _ _ P21) ltac:(nra) ltac:(nra) ltac:(nra) ltac:(lra) ltac:(lra)). rewrite <- fsub_add in D1.
  assert (B11 := ap_add _ _ _ _ _ _ _ _ S1 P33 ltac:(nra) ltac:(nra) ltac:(nra) ltac:(lra) ltac:(lra)).
  assert (B22 := ap_add _ _ _ _ _ _ _ _ D1 P33 ltac:(nra) ltac:(nra) ltac:(nra) ltac:(lra) ltac:(lra)).
  assert (B12 := ap_add _ _ _ _ _ _ _ _ N33 A4 ltac:(nra) ltac:(nra) ltac:(nra) ltac:(lra) ltac:(lra)).
  assert (B33 := ap_add _ _ _ _ _ _ _ _ N33 A5 ltac:(nra) ltac:(nra) ltac:(nra) ltac:(lra) ltac:(lra)).
  assert (B13 := ap_add _ _ _ _ _ _ _ _ H22 P34 ltac:(nra) ltac:(nra) ltac:(nra) ltac:(lra) ltac:(lra)).
  assert (B23 := ap_add _ _ _ _ _ _ _ _ H22 (ap_opp _ _ _ _ P34) ltac:(nra) ltac:(nra) ltac:(nra) ltac:(lra) ltac:(lra)). rewrite <- fsub_add in B23.
  intros i j Hi Hj. unfold brackets, bracketsR.
  destruct i as [|[|[|i]]]; try lia; (destruct j as [|[|[|j]]]; try lia); cbn [array9 as_arr a11 a12 a13 a21 a22 a23 a31 a32 a33].
  - eapply ap_weak; [exact B11|lra|lra].
  - eapply ap_weak; [exact B12|lra|lra].
  - eapply ap_weak; [exact B13|lra|lra].
  - eapply ap_weak; [exact B12|lra|lra].
  - eapply ap_weak; [exact B22|lra|lra].
  - eapply ap_weak; [exact B23|lra|lra].
  - eapply ap_weak; [exact B13|lra|lra].
  - eapply ap_weak; [exact B23|lra|lra].
  - eapply ap_weak; [exact B33|lra|lra].
Qed.
End Ap.

Lemma size_bounds X I1 I2 I3 I4 I5 : invariants_of_Q X = (I1, I2, I3, I4, I5) ->
  Rabs I1 <= 3/4 * size X /\ Rabs I2 <= 3/4 * size X /\ Rabs I3 <= 3/4 * size X /\ Rabs I4 <= 3/4 * size X /\ Rabs I5 <= 3/4 * size X.
Proof.
  unfold invariants_of_Q, size. cbv zeta. intros E. assert (E1 : I1 = 1 / 8 * (3 * a11 X + 3 * a22 X + 2 * a12 X + 4 * a33 X)) by congruence.
  assert (E2 : I2 = 1 / 2 * (a11 X - a22 X)) by congruence. assert (E3 : I3 = 1 / 8 * (a11 X + a22 X - 2 * a12 X - 4 * a33 X)) by congruence.
  assert (E4 : I4 = 1 / 8 * (a11 X + a22 X + 6 * a12 X - 4 * a33 X)) by congruence. assert (E5 : I5 = 1 / 8 * (a11 X + a22 X - 2 * a12 X + 4 * a33 X)) by congruence. clear E.
  assert (A : forall z, - Rabs z <= z <= Rabs z) by (intros z; apply Rabs_le_between; lra). assert (P : forall z, 0 <= Rabs z) by apply Rabs_pos.
  assert (A1 := A (a11 X)). assert (A2 := A (a12 X)). assert (A3 := A (a22 X)). assert (A4 := A (a33 X)). assert (P1 := P (a11 X)). assert (P2 := P (a12 X)). assert (P3 := P (a22 X)). assert (P4 := P (a33 X)).
  subst. repeat split; apply Rabs_le; lra.
Qed.

Lemma margin_le1 f : usual_ply f -> margin f <= 1.
Proof.
  intros U. unfold margin. destruct (up_e1 f U) as [_ P1], (up_e2 f U) as [_ P2]. assert (0 <= B2R (fo_v12 f) ^ 2 * B2R (fo_e2 f) / B2R (fo_e1 f)); [|lra].
  unfold Rdiv. apply Rmult_le_pos; [apply Rmult_le_pos; [apply pow2_ge_0|lra]|left; apply Rinv_0_lt_compat, P1].
Qed.

Lemma parts mu q f xi : powerRZ 2 (-40) <= mu -> powerRZ 2 (-200) <= q <= powerRZ 2 190 -> lp_ply mu q f -> four_parameters xi ->
  exists P I x1 x2 x3 x4, unpack_f f xi = Ok P /\ Invariants (Ortho (exact_ply f)) = Ok I /\ map (@B2R 53 1024) xi = [x1; x2; x3; x4] /\ 1 <= / mu /\ 40 / mu * unit <= / 100 /\
    let '(I1, I2, I3, I4, I5) := I in
    forall i j, (i < 3)%nat -> (j < 3)%nat -> ap q (40 / mu) (23/10) (P i j) (as_arr (bracketsR I1 I2 I3 I4 I5 x1 x2 x3 x4) i j).
Proof.
  intros Hm Hq [(( parse & a & H) & U & M) (X & EX & SX)] [Len Fx]. assert (Hm' := Rle_trans _ _ _ Hm M).
  destruct (t_C87_invariants parse a f H U Hm') as (U1 & U2 & U3 & U4 & U5 & X' & I1 & I2 & I3 & I4 & I5 & EU & EX' & EI & C).
  change (Q_0 (exact_mat (FOrtho f))) with (o_Q0 (exact_ply f)) in EX. rewrite EX in EX'. apply Ok_inj in EX'. subst X'.
  assert (EI' : invariants_of_Q X = (I1, I2, I3, I4, I5)). { unfold Invariants in EI. rewrite EX in EI. cbn [bind] in EI. apply Ok_inj in EI. exact EI. }
  assert (Sz := size_bounds X _ _ _ _ _ EI'). rewrite !pz in Hq. rewrite pz in Hm. assert (Hb : bp (-40) = / 1099511627776) by (cbn; lra). rewrite Hb in Hm.
  assert (Ml := margin_le1 f U). assert (Im : 1 <= / mu <= 1099511627776).
  { split; [rewrite <- Rinv_1; apply Rinv_le; lra|]. rewrite <- (Rinv_inv 1099511627776). apply Rinv_le; lra. }
  assert (u := unit_val). assert (Q := q_pos q Hq). assert (S0 : 0 <= size X) by (unfold size; repeat apply Rplus_le_le_0_compat; apply Rabs_pos).
  assert (AP : forall (V : f64) I, fin V /\ Rabs (B2R V - I) <= 10 / margin f * unit * size X -> Rabs I <= 3 / 4 * size X -> ap q (10 / mu) (3/4) V I).
  { intros V I [FV EV] SI. split; [exact FV|]. split; [|lra]. apply Rle_trans with (1 := EV). unfold Rdiv.
    assert (0 < / margin f <= / mu) by (split; [apply Rinv_0_lt_compat; lra|apply Rinv_le; lra]).
    apply Rmult_le_compat; [|exact S0| |exact SX]. { apply Rmult_le_pos; lra. } apply Rmult_le_compat_r; lra. }
  destruct xi as [|x1 [|x2 [|x3 [|x4 [|x5 xi]]]]]; try discriminate Len.
  inversion Fx as [|? ? G1 Fx1]; subst. inversion Fx1 as [|? ? G2 Fx2]; subst. inversion Fx2 as [|? ? G3 Fx3]; subst. inversion Fx3 as [|? ? G4 _]; subst.
  inversion C as [|? ? ? ? C1 T1]; subst. inversion T1 as [|? ? ? ? C2 T2]; subst. inversion T2 as [|? ? ? ? C3 T3]; subst. inversion T3 as [|? ? ? ? C4 T4]; subst. inversion T4 as [|? ? ? ? C5 _]; subst.
  destruct Sz as (S1 & S2 & S3 & S4 & S5).
  exists (brackets U1 U2 U3 U4 U5 x1 x2 x3 x4), (I1, I2, I3, I4, I5), (B2R x1), (B2R x2), (B2R x3), (B2R x4).
  split; [unfold unpack_f; rewrite EU; reflexivity|]. split; [exact EI|]. split; [reflexivity|]. split; [lra|]. split.
  { unfold Rdiv. apply Rle_trans with (40 * 1099511627776 * unit); [apply Rmult_le_compat_r; lra|]. unfold unit. lra. }
  intros i j Hi Hj. replace (40 / mu) with (4 * (10 / mu)) by (unfold Rdiv; ring). apply (brackets_ap q Hq (10 / mu)); auto.
  - unfold Rdiv. lra.
  - unfold Rdiv. apply Rle_trans with (10 * 1099511627776 * unit); [apply Rmult_le_compat_r; lra|]. unfold unit. lra.
Qed.

(*@ C94: for whatever numbers, also infinite ones and NaN, the arrays A and D computed from lamination parameters are symmetric to the last bit. @*)
Lemma t_C94_symmetric : forall pow f xi T,
  (forall M, A_lp_f f xi T = Ok M -> forall i j, (i < 3)%nat -> (j < 3)%nat -> M i j = M j i) /\
  (forall M, D_lp_f pow f xi T = Ok M -> forall i j, (i < 3)%nat -> (j < 3)%nat -> M i j = M j i).
Proof.
  assert (S : forall f xi P, unpack_f f xi = Ok P -> forall i j, (i < 3)%nat -> (j < 3)%nat -> P i j = P j i).
  { intros f xi P E i j Hi Hj. unfold unpack_f in E. destruct (ortho_invariants f) as [l|e]; [|discriminate E]. cbn [bind] in E.
    destruct l as [|U1 [|U2 [|U3 [|U4 [|U5 [|]]]]]]; try discriminate E. destruct xi as [|x1 [|x2 [|x3 [|x4 [|]]]]]; try discriminate E. apply Ok_inj in E. subst P.
    destruct i as [|[|[|i]]]; try lia; (destruct j as [|[|[|j]]]; try lia); reflexivity. }
  intros pow f xi T. split; intros M E i j Hi Hj.
  - unfold A_lp_f in E. destruct (unpack_f f xi) as [P|] eqn:EP; [|discriminate E]. cbn [bind] in E. apply Ok_inj in E. subst M. rewrite (S f xi P EP i j Hi Hj). reflexivity.
  - unfold D_lp_f in E. destruct (unpack_f f xi) as [P|] eqn:EP; [|discriminate E]. cbn [bind] in E. destruct (pow T 3%nat) as [t3|]; [|discriminate E]. cbn [bind] in E. apply Ok_inj in E. subst M.
    rewrite (S f xi P EP i j Hi Hj). reflexivity.
Qed.

(*@ C94: which exceptions: those of reading Q_0 first, then ValueError unless there are exactly four parameters, then, for D only, that of the power. @*)
Lemma t_C94_errors : forall pow f xi T e,
  (A_lp_f f xi T = Err e <-> ortho_Q0 f = Err e \/ (exists Q, ortho_Q0 f = Ok Q) /\ length xi <> 4%nat /\ e = ValueError) /\
  (D_lp_f pow f xi T = Err e <-> ortho_Q0 f = Err e \/ (exists Q, ortho_Q0 f = Ok Q) /\ (length xi <> 4%nat /\ e = ValueError \/ length xi = 4%nat /\ pow T 3%nat = Err e)).
Proof.
  assert (N : forall (x1 : f64) l, (length (x1 :: l) = 4)%nat -> exists a b c, l = [a; b; c]).
  { intros x1 l H. destruct l as [|a [|b [|c [|d l]]]]; try discriminate H. exists a, b, c. reflexivity. }
  intros pow f xi T e. unfold A_lp_f, D_lp_f, unpack_f, ortho_invariants. destruct (ortho_Q0 f) as [Q|e0] eqn:EQ; cbn [bind].
  - assert (HQ : exists Q0, Ok (A := farr) Q = Ok Q0) by (exists Q; reflexivity).
    destruct (Nat.eq_dec (length xi) 4) as [L|L].
    + destruct xi as [|x1 xi]; [discriminate L|]. destruct (N x1 xi L) as (x2 & x3 & x4 & ->). cbn [bind]. split.
      * split; [discriminate|]. intros [H|(_ & H & _)]; [discriminate H|contradiction].
      * destruct (pow T 3%nat) as [t3|e3] eqn:E3; cbn [bind]; split; try discriminate.
        -- intros [H|(_ & [(H & _)|(_ & H)])]; [discriminate H|contradiction|discriminate H].
        -- intros H. right. split; [exact HQ|]. right. split; [reflexivity|inversion H; reflexivity].
        -- intros [H|(_ & [(H & _)|(_ & H)])]; [discriminate H|contradiction|inversion H; reflexivity].
    + assert (Z : forall g : f64 -> f64 -> f64 -> f64 -> res farr, match xi with [a; b; c; d] => g a b c d | _ => Err ValueError end = Err ValueError).
      { intros g. destruct xi as [|a [|b [|c [|d [|]]]]]; try reflexivity. exfalso. apply L. reflexivity. }
      rewrite Z. cbn [bind]. split; split.
      * intros H. right. split; [exact HQ|]. split; [exact L|inversion H; reflexivity].
      * intros [H|(_ & _ & ->)]; [discriminate H|reflexivity].
      * intros H. right. split; [exact HQ|]. left. split; [exact L|inversion H; reflexivity].
      * intros [H|(_ & [(_ & ->)|(H & _)])]; [discriminate H|reflexivity|contradiction].
  - split; split; intros H.
    + left. inversion H; reflexivity.
    + destruct H as [H|((Q & H) & _)]; [inversion H; reflexivity|discriminate H].
    + left. inversion H; reflexivity.
    + destruct H as [H|((Q & H) & _)]; [inversion H; reflexivity|discriminate H].
Qed.

Lemma t_range (T : f64) : usual T -> fin T /\ bp (-64) <= B2R T <= bp 64. Proof. intros [F H]. rewrite !pz in H. auto. Qed.
Lemma bpw k n : bp k ^ n = bp (k * Z.of_nat n).
Proof. induction n as [|n IH]; [cbn; rewrite Z.mul_0_r; reflexivity|]. rewrite <- tech_pow_Rmult, IH, <- bpow_plus. f_equal. lia. Qed.

(** scaling a bracket by a positive number of moderate size *)
Lemma scaled q mu (s : f64) S d x t : bp (-200) <= q <= bp 190 -> 1 <= / mu -> 40 / mu * unit <= / 100 -> bp (-200) <= S <= bp 200 -> fin s -> Rabs (B2R s - S) <= d * unit * S -> 0 <= d <= 3 -> ap q (40 / mu) (23/10) x t ->
  fin (fmul s x) /\ Rabs (B2R (fmul s x) - S * t) <= (41 / mu + 23/10 * d + 23/10 + / 10) * unit * q * S /\ Rabs (B2R (fmul s x)) <= 5/2 * q * S.
Proof.
  intros Hq Im Em HS Fs Es Hd A. assert (u := unit_val). assert (Q := q_pos q Hq). assert (S0 : 0 < S) by (assert (P := bpow_gt_0 radix2 (-200)); lra).
  assert (E0 : 0 <= 40 / mu * unit) by (unfold Rdiv; apply Rmult_le_pos; lra). assert (Sz := ap_size q Hq _ _ _ _ A ltac:(lra)). destruct A as (F & E & W).
  assert (QS : 0 < q * S) by (apply Rmult_lt_0_compat; assumption).
  assert (Sb : Rabs (B2R s) <= (1 + / 1000) * S).
  { replace (B2R s) with ((B2R s - S) + S) by ring. apply Rle_trans with (1 := Rabs_triang _ _). rewrite (Rabs_pos_eq S) by lra. assert (d * unit * S <= / 1000 * S) by (apply Rmult_le_compat_r; [lra|nra]). lra. }
  assert (PR : Rabs (B2R s * B2R x) <= (1 + / 1000) * S * ((23/10 + / 100) * q)) by (rewrite Rabs_mult; apply Rmult_le_compat; try apply Rabs_pos; assumption).
  assert (QSb : q * S <= bp 390) by (replace 390%Z with (190 + 200)%Z by lia; rewrite bpow_plus; apply Rmult_le_compat; lra).
  destruct (mul_rnd s x Fs F) as [Fm Em'].
  { apply Rle_trans with (1 := PR). apply Rle_trans with (bp 2 * bp 390); [replace (bp 2) with 4 by (cbn; lra); nra|]. rewrite <- bpow_plus. apply bpow_le. lia. }
  split; [exact Fm|]. destruct (rnd_err (B2R s * B2R x)) as (e & h & He & Hh & Er).
  assert (Ex : Rabs (B2R s * B2R x - S * t) <= (23/10 * d * unit + (1 + / 1000) * (40 / mu * unit)) * (q * S)).
  { replace (B2R s * B2R x - S * t) with ((B2R s - S) * t + B2R s * (B2R x - t)) by ring. apply Rle_trans with (1 := Rabs_triang _ _). rewrite !Rabs_mult.
    assert (Rabs (B2R s - S) * Rabs t <= d * unit * S * (23/10 * q)) by (apply Rmult_le_compat; try apply Rabs_pos; assumption).
    assert (Rabs (B2R s) * Rabs (B2R x - t) <= (1 + / 1000) * S * (40 / mu * unit * q)) by (apply Rmult_le_compat; try apply Rabs_pos; assumption). nra. }
  assert (Tn : bp (-1075) <= / 100 * unit * (q * S)).
  { apply Rle_trans with (bp (-7) * bp (-53) * bp (-400)); [rewrite <- !bpow_plus; apply bpow_le; lia|]. rewrite <- unit_bp. apply Rmult_le_compat.
    - apply Rmult_le_pos; [apply bpow_ge_0|lra].
    - apply bpow_ge_0.
    - apply Rmult_le_compat_r; [lra|]. cbn. lra.
    - replace (-400)%Z with (-200 + -200)%Z by lia. rewrite bpow_plus. apply Rmult_le_compat; try apply bpow_ge_0; lra. }
  assert (Rr : Rabs (rnd64 (B2R s * B2R x) - B2R s * B2R x) <= (23/10 + / 20) * unit * (q * S)).
  { rewrite Er. replace (B2R s * B2R x * (1 + e) + h - B2R s * B2R x) with (B2R s * B2R x * e + h) by ring. apply Rle_trans with (1 := Rabs_triang _ _). rewrite Rabs_mult.
    assert (Rabs (B2R s * B2R x) * Rabs e <= (1 + / 1000) * S * ((23/10 + / 100) * q) * unit) by (apply Rmult_le_compat; try apply Rabs_pos; assumption). nra. }
  rewrite Em'. split.
  - replace (rnd64 (B2R s * B2R x) - S * t) with ((rnd64 (B2R s * B2R x) - B2R s * B2R x) + (B2R s * B2R x - S * t)) by ring. apply Rle_trans with (1 := Rabs_triang _ _).
    assert (Z : 41 / mu * unit = 40 / mu * unit + / mu * unit) by (unfold Rdiv; ring). assert (M0 : 0 <= / mu * unit) by (apply Rmult_le_pos; lra).
    assert (M1 : 40 / mu * unit = 40 * (/ mu * unit)) by (unfold Rdiv; ring).
    replace ((41 / mu + 23/10 * d + 23/10 + / 10) * unit * q * S) with ((41 / mu * unit + (23/10 * d + 23/10 + / 10) * unit) * (q * S)) by ring. rewrite Z, M1. rewrite M1 in Ex. nra.
  - replace (rnd64 (B2R s * B2R x)) with ((rnd64 (B2R s * B2R x) - B2R s * B2R x) + B2R s * B2R x) by ring. apply Rle_trans with (1 := Rabs_triang _ _). nra.
Qed.
Lemma as_arr_scale s A i j : (i < 3)%nat -> (j < 3)%nat -> as_arr (mscale s A) i j = s * as_arr A i j.
Proof. intros Hi Hj. destruct i as [|[|[|i]]]; try lia; (destruct j as [|[|[|j]]]; try lia); reflexivity. Qed.

(*@ C94: A and D computed in binary64 from lamination parameters in [-1, 1] (up to 1/1000, for parameters that are themselves computed) are within lp_off of the exact A and D, where mu is a lower bound for 1 - v12 v21 and the numbers
    of Q_0 add up to at most q. @*)
Lemma t_C94_accurate : forall pow mu q f xi T, powerRZ 2 (-40) <= mu -> powerRZ 2 (-200) <= q <= powerRZ 2 190 -> lp_ply mu q f -> four_parameters xi -> usual T -> pow_close pow ->
  (exists M X, A_lp_f f xi T = Ok M /\ exact_A f xi T = Ok X /\ forall i j, (i < 3)%nat -> (j < 3)%nat -> is_finite (M i j) = true /\ Rabs (B2R (M i j) - as_arr X i j) <= lp_off mu q 1 T) /\
  (exists M X, D_lp_f pow f xi T = Ok M /\ exact_D f xi T = Ok X /\ forall i j, (i < 3)%nat -> (j < 3)%nat -> is_finite (M i j) = true /\ Rabs (B2R (M i j) - as_arr X i j) <= lp_off mu q 3 T).
Proof.
  intros pow mu q f xi T Hm Hq Hf Hx HT HP. destruct (parts mu q f xi Hm Hq Hf Hx) as (P & I & x1 & x2 & x3 & x4 & EP & EI & EX & Im & Em & HB).
  assert (u := unit_val). rewrite !pz in Hq. assert (Q := q_pos q Hq). destruct (t_range T HT) as [FT RT]. assert (T0 : 0 < B2R T) by (assert (Z := bpow_gt_0 radix2 (-64)); lra).
  destruct I as [[[[I1 I2] I3] I4] I5]. set (Bk := bracketsR I1 I2 I3 I4 I5 x1 x2 x3 x4) in *. split.
  - exists (fun i j => fmul T (P i j)), (mscale (B2R T) Bk). split; [unfold A_lp_f; rewrite EP; reflexivity|]. split.
    { unfold exact_A, construct. cbn [bind]. rewrite EX. cbn -[Invariants]. rewrite EI. cbn. f_equal. }
    intros i j Hi Hj. assert (HS : bp (-200) <= B2R T <= bp 200) by (split; [apply Rle_trans with (bp (-64)); [apply bpow_le; lia|lra]|apply Rle_trans with (bp 64); [lra|apply bpow_le; lia]]).
    destruct (scaled q mu T (B2R T) 0 (P i j) _ Hq Im Em HS FT ltac:(rewrite Rminus_diag_eq, Rabs_R0 by reflexivity; lra) ltac:(lra) (HB i j Hi Hj)) as (F & E & _). split; [exact F|].
    rewrite as_arr_scale by assumption. apply Rle_trans with (1 := E). unfold lp_off. rewrite pow_1. unfold Rdiv in *.
    repeat (apply Rmult_le_compat_r; [lra|]). lra.
  - destruct (HP T 3%nat HT (or_intror eq_refl)) as (t3 & E3 & F3 & A3).
    exists (fun i j => fdiv (fmul t3 (P i j)) (f_of_Z 12)), (mscale (B2R T ^ 3 / 12) Bk). split; [unfold D_lp_f; rewrite EP, E3; reflexivity|]. split.
    { unfold exact_D, construct. cbn [bind]. rewrite EX. cbn -[Invariants]. rewrite EI. cbn. f_equal. unfold Bk, bracketsR, mscale. cbn [a11 a12 a13 a21 a22 a23 a31 a32 a33]. f_equal; field. }
    intros i j Hi Hj. assert (S0 : 0 < B2R T ^ 3) by (apply pow_lt, T0).
    assert (HS : bp (-200) <= B2R T ^ 3 <= bp 200).
    { split.
      - apply Rle_trans with (bp (-64) ^ 3); [rewrite bpw; apply bpow_le; lia|apply pow_incr; split; [apply bpow_ge_0|lra]].
      - apply Rle_trans with (bp 64 ^ 3); [apply pow_incr; lra|rewrite bpw; apply bpow_le; lia]. }
    destruct (scaled q mu t3 (B2R T ^ 3) 3 (P i j) _ Hq Im Em HS F3 ltac:(exact A3) ltac:(lra) (HB i j Hi Hj)) as (F & E & Z).
    assert (V12 : B2R (f_of_Z 12) = 12) by (unfold B2R; cbn; unfold F2R; cbn; lra).
    assert (QSb : q * B2R T ^ 3 <= bp 390) by (replace 390%Z with (190 + 200)%Z by lia; rewrite bpow_plus; apply Rmult_le_compat; lra).
    assert (QS : 0 < q * B2R T ^ 3) by (apply Rmult_lt_0_compat; assumption).
    assert (D12 : forall z, Rabs (z / 12) = Rabs z / 12) by (intros z; unfold Rdiv; rewrite Rabs_mult, (Rabs_pos_eq (/ 12)) by lra; reflexivity).
    destruct (div_rnd (fmul t3 (P i j)) (f_of_Z 12) F ltac:(lra)) as [Fd Ed].
    { rewrite V12, D12. apply Rle_trans with (bp 2 * bp 390); [replace (bp 2) with 4 by (cbn; lra); lra|]. rewrite <- bpow_plus. apply bpow_le. lia. }
    split; [exact Fd|]. rewrite as_arr_scale by assumption. rewrite Ed, V12. destruct (rnd_err (B2R (fmul t3 (P i j)) / 12)) as (e & h & He & Hh & Er). rewrite Er. unfold lp_off.
    set (y := B2R (fmul t3 (P i j))) in *. set (b := as_arr Bk i j) in *. set (S := B2R T ^ 3) in *. clearbody y b S.
    replace (y / 12 * (1 + e) + h - S / 12 * b) with ((y - S * b) / 12 + y / 12 * e + h) by field.
    assert (Tn : bp (-1075) <= / 1000 * unit * (q * S)).
    { apply Rle_trans with (bp (-10) * bp (-53) * bp (-400)); [rewrite <- !bpow_plus; apply bpow_le; lia|]. rewrite <- unit_bp. apply Rmult_le_compat.
      - apply Rmult_le_pos; [apply bpow_ge_0|lra].
      - apply bpow_ge_0.
      - apply Rmult_le_compat_r; [lra|]. cbn. lra.
      - replace (-400)%Z with (-200 + -200)%Z by lia. rewrite bpow_plus. apply Rmult_le_compat; try apply bpow_ge_0; lra. }
    apply Rle_trans with (1 := Rabs_triang _ _). apply Rle_trans with (Rabs ((y - S * b) / 12) + Rabs (y / 12 * e) + Rabs h); [apply Rplus_le_compat_r, Rabs_triang|].
    rewrite D12, Rabs_mult, D12. assert (Y : Rabs y / 12 * Rabs e <= 5 / 2 * q * S / 12 * unit) by (apply Rmult_le_compat; try apply Rabs_pos; [assert (Z0 := Rabs_pos y)| |]; lra).
    assert (M0 : 0 <= / mu * unit) by (apply Rmult_le_pos; lra). assert (M1 : unit <= / mu * unit) by nra.
    replace (5 / mu * unit * q * S) with (5 * (/ mu * unit) * (q * S)) by (unfold Rdiv; ring).
    replace ((41 / mu + 23 / 10 * 3 + 23 / 10 + / 10) * unit * q * S) with ((41 * (/ mu * unit) + (92 / 10 + / 10) * unit) * (q * S)) in E by (unfold Rdiv; field; intros ->; rewrite Rinv_0 in Im; lra).
    nra.
Qed.

(** ** the buckling load *)
Lemma lp_same_lower (M : farr) : (forall i j, (i < 3)%nat -> (j < 3)%nat -> M i j = M j i) -> numbers (lower M) = numbers M.
Proof. intros H. unfold numbers, lower. cbn [Nat.leb]. rewrite (H 0%nat 1%nat), (H 0%nat 2%nat), (H 1%nat 2%nat) by lia. reflexivity. Qed.

(*@ C94: so if every curvature e stores at least nu |e|^2 and nu is above three times the error bound, the computed D is symmetric and positive definite, and the critical
    factor of the plate with it is within that share of the critical factor with the exact D: either exists when the other does. @*)
Lemma t_C94_factor : forall pow mu q nu f xi T (X : mat3) a b Nxx Nyy Nxy c c0 ca d0 db m n, powerRZ 2 (-40) <= mu -> powerRZ 2 (-200) <= q <= powerRZ 2 190 -> lp_ply mu q f -> four_parameters xi -> usual T -> pow_close pow ->
  exact_D f xi T = Ok X -> plate_any X a b c c0 ca d0 db -> (forall e, nu * dot e e <= quad X e) -> 3 * lp_off mu q 3 T < nu ->
  exists M : farr, D_lp_f pow f xi T = Ok M /\ symmetric (numbers M) /\ pos_def (numbers M) /\
    (forall l, critical X a b Nxx Nyy Nxy c m n l -> exists l', critical (numbers M) a b Nxx Nyy Nxy c m n l' /\ Rabs (l' - l) <= 3 * lp_off mu q 3 T / nu * l) /\
    (forall l', critical (numbers M) a b Nxx Nyy Nxy c m n l' -> exists l, critical X a b Nxx Nyy Nxy c m n l /\ Rabs (l' - l) <= 3 * lp_off mu q 3 T / nu * l).
Proof.
  intros pow mu q nu f xi T X a b Nxx Nyy Nxy c c0 ca d0 db m n Hm Hq Hf Hx HT HP EX P Hn Hs.
  destruct (t_C94_accurate pow mu q f xi T Hm Hq Hf Hx HT HP) as (_ & M & X' & EM & EX' & B). rewrite EX in EX'. apply Ok_inj in EX'. subst X'.
  assert (SM := proj2 (t_C94_symmetric pow f xi T) M EM).
  destruct (lower_within (lp_off mu q 3 T) M X (any_sym _ _ _ _ _ _ _ _ P) (fun i j Hi Hj => proj2 (B i j Hi Hj))) as [Sy W].
  exists M. split; [exact EM|]. rewrite <- (lp_same_lower M SM). split; [exact Sy|]. set (d := lp_off mu q 3 T) in *.
  assert (d0' : 0 <= d) by (destruct W as (W & _); eapply Rle_trans; [apply Rabs_pos|exact W]). assert (n0 : 0 < nu) by lra.
  split; [|apply (t_C86_entries d nu X (numbers (lower M)) a b Nxx Nyy Nxy c c0 ca d0 db m n P Sy Hn W Hs)].
  intros v Nv. assert (E := entry_between d nu X _ n0 Hn W v). assert (Pv := any_def _ _ _ _ _ _ _ _ P v Nv).
  assert (3 * d / nu < 1). { apply Rmult_lt_reg_r with nu; [exact n0|]. replace (3 * d / nu * nu) with (3 * d) by (field; lra). lra. }
  assert (0 < (1 - 3 * d / nu) * quad X v) by (apply Rmult_lt_0_compat; lra). lra.
Qed.

Lemma end_gen : forall o nu (X : mat3) (M : farr) pow dec a b Nxx Nyy Nxy c c0 ca d0 db m n N u (K KG : list (list R)) f l',
  (forall i j, (i < 3)%nat -> (j < 3)%nat -> Rabs (B2R (M i j) - as_arr X i j) <= o) -> pos_def (numbers (lower M)) ->
  (forall f, critical X (B2R a) (B2R b) (B2R Nxx) (B2R Nyy) (B2R Nxy) c m n f -> exists f', critical (numbers (lower M)) (B2R a) (B2R b) (B2R Nxx) (B2R Nyy) (B2R Nxy) c m n f' /\ Rabs (f' - f) <= 3 * o / nu * f) ->
  plate_ok X (B2R a) (B2R b) c c0 ca d0 db m n -> (forall e, nu * dot e e <= quad X e) -> 3 * o < nu ->
  usual_inputs pow dec M a b Nxx Nyy Nxy -> (N <= 30)%nat -> (m + taken c0 + taken ca <= N)%nat -> (n + taken d0 + taken db <= N)%nat ->
  calc_K_KG_D exact_tables (as_arr X) (B2R a) (B2R b) (B2R Nxx) (B2R Nyy) (B2R Nxy) c m n = Ok (K, KG) -> at_least u K ->
  let d := 3 * o / nu in
  let e := INR (m * n) * k_off (tolerance N + 16 * unit) (numbers (lower M)) (B2R a) (B2R b) / ((1 - d) * u) in
  let g := INR (m * n) * kG_off (tolerance N + 16 * unit) (B2R Nxx) (B2R Nyy) (B2R Nxy) (B2R a) (B2R b) / ((1 - d) * u) in
  INR (m * n) * k_off (tolerance N + 16 * unit) (numbers (lower M)) (B2R a) (B2R b) < (1 - d) * u ->
  critical X (B2R a) (B2R b) (B2R Nxx) (B2R Nyy) (B2R Nxy) c m n f ->
  (g * (1 + d) * f < 1 -> exists l', critical_float pow dec M a b Nxx Nyy Nxy c m n l') /\
  (critical_float pow dec M a b Nxx Nyy Nxy c m n l' -> Rabs (1 / f - 1 / l') <= (e + d * (1 + e)) / l' + (1 + d) * g).
Proof.
  intros o nu X M pow dec a b Nxx Nyy Nxy c c0 ca d0 db m n N u K KG f l' B Pd Fw P Hn Hs UI HN Hmm Hnn HK HU d e g He C.
  assert (Sy : symmetric (numbers (lower M))) by reflexivity.
  set (D := numbers (lower M)) in *. fold d in Fw.
  destruct (lower_within (o) M X (ok_sym _ _ _ _ _ _ _ _ _ _ P) B) as [_ W]. fold D in W.
  assert (o0 : 0 <= o) by (destruct W as (W & _); eapply Rle_trans; [apply Rabs_pos|exact W]). assert (n0 : 0 < nu) by lra.
  assert (D0 : 0 <= d < 1). { unfold d. split; [apply Rmult_le_pos; [lra|left; apply Rinv_0_lt_compat, n0]|]. apply Rmult_lt_reg_r with nu; [exact n0|]. replace (3 * o / nu * nu) with (3 * o) by (field; lra). lra. }
  assert (Bt := entry_between _ nu X D n0 Hn W). fold d in Bt.
  assert (P' : plate_ok D (B2R a) (B2R b) c c0 ca d0 db m n) by (destruct P; constructor; assumption).
  destruct (look_any X (B2R a) (B2R b) (B2R Nxx) (B2R Nyy) (B2R Nxy) c c0 ca d0 db m n (ok_any _ _ _ _ _ _ _ _ _ _ P)) as (idx & K1 & KG1 & V). destruct (look_any D (B2R a) (B2R b) (B2R Nxx) (B2R Nyy) (B2R Nxy) c c0 ca d0 db m n (ok_any _ _ _ _ _ _ _ _ _ _ P')) as (idx' & K2 & KG2 & V').
  assert (E := same_calc _ _ _ (v_idx _ _ _ _ _ _ _ _ _ _ _ _ V) (v_idx _ _ _ _ _ _ _ _ _ _ _ _ V')). subst idx'.
  assert (E := same_calc _ _ _ HK (v_calc _ _ _ _ _ _ _ _ _ _ _ _ V)). assert (E1 : K = K1) by congruence. subst K1. clear E.
  assert (U' : at_least ((1 - d) * u) K2).
  { intros cw L. rewrite (v_len _ _ _ _ _ _ _ _ _ _ _ _ V') in L. rewrite (v_K _ _ _ _ _ _ _ _ _ _ _ _ V' cw). specialize (HU cw ltac:(rewrite (v_len _ _ _ _ _ _ _ _ _ _ _ _ V); exact L)). rewrite (v_K _ _ _ _ _ _ _ _ _ _ _ _ V cw) in HU.
    set (w := combine_shapes (B2R a) (B2R b) (sw_idx idx) cw) in *. assert (Wn : nice (B2R a) (B2R b) w) by apply nice_combine.
    assert (Y := between_bending _ _ X D (B2R a) (B2R b) w (ok_a _ _ _ _ _ _ _ _ _ _ P) (ok_b _ _ _ _ _ _ _ _ _ _ P) Wn Bt). rewrite Rmult_assoc. eapply Rle_trans; [|apply Y]. apply Rmult_le_compat_l; [lra|exact HU]. }
  destruct (Fw f C) as (f' & C' & Ff). assert (CE := v_calc _ _ _ _ _ _ _ _ _ _ _ _ V').
  assert (f0 : 0 < f) by (destruct C as (? & ? & _ & (? & _)); assumption). assert (f0' : 0 < f') by (destruct C' as (? & ? & _ & (? & _)); assumption).
  split.
  - intros Hg. destruct (t_C77_exists pow dec (lower M) a b Nxx Nyy Nxy c c0 ca d0 db m n N _ K2 KG2 (usual_lower _ _ _ _ _ _ _ _ UI) P' HN Hmm Hnn CE U' He) as (_ & Ex & _).
    destruct (Ex f' C') as (x & Hx); [|exists x; exact Hx]. change (g < 1 / f'). apply Rmult_lt_reg_r with f'; [exact f0'|]. replace (1 / f' * f') with 1 by (field; lra).
    apply Rabs_le_between in Ff. assert (f' <= (1 + d) * f) by lra. destruct (Rle_dec g 0) as [Z|Z]; [|nra]. assert (0 <= - g * f') by (apply Rmult_le_pos; lra). lra.
  - intros Cf. assert (H := t_C77_close pow dec (lower M) a b Nxx Nyy Nxy c c0 ca d0 db m n N _ K2 KG2 f' l' (usual_lower _ _ _ _ _ _ _ _ UI) P' HN Hmm Hnn CE U' He C' Cf). cbv zeta in H. fold D in H. fold e g in H.
    assert (l0 : 0 < l') by (destruct Cf as (? & ? & _ & (? & _)); assumption).
    assert (Z : Rabs (1 / f - 1 / f') <= d * (1 / f')).
    { replace (1 / f - 1 / f') with ((f' - f) * / (f * f')) by (field; lra). rewrite Rabs_mult, (Rabs_pos_eq (/ (f * f'))) by (left; apply Rinv_0_lt_compat, Rmult_lt_0_compat; assumption).
      apply Rle_trans with (d * f * / (f * f')); [apply Rmult_le_compat_r; [left; apply Rinv_0_lt_compat, Rmult_lt_0_compat; assumption|exact Ff]|]. right. field. lra. }
    assert (T : 1 / f' <= (1 + e) / l' + g). { apply Rabs_le_between in H. unfold Rdiv in *. lra. }
    replace (1 / f - 1 / l') with ((1 / f - 1 / f') + (1 / f' - 1 / l')) by ring. eapply Rle_trans; [apply Rabs_triang|].
    assert (d * (1 / f') <= d * ((1 + e) / l' + g)) by (apply Rmult_le_compat_l; lra). unfold Rdiv in *. lra.
Qed.

(*@ C94, from the lamination parameters to the buckling load, the path of the optimisers: with D computed in binary64 from the parameters, K and KG assembled in binary64 from
    the stored tables, and the critical factor l' of those matrices, 1/l' differs from 1/l of the exact D and the exact tables by at most (e + d (1 + e)) / l' + (1 + d) g,
    where d is the share lost in D and e, g are those lost in the assembly. @*)
Lemma t_C94_end : forall mu q nu f xi T (X : mat3) (M : farr) pow dec a b Nxx Nyy Nxy c c0 ca d0 db m n N u (K KG : list (list R)) l l',
  powerRZ 2 (-40) <= mu -> powerRZ 2 (-200) <= q <= powerRZ 2 190 -> lp_ply mu q f -> four_parameters xi -> usual T ->
  exact_D f xi T = Ok X -> plate_ok X (B2R a) (B2R b) c c0 ca d0 db m n -> (forall e, nu * dot e e <= quad X e) -> 3 * lp_off mu q 3 T < nu ->
  D_lp_f pow f xi T = Ok M -> usual_inputs pow dec M a b Nxx Nyy Nxy -> (N <= 30)%nat -> (m + taken c0 + taken ca <= N)%nat -> (n + taken d0 + taken db <= N)%nat ->
  calc_K_KG_D exact_tables (as_arr X) (B2R a) (B2R b) (B2R Nxx) (B2R Nyy) (B2R Nxy) c m n = Ok (K, KG) -> at_least u K ->
  let d := 3 * lp_off mu q 3 T / nu in
  let e := INR (m * n) * k_off (tolerance N + 16 * unit) (numbers M) (B2R a) (B2R b) / ((1 - d) * u) in
  let g := INR (m * n) * kG_off (tolerance N + 16 * unit) (B2R Nxx) (B2R Nyy) (B2R Nxy) (B2R a) (B2R b) / ((1 - d) * u) in
  INR (m * n) * k_off (tolerance N + 16 * unit) (numbers M) (B2R a) (B2R b) < (1 - d) * u ->
  critical X (B2R a) (B2R b) (B2R Nxx) (B2R Nyy) (B2R Nxy) c m n l ->
  (g * (1 + d) * l < 1 -> exists l', critical_float pow dec M a b Nxx Nyy Nxy c m n l') /\
  (critical_float pow dec M a b Nxx Nyy Nxy c m n l' -> Rabs (1 / l - 1 / l') <= (e + d * (1 + e)) / l' + (1 + d) * g).
Proof.
  intros mu q nu f xi T X M pow dec a b Nxx Nyy Nxy c c0 ca d0 db m n N u K KG l l' Hm Hq Hf Hx HT EX P Hn Hs EM UI HN Hmm Hnn HK HU.
  assert (HP := ui_pow _ _ _ _ _ _ _ _ UI).
  destruct (t_C94_factor pow mu q nu f xi T X (B2R a) (B2R b) (B2R Nxx) (B2R Nyy) (B2R Nxy) c c0 ca d0 db m n Hm Hq Hf Hx HT HP EX (ok_any _ _ _ _ _ _ _ _ _ _ P) Hn Hs) as (M' & EM' & _ & Pd & Fw & _).
  rewrite EM in EM'. apply Ok_inj in EM'. subst M'.
  destruct (t_C94_accurate pow mu q f xi T Hm Hq Hf Hx HT HP) as (_ & M' & X' & EM' & EX' & B). rewrite EX in EX'. apply Ok_inj in EX'. subst X'. rewrite EM in EM'. apply Ok_inj in EM'. subst M'.
  assert (SM := proj2 (t_C94_symmetric pow f xi T) M EM). rewrite <- (lp_same_lower M SM) in Pd, Fw |- *.
  apply (end_gen (lp_off mu q 3 T) nu X M pow dec a b Nxx Nyy Nxy c c0 ca d0 db m n N u K KG l l' (fun i j Hi Hj => proj2 (B i j Hi Hj)) Pd Fw P Hn Hs UI HN Hmm Hnn HK HU).
Qed.

(*@ C94: the exact D meant here is the one the optimisers work with. @*)
Lemma t_C94_path : forall f xi1 xi3 T h, usual_ply f -> -1/2 <= B2R (fo_v12 f) <= 1/2 -> 0 <= h ->
  exact_D f [xi1; fzero; xi3; fzero] T = D_lp h (B2R (fo_e1 f)) (B2R (fo_e2 f)) (B2R (fo_v12 f)) (B2R (fo_g12 f)) (B2R T) (B2R xi1) (B2R xi3).
Proof.
  intros f xi1 xi3 T h U V H. destruct (up_e1 f U) as [_ P1], (up_e2 f U) as [_ P2], (up_g12 f U) as [_ P3].
  unfold D_lp, ortho_real, exact_D. repeat (destruct Rlt_dec; [lra|]). unfold pydiv at 1. destruct Req_EM_T; [lra|]. cbn [bind].
  assert (E : o_Q0 (exact_ply f) = o_Q0 (OMat (B2R (fo_e1 f)) (B2R (fo_e2 f)) (B2R (fo_v12 f)) (B2R (fo_g12 f)) h 0 0 0 0 0)) by reflexivity.
  unfold construct. cbn -[o_Q0 exact_ply]. rewrite E. change (B2R fzero) with 0. destruct (o_Q0 _); reflexivity.
Qed.

Definition ex_f : fomat := (made (f_of_Z 4) (f_of_Z 2) (f_of_Z_exp 1 (-2)) (f_of_Z 1) (f_of_Z_exp 1 (-3))).
Definition ex_xi : list f64 := [f_of_Z_exp 1 (-1); fzero; f_of_Z_exp 1 (-1); fzero].
Lemma ex_lp : lp_ply (1 / 2) 8 ex_f.
Proof. destruct ex_good as [G _]. unfold ex_lay in G. apply Forall_cons_iff in G. destruct G as ((_ & _ & Gp & St) & _). split; assumption. Qed.
Lemma one_val : B2R (f_of_Z_exp 1 0) = 1. Proof. destruct (f_of_Z_exp_denotes 1 0 ltac:(lia) ltac:(lia)) as [_ V]. rewrite V. cbn. ring. Qed.
Lemma half_val : B2R (f_of_Z_exp 1 (-1)) = / 2. Proof. destruct (f_of_Z_exp_denotes 1 (-1) ltac:(lia) ltac:(lia)) as [_ V]. rewrite V. cbn. lra. Qed.
Lemma ex_lpD : exact_D ex_f ex_xi (f_of_Z_exp 1 0) = Ok (M3 (439 / 1488) (73 / 1488) 0 (73 / 1488) (311 / 1488) 0 0 0 (133 / 1488)).
Proof.
  assert (E : Invariants (Ortho (exact_ply ex_f)) = Ok (183 / 62, 32 / 31, 9 / 62, 41 / 62, 71 / 62)).
  { assert (Q0 : o_Q0 (exact_ply ex_f) = Ok (M3 (128 / 31) (16 / 31) 0 (16 / 31) (64 / 31) 0 0 0 1)) by exact ex_Q0. unfold Invariants. rewrite Q0. cbn [bind]. unfold invariants_of_Q. cbn [a11 a12 a22 a33]. cbv zeta. apply f_equal. apply f_equal2; [apply f_equal2; [apply f_equal2; [apply f_equal2|]|]|]; field. }
  unfold exact_D, construct, ex_xi. cbn [map]. rewrite half_val, one_val. change (B2R fzero) with 0. cbn -[Invariants]. rewrite E. cbn. f_equal. f_equal; field.
Qed.

(*@ C94: the hypotheses are met by a ply with e1 = 4, e2 = 2, v12 = 1/4, g12 = 1, the parameters [1/2, 0, 1/2, 0] and thickness 1 on a pinned plate; the computed D has numbers
    of usual size, and the share lost in D is below 2^-35. @*)
Example t_C94_ex : exists pow f xi T (X : mat3) (M : farr), lp_ply (1 / 2) 8 f /\ four_parameters xi /\ usual T /\ pow_close pow /\ map (@B2R 53 1024) xi = [/ 2; 0; / 2; 0] /\ B2R T = 1 /\
  exact_D f xi T = Ok X /\ a11 X = 439 / 1488 /\ plate_ok X 2 2 (CStr "PINNED") Pinned Pinned Pinned Pinned 5 5 /\ (forall e, / 20 * dot e e <= quad X e) /\ 3 * lp_off (1 / 2) 8 3 T < / 20 /\
  3 * lp_off (1 / 2) 8 3 T / / 20 < powerRZ 2 (-35) /\ D_lp_f pow f xi T = Ok M /\ forall i j, (i < 3)%nat -> (j < 3)%nat -> usual0 (M i j).
Proof.
  exists pow_mul, ex_f, ex_xi, (f_of_Z_exp 1 0), (M3 (439 / 1488) (73 / 1488) 0 (73 / 1488) (311 / 1488) 0 0 0 (133 / 1488)).
  assert (Qd : forall e, / 20 * dot e e <= quad (M3 (439 / 1488) (73 / 1488) 0 (73 / 1488) (311 / 1488) 0 0 0 (133 / 1488)) e).
  { intros [x y z]. unfold quad, dot, mvec. cbn [vx vy vz a11 a12 a13 a21 a22 a23 a31 a32 a33]. assert (A := pow2_ge_0 (x + y)). assert (B := pow2_ge_0 x). assert (C := pow2_ge_0 y). assert (D := pow2_ge_0 z). lra. }
  assert (Ux : four_parameters ex_xi).
  { split; [reflexivity|]. assert (Fh : is_finite (f_of_Z_exp 1 (-1)) = true /\ Rabs (B2R (f_of_Z_exp 1 (-1))) <= 1001 / 1000) by (split; [vm_compute; reflexivity|rewrite half_val, Rabs_right; lra]).
    assert (Fz : is_finite fzero = true /\ Rabs (B2R fzero) <= 1001 / 1000) by (split; [reflexivity|change (B2R fzero) with 0; rewrite Rabs_R0; lra]).
    unfold ex_xi. repeat (apply Forall_cons; [assumption|]). apply Forall_nil. }
  assert (UT : usual (f_of_Z_exp 1 0)) by (apply usual_of; lia).
  assert (Lo : lp_off (1 / 2) 8 3 (f_of_Z_exp 1 0) = 80 * unit) by (unfold lp_off; rewrite one_val; field).
  assert (EM : exists M, D_lp_f pow_mul ex_f ex_xi (f_of_Z_exp 1 0) = Ok M).
  { destruct (t_C94_accurate pow_mul (1 / 2) 8 ex_f ex_xi (f_of_Z_exp 1 0)) as (_ & M & X & E & _); [rewrite pz; cbn; lra|rewrite !pz; split; [apply Rle_trans with (bp 0); [apply bpow_le; lia|cbn; lra]|apply Rle_trans with (bp 3); [cbn; lra|apply bpow_le; lia]]|exact ex_lp|exact Ux|exact UT|exact pow_mul_close|]. exists M. exact E. }
  destruct EM as (M & EM). exists M. split; [exact ex_lp|]. split; [exact Ux|]. split; [exact UT|]. split; [exact pow_mul_close|]. split; [unfold ex_xi; cbn [map]; rewrite half_val; reflexivity|]. split; [exact one_val|]. split; [exact ex_lpD|]. split; [reflexivity|]. split; [|split; [exact Qd|]].
  - constructor; try lra; try reflexivity.
    + intros e Ne. assert (P : 0 < dot e e).
      { destruct e as [x y z]. unfold dot. cbn [vx vy vz]. assert (A := pow2_ge_0 x). assert (B := pow2_ge_0 y). assert (C := pow2_ge_0 z). destruct (Req_dec (x * x + y * y + z * z) 0) as [E|E]; [|lra].
        exfalso. apply Ne. unfold vzero. f_equal; nra. }
      specialize (Qd e). lra.
    + constructor.
    + unfold restrained. cbn. do 4 right. lia.
    + cbn. lia.
    + cbn. lia.
  - rewrite Lo. split; [unfold unit; lra|]. split; [rewrite pz; unfold unit; cbn; lra|]. split; [exact EM|].
    assert (G : forall i j, (i < 3)%nat -> (j < 3)%nat -> match D_lp_f pow_mul ex_f ex_xi (f_of_Z_exp 1 0) with Ok N => is_finite (N i j) && (feq (N i j) fzero || (flt (f_of_Z_exp 1 (-20)) (N i j) && flt (N i j) (f_of_Z_exp 1 20))) | Err _ => false end = true).
    { intros i j Hi Hj. destruct i as [|[|[|i]]]; try lia; (destruct j as [|[|[|j]]]; try lia); vm_compute; reflexivity. }
    intros i j Hi Hj. specialize (G i j Hi Hj). rewrite EM in G. apply andb_prop in G. destruct G as [G1 G2]. apply usual_bool; assumption.
Qed.
