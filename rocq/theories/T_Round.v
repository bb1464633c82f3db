(** Proofs of the theorems on the matrices as assembled in binary64 *)
From Coq Require Import Reals ZArith Lra Lia Bool String.
From Coquelicot Require Import Coquelicot.
From Flocq Require Import Core.Core IEEE754.BinarySingleNaN.
From Coq Require Import List.
From Verif Require Import M_Py M_Plate M_K M_Tables M_Expr M_Float M_FloatArith M_RealArith M_Plot M_Buckling S_Validate S_Plate S_Mat S_Bardell S_Shape S_Energy S_K S_Ritz S_Eigen S_Compare S_Stored S_Round L_FirstK L_K L_KR L_Float L_TabV L_Quad L_Ritz L_Eigen L_Round L_RoundTab T_Plate T_Shape T_K T_Energy T_Buckling T_Compare T_Stored T_Perturb.
Import ListNotations.
Open Scope R_scope.
Notation length := List.length (only parsing).

Definition valk (x : f64) (v : R) : Prop := numk 1 60 x v /\ Rabs v <= 8 / 5.
Lemma pow2_bp k : powerRZ 2 k = bp k. Proof. symmetry. apply (bpow_powerRZ radix2). Qed.
Lemma usual_numk x : usual x -> numk 0 64 x (B2R x) /\ 0 < B2R x.
Proof.
  intros (F & L & U). rewrite pow2_bp in L, U. assert (P := bpow_gt_0 radix2 (-64)). split; [|lra]. split.
  - split; [exact F|]. rewrite Rminus_diag_eq, Rabs_R0 by reflexivity. lra.
  - right. rewrite Rabs_right by lra. split; assumption.
Qed.
Lemma usual0_numk x : usual0 x -> numk 0 200 x (B2R x).
Proof.
  intros (F & H). split.
  - split; [exact F|]. rewrite Rminus_diag_eq, Rabs_R0 by reflexivity. lra.
  - destruct H as [H|[L U]]; [left; exact H|right]. rewrite pow2_bp in L, U. split; assumption.
Qed.
Lemma int_numk z : small z = true -> (0 < z)%Z -> numk 0 53 (f_of_Z z) (IZR z).
Proof.
  intros H P. destruct (small_exact z H) as [F E]. split.
  - split; [exact F|]. rewrite E, Rminus_diag_eq, Rabs_R0 by reflexivity. lra.
  - right. apply andb_prop in H. destruct H as [_ H]. apply Z.ltb_lt, IZR_lt in H. assert (1 <= IZR z) by (apply IZR_le; lia). rewrite Rabs_right by lra. split.
    + apply Rle_trans with (bp 0); [apply bpow_le; lia|cbn; lra].
    + change (bp 53) with 9007199254740992. lra.
Qed.

Section Entry.
Context (pow : f64 -> nat -> res f64) (dec : Z -> Z -> f64) (HP : pow_close pow) (HD : dec_close dec).
Notation T := (stored (FA pow) dec).
Lemma read6 i k : (i < 30)%nat -> (k < 30)%nat -> exists x00 x10 x11 x20 x21 x22 : f64,
  (t_ff T i k = Ok x00 /\ valk x00 (e00 stored_e i k)) /\ (t_fxi_f T i k = Ok x10 /\ valk x10 (e10 stored_e i k)) /\
  (t_fxi_fxi T i k = Ok x11 /\ valk x11 (e11 stored_e i k)) /\ (t_fxixi_f T i k = Ok x20 /\ valk x20 (e20 stored_e i k)) /\
  (t_fxixi_fxi T i k = Ok x21 /\ valk x21 (e21 stored_e i k)) /\ (t_fxixi_fxixi T i k = Ok x22 /\ valk x22 (e22 stored_e i k)).
Proof.
  intros Hi Hk. destruct (tol_close 30 (le_n 30) i k Hi Hk) as (B1 & B2 & B3 & B4 & B5 & B6).
  destruct (stored_good i k Hi Hk) as (G1 & G2 & G3 & G4 & G5 & G6).
  assert (W : forall t v, tab_good t = true -> tab_at t i k = Ok v -> Rabs v <= 8 / 5 -> exists x, fl_at pow dec t i k = Ok x /\ valk x v).
  { intros t v H E B. destruct (read_table pow dec HD t i k H Hi Hk) as (x & v' & E1 & E2 & E3 & E4). rewrite E in E2.
    apply (f_equal (fun r => match r with Ok z => z | Err _ => 0 end)) in E2. subst v'. exists x. split; [exact E1|]. split; [|exact B]. split; [exact E3|].
    destruct E4 as [E4|E4]; [left; exact E4|right]. split; [exact E4|]. eapply Rle_trans; [exact B|]. apply Rle_trans with (bp 1); [cbn; lra|apply bpow_le; lia]. }
  destruct (W _ _ good_00 G1 (proj2 B1)) as (x1 & X1). destruct (W _ _ good_10 G2 (proj2 B2)) as (x2 & X2). destruct (W _ _ good_11 G3 (proj2 B3)) as (x3 & X3).
  destruct (W _ _ good_20 G4 (proj2 B4)) as (x4 & X4). destruct (W _ _ good_21 G5 (proj2 B5)) as (x5 & X5). destruct (W _ _ good_22 G6 (proj2 B6)) as (x6 & X6).
  exists x1, x2, x3, x4, x5, x6. repeat match goal with |- _ /\ _ => split end; first [apply X1|apply X2|apply X3|apply X4|apply X5|apply X6].
Qed.
Notation pm := (64 / 25).
Lemma prod1 x y v w : valk x v -> valk y w -> offk 8 pm 1 (fmul x y) (v * w).
Proof.
  intros [X BX] [Y BY]. destruct (mul_numk _ _ _ _ _ _ _ _ X Y ltac:(lra) ltac:(lra) ltac:(lia)) as [R0 _].
  apply (offk_of _ 8 _ _ pm 1 R0); try lra. rewrite Rabs_mult, Rmult_1_r. replace pm with (8 / 5 * (8 / 5)) by lra. apply Rmult_le_compat; try apply Rabs_pos; assumption.
Qed.
Lemma bp_le_800 : 10 <= bp 900.
Proof. apply Rle_trans with (bp 4); [cbn; lra|apply bpow_le; lia]. Qed.
Lemma prod2 x y v w x' y' v' w' : valk x v -> valk y w -> valk x' v' -> valk y' w' -> offk 11 pm 2 (fadd (fmul x y) (fmul x' y')) (v * w + v' * w').
Proof.
  intros X Y X' Y'. assert (L := bp_le_800). assert (Z := offk_add _ _ _ _ _ _ _ _ (prod1 _ _ _ _ X Y) (prod1 _ _ _ _ X' Y') ltac:(lra) ltac:(lra) ltac:(lra) ltac:(lra) ltac:(lra)).
  replace (1 + 1) with 2 in Z by ring. apply (offk_weak _ _ _ _ _ _ Z); lra.
Qed.
(** a term: coefficient times products *)
Lemma term_single p j x r y t : numk p j x r -> (j <= 800)%Z -> 0 <= p <= 62 / 10 -> offk 8 pm 1 y t -> offk 27 pm (Rabs r * 1) (fmul x y) (r * t).
Proof.
  intros X J P Y. apply (offk_weak (p * pm + 8 + pm + 1 / 10)); [apply (offk_scale p j); try assumption; lra|lra|]. rewrite Rmult_1_r. apply Rabs_pos.
Qed.
Lemma term_double p j x r y t : numk p j x r -> (j <= 800)%Z -> 0 <= p <= 51 / 10 -> offk 11 pm 2 y t -> offk 27 pm (Rabs r * 2) (fmul x y) (r * t).
Proof.
  intros X J P Y. apply (offk_weak (p * pm + 11 + pm + 1 / 10)); [apply (offk_scale p j); try assumption; lra|lra|]. assert (Z := Rabs_pos r). lra.
Qed.
Lemma numk_up p j x r : numk p j x r -> (j <= 800)%Z -> Rabs r <= bp 800.
Proof. intros [_ [-> |[_ H]]] L; [rewrite Rabs_R0; apply bpow_ge_0|]. eapply Rle_trans; [exact H|]. apply bpow_le, L. Qed.

Variables (a b : f64) (Ua : usual a) (Ub : usual b).
Let ra := B2R a. Let rb := B2R b.
Lemma ra_pos : 0 < ra /\ 0 < rb. Proof. split; [apply (usual_numk a Ua)|apply (usual_numk b Ub)]. Qed.
Lemma pow_numk x n : usual x -> n = 2%nat \/ n = 3%nat -> exists y, pow x n = Ok y /\ numk 3 192 y (B2R x ^ n) /\ B2R x ^ n <> 0.
Proof.
  intros U N. destruct (HP x n U N) as (y & E & F & B). destruct (usual_numk x U) as [[_ R0] P]. exists y. split; [exact E|].
  assert (Q := pow_lt (B2R x) n P). split; [|lra]. split.
  - split; [exact F|]. rewrite (Rabs_right (B2R x ^ n)) by lra. exact B.
  - destruct N as [-> | ->]; cbn [Rpow_def.pow].
    + apply (rng_weak (64 + (64 + 0))); [|lia]. repeat apply rng_mul; try exact R0. right. rewrite Rabs_R1. cbn. lra.
    + apply (rng_weak (64 + (64 + (64 + 0)))); [|lia]. repeat apply rng_mul; try exact R0. right. rewrite Rabs_R1. cbn. lra.
Qed.
Lemma fdiv_FA x y : feq y fzero = false -> ndiv (FA pow) x y = Ok (fdiv x y).
Proof. intros H. cbn [FA ndiv]. rewrite H. reflexivity. Qed.
(** the coefficients: side, ratio to a power, constant over a power, constant over the area *)
Lemma ratio3 x y : usual x -> usual y -> exists x3 q, pow x 3 = Ok x3 /\ ndiv (FA pow) y x3 = Ok q /\ numk (41 / 10) 256 q (B2R y / B2R x ^ 3).
Proof.
  intros Ux Uy. destruct (pow_numk x 3 Ux (or_intror eq_refl)) as (x3 & E & N & Z). destruct (usual_numk y Uy) as [Y _].
  destruct (div_numk _ _ _ _ _ _ _ _ Y N ltac:(lra) ltac:(lra) ltac:(lia) Z) as [Q R0]. exists x3, (fdiv y x3). split; [exact E|]. split; [apply fdiv_FA, Q|].
  apply (numk_weak _ _ _ _ _ R0). lra.
Qed.
Lemma over2 x z : usual x -> small z = true -> (0 < z)%Z -> exists x2 q, pow x 2 = Ok x2 /\ ndiv (FA pow) (f_of_Z z) x2 = Ok q /\ numk (404 / 100) 245 q (IZR z / B2R x ^ 2).
Proof.
  intros Ux Sz Pz. destruct (pow_numk x 2 Ux (or_introl eq_refl)) as (x2 & E & N & Z). assert (I := int_numk z Sz Pz).
  destruct (div_numk _ _ _ _ _ _ _ _ I N ltac:(lra) ltac:(lra) ltac:(lia) Z) as [Q R0]. exists x2, (fdiv (f_of_Z z) x2). split; [exact E|]. split; [apply fdiv_FA, Q|].
  apply (numk_weak _ _ _ _ _ R0). lra.
Qed.
Lemma over_area z : small z = true -> (0 < z)%Z -> exists q, ndiv (FA pow) (f_of_Z z) (fmul a b) = Ok q /\ numk (21 / 10) 181 q (IZR z / (ra * rb)).
Proof.
  intros Sz Pz. destruct (usual_numk a Ua) as [A Pa]. destruct (usual_numk b Ub) as [B Pb]. assert (I := int_numk z Sz Pz).
  assert (AB := mul_numk _ _ _ _ _ _ _ _ A B ltac:(lra) ltac:(lra) ltac:(lia)).
  destruct (div_numk _ _ _ _ _ _ _ _ I AB ltac:(lra) ltac:(lra) ltac:(lia)) as [Q R0].
  { apply Rgt_not_eq, Rmult_lt_0_compat; assumption. }
  exists (fdiv (f_of_Z z) (fmul a b)). split; [apply fdiv_FA, Q|]. apply (numk_weak _ _ _ _ _ R0). lra.
Qed.
Lemma times p j k x y r s : numk p j x r -> numk 0 k y s -> 0 <= p <= 100 -> (j + k <= 900)%Z -> numk (p + 104 / 100) (j + k) (fmul x y) (r * s).
Proof. intros X Y P J. apply (numk_weak (p + 0 + 1 + 3 / 100)); [apply mul_numk; try assumption; lra|lra]. Qed.
Lemma times_l p j k x y r s : numk 0 j x r -> numk p k y s -> 0 <= p <= 100 -> (j + k <= 900)%Z -> numk (p + 104 / 100) (j + k) (fmul x y) (r * s).
Proof. intros X Y P J. apply (numk_weak (0 + p + 1 + 3 / 100)); [apply mul_numk; try assumption; lra|lra]. Qed.

Lemma step k w v x y t s : offk k pm w x t -> offk 27 pm v y s -> 27 <= k <= 100 -> 0 <= w -> 0 <= v -> w + v <= bp 900 ->
  offk (k + 257 / 100) pm (w + v) (fadd x y) (t + s).
Proof.
  intros X Y K W V L. apply (offk_weak (k + pm + 1 / 100)); [|lra|lra]. apply offk_add; try assumption; try lra. apply (offk_weak 27); [exact Y|lra|exact V].
Qed.
Lemma chain6 w1 w2 w3 w4 w5 w6 x1 x2 x3 x4 x5 x6 t1 t2 t3 t4 t5 t6 :
  offk 27 pm w1 x1 t1 -> offk 27 pm w2 x2 t2 -> offk 27 pm w3 x3 t3 -> offk 27 pm w4 x4 t4 -> offk 27 pm w5 x5 t5 -> offk 27 pm w6 x6 t6 ->
  0 <= w1 <= bp 801 -> 0 <= w2 <= bp 801 -> 0 <= w3 <= bp 801 -> 0 <= w4 <= bp 801 -> 0 <= w5 <= bp 801 -> 0 <= w6 <= bp 801 ->
  offk 40 pm (w1 + w2 + w3 + w4 + w5 + w6) (fadd (fadd (fadd (fadd (fadd x1 x2) x3) x4) x5) x6) (t1 + t2 + t3 + t4 + t5 + t6).
Proof.
  intros T1 T2 T3 T4 T5 T6 W1 W2 W3 W4 W5 W6.
  assert (B : 8 * bp 801 <= bp 900) by (change 8 with (bp 3); rewrite <- bpow_plus; apply bpow_le; lia). set (z := bp 801) in *. clearbody z. set (y := bp 900) in *.
  assert (S2 := step _ _ _ _ _ _ _ T1 T2 ltac:(lra) ltac:(lra) ltac:(lra) ltac:(fold y; lra)).
  assert (S3 := step _ _ _ _ _ _ _ S2 T3 ltac:(lra) ltac:(lra) ltac:(lra) ltac:(fold y; lra)).
  assert (S4 := step _ _ _ _ _ _ _ S3 T4 ltac:(lra) ltac:(lra) ltac:(lra) ltac:(fold y; lra)).
  assert (S5 := step _ _ _ _ _ _ _ S4 T5 ltac:(lra) ltac:(lra) ltac:(lra) ltac:(fold y; lra)).
  assert (S6 := step _ _ _ _ _ _ _ S5 T6 ltac:(lra) ltac:(lra) ltac:(lra) ltac:(fold y; lra)).
  apply (offk_weak _ _ _ _ _ _ S6); lra.
Qed.
Lemma chain3 w1 w2 w3 x1 x2 x3 t1 t2 t3 :
  offk 27 pm w1 x1 t1 -> offk 27 pm w2 x2 t2 -> offk 27 pm w3 x3 t3 -> 0 <= w1 <= bp 801 -> 0 <= w2 <= bp 801 -> 0 <= w3 <= bp 801 ->
  offk 40 pm (w1 + w2 + w3) (fadd (fadd x1 x2) x3) (t1 + t2 + t3).
Proof.
  intros T1 T2 T3 W1 W2 W3.
  assert (B : 8 * bp 801 <= bp 900) by (change 8 with (bp 3); rewrite <- bpow_plus; apply bpow_le; lia). set (z := bp 801) in *. clearbody z. set (y := bp 900) in *.
  assert (S2 := step _ _ _ _ _ _ _ T1 T2 ltac:(lra) ltac:(lra) ltac:(lra) ltac:(fold y; lra)).
  assert (S3 := step _ _ _ _ _ _ _ S2 T3 ltac:(lra) ltac:(lra) ltac:(lra) ltac:(fold y; lra)).
  apply (offk_weak _ _ _ _ _ _ S3); lra.
Qed.
Lemma weight p j x r (v : R) : numk p j x r -> (j <= 800)%Z -> 1 <= v <= 2 -> 0 <= Rabs r * v <= bp 801.
Proof.
  intros N J V. assert (H := numk_up _ _ _ _ N J). assert (P := Rabs_pos r). split; [apply Rmult_le_pos; lra|].
  replace (bp 801) with (bp 800 * 2); [apply Rmult_le_compat; lra|]. change 2 with (bp 1). rewrite <- bpow_plus. reflexivity.
Qed.
Lemma k33_round i j k l (D11 D12 D22 D16 D26 D66 : f64) : (i < 30)%nat -> (j < 30)%nat -> (k < 30)%nat -> (l < 30)%nat ->
  usual0 D11 -> usual0 D12 -> usual0 D22 -> usual0 D16 -> usual0 D26 -> usual0 D66 ->
  exists x, calc_k33 T a b ((i, j), (k, l)) D11 D12 D22 D16 D26 D66 = Ok x /\ is_finite x = true /\
    Rabs (B2R x - k33f stored_e ra rb ((i, j), (k, l)) (B2R D11) (B2R D12) (B2R D22) (B2R D16) (B2R D26) (B2R D66))
    <= 40 * unit * (4 * rb / ra ^ 3 * Rabs (B2R D11) + 8 / (ra * rb) * Rabs (B2R D12) + 4 * ra / rb ^ 3 * Rabs (B2R D22)
                 + 16 / ra ^ 2 * Rabs (B2R D16) + 16 / rb ^ 2 * Rabs (B2R D26) + 16 / (ra * rb) * Rabs (B2R D66)).
Proof.
  intros Hi Hj Hk Hl U1 U2 U3 U4 U5 U6. 
  destruct (read6 i k Hi Hk) as (p00 & p10 & p11 & p20 & p21 & p22 & (Hp00 & Vp00) & (Hp10 & Vp10) & (Hp11 & Vp11) & (Hp20 & Vp20) & (Hp21 & Vp21) & (Hp22 & Vp22)).
  destruct (read6 j l Hj Hl) as (q00 & q10 & q11 & q20 & q21 & q22 & (Hq00 & Vq00) & (Hq10 & Vq10) & (Hq11 & Vq11) & (Hq20 & Vq20) & (Hq21 & Vq21) & (Hq22 & Vq22)).
  destruct (read6 k i Hk Hi) as (r00 & r10 & r11 & r20 & r21 & r22 & (Hr00 & Vr00) & (Hr10 & Vr10) & (Hr11 & Vr11) & (Hr20 & Vr20) & (Hr21 & Vr21) & (Hr22 & Vr22)).
  destruct (read6 l j Hl Hj) as (s00 & s10 & s11 & s20 & s21 & s22 & (Hs00 & Vs00) & (Hs10 & Vs10) & (Hs11 & Vs11) & (Hs20 & Vs20) & (Hs21 & Vs21) & (Hs22 & Vs22)).
  apply usual0_numk in U1, U2, U3, U4, U5, U6.
  destruct (ratio3 a b Ua Ub) as (a3 & c11 & Ea3 & Ec11 & N11). destruct (ratio3 b a Ub Ua) as (b3 & c22 & Eb3 & Ec22 & N22).
  destruct (over2 a 8 Ua eq_refl eq_refl) as (a2 & c16 & Ea2 & Ec16 & N16). destruct (over2 b 8 Ub eq_refl eq_refl) as (b2 & c26 & Eb2 & Ec26 & N26).
  destruct (over_area 4 eq_refl eq_refl) as (c12 & Ec12 & N12). destruct (over_area 16 eq_refl eq_refl) as (c66 & Ec66 & N66).
  assert (I4 := int_numk 4 eq_refl eq_refl).
  assert (M11 := times _ _ _ _ _ _ _ (times_l _ _ _ _ _ _ _ I4 N11 ltac:(lra) ltac:(lia)) U1 ltac:(lra) ltac:(lia)).
  assert (M12 := times _ _ _ _ _ _ _ N12 U2 ltac:(lra) ltac:(lia)).
  assert (M22 := times _ _ _ _ _ _ _ (times_l _ _ _ _ _ _ _ I4 N22 ltac:(lra) ltac:(lia)) U3 ltac:(lra) ltac:(lia)).
  assert (M16 := times _ _ _ _ _ _ _ N16 U4 ltac:(lra) ltac:(lia)).
  assert (M26 := times _ _ _ _ _ _ _ N26 U5 ltac:(lra) ltac:(lia)).
  assert (M66 := times _ _ _ _ _ _ _ N66 U6 ltac:(lra) ltac:(lia)).
  unfold calc_k33. cbn [fst snd]. unfold ii_ff, ii_fxi_f, ii_f_fxi, ii_fxi_fxi, ii_fxixi_f, ii_f_fxixi, ii_fxixi_fxi, ii_fxi_fxixi, ii_fxixi_fxixi, mul2. cbn [fst snd].
  repeat match goal with H : _ T _ _ = Ok _ |- _ => rewrite H; clear H end. cbn [bind]. change (npow (FA pow)) with pow. change (nmul (FA pow)) with fmul. change (nint (FA pow)) with f_of_Z. change (nadd (FA pow)) with fadd.
  rewrite Ea3. cbn [bind]. rewrite Ec11. cbn [bind]. rewrite Ec12. cbn [bind]. rewrite Eb3. cbn [bind]. rewrite Ec22. cbn [bind].
  rewrite Ea2. cbn [bind]. rewrite Ec16. cbn [bind]. rewrite Eb2. cbn [bind]. rewrite Ec26. cbn [bind]. rewrite Ec66. cbn [bind].
  eexists. split; [reflexivity|].
  assert (T1 := term_single _ _ _ _ _ _ M11 ltac:(lia) ltac:(lra) (prod1 _ _ _ _ Vp22 Vq00)).
  assert (T2 := term_double _ _ _ _ _ _ M12 ltac:(lia) ltac:(lra) (prod2 _ _ _ _ _ _ _ _ Vp20 Vs20 Vr20 Vq20)).
  assert (T3 := term_single _ _ _ _ _ _ M22 ltac:(lia) ltac:(lra) (prod1 _ _ _ _ Vp00 Vq22)).
  assert (T4 := term_double _ _ _ _ _ _ M16 ltac:(lia) ltac:(lra) (prod2 _ _ _ _ _ _ _ _ Vp21 Vs10 Vr21 Vq10)).
  assert (T5 := term_double _ _ _ _ _ _ M26 ltac:(lia) ltac:(lra) (prod2 _ _ _ _ _ _ _ _ Vp10 Vs21 Vr10 Vq21)).
  assert (T6 := term_single _ _ _ _ _ _ M66 ltac:(lia) ltac:(lra) (prod1 _ _ _ _ Vp11 Vq11)).
  destruct (chain6 _ _ _ _ _ _ _ _ _ _ _ _ _ _ _ _ _ _ T1 T2 T3 T4 T5 T6) as (F & B & _); try (eapply weight; [eassumption|lia|lra]).
  split; [exact F|]. fold ra rb in B. eapply Rle_trans; [exact B|]. apply Req_le. f_equal. destruct ra_pos as [Pa Pb].
  assert (Z : forall x y, 0 < x -> Rabs (x * y) = x * Rabs y) by (intros x y P; rewrite Rabs_mult, (Rabs_right x) by lra; reflexivity).
  assert (P3 := pow_lt ra 3 Pa). assert (Q3 := pow_lt rb 3 Pb). assert (P2 := pow_lt ra 2 Pa). assert (Q2 := pow_lt rb 2 Pb).
  assert (PQ : 0 < ra * rb) by (apply Rmult_lt_0_compat; assumption).
  assert (Y : forall x y, 0 < x -> 0 < y -> 0 < x / y) by (intros x y P Q; apply Rdiv_lt_0_compat; assumption).
  rewrite !Z by (first [apply Rmult_lt_0_compat; [lra|apply Y; assumption]|apply Y; lra]). unfold Rdiv. ring.
Qed.
Lemma kG_round i j k l (Nxx Nyy Nxy : f64) : (i < 30)%nat -> (j < 30)%nat -> (k < 30)%nat -> (l < 30)%nat ->
  usual0 Nxx -> usual0 Nyy -> usual0 Nxy ->
  exists x, calc_kG33 T a b ((i, j), (k, l)) Nxx Nyy Nxy = Ok x /\ is_finite x = true /\
    Rabs (B2R x - kGf stored_e ra rb ((i, j), (k, l)) (B2R Nxx) (B2R Nyy) (B2R Nxy))
    <= 40 * unit * (rb / ra * Rabs (B2R Nxx) + ra / rb * Rabs (B2R Nyy) + 2 * Rabs (B2R Nxy)).
Proof.
  intros Hi Hj Hk Hl U1 U2 U3.
  destruct (read6 i k Hi Hk) as (p00 & p10 & p11 & p20 & p21 & p22 & (Hp00 & Vp00) & (Hp10 & Vp10) & (Hp11 & Vp11) & (Hp20 & Vp20) & (Hp21 & Vp21) & (Hp22 & Vp22)).
  destruct (read6 j l Hj Hl) as (q00 & q10 & q11 & q20 & q21 & q22 & (Hq00 & Vq00) & (Hq10 & Vq10) & (Hq11 & Vq11) & (Hq20 & Vq20) & (Hq21 & Vq21) & (Hq22 & Vq22)).
  destruct (read6 k i Hk Hi) as (r00 & r10 & r11 & r20 & r21 & r22 & (Hr00 & Vr00) & (Hr10 & Vr10) & (Hr11 & Vr11) & (Hr20 & Vr20) & (Hr21 & Vr21) & (Hr22 & Vr22)).
  destruct (read6 l j Hl Hj) as (s00 & s10 & s11 & s20 & s21 & s22 & (Hs00 & Vs00) & (Hs10 & Vs10) & (Hs11 & Vs11) & (Hs20 & Vs20) & (Hs21 & Vs21) & (Hs22 & Vs22)).
  apply usual0_numk in U1, U2, U3. destruct ra_pos as [Pa Pb]. destruct (usual_numk a Ua) as [A _]. destruct (usual_numk b Ub) as [B _].
  destruct (div_numk _ _ _ _ _ _ _ _ B A ltac:(lra) ltac:(lra) ltac:(lia) ltac:(fold ra; lra)) as [Z1 N1].
  destruct (div_numk _ _ _ _ _ _ _ _ A B ltac:(lra) ltac:(lra) ltac:(lia) ltac:(fold rb; lra)) as [Z2 N2].
  assert (M1 := times_l _ _ _ _ _ _ _ U1 N1 ltac:(lra) ltac:(lia)). assert (M2 := times_l _ _ _ _ _ _ _ U2 N2 ltac:(lra) ltac:(lia)).
  unfold calc_kG33. cbn [fst snd]. unfold ii_ff, ii_fxi_f, ii_f_fxi, ii_fxi_fxi, mul2. cbn [fst snd].
  repeat match goal with H : _ T _ _ = Ok _ |- _ => rewrite H; clear H end. cbn [bind]. change (nmul (FA pow)) with fmul. change (nadd (FA pow)) with fadd.
  rewrite !fdiv_FA by assumption. cbn [bind]. eexists. split; [reflexivity|].
  assert (T1 := term_single _ _ _ _ _ _ M1 ltac:(lia) ltac:(lra) (prod1 _ _ _ _ Vp11 Vq00)).
  assert (T2 := term_single _ _ _ _ _ _ M2 ltac:(lia) ltac:(lra) (prod1 _ _ _ _ Vp00 Vq11)).
  assert (T3 := term_double _ _ _ _ _ _ U3 ltac:(lia) ltac:(lra) (prod2 _ _ _ _ _ _ _ _ Vr10 Vq10 Vp10 Vs10)).
  destruct (chain3 _ _ _ _ _ _ _ _ _ T1 T2 T3) as (F & E & _); try (eapply weight; [eassumption|lia|lra]).
  split; [exact F|]. fold ra rb in E. eapply Rle_trans; [exact E|]. apply Req_le. f_equal.
  assert (Y : forall x y, 0 < x -> 0 < y -> 0 < x / y) by (intros x y P Q; apply Rdiv_lt_0_compat; assumption).
  rewrite !Rabs_mult, (Rabs_right (rb / ra)), (Rabs_right (ra / rb)) by (apply Rle_ge, Rlt_le, Y; assumption). ring.
Qed.
End Entry.

(** ** plates *)
Lemma k_off_add e e' D a b : k_off (e + e') D a b = k_off e D a b + k_off e' D a b. Proof. unfold k_off. ring. Qed.
Lemma kG_off_add e e' Nxx Nyy Nxy a b : kG_off (e + e') Nxx Nyy Nxy a b = kG_off e Nxx Nyy Nxy a b + kG_off e' Nxx Nyy Nxy a b. Proof. unfold kG_off. ring. Qed.
Lemma off_pos e D a b Nxx Nyy Nxy : 0 <= e -> 0 < a -> 0 < b -> 0 <= k_off e D a b /\ 0 <= kG_off e Nxx Nyy Nxy a b.
Proof.
  intros He Ha Hb. assert (T := tol_small 30). assert (A := k_off_pos 30 D a b Ha Hb). assert (B := kG_off_pos 30 Nxx Nyy Nxy a b Ha Hb). 
  replace (k_off e D a b) with (e / tolerance 30 * k_off (tolerance 30) D a b) by (unfold k_off; field; lra).
  replace (kG_off e Nxx Nyy Nxy a b) with (e / tolerance 30 * kG_off (tolerance 30) Nxx Nyy Nxy a b) by (unfold kG_off; field; lra).
  assert (0 <= e / tolerance 30) by (apply Rmult_le_pos; [lra|left; apply Rinv_0_lt_compat; lra]). split; apply Rmult_le_pos; assumption.
Qed.
Section Fwd.
Context (pow : f64 -> nat -> res f64) (dec : Z -> Z -> f64) (D : nat -> nat -> f64) (a b Nxx Nyy Nxy : f64) (UI : usual_inputs pow dec D a b Nxx Nyy Nxy).
Notation T := (stored (FA pow) dec).
Let Dr := numbers D. Let ra := B2R a. Let rb := B2R b. Let lx := B2R Nxx. Let ly := B2R Nyy. Let lxy := B2R Nxy.
Definition kf (pq : idx4) : f64 := match calc_k33 T a b pq (D 0 0)%nat (D 1 0)%nat (D 1 1)%nat (D 2 0)%nat (D 2 1)%nat (D 2 2)%nat with Ok x => x | Err _ => fzero end.
Definition gf (pq : idx4) : f64 := match calc_kG33 T a b pq Nxx Nyy Nxy with Ok x => x | Err _ => fzero end.
Lemma kf_ok i j k l : (i < 30)%nat -> (j < 30)%nat -> (k < 30)%nat -> (l < 30)%nat -> let q := ((i, j), (k, l)) in
  calc_k33 T a b q (D 0 0)%nat (D 1 0)%nat (D 1 1)%nat (D 2 0)%nat (D 2 1)%nat (D 2 2)%nat = Ok (kf q) /\ is_finite (kf q) = true /\
  Rabs (B2R (kf q) - kx Dr ra rb stored_e q) <= k_off (16 * unit) Dr ra rb.
Proof.
  intros Hi Hj Hk Hl q. destruct UI as [HP HD UD Ua Ub U1 U2 U3].
  destruct (k33_round pow dec HP HD a b Ua Ub i j k l (D 0 0)%nat (D 1 0)%nat (D 1 1)%nat (D 2 0)%nat (D 2 1)%nat (D 2 2)%nat Hi Hj Hk Hl) as (x & E & F & B); try (apply UD; lia).
  unfold kf. fold q in E. rewrite E. split; [reflexivity|]. split; [exact F|]. unfold kx, Dr, numbers. cbn [a11 a21 a22 a31 a32 a33]. eapply Rle_trans; [exact B|].
  assert (P : 0 <= k_off 1 Dr ra rb) by (apply (off_pos 1 Dr ra rb 0 0 0); [lra|apply (usual_numk a Ua)|apply (usual_numk b Ub)]).
  unfold k_off, Dr, numbers in *. cbn [a11 a21 a22 a31 a32 a33] in *. fold ra rb. 
  match goal with |- _ * ?S <= _ => set (w := S) in * end. assert (W : 0 <= w) by lra. assert (u := unit_val).
  apply Rle_trans with (33 / 10 * (16 * unit) * w); [apply Rmult_le_compat_r; lra|]. apply Req_le. unfold w. reflexivity.
Qed.
Lemma gf_ok i j k l : (i < 30)%nat -> (j < 30)%nat -> (k < 30)%nat -> (l < 30)%nat -> let q := ((i, j), (k, l)) in
  calc_kG33 T a b q Nxx Nyy Nxy = Ok (gf q) /\ is_finite (gf q) = true /\
  Rabs (B2R (gf q) - kGf stored_e ra rb q lx ly lxy) <= kG_off (16 * unit) lx ly lxy ra rb.
Proof.
  intros Hi Hj Hk Hl q. destruct UI as [HP HD UD Ua Ub U1 U2 U3].
  destruct (kG_round pow dec HD a b Ua Ub i j k l Nxx Nyy Nxy Hi Hj Hk Hl U1 U2 U3) as (x & E & F & B).
  unfold gf. fold q in E. rewrite E. split; [reflexivity|]. split; [exact F|]. eapply Rle_trans; [exact B|].
  assert (P : 0 <= kG_off 1 lx ly lxy ra rb) by (apply (off_pos 1 Dr ra rb lx ly lxy); [lra|apply (usual_numk a Ua)|apply (usual_numk b Ub)]).
  unfold kG_off in *. fold ra rb lx ly lxy. 
  match goal with |- _ * ?S <= _ => set (w := S) in * end. assert (W : 0 <= w) by lra. assert (u := unit_val).
  apply Rmult_le_compat_r; lra.
Qed.
Lemma float_fwd c m n idx : compute_constraints c m n = Ok idx -> (forall p, In p (sw_idx idx) -> (fst p < 30)%nat /\ (snd p < 30)%nat) ->
  calc_K_KG_D T D a b Nxx Nyy Nxy c m n = Ok (
   map (fun p => map (fun q => kf (p, q)) (sw_idx idx)) (sw_idx idx), map (fun p => map (fun q => gf (p, q)) (sw_idx idx)) (sw_idx idx)).
Proof.
  intros E B. apply (K_D_ok T D a b Nxx Nyy Nxy c m n idx kf gf E).
  intros [i j] [k l] Ip Iq. destruct (B _ Ip) as [B1 B2], (B _ Iq) as [B3 B4]. cbn [fst snd] in *. unfold ent_D.
  destruct (kf_ok i j k l B1 B2 B3 B4) as [E1 _]. destruct (gf_ok i j k l B1 B2 B3 B4) as [E2 _]. rewrite E1. cbn [bind]. rewrite E2. reflexivity.
Qed.
End Fwd.

Lemma idx_below c c0 ca d0 db m n M : specifies c c0 ca d0 db -> (m + taken c0 + taken ca <= M)%nat -> (n + taken d0 + taken db <= M)%nat ->
  exists idx, compute_constraints c m n = Ok idx /\ length (sw_idx idx) = (m * n)%nat /\ forall p, In p (sw_idx idx) -> (fst p < M)%nat /\ (snd p < M)%nat.
Proof.
  intros Sp Hm Hn. destruct (named_struct c c0 ca d0 db m n Sp) as (idx & fx & fy & E & Fx & Fy & RM). exists idx. split; [exact E|].
  split; [apply (compute_struct _ _ _ _ E)|].
  intros [i j] J. destruct (row_major_in _ _ _ _ _ RM J) as [Ii Ij].
  assert (Bx := admissible_below _ _ _ _ Fx). assert (By := admissible_below _ _ _ _ Fy). rewrite Forall_forall in Bx, By.
  specialize (Bx i Ii). specialize (By j Ij). cbn [fst snd]. lia.
Qed.
Lemma map_within {X} (f : X -> X -> f64) (g : X -> X -> R) (l : list X) e : (forall p q, In p l -> In q l -> Rabs (B2R (f p q) - g p q) <= e) ->
  entries_within e (map (fun p => map (f p) l) l) (map (fun p => map (g p) l) l).
Proof.
  intros H r s x y. rewrite (entry_map f l), (entry_map g l).
  destruct (nth_error l r) as [p|] eqn:P; [|discriminate]. destruct (nth_error l s) as [q|] eqn:Q; [|discriminate].
  intros E1 E2. injection E1 as <-. injection E2 as <-. apply H; [apply (nth_error_In _ _ P)|apply (nth_error_In _ _ Q)].
Qed.
Lemma map_fin {X} (f : X -> X -> f64) (l : list X) : (forall p q, In p l -> In q l -> is_finite (f p q) = true) -> all_finite (map (fun p => map (f p) l) l).
Proof.
  intros H. apply Forall_forall. intros row I. apply in_map_iff in I. destruct I as (p & <- & Ip). apply Forall_forall. intros x I.
  apply in_map_iff in I. destruct I as (q & <- & Iq). apply H; assumption.
Qed.
Lemma map_sq {X Y} (f : X -> X -> Y) l : square (length l) (map (fun p => map (f p) l) l).
Proof. split; [apply map_length|]. apply Forall_forall. intros row I. apply in_map_iff in I. destruct I as (p & <- & _). apply map_length. Qed.

(*@ C77: for lengths, stiffnesses and loads of usual size the assembly in binary64 succeeds; every entry is finite, both matrices are square and
    symmetric to the last bit, and each entry is within 16 units of the same entry computed exactly from the stored integrals, counted in the weights
    of k_off and kG_off. @*)
Lemma t_C77_rounding : forall pow dec D a b Nxx Nyy Nxy c c0 ca d0 db m n, usual_inputs pow dec D a b Nxx Nyy Nxy -> specifies c c0 ca d0 db ->
  (m + taken c0 + taken ca <= 30)%nat -> (n + taken d0 + taken db <= 30)%nat ->
  exists (K KG : list (list f64)) (K' KG' : list (list R)), calc_K_KG_D (stored (FA pow) dec) D a b Nxx Nyy Nxy c m n = Ok (K, KG) /\
    all_finite K /\ all_finite KG /\ square (m * n) K /\ square (m * n) KG /\ sym_rows K /\ sym_rows KG /\
    calc_K_KG_D stored_R (as_arr (numbers D)) (B2R a) (B2R b) (B2R Nxx) (B2R Nyy) (B2R Nxy) c m n = Ok (K', KG') /\ square (m * n) K' /\ square (m * n) KG' /\
    entries_within (k_off (16 * unit) (numbers D) (B2R a) (B2R b)) K K' /\
    entries_within (kG_off (16 * unit) (B2R Nxx) (B2R Nyy) (B2R Nxy) (B2R a) (B2R b)) KG KG'.
Proof.
  intros pow dec D a b Nxx Nyy Nxy c c0 ca d0 db m n UI Sp Hm Hn. destruct (idx_below c c0 ca d0 db m n 30 Sp Hm Hn) as (idx & E & L & I).
  assert (Pa := proj2 (usual_numk a (ui_a _ _ _ _ _ _ _ _ UI))). assert (Pb := proj2 (usual_numk b (ui_b _ _ _ _ _ _ _ _ UI))).
  assert (H := float_fwd pow dec D a b Nxx Nyy Nxy UI c m n idx E I). assert (H' := stored_fwd (numbers D) (B2R a) (B2R b) (B2R Nxx) (B2R Nyy) (B2R Nxy) c m n idx ltac:(lra) ltac:(lra) E I).
  eexists _, _, _, _. split; [exact H|]. rewrite <- L.
  split. { apply (map_fin (fun p q => kf pow dec D a b (p, q))). intros [i j] [k l] Ip Iq. destruct (I _ Ip), (I _ Iq). apply (kf_ok pow dec D a b Nxx Nyy Nxy UI); assumption. }
  split. { apply (map_fin (fun p q => gf pow dec a b Nxx Nyy Nxy (p, q))). intros [i j] [k l] Ip Iq. destruct (I _ Ip), (I _ Iq). apply (gf_ok pow dec D a b Nxx Nyy Nxy UI); assumption. }
  split; [apply (map_sq (fun p q => kf pow dec D a b (p, q)))|]. split; [apply (map_sq (fun p q => gf pow dec a b Nxx Nyy Nxy (p, q)))|].
  destruct (t_C39_symmetric (FA pow) dec (proj1 t_C39_arithmetics pow) D a b Nxx Nyy Nxy c m n _ _ H) as [Y1 Y2]. split; [exact Y1|]. split; [exact Y2|].
  split; [exact H'|]. split; [apply (map_sq (fun p q => kx (numbers D) (B2R a) (B2R b) stored_e (p, q)))|]. split; [apply (map_sq (fun p q => kGf stored_e (B2R a) (B2R b) (p, q) _ _ _))|].
  split.
  - apply (map_within (fun p q => kf pow dec D a b (p, q)) (fun p q => kx (numbers D) (B2R a) (B2R b) stored_e (p, q))).
    intros [i j] [k l] Ip Iq. destruct (I _ Ip), (I _ Iq). apply (kf_ok pow dec D a b Nxx Nyy Nxy UI); assumption.
  - apply (map_within (fun p q => gf pow dec a b Nxx Nyy Nxy (p, q)) (fun p q => kGf stored_e (B2R a) (B2R b) (p, q) _ _ _)).
    intros [i j] [k l] Ip Iq. destruct (I _ Ip), (I _ Iq). apply (gf_ok pow dec D a b Nxx Nyy Nxy UI); assumption.
Qed.

Lemma entry_maps {X Y} (f : X -> Y) (M : list (list X)) r s : entry (map (map f) M) r s = option_map f (entry M r s).
Proof. unfold entry. rewrite nth_error_map. destruct (nth_error M r) as [row|]; [cbn [option_map]; apply nth_error_map|reflexivity]. Qed.
Lemma reals_entry (M : list (list f64)) r s : entry (reals M) r s = option_map (@B2R 53 1024) (entry M r s).
Proof. apply entry_maps. Qed.
Section Core.
Context (pow : f64 -> nat -> res f64) (dec : Z -> Z -> f64) (D : nat -> nat -> f64) (a b Nxx Nyy Nxy : f64) (UI : usual_inputs pow dec D a b Nxx Nyy Nxy).
Let Dr := numbers D. Let ra := B2R a. Let rb := B2R b. Let lx := B2R Nxx. Let ly := B2R Nyy. Let lxy := B2R Nxy.
Variables (c : constraints) (m n : nat) (idx : index_sets) (E : compute_constraints c m n = Ok idx) (L : length (sw_idx idx) = (m * n)%nat)
  (I : forall p, In p (sw_idx idx) -> (fst p < 30)%nat /\ (snd p < 30)%nat) (t : R) (Ht : 0 <= t)
  (TK : forall p q, In p (sw_idx idx) -> In q (sw_idx idx) -> Rabs (kx Dr ra rb stored_e (p, q) - kx Dr ra rb exact_e (p, q)) <= k_off t Dr ra rb)
  (TG : forall p q, In p (sw_idx idx) -> In q (sw_idx idx) -> Rabs (kGf stored_e ra rb (p, q) lx ly lxy - kGf exact_e ra rb (p, q) lx ly lxy) <= kG_off t lx ly lxy ra rb).
Let e := t + 16 * unit.
Lemma kf_exact p q : In p (sw_idx idx) -> In q (sw_idx idx) -> Rabs (B2R (kf pow dec D a b (p, q)) - kx Dr ra rb exact_e (p, q)) <= k_off e Dr ra rb.
Proof.
  intros Ip Iq. assert (A := TK p q Ip Iq). destruct (I p Ip), (I q Iq). destruct p as [i j], q as [k l]. cbn [fst snd] in *.
  destruct (kf_ok pow dec D a b Nxx Nyy Nxy UI i j k l) as (_ & _ & B); try assumption. fold Dr ra rb in B.
  unfold e. rewrite k_off_add. rewrite (Rplus_comm (k_off t _ _ _)). eapply Rle_trans; [|apply Rplus_le_compat; [exact B|exact A]].
  eapply Rle_trans; [|apply Rabs_triang]. apply Req_le. f_equal. ring.
Qed.
Lemma gf_exact p q : In p (sw_idx idx) -> In q (sw_idx idx) -> Rabs (B2R (gf pow dec a b Nxx Nyy Nxy (p, q)) - kGf exact_e ra rb (p, q) lx ly lxy) <= kG_off e lx ly lxy ra rb.
Proof.
  intros Ip Iq. assert (A := TG p q Ip Iq). destruct (I p Ip), (I q Iq). destruct p as [i j], q as [k l]. cbn [fst snd] in *.
  destruct (gf_ok pow dec D a b Nxx Nyy Nxy UI i j k l) as (_ & _ & B); try assumption. fold ra rb lx ly lxy in B.
  unfold e. rewrite kG_off_add. rewrite (Rplus_comm (kG_off t _ _ _ _ _)). eapply Rle_trans; [|apply Rplus_le_compat; [exact B|exact A]].
  eapply Rle_trans; [|apply Rabs_triang]. apply Req_le. f_equal. ring.
Qed.
Lemma core (K KG : list (list R)) : calc_K_KG_D exact_tables (as_arr Dr) ra rb lx ly lxy c m n = Ok (K, KG) -> exists K' KG' : list (list f64),
  calc_K_KG_D (stored (FA pow) dec) D a b Nxx Nyy Nxy c m n = Ok (K', KG') /\ length (reals K') = length K /\
  square (length K) (reals K') /\ square (length K) (reals KG') /\ sym_rows (reals K') /\ sym_rows (reals KG') /\
  entries_within (k_off e Dr ra rb) K' K /\ entries_within (kG_off e lx ly lxy ra rb) KG' KG /\
  close_by (INR (m * n) * k_off e Dr ra rb) K (reals K') /\
  (forall v, length v = length K -> Rabs (quad_rows (reals KG') v - quad_rows KG v) <= INR (m * n) * kG_off e lx ly lxy ra rb * sum_sq v).
Proof.
  intros H. assert (LK : length K = (m * n)%nat) by apply (calc_square _ _ _ _ _ _ _ _ _ _ _ _ H).
  assert (Pa : 0 < ra) by apply (usual_numk a (ui_a _ _ _ _ _ _ _ _ UI)). assert (Pb : 0 < rb) by apply (usual_numk b (ui_b _ _ _ _ _ _ _ _ UI)).
  assert (H' := float_fwd pow dec D a b Nxx Nyy Nxy UI c m n idx E I). eexists _, _. split; [exact H'|].
  destruct (t_C39_symmetric (FA pow) dec (proj1 t_C39_arithmetics pow) D a b Nxx Nyy Nxy c m n _ _ H') as [Y1 Y2].
  match type of H' with _ = Ok (?x, ?y) => set (K' := x) in *; set (KG' := y) in * end.
  assert (RK : reals K' = map (fun p => map (fun q => B2R (kf pow dec D a b (p, q))) (sw_idx idx)) (sw_idx idx)).
  { unfold reals, K'. rewrite map_map. apply map_ext. intros p. apply map_map. }
  assert (RG : reals KG' = map (fun p => map (fun q => B2R (gf pow dec a b Nxx Nyy Nxy (p, q))) (sw_idx idx)) (sw_idx idx)).
  { unfold reals, KG'. rewrite map_map. apply map_ext. intros p. apply map_map. }
  rewrite LK, <- L. split; [rewrite RK; apply map_length|].
  split; [rewrite RK; apply (map_sq (fun p q => B2R (kf pow dec D a b (p, q))))|]. split; [rewrite RG; apply (map_sq (fun p q => B2R (gf pow dec a b Nxx Nyy Nxy (p, q))))|].
  split; [intros r s; rewrite !reals_entry; f_equal; apply Y1|]. split; [intros r s; rewrite !reals_entry; f_equal; apply Y2|].
  rewrite (exact_fwd Dr ra rb lx ly lxy c m n idx ltac:(lra) ltac:(lra) E) in H. apply (f_equal (fun r => match r with Ok p => p | Err _ => ([], []) end)) in H.
  assert (X := f_equal fst H). assert (Y := f_equal snd H). cbn [fst snd] in X, Y. clear H.
  assert (U := unit_val). destruct (off_pos e Dr ra rb lx ly lxy ltac:(unfold e; lra) Pa Pb) as [O1 O2].
  split. { rewrite <- X. apply (map_within (fun p q => kf pow dec D a b (p, q)) (fun p q => kx Dr ra rb exact_e (p, q))). apply kf_exact. }
  split. { rewrite <- Y. apply (map_within (fun p q => gf pow dec a b Nxx Nyy Nxy (p, q)) (fun p q => kGf exact_e ra rb (p, q) lx ly lxy)). apply gf_exact. }
  split.
  - intros v Lv. rewrite LK, <- L in Lv. rewrite RK, <- X, <- Lv. rewrite (Rmult_comm (INR _)).
    apply (quad_off (fun p q => B2R (kf pow dec D a b (p, q))) (fun p q => kx Dr ra rb exact_e (p, q))); [exact O1|apply kf_exact].
  - intros v Lv. rewrite RG, <- Y, <- Lv. rewrite (Rmult_comm (INR _)).
    apply (quad_off (fun p q => B2R (gf pow dec a b Nxx Nyy Nxy (p, q))) (fun p q => kGf exact_e ra rb (p, q) lx ly lxy)); [exact O2|apply gf_exact].
Qed.
End Core.

(** the accuracy of the tables a plate uses *)
Lemma tables_off D a b Nxx Nyy Nxy c c0 ca d0 db m n M : 0 < a -> 0 < b -> specifies c c0 ca d0 db -> (M <= 30)%nat ->
  (m + taken c0 + taken ca <= M)%nat -> (n + taken d0 + taken db <= M)%nat -> exists idx, compute_constraints c m n = Ok idx /\ length (sw_idx idx) = (m * n)%nat /\
  (forall p, In p (sw_idx idx) -> (fst p < 30)%nat /\ (snd p < 30)%nat) /\ 0 <= tolerance M /\
  (forall p q, In p (sw_idx idx) -> In q (sw_idx idx) -> Rabs (kx D a b stored_e (p, q) - kx D a b exact_e (p, q)) <= k_off (tolerance M) D a b) /\
  (forall p q, In p (sw_idx idx) -> In q (sw_idx idx) -> Rabs (kGf stored_e a b (p, q) Nxx Nyy Nxy - kGf exact_e a b (p, q) Nxx Nyy Nxy) <= kG_off (tolerance M) Nxx Nyy Nxy a b).
Proof.
  intros Ha Hb Sp HM Hm Hn. destruct (idx_below c c0 ca d0 db m n M Sp Hm Hn) as (idx & E & L & I). exists idx. split; [exact E|]. split; [exact L|].
  split; [intros p Ip; destruct (I p Ip); lia|]. split; [assert (T := tol_small M); lra|]. split.
  - intros [i j] [k l] Ip Iq. destruct (I _ Ip), (I _ Iq). apply k33_off; assumption.
  - intros [i j] [k l] Ip Iq. destruct (I _ Ip), (I _ Iq). apply kG_offs; assumption.
Qed.
Lemma clamped_off D a b Nxx Nyy Nxy c m n : 0 < a -> 0 < b -> specifies c Clamped Clamped Clamped Clamped -> (m <= 26)%nat -> (n <= 26)%nat ->
  exists idx, compute_constraints c m n = Ok idx /\ length (sw_idx idx) = (m * n)%nat /\
  (forall p, In p (sw_idx idx) -> (fst p < 30)%nat /\ (snd p < 30)%nat) /\ 
  (forall p q, In p (sw_idx idx) -> In q (sw_idx idx) -> Rabs (kx D a b stored_e (p, q) - kx D a b exact_e (p, q)) <= k_off 0 D a b) /\
  (forall p q, In p (sw_idx idx) -> In q (sw_idx idx) -> Rabs (kGf stored_e a b (p, q) Nxx Nyy Nxy - kGf exact_e a b (p, q) Nxx Nyy Nxy) <= kG_off 0 Nxx Nyy Nxy a b).
Proof.
  intros Ha Hb Sp Hm Hn. destruct (clamped_idx c m n Sp Hm Hn) as (idx & E & I). exists idx. split; [exact E|].
  split; [apply (compute_struct _ _ _ _ E)|].
  split. { intros p Ip. destruct (I p); [tauto|]. lia. }
  assert (Z : forall i k, (4 <= i < 30)%nat -> (4 <= k < 30)%nat -> e00 stored_e i k = e00 exact_e i k /\ e10 stored_e i k = e10 exact_e i k /\ e11 stored_e i k = e11 exact_e i k /\
    e20 stored_e i k = e20 exact_e i k /\ e21 stored_e i k = e21 exact_e i k /\ e22 stored_e i k = e22 exact_e i k).
  { intros i k Hi Hk. destruct (high_agree i k Hi Hk) as (H1 & H2 & H3 & H4 & H5 & H6). unfold stored_e. cbn [e00 e10 e11 e20 e21 e22]. rewrite H1, H2, H3, H4, H5, H6. repeat split. }
  assert (Y : forall p q, In p (sw_idx idx) -> In q (sw_idx idx) -> kx D a b stored_e (p, q) = kx D a b exact_e (p, q) /\ kGf stored_e a b (p, q) Nxx Nyy Nxy = kGf exact_e a b (p, q) Nxx Nyy Nxy).
  { intros [i j] [k l] Ip Iq. destruct (I (i, j)) as [I1 I2]; [tauto|]. destruct (I (k, l)) as [I3 I4]; [tauto|]. cbn [fst snd] in *.
    destruct (Z i k I1 I3) as (A1 & A2 & A3 & A4 & A5 & A6). destruct (Z k i I3 I1) as (B1 & B2 & B3 & B4 & B5 & B6).
    destruct (Z j l I2 I4) as (C1 & C2 & C3 & C4 & C5 & C6). destruct (Z l j I4 I2) as (E1 & E2 & E3 & E4 & E5 & E6).
    unfold kx, k33f, kGf. cbn [fst snd]. rewrite ?A1, ?A2, ?A3, ?A4, ?A5, ?A6, ?B1, ?B2, ?B3, ?B4, ?B5, ?B6, ?C1, ?C2, ?C3, ?C4, ?C5, ?C6, ?E1, ?E2, ?E3, ?E4, ?E5, ?E6. split; reflexivity. }
  split; intros p q Ip Iq; destruct (Y p q Ip Iq) as [Y1 Y2].
  - rewrite Y1, Rminus_diag_eq, Rabs_R0 by reflexivity. apply (off_pos 0 D a b 0 0 0); [lra|assumption..].
  - rewrite Y2, Rminus_diag_eq, Rabs_R0 by reflexivity. apply (off_pos 0 D a b Nxx Nyy Nxy); [lra|assumption..].
Qed.

(*@ C77: so each entry is within k_off and kG_off, at the tolerance of the tables plus 16 units, of the entry assembled from exact integrals. @*)
Lemma t_C77_entries : forall pow dec D a b Nxx Nyy Nxy c c0 ca d0 db m n M, usual_inputs pow dec D a b Nxx Nyy Nxy -> specifies c c0 ca d0 db ->
  (M <= 30)%nat -> (m + taken c0 + taken ca <= M)%nat -> (n + taken d0 + taken db <= M)%nat -> let e := tolerance M + 16 * unit in
  exists (K KG : list (list f64)) (K' KG' : list (list R)), calc_K_KG_D (stored (FA pow) dec) D a b Nxx Nyy Nxy c m n = Ok (K, KG) /\
    calc_K_KG_D exact_tables (as_arr (numbers D)) (B2R a) (B2R b) (B2R Nxx) (B2R Nyy) (B2R Nxy) c m n = Ok (K', KG') /\ square (m * n) K' /\ square (m * n) KG' /\
    entries_within (k_off e (numbers D) (B2R a) (B2R b)) K K' /\ entries_within (kG_off e (B2R Nxx) (B2R Nyy) (B2R Nxy) (B2R a) (B2R b)) KG KG'.
Proof.
  intros pow dec D a b Nxx Nyy Nxy c c0 ca d0 db m n M UI Sp HM Hm Hn e.
  assert (Pa := proj2 (usual_numk a (ui_a _ _ _ _ _ _ _ _ UI))). assert (Pb := proj2 (usual_numk b (ui_b _ _ _ _ _ _ _ _ UI))).
  destruct (tables_off (numbers D) (B2R a) (B2R b) (B2R Nxx) (B2R Nyy) (B2R Nxy) c c0 ca d0 db m n M Pa Pb Sp HM Hm Hn) as (idx & E & L & I & Ht & TK & TG).
  assert (H := exact_fwd (numbers D) (B2R a) (B2R b) (B2R Nxx) (B2R Nyy) (B2R Nxy) c m n idx ltac:(lra) ltac:(lra) E).
  destruct (core pow dec D a b Nxx Nyy Nxy UI c m n idx E L I _ Ht TK TG _ _ H) as (K' & KG' & H' & _ & _ & _ & _ & _ & W1 & W2 & _).
  eexists K', KG', _, _. split; [exact H'|]. split; [exact H|]. rewrite <- L.
  split; [apply (map_sq (fun p q => kx (numbers D) (B2R a) (B2R b) exact_e (p, q)))|]. split; [apply (map_sq (fun p q => kGf exact_e (B2R a) (B2R b) (p, q) _ _ _))|].
  split; assumption.
Qed.
(*@ C77: for plates clamped on all four edges with m and n up to 26 the tables are exact and the 16 units are all there is. @*)
Lemma t_C77_clamped : forall pow dec D a b Nxx Nyy Nxy c m n, usual_inputs pow dec D a b Nxx Nyy Nxy -> specifies c Clamped Clamped Clamped Clamped ->
  (m <= 26)%nat -> (n <= 26)%nat ->
  exists (K KG : list (list f64)) (K' KG' : list (list R)), calc_K_KG_D (stored (FA pow) dec) D a b Nxx Nyy Nxy c m n = Ok (K, KG) /\
    calc_K_KG_D exact_tables (as_arr (numbers D)) (B2R a) (B2R b) (B2R Nxx) (B2R Nyy) (B2R Nxy) c m n = Ok (K', KG') /\ square (m * n) K' /\ square (m * n) KG' /\
    entries_within (k_off (16 * unit) (numbers D) (B2R a) (B2R b)) K K' /\ entries_within (kG_off (16 * unit) (B2R Nxx) (B2R Nyy) (B2R Nxy) (B2R a) (B2R b)) KG KG'.
Proof.
  intros pow dec D a b Nxx Nyy Nxy c m n UI Sp Hm Hn.
  assert (Pa := proj2 (usual_numk a (ui_a _ _ _ _ _ _ _ _ UI))). assert (Pb := proj2 (usual_numk b (ui_b _ _ _ _ _ _ _ _ UI))).
  destruct (clamped_off (numbers D) (B2R a) (B2R b) (B2R Nxx) (B2R Nyy) (B2R Nxy) c m n Pa Pb Sp Hm Hn) as (idx & E & L & I & TK & TG).
  assert (H := exact_fwd (numbers D) (B2R a) (B2R b) (B2R Nxx) (B2R Nyy) (B2R Nxy) c m n idx ltac:(lra) ltac:(lra) E).
  destruct (core pow dec D a b Nxx Nyy Nxy UI c m n idx E L I 0 (Rle_refl 0) TK TG _ _ H) as (K' & KG' & H' & _ & _ & _ & _ & _ & W1 & W2 & _).
  rewrite Rplus_0_l in W1, W2. eexists K', KG', _, _. split; [exact H'|]. split; [exact H|]. rewrite <- L.
  split; [apply (map_sq (fun p q => kx (numbers D) (B2R a) (B2R b) exact_e (p, q)))|]. split; [apply (map_sq (fun p q => kGf exact_e (B2R a) (B2R b) (p, q) _ _ _))|].
  split; assumption.
Qed.

Section FPlate.
Context (pow : f64 -> nat -> res f64) (dec : Z -> Z -> f64) (D : nat -> nat -> f64) (a b Nxx Nyy Nxy : f64) (UI : usual_inputs pow dec D a b Nxx Nyy Nxy).
Let Dr := numbers D. Let ra := B2R a. Let rb := B2R b. Let lx := B2R Nxx. Let ly := B2R Nyy. Let lxy := B2R Nxy.
Variables (c : constraints) (c0 ca d0 db : condition) (m n M : nat) (u : R) (K KG : list (list R)).
Hypotheses (P : plate_ok Dr ra rb c c0 ca d0 db m n) (HM : (M <= 30)%nat) (Hm : (m + taken c0 + taken ca <= M)%nat) (Hn : (n + taken d0 + taken db <= M)%nat)
  (H : calc_K_KG_D exact_tables (as_arr Dr) ra rb lx ly lxy c m n = Ok (K, KG)) (U : at_least u K) (Hu : INR (m * n) * k_off (tolerance M + 16 * unit) Dr ra rb < u).
Let e := INR (m * n) * k_off (tolerance M + 16 * unit) Dr ra rb / u.
Let g := INR (m * n) * kG_off (tolerance M + 16 * unit) lx ly lxy ra rb / u.
Lemma fplate_all : exists K' KG' : list (list f64), calc_K_KG_D (stored (FA pow) dec) D a b Nxx Nyy Nxy c m n = Ok (K', KG') /\ pencil (reals K') (reals KG') /\
  (forall l, critical_float pow dec D a b Nxx Nyy Nxy c m n l <-> smallest_factor (reals K') (reals KG') l) /\
  (forall l l', smallest_factor K KG l -> smallest_factor (reals K') (reals KG') l' -> Rabs (1 / l - 1 / l') <= e * (1 / l') + g) /\
  (forall l, smallest_factor K KG l -> g < 1 / l -> exists l', smallest_factor (reals K') (reals KG') l') /\
  (forall l', smallest_factor (reals K') (reals KG') l' -> g < (1 - e) / l' -> exists l, smallest_factor K KG l) /\ 0 <= e < 1 /\ 0 <= g.
Proof.
  destruct (both Dr ra rb lx ly lxy c c0 ca d0 db m n M K KG P HM Hm Hn H) as (_ & Pn & _).
  assert (Ha := ok_a _ _ _ _ _ _ _ _ _ _ P). assert (Hb := ok_b _ _ _ _ _ _ _ _ _ _ P).
  destruct (tables_off Dr ra rb lx ly lxy c c0 ca d0 db m n M Ha Hb (ok_edges _ _ _ _ _ _ _ _ _ _ P) HM Hm Hn) as (idx & E & L & I & Ht & TK & TG).
  destruct (core pow dec D a b Nxx Nyy Nxy UI c m n idx E L I _ Ht TK TG _ _ H) as (K' & KG' & H' & L' & S1 & S2 & Y1 & Y2 & _ & _ & CK & CG).
  assert (uv := unit_val). destruct (off_pos (tolerance M + 16 * unit) Dr ra rb lx ly lxy ltac:(lra) Ha Hb) as [O1 O2].
  assert (E0 := Rmult_le_pos _ _ (pos_INR (m * n)) O1). assert (G0 := Rmult_le_pos _ _ (pos_INR (m * n)) O2).
  assert (U0 : 0 < u) by lra. assert (EE := conj E0 Hu).
  exists K', KG'. split; [exact H'|]. split; [apply (moved_pencil K KG _ _ u _ Pn U U0 CK L' S1 S2 Y1 Y2 EE)|].
  split. { intros l. split; [|intros S; exists K', KG'; auto]. intros (K1 & G1 & E1 & S). rewrite H' in E1. injection E1 as -> ->. exact S. }
  split. { intros l l'. apply (move_close K KG _ _ u _ _ Pn U U0 CK L' S1 S2 Y1 Y2 EE G0 CG). }
  split. { intros l S G. destruct (move_fwd K KG _ _ u _ _ Pn U U0 CK L' S1 S2 Y1 Y2 EE G0 CG l S G) as (l' & S' & _). exists l'. exact S'. }
  split. { intros l S G. destruct (move_bwd K KG _ _ u _ _ Pn U U0 CK L' S1 S2 Y1 Y2 EE G0 CG l S G) as (l' & S' & _). exists l'. exact S'. }
  split; [apply (eps_lt u _ U0 EE)|apply (gam_pos u _ U0 G0)].
Qed.
End FPlate.
(*@ C77: if the tolerance and the rounding together are smaller than the margin of the plate, K as assembled in binary64 is positive definite and the
    critical factor l' of the assembled doubles and the exact one l satisfy |1/l - 1/l'| <= e/l' + g. @*)
Lemma t_C77_close : forall pow dec D a b Nxx Nyy Nxy c c0 ca d0 db m n M u (K KG : list (list R)) l l', usual_inputs pow dec D a b Nxx Nyy Nxy ->
  plate_ok (numbers D) (B2R a) (B2R b) c c0 ca d0 db m n ->
  (M <= 30)%nat -> (m + taken c0 + taken ca <= M)%nat -> (n + taken d0 + taken db <= M)%nat ->
  calc_K_KG_D exact_tables (as_arr (numbers D)) (B2R a) (B2R b) (B2R Nxx) (B2R Nyy) (B2R Nxy) c m n = Ok (K, KG) -> at_least u K ->
  INR (m * n) * k_off (tolerance M + 16 * unit) (numbers D) (B2R a) (B2R b) < u ->
  critical (numbers D) (B2R a) (B2R b) (B2R Nxx) (B2R Nyy) (B2R Nxy) c m n l -> critical_float pow dec D a b Nxx Nyy Nxy c m n l' ->
  let e := INR (m * n) * k_off (tolerance M + 16 * unit) (numbers D) (B2R a) (B2R b) / u in
  let g := INR (m * n) * kG_off (tolerance M + 16 * unit) (B2R Nxx) (B2R Nyy) (B2R Nxy) (B2R a) (B2R b) / u in
  Rabs (1 / l - 1 / l') <= e * (1 / l') + g.
Proof.
  intros pow dec D a b Nxx Nyy Nxy c c0 ca d0 db m n M u K KG l l' UI P HM Hm Hn H U Hu C C' e g.
  destruct (fplate_all pow dec D a b Nxx Nyy Nxy UI c c0 ca d0 db m n M u K KG P HM Hm Hn H U Hu) as (K' & KG' & H' & Pn & W & Cl & _).
  apply Cl; [apply (crit_exact _ _ _ _ _ _ c m n K KG H), C|apply W, C'].
Qed.
(*@ C77: K as assembled is then positive definite, and each of the two factors exists when the other does and is small enough. @*)
Lemma t_C77_exists : forall pow dec D a b Nxx Nyy Nxy c c0 ca d0 db m n M u (K KG : list (list R)), usual_inputs pow dec D a b Nxx Nyy Nxy ->
  plate_ok (numbers D) (B2R a) (B2R b) c c0 ca d0 db m n ->
  (M <= 30)%nat -> (m + taken c0 + taken ca <= M)%nat -> (n + taken d0 + taken db <= M)%nat ->
  calc_K_KG_D exact_tables (as_arr (numbers D)) (B2R a) (B2R b) (B2R Nxx) (B2R Nyy) (B2R Nxy) c m n = Ok (K, KG) -> at_least u K ->
  INR (m * n) * k_off (tolerance M + 16 * unit) (numbers D) (B2R a) (B2R b) < u ->
  let e := INR (m * n) * k_off (tolerance M + 16 * unit) (numbers D) (B2R a) (B2R b) / u in
  let g := INR (m * n) * kG_off (tolerance M + 16 * unit) (B2R Nxx) (B2R Nyy) (B2R Nxy) (B2R a) (B2R b) / u in
  (exists K' KG' : list (list f64), calc_K_KG_D (stored (FA pow) dec) D a b Nxx Nyy Nxy c m n = Ok (K', KG') /\ pencil (reals K') (reals KG')) /\
  (forall l, critical (numbers D) (B2R a) (B2R b) (B2R Nxx) (B2R Nyy) (B2R Nxy) c m n l -> g < 1 / l -> exists l', critical_float pow dec D a b Nxx Nyy Nxy c m n l') /\
  (forall l', critical_float pow dec D a b Nxx Nyy Nxy c m n l' -> g < (1 - e) / l' -> exists l, critical (numbers D) (B2R a) (B2R b) (B2R Nxx) (B2R Nyy) (B2R Nxy) c m n l).
Proof.
  intros pow dec D a b Nxx Nyy Nxy c c0 ca d0 db m n M u K KG UI P HM Hm Hn H U Hu e g.
  destruct (fplate_all pow dec D a b Nxx Nyy Nxy UI c c0 ca d0 db m n M u K KG P HM Hm Hn H U Hu) as (K' & KG' & H' & Pn & W & Cl & Fw & Bw & _).
  assert (X := crit_exact _ _ _ _ _ _ c m n K KG H).
  split; [exists K', KG'; split; assumption|]. split.
  - intros l C G. apply X in C. destruct (Fw l C G) as (l' & S). exists l'. apply W, S.
  - intros l' C G. apply W in C. destruct (Bw l' C G) as (l & S). exists l. apply X, S.
Qed.

(** ** accurate powers and literals exist *)
Definition pow_mul (x : f64) (n : nat) : res f64 := Ok (match n with 2%nat => fmul x x | _ => fmul (fmul x x) x end).
Lemma pow_mul_close : pow_close pow_mul.
Proof.
  intros x n U N. destruct (usual_numk x U) as [X P]. assert (X2 := mul_numk _ _ _ _ _ _ _ _ X X ltac:(lra) ltac:(lra) ltac:(lia)).
  assert (X3 := mul_numk _ _ _ _ _ _ _ _ X2 X ltac:(lra) ltac:(lra) ltac:(lia)). assert (uv := unit_val).
  assert (Q := pow_lt (B2R x) n P).
  destruct N as [-> | ->]; eexists; (split; [reflexivity|]).
  - destruct X2 as [[F B] _]. split; [exact F|]. replace (B2R x ^ 2) with (B2R x * B2R x) in * by ring. eapply Rle_trans; [exact B|].
    rewrite Rabs_right by lra. apply Rmult_le_compat_r; [lra|]. apply Rmult_le_compat_r; lra.
  - destruct X3 as [[F B] _]. split; [exact F|]. replace (B2R x ^ 3) with (B2R x * B2R x * B2R x) in * by ring. eapply Rle_trans; [exact B|].
    rewrite Rabs_right by lra. apply Rmult_le_compat_r; [lra|]. apply Rmult_le_compat_r; lra.
Qed.
Definition near64 (r : R) : f64 := let x := rnd64 r in
  if Req_EM_T x 0 then fzero else f_of_Z_exp (Ztrunc (scaled_mantissa radix2 fexp64 x)) (cexp radix2 fexp64 x).
Lemma near64_ok r : Rabs r <= 16 -> is_finite (near64 r) = true /\ B2R (near64 r) = rnd64 r.
Proof.
  intros B. unfold near64. set (x := rnd64 r). cbv zeta. destruct (Req_EM_T x 0) as [Z|Z]; [rewrite Z; split; reflexivity|].
  assert (V : Valid_exp fexp64) by apply (fexp_correct 53 1024 eq_refl).
  assert (G : generic_format radix2 fexp64 x) by (apply generic_format_round; [exact V|apply valid_rnd_round_mode]).
  assert (Bx : Rabs x <= bp 4). { apply abs_round_le_generic; [exact V|apply valid_rnd_round_mode|apply generic_format_bpow; cbn; lia|change (bp 4) with 16; exact B]. }
  assert (S := scaled_mantissa_generic radix2 fexp64 x G). assert (L := scaled_mantissa_lt_bpow radix2 fexp64 x).
  assert (C : cexp radix2 fexp64 x = Z.max (mag radix2 x - 53) (-1074)) by reflexivity.
  destruct (f_of_Z_exp_denotes (Ztrunc (scaled_mantissa radix2 fexp64 x)) (cexp radix2 fexp64 x)) as [F E].
  - apply lt_IZR. rewrite abs_IZR, <- S. eapply Rlt_le_trans; [exact L|]. change (IZR (2 ^ 53)) with (bp 53). apply bpow_le. rewrite C. lia.
  - rewrite C. split; [lia|]. apply Z.max_lub; [|lia]. assert (mag radix2 x <= 5)%Z; [|lia].
    apply mag_le_bpow; [exact Z|]. eapply Rle_lt_trans; [exact Bx|]. apply bpow_lt. lia.
  - split; [exact F|]. etransitivity; [exact E|]. rewrite <- S. apply scaled_mantissa_mult_bpow.
Qed.
Definition dec_near (m e : Z) : f64 := near64 (IZR m * powerRZ 10 e).
Lemma dec_near_close : dec_close dec_near.
Proof.
  intros m e Hm H. set (r := IZR m * powerRZ 10 e). assert (P : 0 <= r) by (apply Rmult_le_pos; [apply IZR_le, Hm|apply Rlt_le, powerRZ_lt; lra]).
  assert (R0 : r = 0 \/ bp (-1022) <= Rabs r).
  { destruct H as [-> |[H _]]; [left; unfold r; ring|right]. rewrite Rabs_right by lra. apply Rle_trans with (powerRZ 10 (-30)); [|exact H].
    apply Rle_trans with (bp (-120)); [apply bpow_le; lia|]. change (-120)%Z with (- (120))%Z. rewrite bpow_opp. change (powerRZ 10 (-30)) with (/ 10 ^ 30). apply Rinv_le; [apply pow_lt; lra|].
    rewrite (pow_IZR 10 30). apply (IZR_le _ (2 ^ 120)). vm_compute. discriminate. }
  destruct (near64_ok r) as [F E]. { rewrite Rabs_right by lra. destruct H as [-> |[_ H]]; [unfold r; lra|fold r in H; lra]. }
  split; [exact F|]. unfold dec_near. fold r. rewrite E. assert (Q := rnd_rel r R0). rewrite (Rabs_right r) in Q by lra. exact Q.
Qed.

(** ** the pinned plate of C76 in doubles *)
Lemma f_small z : small (Z.abs z) = true -> is_finite (f_of_Z z) = true /\ B2R (f_of_Z z) = IZR z.
Proof.
  intros H. apply andb_prop in H. destruct H as [_ H]. apply Z.ltb_lt in H. destruct (f_of_Z_exp_denotes z 0) as [F E]; [lia|lia|].
  split; [exact F|]. etransitivity; [exact E|]. cbn. lra.
Qed.
Lemma fid_numbers : numbers fid = mid.
Proof. unfold numbers, fid, mid. cbn [Nat.eqb]. rewrite (proj2 (f_small 1 eq_refl)). reflexivity. Qed.
Lemma int_usual0 z : small (Z.abs z) = true -> (z <> 0)%Z -> usual0 (f_of_Z z).
Proof.
  intros S N. destruct (f_small z S) as [F E]. split; [exact F|]. right. rewrite E, <- abs_IZR, !pow2_bp.
  apply andb_prop in S. destruct S as [_ S]. apply Z.ltb_lt, IZR_lt in S. assert (1 <= IZR (Z.abs z)) by (apply IZR_le; lia). split.
  - apply Rle_trans with (bp 0); [apply bpow_le; lia|cbn; lra].
  - apply Rle_trans with (bp 53); [change (bp 53) with 9007199254740992; lra|apply bpow_le; lia].
Qed.
Lemma zero_usual0 : usual0 fzero. Proof. split; [reflexivity|left; reflexivity]. Qed.
Lemma fid_inputs pow dec : pow_close pow -> dec_close dec -> usual_inputs pow dec fid (f_of_Z 2) (f_of_Z 2) (f_of_Z (-8)) fzero fzero.
Proof.
  intros HP HD. assert (T2 : usual (f_of_Z 2)).
  { destruct (f_small 2 eq_refl) as [F E]. split; [exact F|]. rewrite E, !pow2_bp. split; [apply Rle_trans with (bp 0); [apply bpow_le; lia|cbn; lra]|].
    apply Rle_trans with (bp 1); [cbn; lra|apply bpow_le; lia]. }
  constructor; try assumption; try apply zero_usual0; try (apply int_usual0; [reflexivity|lia]).
  intros i j _ _. unfold fid. destruct (Nat.eqb i j); [apply int_usual0; [reflexivity|lia]|apply zero_usual0].
Qed.
(*@ C77: the pinned 2 by 2 plate of C76, exact factor 2, assembled in doubles with any accurate power and any decimal literals read to nearest:
    there is a critical factor and it is within 2e-10 of 2. @*)
Lemma t_C77_pinned_plate : forall pow dec, pow_close pow -> dec_close dec ->
  (exists l, critical_float pow dec fid (f_of_Z 2) (f_of_Z 2) (f_of_Z (-8)) fzero fzero (CStr "PINNED") 2 2 l) /\
  forall l, critical_float pow dec fid (f_of_Z 2) (f_of_Z 2) (f_of_Z (-8)) fzero fzero (CStr "PINNED") 2 2 l -> Rabs (l - 2) <= 2 / 10000000000.
Proof.
  intros pow dec HP HD. assert (UI := fid_inputs pow dec HP HD).
  assert (T : tolerance 10 = 1 / 1000000000000000) by reflexivity. assert (uv := unit_val).
  set (e := tolerance 10 + 16 * unit) in *. assert (He : 0 < e <= 3 / 1000000000000000) by (unfold e, unit; lra).
  assert (E : INR (2 * 2) * k_off e mid 2 2 = 792 / 10 * e).
  { unfold k_off, mid. cbn [a11 a21 a22 a31 a32 a33]. rewrite Rabs_R0, Rabs_R1. cbn. field. }
  assert (G : INR (2 * 2) * kG_off e (-8) 0 0 2 2 = 1056 / 10 * e).
  { unfold kG_off. rewrite Rabs_R0, (Rabs_left (-8)) by lra. cbn. field. }
  assert (P2 := proj2 (f_small 2 eq_refl)). assert (P8 := proj2 (f_small (-8) eq_refl)).
  assert (X := t_C77_exists pow dec fid (f_of_Z 2) (f_of_Z 2) (f_of_Z (-8)) fzero fzero (CStr "PINNED") Pinned Pinned Pinned Pinned 2 2 10 (1 / 100) K22 G22 UI).
  assert (Y := fun l' => t_C77_close pow dec fid (f_of_Z 2) (f_of_Z 2) (f_of_Z (-8)) fzero fzero (CStr "PINNED") Pinned Pinned Pinned Pinned 2 2 10 (1 / 100) K22 G22 2 l' UI).
  rewrite fid_numbers, P2, P8 in X, Y. change (B2R fzero) with 0 in X, Y. fold e in X, Y. rewrite E, G in X. 
  assert (X' := X pinned_ok ltac:(lia) ltac:(cbn; lia) ltac:(cbn; lia) pinned22 least22 ltac:(lra)). destruct X' as (_ & X1 & _).
  split; [apply (X1 2 crit22); lra|]. intros l C.
  assert (Q := Y l pinned_ok ltac:(lia) ltac:(cbn; lia) ltac:(cbn; lia) pinned22 least22 ltac:(rewrite E; lra) crit22 C). cbv zeta in Q. rewrite E, G in Q.
  destruct C as (? & ? & _ & Hl & _).
  apply Rcomplements.Rabs_le_between in Q. destruct Q as [Q1 Q2].
  apply (Rmult_le_compat_l (2 * l)) in Q1, Q2; try lra.
  replace (2 * l * (1 / 2 - 1 / l)) with (l - 2) in * by (field; lra).
  set (k1 := 792 / 10 * e / (1 / 100)) in *. set (k2 := 1056 / 10 * e / (1 / 100)) in *.
  assert (B1 : 0 < k1 <= 3 * 792 / 100000000000000) by (unfold k1; lra). assert (B2 : 0 < k2 <= 3 * 1056 / 100000000000000) by (unfold k2; lra).
  replace (2 * l * (k1 * (1 / l) + k2)) with (2 * k1 + 2 * l * k2) in Q2 by (field; lra).
  replace (2 * l * - (k1 * (1 / l) + k2)) with (- (2 * k1 + 2 * l * k2)) in Q1 by (field; lra).
  assert (B3 : l * k2 <= l * (3 * 1056 / 100000000000000)) by (apply Rmult_le_compat_l; lra). apply Rabs_le. lra.
Qed.
(*@ C77: repeated multiplication is an accurate power, reading literals to nearest is accurate, and with them that plate meets the hypotheses. @*)
Example t_C77_ex : exists pow dec, pow_close pow /\ dec_close dec /\ usual_inputs pow dec fid (f_of_Z 2) (f_of_Z 2) (f_of_Z (-8)) fzero fzero /\
  plate_ok (numbers fid) (B2R (f_of_Z 2)) (B2R (f_of_Z 2)) (CStr "PINNED") Pinned Pinned Pinned Pinned 2 2.
Proof.
  exists pow_mul, dec_near. split; [exact pow_mul_close|]. split; [exact dec_near_close|]. split; [apply fid_inputs; [exact pow_mul_close|exact dec_near_close]|].
  rewrite fid_numbers, (proj2 (f_small 2 eq_refl)). exact pinned_ok.
Qed.
