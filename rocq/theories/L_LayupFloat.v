(** Rounding errors in the rotated stiffness of a ply. *)
From Coq Require Import Reals ZArith Lra Lia Bool.
From Flocq Require Import Core.Core IEEE754.BinarySingleNaN.
From Coq Require Import List.
From Verif Require Import M_Py M_Float M_Validate M_Material M_Laminate M_MatFloat M_LayupFloat M_K M_RealArith S_Mat S_Ritz S_Validate S_Round S_LamRound S_MatFloat S_LayupFloat L_Float L_Round L_MatFloat L_Lam.
Import ListNotations.
Open Scope R_scope.

Lemma pz z : powerRZ 2 z = bp z. Proof. rewrite bpow_powerRZ. reflexivity. Qed.
Lemma pi_near : 314159265358979316 / 100000000000000000 <= PI <= 314159265358979325 / 100000000000000000.
Proof.
  destruct (PI_2_3_7_ineq 9) as [H H']. change (2 * 9)%nat with 18%nat in H, H'. cbn [sum_f_R0] in H, H'. unfold tg_alt, PI_2_3_7_tg, Ratan_seq in H, H'. cbn [pow Nat.mul Nat.add INR] in H, H'.
  split; lra.
Qed.
Lemma fpi_near : relk 1 fpi PI.
Proof.
  destruct (f_of_Z_exp_denotes 884279719003555 (-48) ltac:(lia) ltac:(lia)) as [F V]. fold fpi in F, V. split; [exact F|]. rewrite V. assert (P := pi_near).
  assert (E : bp (-48) = / 281474976710656) by (cbn; lra). rewrite E. rewrite (Rabs_right PI) by lra. rewrite Rmult_1_l. apply Rle_trans with (unit * 3); [|apply Rmult_le_compat_l; [assert (U := unit_val)|]; lra].
  unfold unit. apply Rabs_le. lra.
Qed.
Lemma cos_lip x y : Rabs (cos x - cos y) <= Rabs (x - y).
Proof.
  assert (D : derivable cos) by apply derivable_cos.
  assert (forall u v, u < v -> Rabs (cos u - cos v) <= Rabs (u - v)).
  { intros u v L. destruct (MVT_cor2 cos (fun t => - sin t) u v L) as (z & E & _); [intros; apply derivable_pt_lim_cos|].
    rewrite Rabs_minus_sym, E, (Rabs_minus_sym u v), Rabs_mult. assert (Rabs (- sin z) <= 1) by (rewrite Rabs_Ropp; apply Rabs_le, SIN_bound).
    assert (P := Rabs_pos (v - u)). rewrite <- (Rmult_1_l (Rabs (v - u))) at 2. apply Rmult_le_compat_r; assumption. }
  destruct (Rtotal_order x y) as [L|[->|G]]; [apply H, L|rewrite !Rminus_diag_eq, Rabs_R0 by reflexivity; lra|]. rewrite Rabs_minus_sym, (Rabs_minus_sym x y). apply H, G.
Qed.
Lemma sin_lip x y : Rabs (sin x - sin y) <= Rabs (x - y).
Proof. rewrite !sin_cos. replace (- cos (PI / 2 + x) - - cos (PI / 2 + y)) with (cos (PI / 2 + y) - cos (PI / 2 + x)) by ring. eapply Rle_trans; [apply cos_lip|]. right. rewrite Rabs_minus_sym. f_equal. ring. Qed.
Lemma radians_near theta : usual_angle theta -> fin (radians theta) /\ Rabs (B2R (radians theta) - B2R theta * PI / 180) <= 20 * unit.
Proof.
  intros [U B]. destruct (usual0_rng _ U) as [F G]. assert (P := pi_near). assert (u := unit_val).
  assert (Gp : rng 2 PI). { right. rewrite Rabs_right by lra. assert (bp 2 = 4) by (cbn; lra). assert (bp (- (2)) = / 4) by (cbn; lra). lra. }
  destruct (f_of_Z_exp_denotes 180 0 ltac:(lia) ltac:(lia)) as [F8 V8]. change (f_of_Z_exp 180 0) with (f_of_Z 180) in *. cbn [bpow] in V8. rewrite Rmult_1_r in V8.
  assert (G8 : rng 8 180). { right. rewrite Rabs_right by lra. assert (bp 8 = 256) by (cbn; lra). assert (bp (- (8)) = / 256) by (cbn; lra). lra. }
  assert (X : numk 0 200 theta (B2R theta)) by (split; [apply relk_self, F|exact G]). assert (Y : numk 1 2 fpi PI) by (split; [apply fpi_near|exact Gp]).
  assert (Z : numk 0 8 (f_of_Z 180) 180) by (split; [rewrite <- V8; apply relk_self, F8|exact G8]).
  assert (M := mul_numk 0 1 200 2 _ _ _ _ X Y ltac:(lra) ltac:(lra) ltac:(lia)). destruct (div_numk _ _ _ _ _ _ _ _ M Z ltac:(lra) ltac:(lra) ltac:(lia) ltac:(lra)) as [_ [[Fd Ed] _]].
  split; [exact Fd|]. eapply Rle_trans; [exact Ed|]. apply Rle_trans with (31 / 10 * unit * (360 * (32 / 10) / 180)).
  - apply Rmult_le_compat; [apply Rmult_le_pos; lra|apply Rabs_pos|apply Rmult_le_compat_r; lra|]. unfold Rdiv. rewrite !Rabs_mult, (Rabs_right PI), (Rabs_right (/ 180)) by lra.
    apply Rmult_le_compat_r; [lra|]. apply Rmult_le_compat; try lra. apply Rabs_pos.
  - lra.
Qed.
(** products and differences of numbers of at most 4 *)
Lemma tiny : bp (-1075) <= / 1000 * unit.
Proof. apply Rle_trans with (bp (-10) * bp (-53)); [rewrite <- bpow_plus; apply bpow_le; lia|]. rewrite <- unit_bp. apply Rmult_le_compat_r; [assert (U := unit_val); lra|]. cbn. lra. Qed.
Lemma small_mul x y r s e f : fin x -> fin y -> Rabs (B2R x - r) <= e * unit -> Rabs (B2R y - s) <= f * unit -> 0 <= e <= 200 -> 0 <= f <= 200 -> Rabs r <= 2 -> Rabs s <= 1 ->
  fin (fmul x y) /\ Rabs (B2R (fmul x y) - r * s) <= (e * (101 / 100) + Rabs r * f + Rabs r + 1 / 10) * unit.
Proof.
  intros Fx Fy Ex Ey He Hf Hr Hs. assert (u := unit_val). assert (eu : e * unit <= / 1000 /\ f * unit <= / 1000) by (split; [apply Rle_trans with (200 * unit)|apply Rle_trans with (200 * unit)]; try lra; apply Rmult_le_compat_r; lra).
  assert (Pr := Rabs_pos r). assert (Ps := Rabs_pos s). assert (fu : 0 <= f * unit) by (apply Rmult_le_pos; lra).
  assert (Bx : Rabs (B2R x) <= 2001 / 1000). { replace (B2R x) with (B2R x - r + r) by ring. eapply Rle_trans; [apply Rabs_triang|]. lra. }
  assert (By : Rabs (B2R y) <= 1001 / 1000). { replace (B2R y) with (B2R y - s + s) by ring. eapply Rle_trans; [apply Rabs_triang|]. lra. }
  assert (D : Rabs (B2R x * B2R y - r * s) <= (e * (1001 / 1000) + Rabs r * f) * unit).
  { replace (B2R x * B2R y - r * s) with ((B2R x - r) * B2R y + r * (B2R y - s)) by ring. eapply Rle_trans; [apply Rabs_triang|]. rewrite !Rabs_mult.
    replace ((e * (1001 / 1000) + Rabs r * f) * unit) with (e * unit * (1001 / 1000) + Rabs r * (f * unit)) by ring. apply Rplus_le_compat; [apply Rmult_le_compat; try apply Rabs_pos; assumption|apply Rmult_le_compat_l; assumption]. }
  assert (B : Rabs (B2R x * B2R y) <= 3). { rewrite Rabs_mult. apply Rle_trans with (2001 / 1000 * (1001 / 1000)); [apply Rmult_le_compat; try apply Rabs_pos; assumption|lra]. }
  destruct (mul_rnd x y Fx Fy) as [F E]; [apply Rle_trans with 3; [exact B|]; apply Rle_trans with (bp 2); [cbn; lra|apply bpow_le; lia]|].
  split; [exact F|]. rewrite E. destruct (rnd_err (B2R x * B2R y)) as (d & h & Hd & Hh & R). rewrite R. assert (T := tiny).
  replace (B2R x * B2R y * (1 + d) + h - r * s) with ((B2R x * B2R y - r * s) + (r * s) * d + (B2R x * B2R y - r * s) * d + h) by ring.
  assert (L : (e * (1001 / 1000) + Rabs r * f) * unit <= / 100). { assert (Rabs r * (f * unit) <= 2 * / 1000) by (apply Rmult_le_compat; lra). replace ((e * (1001 / 1000) + Rabs r * f) * unit) with (e * unit * (1001 / 1000) + Rabs r * (f * unit)) by ring. lra. }
  assert (A1 : Rabs (r * s * d) <= Rabs r * unit). { rewrite !Rabs_mult. rewrite <- (Rmult_1_r (Rabs r)) at 2. apply Rmult_le_compat; [apply Rmult_le_pos; lra|apply Rabs_pos|apply Rmult_le_compat_l; assumption|exact Hd]. }
  assert (A2 : Rabs ((B2R x * B2R y - r * s) * d) <= / 100 * unit). { rewrite Rabs_mult. apply Rmult_le_compat; try apply Rabs_pos; lra. }
  assert (R1 := Rabs_triang (B2R x * B2R y - r * s + r * s * d + (B2R x * B2R y - r * s) * d) h). assert (R2 := Rabs_triang (B2R x * B2R y - r * s + r * s * d) ((B2R x * B2R y - r * s) * d)). assert (R3 := Rabs_triang (B2R x * B2R y - r * s) (r * s * d)).
  assert (0 <= e * unit) by (apply Rmult_le_pos; lra). lra.
Qed.

(** entries within e of a matrix *)
Definition near (e : R) (X : farr) (M : mat3) : Prop := forall i j, (i < 3)%nat -> (j < 3)%nat -> fin (X i j) /\ Rabs (B2R (X i j) - as_arr M i j) <= e.
Lemma trig_val np theta : usual_angle theta -> trig_near np (radians theta) ->
  fin (np_cos np (radians theta)) /\ Rabs (B2R (np_cos np (radians theta)) - cdeg (B2R theta)) <= 22 * unit /\
  fin (np_sin np (radians theta)) /\ Rabs (B2R (np_sin np (radians theta)) - sdeg (B2R theta)) <= 22 * unit.
Proof.
  intros U (Fc & Ec & Fs & Es). destruct (radians_near theta U) as [_ E]. unfold cdeg, sdeg. set (x := B2R (radians theta)) in *. set (y := B2R theta * PI / 180) in *.
  assert (C := cos_lip x y). assert (S := sin_lip x y).
  repeat split; try assumption; [replace (B2R (np_cos np (radians theta)) - cos y) with ((B2R (np_cos np (radians theta)) - cos x) + (cos x - cos y)) by ring|
                                 replace (B2R (np_sin np (radians theta)) - sin y) with ((B2R (np_sin np (radians theta)) - sin x) + (sin x - sin y)) by ring]; eapply Rle_trans; try apply Rabs_triang; lra.
Qed.
Lemma small_square pow x r e : pow_near pow -> fin x -> Rabs (B2R x - r) <= e * unit -> 0 <= e <= 40 -> Rabs r <= 1 ->
  exists y, pow x 2%nat = Ok y /\ fin y /\ Rabs (B2R y - r ^ 2) <= (2 * e + 4) * unit.
Proof.
  intros P F E He Hr. assert (u := unit_val). assert (eu : 0 <= e * unit <= / 1000) by (split; [apply Rmult_le_pos; lra|apply Rle_trans with (40 * unit); [apply Rmult_le_compat_r; lra|lra]]).
  assert (Bx : Rabs (B2R x) <= 1001 / 1000). { replace (B2R x) with (B2R x - r + r) by ring. eapply Rle_trans; [apply Rabs_triang|]. lra. }
  destruct (P x 2%nat F) as (y & Ey & Fy & Hy); [apply Rle_trans with (bp 1); [cbn; lra|]; rewrite pz; apply bpow_le; lia|left; reflexivity|].
  exists y. split; [exact Ey|]. split; [exact Fy|]. replace (B2R y - r ^ 2) with ((B2R y - B2R x ^ 2) + (B2R x - r) * (B2R x + r)) by ring.
  eapply Rle_trans; [apply Rabs_triang|].
  assert (S : Rabs (B2R x ^ 2) <= 1003 / 1000). { rewrite <- RPow_abs. apply Rle_trans with ((1001 / 1000) ^ 2); [apply pow_incr; split; [apply Rabs_pos|exact Bx]|lra]. }
  assert (Tn : powerRZ 2 (-900) <= / 1000 * unit). { rewrite pz. apply Rle_trans with (bp (-10) * bp (-53)); [rewrite <- bpow_plus; apply bpow_le; lia|]. rewrite <- unit_bp. apply Rmult_le_compat_r; [lra|]. cbn. lra. }
  assert (Q : Rabs ((B2R x - r) * (B2R x + r)) <= e * unit * (2001 / 1000)).
  { rewrite Rabs_mult. apply Rmult_le_compat; try apply Rabs_pos; [exact E|]. eapply Rle_trans; [apply Rabs_triang|]. lra. }
  assert (3 * unit * Rabs (B2R x ^ 2) <= 3 * unit * (1003 / 1000)) by (apply Rmult_le_compat_l; lra).
  assert (e * unit <= 40 * unit) by (apply Rmult_le_compat_r; lra). lra.
Qed.
Lemma unit_circle theta : Rabs (cdeg theta) <= 1 /\ Rabs (sdeg theta) <= 1 /\ Rabs (2 * cdeg theta * sdeg theta) <= 1.
Proof.
  assert (H := cs1 theta). set (c := cdeg theta) in *. set (s := sdeg theta) in *. assert (A := pow2_ge_0 (c - s)). assert (B := pow2_ge_0 (c + s)). assert (C := pow2_ge_0 c). assert (D := pow2_ge_0 s).
  repeat split; apply Rabs_le; [nra|nra|lra].
Qed.
Lemma T_near np k theta : usual_angle theta -> numpy_near np k theta -> let c := cdeg (B2R theta) in let s := sdeg (B2R theta) in
  exists Tr Te, T_ply_f np theta = Ok (Tr, Te) /\ near (100 * unit) Tr (T_real c s) /\ near (100 * unit) Te (T_engineering c s).
Proof.
  intros U [P _ N _]. cbn zeta. destruct (trig_val np theta U N) as (Fc & Ec & Fs & Es). destruct (unit_circle (B2R theta)) as (Bc & Bs & _). unfold T_ply_f.
  set (C := np_cos np (radians theta)) in *. set (S := np_sin np (radians theta)) in *. set (c := cdeg (B2R theta)) in *. set (s := sdeg (B2R theta)) in *. assert (u := unit_val).
  destruct (small_square _ C c 22 P Fc Ec ltac:(lra) Bc) as (c2 & Ec2 & Fc2 & Hc2). destruct (small_square _ S s 22 P Fs Es ltac:(lra) Bs) as (s2 & Es2 & Fs2 & Hs2).
  assert (Z2 : fin (f_of_Z 2) /\ B2R (f_of_Z 2) = 2). { destruct (f_of_Z_exp_denotes 2 0 ltac:(lia) ltac:(lia)) as [A B]. split; [exact A|]. change (B2R (f_of_Z 2)) with (B2R (f_of_Z_exp 2 0)). rewrite B. cbn. ring. }
  assert (Z2' : fin (f_of_Z (-2)) /\ B2R (f_of_Z (-2)) = -2). { destruct (f_of_Z_exp_denotes (-2) 0 ltac:(lia) ltac:(lia)) as [A B]. split; [exact A|]. change (B2R (f_of_Z (-2))) with (B2R (f_of_Z_exp (-2) 0)). rewrite B. cbn. ring. }
  destruct Z2 as [F2 V2]. destruct Z2' as [F2' V2'].
  destruct (small_mul (f_of_Z 2) C 2 c 0 22 F2 Fc) as [Fa Ea]; try assumption; try (rewrite ?V2, ?Rminus_diag_eq, ?Rabs_R0 by reflexivity; lra); [rewrite Rabs_right; lra|].
  destruct (small_mul (f_of_Z (-2)) C (-2) c 0 22 F2' Fc) as [Fb Eb]; try assumption; try (rewrite ?V2', ?Rminus_diag_eq, ?Rabs_R0 by reflexivity; lra); [rewrite Rabs_left; lra|].
  rewrite (Rabs_right 2) in Ea by lra. rewrite (Rabs_left (-2)) in Eb by lra.
  assert (B2c : Rabs (2 * c) <= 2) by (rewrite Rabs_mult, (Rabs_right 2) by lra; lra). assert (B2c' : Rabs (-2 * c) <= 2) by (rewrite Rabs_mult, (Rabs_left (-2)) by lra; lra).
  destruct (small_mul _ S (2 * c) s (462 / 10) 22 Fa Fs) as [Fe Ee]; try assumption; try lra.
  destruct (small_mul _ S (-2 * c) s (462 / 10) 22 Fb Fs) as [Fg Eg]; try assumption; try lra.
  destruct (small_mul C S c s 22 22 Fc Fs) as [Fh Eh]; try assumption; try lra.
  assert (Fo : fin (fopp C)) by (apply fopp_fin, Fc). assert (Eo : Rabs (B2R (fopp C) - - c) <= 22 * unit) by (rewrite fopp_val; replace (- B2R C - - c) with (- (B2R C - c)) by ring; rewrite Rabs_Ropp; exact Ec).
  assert (Bo : Rabs (- c) <= 1) by (rewrite Rabs_Ropp; exact Bc).
  destruct (small_mul (fopp C) S (- c) s 22 22 Fo Fs) as [Fi Ei]; try assumption; try lra.
  assert (Hd : fin (fsub c2 s2) /\ Rabs (B2R (fsub c2 s2) - (c ^ 2 - s ^ 2)) <= 100 * unit).
  { assert (D : Rabs (c ^ 2 - s ^ 2) <= 1). { apply Rabs_le. assert (X := Rabs_le_inv _ _ Bc). assert (Y := Rabs_le_inv _ _ Bs). nra. }
    assert (D' : Rabs (B2R c2 - B2R s2 - (c ^ 2 - s ^ 2)) <= 96 * unit). { replace (B2R c2 - B2R s2 - (c ^ 2 - s ^ 2)) with ((B2R c2 - c ^ 2) - (B2R s2 - s ^ 2)) by ring. eapply Rle_trans; [apply Rabs_triang|]. rewrite Rabs_Ropp. lra. }
    assert (L : Rabs (B2R c2 - B2R s2) <= 2). { replace (B2R c2 - B2R s2) with ((B2R c2 - B2R s2 - (c ^ 2 - s ^ 2)) + (c ^ 2 - s ^ 2)) by ring. eapply Rle_trans; [apply Rabs_triang|]. lra. }
    destruct (sub_err c2 s2 Fc2 Fs2) as [F E]; [apply Rle_trans with 2; [exact L|]; change 2 with (bp 1); apply bpow_le; lia|]. split; [exact F|].
    replace (B2R (fsub c2 s2) - (c ^ 2 - s ^ 2)) with ((B2R (fsub c2 s2) - (B2R c2 - B2R s2)) + (B2R c2 - B2R s2 - (c ^ 2 - s ^ 2))) by ring. eapply Rle_trans; [apply Rabs_triang|].
    assert (unit * Rabs (B2R c2 - B2R s2) <= unit * 2) by (apply Rmult_le_compat_l; lra). lra. }
  unfold T_real_f, T_engineering_f. rewrite Ec2, Es2. cbn [bind]. eexists. eexists. split; [reflexivity|].
  assert (K2 : Rabs (B2R (fmul (fmul (f_of_Z 2) C) S) - 2 * c * s) <= 100 * unit) by (eapply Rle_trans; [exact Ee|]; apply Rmult_le_compat_r; lra).
  assert (K3 : Rabs (B2R (fmul (fmul (f_of_Z (-2)) C) S) - -2 * c * s) <= 100 * unit) by (eapply Rle_trans; [exact Eg|]; apply Rmult_le_compat_r; lra).
  assert (K4 : Rabs (B2R (fmul C S) - c * s) <= 100 * unit) by (eapply Rle_trans; [exact Eh|]; apply Rmult_le_compat_r; lra).
  assert (K5 : Rabs (B2R (fmul (fopp C) S) - - c * s) <= 100 * unit) by (eapply Rle_trans; [exact Ei|]; apply Rmult_le_compat_r; lra).
  split; intros i j Hi Hj; (destruct i as [|[|[|i]]]; [| | |lia]); (destruct j as [|[|[|j]]]; [| | |lia]); unfold array9, as_arr, T_real, T_engineering; cbn [a11 a12 a13 a21 a22 a23 a31 a32 a33]; split; tauto || (try assumption; lra).
Qed.
(** the computed inverse *)
Lemma inv_val np k Tr c s : c ^ 2 + s ^ 2 = 1 -> 0 <= k <= 1000000 -> near (100 * unit) Tr (T_real c s) -> inv_near np k Tr ->
  exists Y, np_inv np Tr = Ok Y /\ near ((3 * k + 906) * unit) Y (T_real_inv c s).
Proof.
  intros CS Hk HT (Y & EY & FY & RY). exists Y. split; [exact EY|]. assert (u := unit_val). intros i j Hi Hj. split; [apply FY; assumption|].
  assert (ku : 0 <= k * unit <= / 1000). { split; [apply Rmult_le_pos; lra|]. apply Rle_trans with (1000000 * unit); [apply Rmult_le_compat_r; lra|]. unfold unit. lra. }
  set (y0 := B2R (Y 0%nat j)) in *. set (y1 := B2R (Y 1%nat j)) in *. set (y2 := B2R (Y 2%nat j)) in *. set (yy := Rabs y0 + Rabs y1 + Rabs y2).
  assert (P0 := Rabs_pos y0). assert (P1 := Rabs_pos y1). assert (P2 := Rabs_pos y2).
  set (dl := fun r : nat => if Nat.eqb r j then 1 else 0).
  assert (Row : forall r, (r < 3)%nat -> Rabs (as_arr (T_real c s) r 0%nat * y0 + as_arr (T_real c s) r 1%nat * y1 + as_arr (T_real c s) r 2%nat * y2 - dl r) <= k * unit + 100 * unit * yy).
  { intros r Hr. assert (A := RY r j Hr Hj). unfold products in A. fold y0 y1 y2 in A. fold (dl r) in A.
    destruct (HT r 0%nat Hr ltac:(lia)) as [_ E0]. destruct (HT r 1%nat Hr ltac:(lia)) as [_ E1]. destruct (HT r 2%nat Hr ltac:(lia)) as [_ E2].
    set (t0 := as_arr (T_real c s) r 0%nat) in *. set (t1 := as_arr (T_real c s) r 1%nat) in *. set (t2 := as_arr (T_real c s) r 2%nat) in *.
    set (p0 := B2R (Tr r 0%nat)) in *. set (p1 := B2R (Tr r 1%nat)) in *. set (p2 := B2R (Tr r 2%nat)) in *.
    replace (t0 * y0 + t1 * y1 + t2 * y2 - dl r) with ((p0 * y0 + p1 * y1 + p2 * y2 - dl r) + (- (p0 - t0) * y0 + - (p1 - t1) * y1 + - (p2 - t2) * y2)) by ring.
    eapply Rle_trans; [apply Rabs_triang|]. apply Rplus_le_compat; [exact A|].
    assert (T : forall p y, Rabs p <= 100 * unit -> Rabs (- p * y) <= 100 * unit * Rabs y) by (intros p y H; rewrite Rabs_mult, Rabs_Ropp; apply Rmult_le_compat_r; [apply Rabs_pos|exact H]).
    assert (T0 := T _ y0 E0). assert (T1 := T _ y1 E1). assert (T2 := T _ y2 E2).
    assert (R1 := Rabs_triang (- (p0 - t0) * y0 + - (p1 - t1) * y1) (- (p2 - t2) * y2)). assert (R2 := Rabs_triang (- (p0 - t0) * y0) (- (p1 - t1) * y1)). unfold yy. lra. }
  set (w := k * unit + 100 * unit * yy) in *.
  assert (Bc : Rabs (c ^ 2) <= 1 /\ Rabs (s ^ 2) <= 1 /\ Rabs (2 * c * s) <= 1 /\ Rabs (c * s) <= 1 /\ Rabs (c ^ 2 - s ^ 2) <= 1 /\ Rabs (-2 * c * s) <= 1 /\ Rabs (- c * s) <= 1).
  { assert (A := pow2_ge_0 (c - s)). assert (B := pow2_ge_0 (c + s)). assert (C := pow2_ge_0 c). assert (D := pow2_ge_0 s). repeat split; apply Rabs_le; lra. }
  assert (Key : forall r, (r < 3)%nat -> Rabs (B2R (Y r j) - as_arr (T_real_inv c s) r j) <= 3 * w).
  { assert (Z0 := Row 0%nat ltac:(lia)). assert (Z1 := Row 1%nat ltac:(lia)). assert (Z2 := Row 2%nat ltac:(lia)). unfold as_arr, T_real in Z0, Z1, Z2. cbn [a11 a12 a13 a21 a22 a23 a31 a32 a33] in Z0, Z1, Z2.
    set (z0 := c ^ 2 * y0 + s ^ 2 * y1 + 2 * c * s * y2 - dl 0%nat) in *. set (z1 := s ^ 2 * y0 + c ^ 2 * y1 + -2 * c * s * y2 - dl 1%nat) in *. set (z2 := - c * s * y0 + c * s * y1 + (c ^ 2 - s ^ 2) * y2 - dl 2%nat) in *.
    assert (G : forall p q t, Rabs p <= 1 -> Rabs q <= 1 -> Rabs t <= 1 -> Rabs (p * z0 + q * z1 + t * z2) <= 3 * w).
    { intros p q t Hp Hq Ht. assert (M : forall a z, Rabs a <= 1 -> Rabs z <= w -> Rabs (a * z) <= w). { intros a z Ha Hz. rewrite Rabs_mult. rewrite <- (Rmult_1_l w). apply Rmult_le_compat; try apply Rabs_pos; assumption. }
      assert (M0 := M p z0 Hp Z0). assert (M1 := M q z1 Hq Z1). assert (M2 := M t z2 Ht Z2). assert (R1 := Rabs_triang (p * z0 + q * z1) (t * z2)). assert (R2 := Rabs_triang (p * z0) (q * z1)). lra. }
    assert (Hs : s ^ 2 = 1 - c ^ 2) by lra.
    assert (I0 : y0 - (c ^ 2 * dl 0%nat + s ^ 2 * dl 1%nat + -2 * c * s * dl 2%nat) = c ^ 2 * z0 + s ^ 2 * z1 + -2 * c * s * z2).
    { unfold z0, z1, z2. replace (c ^ 2 * (c ^ 2 * y0 + s ^ 2 * y1 + 2 * c * s * y2 - dl 0%nat) + s ^ 2 * (s ^ 2 * y0 + c ^ 2 * y1 + -2 * c * s * y2 - dl 1%nat) + -2 * c * s * (- c * s * y0 + c * s * y1 + (c ^ 2 - s ^ 2) * y2 - dl 2%nat))
        with ((c ^ 2 + s ^ 2) ^ 2 * y0 - (c ^ 2 * dl 0%nat + s ^ 2 * dl 1%nat + -2 * c * s * dl 2%nat)) by ring. rewrite CS. ring. }
    assert (I1 : y1 - (s ^ 2 * dl 0%nat + c ^ 2 * dl 1%nat + 2 * c * s * dl 2%nat) = s ^ 2 * z0 + c ^ 2 * z1 + 2 * c * s * z2).
    { unfold z0, z1, z2. replace (s ^ 2 * (c ^ 2 * y0 + s ^ 2 * y1 + 2 * c * s * y2 - dl 0%nat) + c ^ 2 * (s ^ 2 * y0 + c ^ 2 * y1 + -2 * c * s * y2 - dl 1%nat) + 2 * c * s * (- c * s * y0 + c * s * y1 + (c ^ 2 - s ^ 2) * y2 - dl 2%nat))
        with ((c ^ 2 + s ^ 2) ^ 2 * y1 - (s ^ 2 * dl 0%nat + c ^ 2 * dl 1%nat + 2 * c * s * dl 2%nat)) by ring. rewrite CS. ring. }
    assert (I2 : y2 - (c * s * dl 0%nat + - c * s * dl 1%nat + (c ^ 2 - s ^ 2) * dl 2%nat) = c * s * z0 + - c * s * z1 + (c ^ 2 - s ^ 2) * z2).
    { unfold z0, z1, z2. replace (c * s * (c ^ 2 * y0 + s ^ 2 * y1 + 2 * c * s * y2 - dl 0%nat) + - c * s * (s ^ 2 * y0 + c ^ 2 * y1 + -2 * c * s * y2 - dl 1%nat) + (c ^ 2 - s ^ 2) * (- c * s * y0 + c * s * y1 + (c ^ 2 - s ^ 2) * y2 - dl 2%nat))
        with ((c ^ 2 + s ^ 2) ^ 2 * y2 - (c * s * dl 0%nat + - c * s * dl 1%nat + (c ^ 2 - s ^ 2) * dl 2%nat)) by ring. rewrite CS. ring. }
    assert (Sel : forall r, (as_arr (T_real_inv c s) r j : R) = as_arr (T_real_inv c s) r 0%nat * dl 0%nat + as_arr (T_real_inv c s) r 1%nat * dl 1%nat + as_arr (T_real_inv c s) r 2%nat * dl 2%nat).
    { intros r. unfold dl. destruct j as [|[|[|j]]]; [| | |lia]; cbn [Nat.eqb]; rewrite ?Rmult_0_r, ?Rmult_1_r, ?Rplus_0_l, ?Rplus_0_r; reflexivity. }
    intros r Hr. rewrite Sel. unfold as_arr, T_real_inv. destruct r as [|[|[|r]]]; [| | |lia]; cbn [a11 a12 a13 a21 a22 a23 a31 a32 a33]; fold y0 y1 y2; [rewrite I0|rewrite I1|rewrite I2]; apply G; tauto. }
  assert (Bi : forall r, (r < 3)%nat -> Rabs (as_arr (T_real_inv c s) r j) <= 1).
  { intros r Hr. unfold as_arr, T_real_inv. destruct r as [|[|[|r]]]; [| | |lia]; (destruct j as [|[|[|j]]]; [| | |lia]); cbn [a11 a12 a13 a21 a22 a23 a31 a32 a33]; tauto. }
  assert (Up : forall r, (r < 3)%nat -> Rabs (B2R (Y r j)) <= 1 + 3 * w).
  { intros r Hr. replace (B2R (Y r j)) with ((B2R (Y r j) - as_arr (T_real_inv c s) r j) + as_arr (T_real_inv c s) r j) by ring. eapply Rle_trans; [apply Rabs_triang|]. assert (A := Key r Hr). assert (B := Bi r Hr). lra. }
  assert (U0 := Up 0%nat ltac:(lia)). assert (U1 := Up 1%nat ltac:(lia)). assert (U2 := Up 2%nat ltac:(lia)). fold y0 in U0. fold y1 in U1. fold y2 in U2.
  assert (yb : yy <= 302 / 100).
  { assert (yy <= 3 + 9 * w) by (unfold yy; lra). assert (100 * unit * yy <= / 100000 * yy) by (apply Rmult_le_compat_r; [unfold yy; lra|unfold unit; lra]). unfold w in H. lra. }
  eapply Rle_trans; [apply Key, Hi|]. unfold w. assert (100 * unit * yy <= 100 * unit * (302 / 100)) by (apply Rmult_le_compat_l; lra). lra.
Qed.
(** the rotated stiffness *)
Lemma as_arr_mmul A B i j : (i < 3)%nat -> (j < 3)%nat ->
  (as_arr (mmul A B) i j : R) = as_arr A i 0%nat * as_arr B 0%nat j + as_arr A i 1%nat * as_arr B 1%nat j + as_arr A i 2%nat * as_arr B 2%nat j.
Proof. intros Hi Hj. unfold as_arr, mmul. destruct i as [|[|[|i]]]; [| | |lia]; (destruct j as [|[|[|j]]]; [| | |lia]); cbn [a11 a12 a13 a21 a22 a23 a31 a32 a33]; reflexivity. Qed.
Definition colsum (Q : mat3) (l : nat) : R := Rabs (as_arr Q 0%nat l) + Rabs (as_arr Q 1%nat l) + Rabs (as_arr Q 2%nat l).
Lemma abs3 x y z a b c : Rabs x <= a -> Rabs y <= b -> Rabs z <= c -> Rabs (x + y + z) <= a + b + c.
Proof. intros X Y Z. assert (A := Rabs_triang (x + y) z). assert (B := Rabs_triang x y). lra. Qed.
Lemma abs_mul x y a b : Rabs x <= a -> Rabs y <= b -> Rabs (x * y) <= a * b.
Proof. intros X Y. rewrite Rabs_mult. apply Rmult_le_compat; try apply Rabs_pos; assumption. Qed.
Lemma rot_near mm eA rho q Y Qf Te A Q B : mm_near mm -> 0 <= eA * unit <= / 1000 -> 0 <= eA -> 0 <= rho <= / 500 -> bp (-200) <= q <= bp 200 ->
  near (eA * unit) Y A -> near (100 * unit) Te B -> (forall i j, (i < 3)%nat -> (j < 3)%nat -> Rabs (as_arr A i j) <= 1) -> (forall i j, (i < 3)%nat -> (j < 3)%nat -> Rabs (as_arr B i j) <= 1) ->
  (forall i j, (i < 3)%nat -> (j < 3)%nat -> fin (Qf i j) /\ Rabs (B2R (Qf i j) - as_arr Q i j) <= rho * Rabs (as_arr Q i j)) -> colsum Q 0 + colsum Q 1 + colsum Q 2 <= 2 * q ->
  forall i j, (i < 3)%nat -> (j < 3)%nat -> fin (mm (mm Y Qf) Te i j) /\
    Rabs (B2R (mm (mm Y Qf) Te i j) - as_arr (mmul (mmul A Q) B) i j) <= 2 * q * (1013 / 1000 * (eA * unit) + 101 / 100 * rho + 110 * unit) /\ Rabs (B2R (mm (mm Y Qf) Te i j)) <= 3 * q.
Proof.
  intros MM He He0 Hr Hq HY HT HA HB HQ HN. assert (u := unit_val). set (t := bp (-900)).
  assert (t0 : 0 < t <= / 1000 * unit * q).
  { split; [apply bpow_gt_0|]. apply Rle_trans with (bp (-10) * bp (-53) * bp (-200)); [unfold t; rewrite <- !bpow_plus; apply bpow_le; lia|]. rewrite <- unit_bp. apply Rmult_le_compat; [apply Rmult_le_pos; [apply bpow_ge_0|lra]|apply bpow_ge_0| |apply Hq].
    apply Rmult_le_compat_r; [lra|]. cbn. lra. }
  assert (q0 : 0 < q) by (eapply Rlt_le_trans; [apply (bpow_gt_0 radix2 (-200))|apply Hq]).
  assert (cp : forall l, 0 <= colsum Q l) by (intros l; unfold colsum; assert (X := Rabs_pos (as_arr Q 0%nat l)); assert (X' := Rabs_pos (as_arr Q 1%nat l)); assert (X'' := Rabs_pos (as_arr Q 2%nat l)); lra).
  assert (cl : forall l, (l < 3)%nat -> colsum Q l <= 2 * q). { intros l Hl. assert (c0 := cp 0%nat). assert (c1 := cp 1%nat). assert (c2 := cp 2%nat). destruct l as [|[|[|l]]]; [| | |lia]; lra. }
  assert (qb : 100 * q <= bp 900). { apply Rle_trans with (bp 7 * bp 200); [apply Rmult_le_compat; try lra; cbn; lra|rewrite <- bpow_plus; apply bpow_le; lia]. }
  assert (Yb : forall i k, (i < 3)%nat -> (k < 3)%nat -> Rabs (B2R (Y i k)) <= 1001 / 1000).
  { intros i k Hi Hk. destruct (HY i k Hi Hk) as [_ E]. assert (X := HA i k Hi Hk). replace (B2R (Y i k)) with ((B2R (Y i k) - as_arr A i k) + as_arr A i k) by ring. eapply Rle_trans; [apply Rabs_triang|]. lra. }
  assert (Tb : forall i k, (i < 3)%nat -> (k < 3)%nat -> Rabs (B2R (Te i k)) <= 1001 / 1000).
  { intros i k Hi Hk. destruct (HT i k Hi Hk) as [_ E]. assert (X := HB i k Hi Hk). replace (B2R (Te i k)) with ((B2R (Te i k) - as_arr B i k) + as_arr B i k) by ring. eapply Rle_trans; [apply Rabs_triang|]. lra. }
  assert (Qb : forall k l, (k < 3)%nat -> (l < 3)%nat -> Rabs (B2R (Qf k l)) <= 501 / 500 * Rabs (as_arr Q k l)).
  { intros k l Hk Hl. destruct (HQ k l Hk Hl) as [_ E]. replace (B2R (Qf k l)) with ((B2R (Qf k l) - as_arr Q k l) + as_arr Q k l) by ring. eapply Rle_trans; [apply Rabs_triang|]. assert (P := Rabs_pos (as_arr Q k l)).
    assert (rho * Rabs (as_arr Q k l) <= / 500 * Rabs (as_arr Q k l)) by (apply Rmult_le_compat_r; lra). lra. }
  assert (Mag : forall i l, (i < 3)%nat -> (l < 3)%nat -> 0 <= magnitudes Y Qf i l <= 1004 / 1000 * colsum Q l).
  { intros i l Hi Hl. unfold magnitudes, colsum. assert (Z : forall k, (k < 3)%nat -> 0 <= Rabs (B2R (Y i k) * B2R (Qf k l)) <= 1004 / 1000 * Rabs (as_arr Q k l)).
    { intros k Hk. split; [apply Rabs_pos|]. eapply Rle_trans; [apply (abs_mul _ _ _ _ (Yb i k Hi Hk) (Qb k l Hk Hl))|]. assert (P := Rabs_pos (as_arr Q k l)). lra. }
    assert (Z0 := Z 0%nat ltac:(lia)). assert (Z1 := Z 1%nat ltac:(lia)). assert (Z2 := Z 2%nat ltac:(lia)). lra. }
  assert (FY : finite3 Y) by (intros i j Hi Hj; apply (HY i j Hi Hj)). assert (FQ : finite3 Qf) by (intros i j Hi Hj; apply (HQ i j Hi Hj)). assert (FT : finite3 Te) by (intros i j Hi Hj; apply (HT i j Hi Hj)).
  assert (M1 := MM Y Qf FY FQ ltac:(intros i l Hi Hl; rewrite pz; destruct (Mag i l Hi Hl) as [_ X]; assert (X' := cl l Hl); lra)).
  set (P := mm Y Qf) in *. set (g := 1003 / 1000 * (eA * unit) + rho + 41 / 10 * unit).
  assert (Px : forall i l, (i < 3)%nat -> (l < 3)%nat -> Rabs (B2R (P i l) - as_arr (mmul A Q) i l) <= g * colsum Q l + t).
  { intros i l Hi Hl. destruct (M1 i l Hi Hl) as [_ E]. destruct (Mag i l Hi Hl) as [G0 G]. rewrite pz in E. fold t in E. rewrite as_arr_mmul by assumption. unfold products in E.
    assert (Z : forall k, (k < 3)%nat -> Rabs (B2R (Y i k) * B2R (Qf k l) - as_arr A i k * as_arr Q k l) <= (1003 / 1000 * (eA * unit) + rho) * Rabs (as_arr Q k l)).
    { intros k Hk. destruct (HY i k Hi Hk) as [_ E1]. destruct (HQ k l Hk Hl) as [_ E2].
      replace (B2R (Y i k) * B2R (Qf k l) - as_arr A i k * as_arr Q k l) with ((B2R (Y i k) - as_arr A i k) * B2R (Qf k l) + as_arr A i k * (B2R (Qf k l) - as_arr Q k l)) by ring.
      eapply Rle_trans; [apply Rabs_triang|]. assert (W1 := abs_mul _ _ _ _ E1 (Qb k l Hk Hl)). assert (W2 := abs_mul _ _ _ _ (HA i k Hi Hk) E2). assert (P0 := Rabs_pos (as_arr Q k l)).
      assert (eA * unit * (501 / 500 * Rabs (as_arr Q k l)) <= 1003 / 1000 * (eA * unit) * Rabs (as_arr Q k l)). { assert (0 <= eA * unit * Rabs (as_arr Q k l)) by (apply Rmult_le_pos; lra). lra. } lra. }
    assert (Z3 := abs3 _ _ _ _ _ _ (Z 0%nat ltac:(lia)) (Z 1%nat ltac:(lia)) (Z 2%nat ltac:(lia))).
    match goal with |- Rabs (?p - ?x) <= _ => replace (p - x) with ((p - (B2R (Y i 0%nat) * B2R (Qf 0%nat l) + B2R (Y i 1%nat) * B2R (Qf 1%nat l) + B2R (Y i 2%nat) * B2R (Qf 2%nat l))) +
      (B2R (Y i 0%nat) * B2R (Qf 0%nat l) - as_arr A i 0%nat * as_arr Q 0%nat l + (B2R (Y i 1%nat) * B2R (Qf 1%nat l) - as_arr A i 1%nat * as_arr Q 1%nat l) + (B2R (Y i 2%nat) * B2R (Qf 2%nat l) - as_arr A i 2%nat * as_arr Q 2%nat l))) by ring end.
    eapply Rle_trans; [apply Rabs_triang|]. assert (4 * unit * magnitudes Y Qf i l <= 4 * unit * (1004 / 1000 * colsum Q l)) by (apply Rmult_le_compat_l; lra).
    assert (0 <= unit * colsum Q l) by (apply Rmult_le_pos; [lra|apply cp]). unfold g, colsum in *. lra. }
  assert (xb : forall i l, (i < 3)%nat -> (l < 3)%nat -> Rabs (as_arr (mmul A Q) i l) <= colsum Q l).
  { intros i l Hi Hl. rewrite as_arr_mmul by assumption. unfold colsum. assert (Z : forall k, (k < 3)%nat -> Rabs (as_arr A i k * as_arr Q k l) <= Rabs (as_arr Q k l)).
    { intros k Hk. eapply Rle_trans; [apply (abs_mul _ _ 1 _ (HA i k Hi Hk) (Rle_refl _))|]. rewrite Rmult_1_l. apply Rle_refl. } apply abs3; apply Z; lia. }
  assert (gs : 0 <= g <= 1 / 100) by (unfold g; lra).
  assert (tq : t <= / 1000000 * q). { eapply Rle_trans; [apply t0|]. apply Rmult_le_compat_r; lra. }
  assert (Pb : forall i l, (i < 3)%nat -> (l < 3)%nat -> Rabs (B2R (P i l)) <= 101 / 100 * colsum Q l + t).
  { intros i l Hi Hl. replace (B2R (P i l)) with ((B2R (P i l) - as_arr (mmul A Q) i l) + as_arr (mmul A Q) i l) by ring. eapply Rle_trans; [apply Rabs_triang|]. assert (X := Px i l Hi Hl). assert (X' := xb i l Hi Hl).
    assert (g * colsum Q l <= 1 / 100 * colsum Q l) by (apply Rmult_le_compat_r; [apply cp|lra]). lra. }
  assert (FP : finite3 P) by (intros i j Hi Hj; apply (M1 i j Hi Hj)).
  assert (Mag2 : forall i j, (i < 3)%nat -> (j < 3)%nat -> 0 <= magnitudes P Te i j <= 102 / 100 * (colsum Q 0 + colsum Q 1 + colsum Q 2) + 4 * t).
  { intros i j Hi Hj. unfold magnitudes. assert (Z : forall l, (l < 3)%nat -> 0 <= Rabs (B2R (P i l) * B2R (Te l j)) <= 102 / 100 * colsum Q l + 101 / 100 * t).
    { intros l Hl. split; [apply Rabs_pos|]. eapply Rle_trans; [apply (abs_mul _ _ _ _ (Pb i l Hi Hl) (Tb l j Hl Hj))|]. assert (X := cp l). lra. }
    assert (Z0 := Z 0%nat ltac:(lia)). assert (Z1 := Z 1%nat ltac:(lia)). assert (Z2 := Z 2%nat ltac:(lia)). lra. }
  assert (M2 := MM P Te FP FT ltac:(intros i j Hi Hj; rewrite pz; destruct (Mag2 i j Hi Hj) as [_ X]; lra)).
  assert (Fin : forall i j, (i < 3)%nat -> (j < 3)%nat -> Rabs (B2R (mm P Te i j) - as_arr (mmul (mmul A Q) B) i j) <= 2 * q * (1013 / 1000 * (eA * unit) + 101 / 100 * rho + 110 * unit)).
  { intros i j Hi Hj. destruct (M2 i j Hi Hj) as [_ E]. destruct (Mag2 i j Hi Hj) as [G0 G]. rewrite pz in E. fold t in E. rewrite as_arr_mmul by assumption. unfold products in E.
    assert (Z : forall l, (l < 3)%nat -> Rabs (B2R (P i l) * B2R (Te l j) - as_arr (mmul A Q) i l * as_arr B l j) <= (1001 / 1000 * g + 100 * unit) * colsum Q l + 1001 / 1000 * t).
    { intros l Hl. destruct (HT l j Hl Hj) as [_ E2].
      replace (B2R (P i l) * B2R (Te l j) - as_arr (mmul A Q) i l * as_arr B l j) with ((B2R (P i l) - as_arr (mmul A Q) i l) * B2R (Te l j) + as_arr (mmul A Q) i l * (B2R (Te l j) - as_arr B l j)) by ring.
      eapply Rle_trans; [apply Rabs_triang|]. assert (W1 := abs_mul _ _ _ _ (Px i l Hi Hl) (Tb l j Hl Hj)). assert (W2 := abs_mul _ _ _ _ (xb i l Hi Hl) E2). lra. }
    assert (Z3 := abs3 _ _ _ _ _ _ (Z 0%nat ltac:(lia)) (Z 1%nat ltac:(lia)) (Z 2%nat ltac:(lia))).
    match goal with |- Rabs (?p - ?x) <= _ => replace (p - x) with ((p - (B2R (P i 0%nat) * B2R (Te 0%nat j) + B2R (P i 1%nat) * B2R (Te 1%nat j) + B2R (P i 2%nat) * B2R (Te 2%nat j))) +
      (B2R (P i 0%nat) * B2R (Te 0%nat j) - as_arr (mmul A Q) i 0%nat * as_arr B 0%nat j + (B2R (P i 1%nat) * B2R (Te 1%nat j) - as_arr (mmul A Q) i 1%nat * as_arr B 1%nat j) + (B2R (P i 2%nat) * B2R (Te 2%nat j) - as_arr (mmul A Q) i 2%nat * as_arr B 2%nat j))) by ring end.
    eapply Rle_trans; [apply Rabs_triang|]. set (N := colsum Q 0 + colsum Q 1 + colsum Q 2) in *. assert (N0 : 0 <= N) by (unfold N; assert (c0 := cp 0%nat); assert (c1 := cp 1%nat); assert (c2 := cp 2%nat); lra).
    assert (S1 : 4 * unit * magnitudes P Te i j <= 4 * unit * (102 / 100 * N + 4 * t)) by (apply Rmult_le_compat_l; lra).
    assert (S2 : (1001 / 1000 * g + 100 * unit) * N <= (1001 / 1000 * g + 100 * unit) * (2 * q)) by (apply Rmult_le_compat_l; lra).
    assert (S3 : 4 * unit * (102 / 100 * N) <= 4 * unit * (102 / 100 * (2 * q))) by (apply Rmult_le_compat_l; lra).
    assert (S4 : 4 * unit * (4 * t) <= t) by (assert (0 <= t) by lra; assert (16 * unit * t <= 1 * t) by (apply Rmult_le_compat_r; lra); lra).
    assert (S5 : (1001 / 1000 * g + 100 * unit) * colsum Q 0 + 1001 / 1000 * t + ((1001 / 1000 * g + 100 * unit) * colsum Q 1 + 1001 / 1000 * t) + ((1001 / 1000 * g + 100 * unit) * colsum Q 2 + 1001 / 1000 * t) = (1001 / 1000 * g + 100 * unit) * N + 3003 / 1000 * t) by (unfold N; field).
    rewrite S5 in Z3. unfold g in *. assert (0 <= q * (eA * unit)) by (apply Rmult_le_pos; lra). assert (0 <= q * rho) by (apply Rmult_le_pos; lra). assert (0 <= q * unit) by (apply Rmult_le_pos; lra). lra. }
  intros i j Hi Hj. destruct (M2 i j Hi Hj) as [F E]. split; [exact F|]. split; [apply Fin; assumption|]. destruct (Mag2 i j Hi Hj) as [G0 G]. rewrite pz in E. fold t in E.
  assert (A3 : Rabs (products P Te i j) <= magnitudes P Te i j). { unfold products, magnitudes. apply abs3; apply Rle_refl. }
  replace (B2R (mm P Te i j)) with ((B2R (mm P Te i j) - products P Te i j) + products P Te i j) by ring. eapply Rle_trans; [apply Rabs_triang|].
  assert (4 * unit * magnitudes P Te i j <= / 100 * magnitudes P Te i j) by (apply Rmult_le_compat_r; lra). lra.
Qed.
