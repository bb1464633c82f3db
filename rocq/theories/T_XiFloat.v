(** Proofs of the theorems on lamination parameters of a layup in binary64 *)
From Coq Require Import Reals ZArith Lra Lia Bool String.
From Coquelicot Require Import Coquelicot.
From Flocq Require Import Core.Core IEEE754.BinarySingleNaN.
From Coq Require Import List.
From Verif Require Import M_Py M_K M_Float M_FloatArith M_RealArith M_Validate M_Material M_Laminate M_MatFloat M_LamArith M_LayupFloat M_LpFloat M_XiFloat S_Mat S_Laminate S_Ritz S_Validate S_Round S_LamRound S_MatFloat S_LayupFloat S_LpFloat S_XiFloat L_Mat L_Lam L_LamAlg L_LamEnergy L_Float L_Round L_LamRound L_MatFloat L_LayupFloat L_XiFloat T_Laminate T_LamRound T_MatFloat T_Round T_LayupFloat T_LpFloat.
Import ListNotations.
Open Scope R_scope.

Lemma thick_pos l : Forall usual (thick l) -> Forall (fun p => 0 < thickness (snd p)) (exact_layup l).
Proof.
  intros U. unfold exact_layup, thick in *. rewrite Forall_map in *. eapply Forall_impl; [|exact U]. intros [th m] H. cbn [snd] in *. destruct (usual_pos _ H) as (_ & P & _). destruct m; exact (proj1 P).
Qed.
Lemma qs_near np l k : Forall (fun p => xi_near np (fst p) /\ usual_angle (fst p)) l ->
  Forall2 (fun q p => Rabs (q - htrig k (fst p)) <= 110 * unit) (map (fun p => B2R (trig4 np (scaled_angle (fst p)) k)) l) (exact_layup l).
Proof. induction 1 as [|[th m] l [X A] _ IH]; cbn [map exact_layup]; constructor; [|exact IH]. cbn [fst] in *. apply (trig4_near np th k A X). Qed.
Lemma total_near np l : usual_plies (thick l) -> fin (total_f np l) /\ Rabs (B2R (total_f np l) - height (thick l)) <= INR (length l) * slack * unit * height (thick l).
Proof.
  intros HU. assert (R := height_range _ HU). destruct HU as (U & N & M). assert (Ln : length (thick l) = length l) by (unfold thick; apply map_length). assert (J := pos_INR (length (thick l))).
  destruct (sum_err (np_pow np) (thick l) (f_of_Z 0) 0 0 U) as [F E].
  { apply int_val. reflexivity. } { lra. } { lra. } { lra. }
  { rewrite (proj2 (int_val 0 eq_refl)). rewrite Rminus_0_r, Rabs_R0. lra. }
  { fold (height (thick l)). lra. }
  fold (height (thick l)) in E. rewrite !Rplus_0_l, Ln in E. split; assumption.
Qed.
Lemma wA_pos z t : 0 < t -> 0 <= wA (z + t) z. Proof. unfold wA. lra. Qed.
Lemma wX_pos z t : 0 < t -> 0 <= wX (z + t) z.
Proof. intros T. unfold wX. replace ((z + t) ^ 3 - z ^ 3) with (t * (3 * (z + t / 2) ^ 2 + t ^ 2 / 4)) by field. apply Rmult_le_pos; [lra|]. assert (A := pow2_ge_0 (z + t / 2)). assert (B := pow2_ge_0 t). lra. Qed.
Lemma zb_height l : zb (exact_layup l) = - height (thick l) / 2. Proof. unfold zb. rewrite <- height_exact. reflexivity. Qed.

Lemma xiA_all np l : xi_layup np l -> exists s : nat -> f64, xiA_f np l = Ok (map (fun k => fdiv (s k) (total_f np l)) [0%nat; 1%nat; 2%nat; 3%nat]) /\
  forall k, (k < 4)%nat -> fin (fdiv (s k) (total_f np l)) /\ Rabs (B2R (fdiv (s k) (total_f np l)) - xsum (htrig k) wA (zb (exact_layup l)) (exact_layup l) / height (thick l)) <= xi_off 1 l.
Proof.
  intros H. assert (H' := H). destruct H' as (HP & HA & HU). fold (thick l) in HU. assert (R := height_range _ HU). assert (HU' := HU). destruct HU' as (U & N & M).
  assert (Ln : length (thick l) = length l) by (unfold thick; apply map_length). rewrite Ln in *. assert (n1 : 1 <= INR (length l)) by (apply (le_INR 1), N). assert (u := unit_val). assert (P0 := bpow_gt_0 radix2 (-64)).
  set (T := height (thick l)) in *. assert (T0 : 0 < T) by lra. set (n := INR (length l)) in *.
  destruct (xi_sum np l (@weight_A (FA (np_pow np))) (fun z t => wA (z + t) z) 1 (51 / 100) (101 / 100) 1 H) as (z & s & Ez & Es & Bs); fold T n; try lra.
  { rewrite Rmult_1_l. assert (X := small_T 1 T R ltac:(lia)). rewrite pow_1 in X. exact X. }
  { intros x1 x0 z t NP. destruct (weight_A_err (np_pow np) n T x1 x0 z t NP) as (w & Ew & Fw & Bw). exists w. split; [exact Ew|]. split; [exact Fw|]. replace (wA (z + t) z) with (((z + t) ^ 1 - z ^ 1) / INR 1) by (unfold wA; cbn; field). exact Bw. }
  { intros z t _ _ Ht. unfold wA. rewrite Rabs_right; lra. }
  exists s. split; [unfold xiA_f; rewrite Ez; cbn [bind]; change (fun zk1 zk0 : f64 => Ok (fsub zk1 zk0)) with (@weight_A (FA (np_pow np))); rewrite Es; reflexivity|].
  intros k Hk. destruct (Bs k Hk) as [Fk Bk]. fold T n in Bk. rewrite thick_exact in Bk. destruct (total_near np l HU) as [Ft Et]. fold T n in Et.
  assert (C := gm_close wA (htrig k) (110 * unit) wA_pos (exact_layup l) (- T / 2) _ (thick_pos l U) (qs_near np l k HA)).
  assert (Z := zb_height l). fold T in Z. rewrite <- Z in *. rewrite xsum_one_wA, <- height_exact in C. fold T in C.
  assert (Le := xsum_le wA (htrig k) wA_pos (htrig_le k) (exact_layup l) (zb (exact_layup l)) (thick_pos l U)). rewrite xsum_one_wA, <- height_exact in Le. fold T in Le.
  destruct (quot (s k) (total_f np l) (xsum (htrig k) wA (zb (exact_layup l)) (exact_layup l)) T (153 / 100 * n + 113) (n * slack) Fk Ft T0) as [F E]; try assumption.
  { set (G := gmoment _ _ _ _) in *. set (X := xsum (htrig k) wA _ _) in *. replace (B2R (s k) - X) with ((B2R (s k) - G) + (G - X)) by ring. apply Rle_trans with (1 := Rabs_triang _ _).
    assert (uT : 0 <= unit * T) by (apply Rmult_le_pos; lra). assert (nu : 0 <= n * (unit * T)) by (apply Rmult_le_pos; lra). lra. }
  { unfold unit. split; [apply Rmult_le_pos|]; lra. } { unfold unit, slack. split; [apply Rmult_le_pos|]; lra. }
  split; [exact F|]. apply Rle_trans with (1 := E). unfold xi_off. fold n. apply Rmult_le_compat_r; [lra|]. unfold slack. lra.
Qed.
Lemma cube_near np T (t : f64) e : pow_near (np_pow np) -> bp (-64) <= T <= bp 84 -> fin t -> 0 <= e <= / 1000000 -> Rabs (B2R t - T) <= e * T ->
  exists y, np_pow np t 3 = Ok y /\ fin y /\ Rabs (B2R y - T ^ 3) <= (301 / 100 * e + 31 / 10 * unit) * T ^ 3.
Proof.
  intros HP R F He E. assert (P0 := bpow_gt_0 radix2 (-64)). assert (T0 : 0 < T) by lra. assert (u := unit_val). apply Rabs_le_inv in E. set (x := B2R t) in *.
  assert (x0 : 0 <= x <= (1 + e) * T) by (split; nra).
  destruct (HP t 3%nat F) as (y & Ey & Fy & By); [fold x; rewrite pz, Rabs_right by lra|right; reflexivity|].
  { apply Rle_trans with (bp 84 * bp 1); [|rewrite <- bpow_plus; apply bpow_le; lia]. assert (b1 : bp 1 = 2) by (cbn; lra). rewrite b1. nra. }
  fold x in By. exists y. split; [exact Ey|]. split; [exact Fy|]. rewrite pz in By. assert (S := small_T 3 T R ltac:(lia)).
  assert (Tn : bp (-900) <= unit * / 100 * T ^ 3).
  { apply Rle_trans with (bp (-53) * bp (-7) * bp (-300)); [rewrite <- !bpow_plus; apply bpow_le; lia|]. rewrite <- unit_bp. apply Rmult_le_compat; [apply Rmult_le_pos; [lra|apply bpow_ge_0]|apply bpow_ge_0| |lra]. apply Rmult_le_compat_l; [lra|]. cbn. lra. }
  assert (T3 : 0 < T ^ 3) by (apply pow_lt, T0).
  assert (C : Rabs (x ^ 3 - T ^ 3) <= 301 / 100 * e * T ^ 3).
  { replace (x ^ 3 - T ^ 3) with ((x - T) * (x ^ 2 + x * T + T ^ 2)) by ring. rewrite Rabs_mult. assert (A1 : Rabs (x - T) <= e * T) by (apply Rabs_le; lra).
    assert (A2 : 0 <= x ^ 2 + x * T + T ^ 2 <= 301 / 100 * T ^ 2). { assert (B1 : x <= 1001 / 1000 * T) by nra. assert (x * T <= 1001 / 1000 * T * T) by nra. assert (x ^ 2 <= 1003 / 1000 * T ^ 2) by nra. assert (0 <= x * T) by nra. assert (0 <= x ^ 2) by nra. assert (0 <= T ^ 2) by nra. nra. }
    rewrite (Rabs_pos_eq (x ^ 2 + x * T + T ^ 2)) by lra. apply Rle_trans with (e * T * (301 / 100 * T ^ 2)); [apply Rmult_le_compat; [apply Rabs_pos|lra|exact A1|lra]|right; ring]. }
  assert (x3 : Rabs (x ^ 3) <= 1001 / 1000 * T ^ 3). { replace (x ^ 3) with ((x ^ 3 - T ^ 3) + T ^ 3) by ring. apply Rle_trans with (1 := Rabs_triang _ _). rewrite (Rabs_pos_eq (T ^ 3)) by lra. assert (301 / 100 * e * T ^ 3 <= / 1000 * T ^ 3) by (apply Rmult_le_compat_r; lra). lra. }
  replace (B2R y - T ^ 3) with ((B2R y - x ^ 3) + (x ^ 3 - T ^ 3)) by ring. apply Rle_trans with (1 := Rabs_triang _ _).
  assert (3 * unit * Rabs (x ^ 3) <= 3 * unit * (1001 / 1000 * T ^ 3)) by (apply Rmult_le_compat_l; lra). assert (0 <= unit * T ^ 3) by (apply Rmult_le_pos; lra). lra.
Qed.
Lemma xiD_all np l : xi_layup np l -> exists (s : nat -> f64) t3, xiD_f np l = Ok (map (fun k => fdiv (fmul (f_of_Z 4) (s k)) t3) [0%nat; 1%nat; 2%nat; 3%nat]) /\
  forall k, (k < 4)%nat -> fin (fdiv (fmul (f_of_Z 4) (s k)) t3) /\ Rabs (B2R (fdiv (fmul (f_of_Z 4) (s k)) t3) - 4 * xsum (htrig k) wX (zb (exact_layup l)) (exact_layup l) / height (thick l) ^ 3) <= xi_off 3 l.
Proof.
  intros H. assert (H' := H). destruct H' as (HP & HA & HU). fold (thick l) in HU. assert (R := height_range _ HU). assert (HU' := HU). destruct HU' as (U & N & M).
  assert (Ln : length (thick l) = length l) by (unfold thick; apply map_length). rewrite Ln in *. assert (n1 : 1 <= INR (length l)) by (apply (le_INR 1), N). assert (u := unit_val). assert (P0 := bpow_gt_0 radix2 (-64)).
  set (T := height (thick l)) in *. assert (T0 : 0 < T) by lra. set (n := INR (length l)) in *. assert (T3 : 0 < T ^ 3) by (apply pow_lt, T0). assert (S3 := small_T 3 T R ltac:(lia)).
  destruct (xi_sum np l (weight_cubes (np_pow np)) (fun z t => wX (z + t) z) (T ^ 2) (116 / 100) (301 / 100 * n + 53 / 10) (3 / 4) H) as (z & s & Ez & Es & Bs); fold T n; try lra.
  { apply pow_lt, T0. }
  { intros x1 x0 z t NP. exact (cubes_err (np_pow np) HP n T x1 x0 z t NP). }
  { intros z t L1 L2 Ht. assert (W := weight_bound 3 T z t ltac:(lia) L1 L2 Ht). replace (((z + t) ^ 3 - z ^ 3) / INR 3) with (wX (z + t) z / 3) in W by (unfold wX; cbn; field). unfold Rdiv in W. rewrite Rabs_mult, (Rabs_pos_eq (/ 3)) in W by lra. cbn [Nat.sub] in W. lra. }
  destruct (total_near np l HU) as [Ft Et]. fold T n in Et.
  assert (e0 : 0 <= n * slack * unit <= / 1000000) by (unfold unit, slack; split; [repeat apply Rmult_le_pos; lra|lra]).
  destruct (cube_near np T (total_f np l) (n * slack * unit) HP R Ft e0 Et) as (t3 & E3 & F3 & B3).
  exists s, t3. split; [unfold xiD_f; rewrite Ez; cbn [bind]; rewrite Es; cbn [bind]; rewrite E3; reflexivity|].
  intros k Hk. destruct (Bs k Hk) as [Fk Bk]. fold T n in Bk. rewrite thick_exact in Bk.
  assert (C := gm_close wX (htrig k) (110 * unit) wX_pos (exact_layup l) (- T / 2) _ (thick_pos l U) (qs_near np l k HA)).
  assert (Z := zb_height l). fold T in Z. rewrite <- Z in *. rewrite xsum_one_wX, <- height_exact in C. fold T in C.
  assert (Le := xsum_le wX (htrig k) wX_pos (htrig_le k) (exact_layup l) (zb (exact_layup l)) (thick_pos l U)). rewrite xsum_one_wX, <- height_exact in Le. fold T in Le.
  set (G := gmoment _ _ _ _) in *. set (X := xsum (htrig k) wX _ _) in *. clearbody G X. assert (uT : 0 <= unit * T ^ 3) by (apply Rmult_le_pos; lra). assert (nu : 0 <= n * (unit * T ^ 3)) by (apply Rmult_le_pos; lra).
  replace (unit * (101 / 100 * T ^ 2) * ((116 / 100 + 3 / 4 + 1 / 1000) * T * n + (301 / 100 * n + 53 / 10 + 3 / 4) * T)) with (101 / 100 * ((116 / 100 + 3 / 4 + 1 / 1000 + 301 / 100) * (n * (unit * T ^ 3)) + (53 / 10 + 3 / 4) * (unit * T ^ 3))) in Bk by ring.
  assert (D1 : Rabs (4 * B2R (s k) - 4 * X) <= 199 / 10 * (n * (unit * T ^ 3)) + 1346 / 10 * (unit * T ^ 3)).
  { replace (4 * B2R (s k) - 4 * X) with (4 * ((B2R (s k) - G) + (G - X))) by ring. rewrite Rabs_mult, (Rabs_pos_eq 4) by lra. assert (Q := Rabs_triang (B2R (s k) - G) (G - X)). lra. }
  assert (nuT : n * (unit * T ^ 3) <= / 1000000 * T ^ 3) by (rewrite <- Rmult_assoc; apply Rmult_le_compat_r; [lra|unfold unit; lra]). assert (uuT : unit * T ^ 3 <= / 1000000000 * T ^ 3) by (apply Rmult_le_compat_r; lra).
  assert (S4 : Rabs (4 * B2R (s k)) <= 101 / 100 * T ^ 3).
  { replace (4 * B2R (s k)) with ((4 * B2R (s k) - 4 * X) + 4 * X) by ring. apply Rle_trans with (1 := Rabs_triang _ _). rewrite (Rabs_mult 4 X), (Rabs_pos_eq 4) by lra. lra. }
  destruct (int_val 4 eq_refl) as [F4 V4].
  destruct (mul_rnd (f_of_Z 4) (s k) F4 Fk) as [Fm Em]. { rewrite V4. apply Rle_trans with (1 := S4). apply Rle_trans with (bp 1 * bp 300); [assert (b1 : bp 1 = 2) by (cbn; lra); rewrite b1; lra|]. rewrite <- bpow_plus. apply bpow_le. lia. }
  rewrite V4 in Em. destruct (rnd_err (4 * B2R (s k))) as (d & h & Hd & Hh & Er).
  assert (Tn : bp (-1075) <= / 100 * (unit * T ^ 3)).
  { apply Rle_trans with (bp (-7) * (bp (-53) * bp (-300))); [rewrite <- !bpow_plus; apply bpow_le; lia|]. rewrite <- unit_bp. apply Rmult_le_compat; [apply bpow_ge_0|apply Rmult_le_pos; [lra|apply bpow_ge_0]|cbn; lra|]. apply Rmult_le_compat_l; lra. }
  destruct (quot (fmul (f_of_Z 4) (s k)) t3 (4 * X) (T ^ 3) (199 / 10 * n + 136) (301 / 100 * (n * slack) + 31 / 10) Fm F3 T3) as [F E].
  { rewrite Em, Er. replace (4 * B2R (s k) * (1 + d) + h - 4 * X) with ((4 * B2R (s k) - 4 * X) + 4 * B2R (s k) * d + h) by ring. apply Rle_trans with (1 := Rabs_triang _ _).
    apply Rle_trans with (Rabs (4 * B2R (s k) - 4 * X) + Rabs (4 * B2R (s k) * d) + Rabs h); [apply Rplus_le_compat_r, Rabs_triang|]. rewrite (Rabs_mult _ d).
    assert (Rabs (4 * B2R (s k)) * Rabs d <= 101 / 100 * T ^ 3 * unit) by (apply Rmult_le_compat; try apply Rabs_pos; assumption). lra. }
  { rewrite Rabs_mult, (Rabs_pos_eq 4) by lra. lra. }
  { apply Rle_trans with (1 := B3). right. ring. }
  { unfold unit. split; [apply Rmult_le_pos|]; lra. } { unfold unit, slack. split; [apply Rmult_le_pos|]; lra. }
  split; [exact F|]. apply Rle_trans with (1 := E). unfold xi_off. fold n. apply Rmult_le_compat_r; [lra|]. unfold slack. lra.
Qed.

(*@ C95: the lamination parameters xiA (p = 1) and xiD (p = 3) of a layup, computed in binary64, are finite and within xi_off of those of the exact layup. @*)
Lemma t_C95_accurate : forall np p l, p = 1%nat \/ p = 3%nat -> xi_layup np l ->
  exists xs v, parameters_f np p l = Ok xs /\ parameters p (exact_layup l) = Ok v /\ four_within (xi_off p l) xs v.
Proof.
  intros np p l Hp H. assert (HU := proj2 (proj2 H)). fold (thick l) in HU. assert (R := height_range _ HU). assert (P0 := bpow_gt_0 radix2 (-64)).
  assert (T0 : S_Laminate.total (exact_layup l) <> 0) by (rewrite <- height_exact; lra).
  destruct Hp as [-> | ->]; unfold parameters_f, parameters.
  - destruct (xiA_all np l H) as (s & E & B). eexists _, _. split; [exact E|]. split; [apply xiA_of_eq, T0|]. unfold four_within. cbn [map]. rewrite <- height_exact, !pow_1.
    assert (G : forall k h, htrig k = h -> (k < 4)%nat -> is_finite (fdiv (s k) (total_f np l)) = true /\ Rabs (B2R (fdiv (s k) (total_f np l)) - 1 * xsum h wA (zb (exact_layup l)) (exact_layup l) / height (thick l)) <= xi_off 1 l).
    { intros k h <- Hk. destruct (B k Hk) as [F D]. split; [exact F|]. rewrite Rmult_1_l. exact D. }
    constructor; [apply (G 0%nat); [reflexivity|lia]|]. constructor; [apply (G 1%nat); [reflexivity|lia]|]. constructor; [apply (G 2%nat); [reflexivity|lia]|]. constructor; [apply (G 3%nat); [reflexivity|lia]|]. constructor.
  - destruct (xiD_all np l H) as (s & t3 & E & B). eexists _, _. split; [exact E|]. split; [apply xiD_of_eq, T0|]. unfold four_within. cbn [map]. rewrite <- height_exact.
    constructor; [apply (B 0%nat); lia|]. constructor; [apply (B 1%nat); lia|]. constructor; [apply (B 2%nat); lia|]. constructor; [apply (B 3%nat); lia|]. constructor.
Qed.

(** ** where they can lie *)
Lemma off_small p l : INR (length l) <= 1000000 -> 0 <= xi_off p l <= / 1000.
Proof. intros H. assert (P := pos_INR (length l)). unfold xi_off, unit. destruct p as [|[|p]]; split; lra. Qed.
Lemma four_inv eps xs v : four_within eps xs v -> exists x1 x2 x3 x4 v1 v2 v3 v4, xs = [x1; x2; x3; x4] /\ v = (v1, v2, v3, v4) /\
  (fin x1 /\ Rabs (B2R x1 - v1) <= eps) /\ (fin x2 /\ Rabs (B2R x2 - v2) <= eps) /\ (fin x3 /\ Rabs (B2R x3 - v3) <= eps) /\ (fin x4 /\ Rabs (B2R x4 - v4) <= eps).
Proof.
  destruct v as [[[v1 v2] v3] v4]. cbn [four_within]. intros H. inversion H as [|x1 ? ? ? G1 H1]; subst. inversion H1 as [|x2 ? ? ? G2 H2]; subst. inversion H2 as [|x3 ? ? ? G3 H3]; subst. inversion H3 as [|x4 ? ? ? G4 H4]; subst. inversion H4; subst.
  exists x1, x2, x3, x4, v1, v2, v3, v4. repeat split; try reflexivity; try apply G1; try apply G2; try apply G3; apply G4.
Qed.
Lemma exact_region np p l v1 v2 v3 v4 : p = 1%nat \/ p = 3%nat -> xi_layup np l -> parameters p (exact_layup l) = Ok (v1, v2, v3, v4) ->
  (-1 <= v1 <= 1) /\ (-1 <= v2 <= 1) /\ (-1 <= v3 <= 1) /\ (-1 <= v4 <= 1) /\ v3 >= 2 * v1 ^ 2 - 1 /\ (Forall (fun p => standard_angle (fst p)) (exact_layup l) -> v3 >= 2 * Rabs v1 - 1).
Proof.
  intros Hp H E. assert (HU := proj2 (proj2 H)). fold (thick l) in HU. destruct HU as (U & N & M). apply (t_C20_feasible (exact_layup l)).
  - intros Z. assert (L : length (exact_layup l) = length (thick l)) by (unfold exact_layup, thick; rewrite !map_length; reflexivity). rewrite Z in L. cbn [length] in L. lia.
  - apply thick_pos, U.
  - destruct Hp as [-> | ->]; [left|right]; exact E.
Qed.
(*@ C95: the computed parameters lie in [-1, 1] and above the parabola up to xi_off and six times xi_off; for plies at 0, 45, -45 and 90 degrees also above the two lines, up to three times xi_off. @*)
Lemma t_C95_range : forall np p l, p = 1%nat \/ p = 3%nat -> xi_layup np l ->
  exists x1 x2 x3 x4, parameters_f np p l = Ok [x1; x2; x3; x4] /\ Forall (fun x => is_finite x = true /\ Rabs (B2R x) <= 1 + xi_off p l) [x1; x2; x3; x4] /\
    2 * B2R x1 ^ 2 - 1 - 6 * xi_off p l <= B2R x3 /\
    (Forall (fun p => standard_angle (B2R (fst p))) l -> 2 * Rabs (B2R x1) - 1 - 3 * xi_off p l <= B2R x3).
Proof.
  intros np p l Hp H. destruct (t_C95_accurate np p l Hp H) as (xs & v & E & Ev & W). destruct (four_inv _ _ _ W) as (x1 & x2 & x3 & x4 & v1 & v2 & v3 & v4 & -> & -> & [F1 E1] & [F2 E2] & [F3 E3] & [F4 E4]).
  destruct (exact_region np p l v1 v2 v3 v4 Hp H Ev) as (G1 & G2 & G3 & G4 & Pb & Ln). assert (HU := proj2 (proj2 (proj2 (proj2 H)))). rewrite map_length in HU. assert (O := off_small p l HU).
  apply Rabs_le_inv in E1, E2, E3, E4. set (e := xi_off p l) in *. clearbody e. exists x1, x2, x3, x4. split; [exact E|]. split; [|split].
  - constructor; [split; [exact F1|apply Rabs_le; lra]|]. constructor; [split; [exact F2|apply Rabs_le; lra]|]. constructor; [split; [exact F3|apply Rabs_le; lra]|]. constructor; [split; [exact F4|apply Rabs_le; lra]|constructor].
  - replace (B2R x1 ^ 2) with (v1 ^ 2 + (B2R x1 - v1) * (B2R x1 + v1)) by ring. assert (ee : e * e <= e * / 1000) by (apply Rmult_le_compat_l; lra). assert ((B2R x1 - v1) * (B2R x1 + v1) <= e * (2 + e)); [|lra].
    apply Rle_trans with (Rabs ((B2R x1 - v1) * (B2R x1 + v1))); [apply Rle_abs|]. rewrite Rabs_mult. apply Rmult_le_compat; try apply Rabs_pos; apply Rabs_le; lra.
  - intros Sa. assert (L := Ln ltac:(unfold exact_layup; rewrite Forall_map; eapply Forall_impl; [|exact Sa]; intros [? ?] Hs; exact Hs)). assert (Rabs (B2R x1) <= Rabs v1 + e); [|lra].
    replace (B2R x1) with ((B2R x1 - v1) + v1) by ring. apply Rle_trans with (1 := Rabs_triang _ _). assert (Rabs (B2R x1 - v1) <= e) by (apply Rabs_le; lra). lra.
Qed.

(** ** A and D again *)
Lemma exact_A_form f xi T I1 I2 I3 I4 I5 x1 x2 x3 x4 : Invariants (Ortho (exact_ply f)) = Ok (I1, I2, I3, I4, I5) -> map (@B2R 53 1024) xi = [x1; x2; x3; x4] ->
  exact_A f xi T = Ok (mscale (B2R T) (bracketsR I1 I2 I3 I4 I5 x1 x2 x3 x4)).
Proof. intros EI EX. unfold exact_A, construct. cbn [bind]. rewrite EX. cbn -[Invariants]. rewrite EI. cbn. f_equal. Qed.
Lemma exact_D_form f xi T I1 I2 I3 I4 I5 x1 x2 x3 x4 : Invariants (Ortho (exact_ply f)) = Ok (I1, I2, I3, I4, I5) -> map (@B2R 53 1024) xi = [x1; x2; x3; x4] ->
  exact_D f xi T = Ok (mscale (B2R T ^ 3 / 12) (bracketsR I1 I2 I3 I4 I5 x1 x2 x3 x4)).
Proof. intros EI EX. unfold exact_D, construct. cbn [bind]. rewrite EX. cbn -[Invariants]. rewrite EI. cbn. f_equal. unfold bracketsR, mscale. cbn [a11 a12 a13 a21 a22 a23 a31 a32 a33]. f_equal; field. Qed.
Lemma brackets_close q e I1 I2 I3 I4 I5 x1 x2 x3 x4 v1 v2 v3 v4 : Rabs I2 <= 3 / 4 * q -> Rabs I3 <= 3 / 4 * q -> Rabs (x1 - v1) <= e -> Rabs (x2 - v2) <= e -> Rabs (x3 - v3) <= e -> Rabs (x4 - v4) <= e ->
  forall i j, (i < 3)%nat -> (j < 3)%nat -> Rabs (as_arr (bracketsR I1 I2 I3 I4 I5 x1 x2 x3 x4) i j - as_arr (bracketsR I1 I2 I3 I4 I5 v1 v2 v3 v4) i j) <= 3 / 2 * q * e.
Proof.
  intros H2 H3 E1 E2 E3 E4. assert (G : forall I d, Rabs I <= 3 / 4 * q -> Rabs d <= e -> - (3 / 4 * q * e) <= I * d <= 3 / 4 * q * e).
  { intros I d HI Hd. apply Rabs_le_between. rewrite Rabs_mult. apply Rmult_le_compat; try apply Rabs_pos; assumption. }
  assert (A1 := G _ _ H2 E1). assert (A2 := G _ _ H2 E2). assert (A3 := G _ _ H3 E3). assert (A4 := G _ _ H3 E4).
  intros i j Hi Hj. destruct i as [|[|[|i]]]; try lia; (destruct j as [|[|[|j]]]; try lia); unfold bracketsR; cbn [as_arr a11 a12 a13 a21 a22 a23 a31 a32 a33]; apply Rabs_le; lra.
Qed.
(*@ C95: take a layup of one material, compute its lamination parameters and total thickness, and build the laminate again from those: A and D of the two laminates, all computed in binary64, differ by
    trip_off at most. @*)
Lemma t_C95_round_trip : forall np k mu q p l f, p = 1%nat \/ p = 3%nat -> good_layup np k mu q l -> 0 <= k <= 1000000 -> powerRZ 2 (-40) <= mu -> powerRZ 2 (-200) <= q <= powerRZ 2 190 ->
  Forall (fun p => snd p = FOrtho f) l -> xi_layup np l -> pow_close (np_pow np) -> usual (total_f np l) ->
  exists M xs M', matrix_f np p l = Ok M /\ parameters_f np p l = Ok xs /\ lp_matrix_f np p f xs (total_f np l) = Ok M' /\
    forall i j, (i < 3)%nat -> (j < 3)%nat -> is_finite (M i j) = true /\ is_finite (M' i j) = true /\ Rabs (B2R (M i j) - B2R (M' i j)) <= trip_off np k mu q p l.
Proof.
  intros np k mu q p l f Hp G Hk Hm Hq One H HP HT.
  assert (P13 : (1 <= p <= 3)%nat) by lia. destruct (t_C88_matrices np k mu q p l P13 G Hk Hm Hq) as (M & X & EM & EX & BM).
  destruct (t_C95_range np p l Hp H) as (x1 & x2 & x3 & x4 & E & Fx & _). destruct (t_C95_accurate np p l Hp H) as (xs & v & E' & Ev & W). rewrite E in E'. apply Ok_inj in E'. subst xs.
  assert (HU := proj2 (proj2 H)). fold (thick l) in HU. assert (R := height_range _ HU). destruct (total_near np l HU) as [Ft Et]. destruct HU as (U & N & Mx).
  assert (Ln : length (thick l) = length l) by (unfold thick; apply map_length). rewrite Ln in *. assert (O := off_small p l Mx). assert (u := unit_val). assert (P0 := bpow_gt_0 radix2 (-64)).
  assert (Lp : lp_ply mu q f). { destruct G as [G _]. destruct l as [|[th m] l']; [cbn in N; lia|]. inversion G as [|? ? G1 _]; subst. inversion One as [|? ? O1 _]; subst. cbn [snd] in *. subst m. split; apply G1. }
  assert (Hx : four_parameters [x1; x2; x3; x4]). { split; [reflexivity|]. eapply Forall_impl; [|exact Fx]. intros x [F B]. split; [exact F|lra]. }
  destruct (parts mu q f _ Hm Hq Lp Hx) as (Pt & I & y1 & y2 & y3 & y4 & EP & EI & EY & Im & _ & HB). destruct I as [[[[I1 I2] I3] I4] I5].
  assert (E4 : y1 = B2R x1 /\ y2 = B2R x2 /\ y3 = B2R x3 /\ y4 = B2R x4) by (cbn [map] in EY; inversion EY; auto). destruct E4 as (-> & -> & -> & ->).
  destruct (four_inv _ _ _ W) as (z1 & z2 & z3 & z4 & v1 & v2 & v3 & v4 & Ez & -> & [_ D1] & [_ D2] & [_ D3] & [_ D4]). inversion Ez; subst z1 z2 z3 z4. clear Ez.
  destruct Lp as [Gp (Q & EQ & SQ)]. assert (EI' : invariants_of_Q Q = (I1, I2, I3, I4, I5)). { unfold Invariants in EI. change (Q_0 (exact_mat (FOrtho f))) with (o_Q0 (exact_ply f)) in EQ. rewrite EQ in EI. cbn [bind] in EI. apply Ok_inj in EI. exact EI. }
  destruct (size_bounds Q _ _ _ _ _ EI') as (_ & S2 & S3 & _ & _).
  assert (Q0 : 0 < q) by (apply q_pos; rewrite !pz in Hq; exact Hq).
  assert (Cl := brackets_close q (xi_off p l) I1 I2 I3 I4 I5 _ _ _ _ v1 v2 v3 v4 ltac:(lra) ltac:(lra) D1 D2 D3 D4).
  assert (Rd : readable (exact_mat (FOrtho f))) by (exists Q; exact EQ).
  assert (Ss : Forall (fun p => same_stiffness (snd p) (exact_mat (FOrtho f))) (exact_layup l)). { unfold exact_layup. rewrite Forall_map. eapply Forall_impl; [|exact One]. intros [th m] Hs. cbn [snd] in *. subst m. reflexivity. }
  assert (Ar : all_readable (exact_layup l)). { unfold all_readable. eapply Forall_impl; [|exact Ss]. intros [th m] Hs. cbn [snd] in *. exists Q. rewrite Hs. exact EQ. }
  assert (T0 : S_Laminate.total (exact_layup l) <> 0) by (rewrite <- height_exact; lra).
  assert (Qp : Q0p (exact_mat (FOrtho f)) = Q) by (unfold Q0p; rewrite EQ; reflexivity).
  rewrite (attribute_eq p _ P13 Ar) in EX. apply Ok_inj in EX. subst X.
  assert (Tt : total l = height (thick l)) by reflexivity. set (T := height (thick l)) in *. set (Tf := B2R (total_f np l)) in *. assert (TP : 0 < T) by lra.
  destruct (t_C94_accurate (np_pow np) mu q f [x1; x2; x3; x4] (total_f np l) Hm Hq (conj Gp (ex_intro _ Q (conj EQ SQ))) Hx HT HP) as [(MA & XA & EA & EXA & BA) (MD & XD & ED & EXD & BD)].
  rewrite (exact_A_form f _ _ _ _ _ _ _ _ _ _ _ EI EY) in EXA. apply Ok_inj in EXA. subst XA. rewrite (exact_D_form f _ _ _ _ _ _ _ _ _ _ _ EI EY) in EXD. apply Ok_inj in EXD. subst XD. fold Tf in BA, BD.
  assert (n0 := pos_INR (length l)). set (n := INR (length l)) in *. assert (nu : 0 <= n * unit <= / 1000000) by (split; [apply Rmult_le_pos; lra|unfold unit; lra]).
  exists M, [x1; x2; x3; x4]. destruct Hp as [-> | ->].
  - exists MA. split; [exact EM|]. split; [exact E|]. split; [exact EA|]. intros i j Hi Hj. destruct (BM i j Hi Hj) as [F1 C1]. destruct (BA i j Hi Hj) as [F2 C2]. split; [exact F1|]. split; [exact F2|].
    assert (EL : Lsum (T_LamRound.weight 1) (exact_layup l) = mscale T (bracketsR I1 I2 I3 I4 I5 v1 v2 v3 v4)).
    { cbn [T_LamRound.weight]. rewrite <- (A_xi _ _ _ Rd Ss T0 Ev), Qp, EI', <- height_exact. reflexivity. }
    rewrite EL, as_arr_scale in C1 by assumption. rewrite as_arr_scale in C2 by assumption. destruct (HB i j Hi Hj) as (_ & _ & Bb). assert (Cb := Cl i j Hi Hj).
    unfold trip_off. rewrite Tt. set (b := as_arr (bracketsR I1 I2 I3 I4 I5 (B2R x1) (B2R x2) (B2R x3) (B2R x4)) i j) in *. set (b0 := as_arr (bracketsR I1 I2 I3 I4 I5 v1 v2 v3 v4) i j) in *.
    assert (K : Rabs (T * b0 - Tf * b) <= (3 * n * unit + 2 * xi_off 1 l) * q * T ^ 1).
    { replace (T * b0 - Tf * b) with (- ((Tf - T) * b) - T * (b - b0)) by ring. apply Rle_trans with (1 := Rabs_triang _ _). rewrite !Rabs_Ropp, !Rabs_mult, (Rabs_pos_eq T) by lra.
      assert (Rabs (Tf - T) * Rabs b <= n * slack * unit * T * (23 / 10 * q)) by (apply Rmult_le_compat; try apply Rabs_pos; assumption).
      assert (T * Rabs (b - b0) <= T * (3 / 2 * q * xi_off 1 l)) by (apply Rmult_le_compat_l; lra).
      assert (0 <= n * unit * (q * T)) by (apply Rmult_le_pos; [lra|apply Rmult_le_pos; lra]). assert (0 <= xi_off 1 l * (q * T)) by (apply Rmult_le_pos; [lra|apply Rmult_le_pos; lra]). unfold slack in *. lra. }
    replace (B2R (M i j) - B2R (MA i j)) with ((B2R (M i j) - T * b0) + (T * b0 - Tf * b) - (B2R (MA i j) - Tf * b)) by ring.
    apply Rle_trans with (1 := Rabs_triang _ _). rewrite Rabs_Ropp. apply Rle_trans with (Rabs (B2R (M i j) - T * b0) + Rabs (T * b0 - Tf * b) + Rabs (B2R (MA i j) - Tf * b)); [apply Rplus_le_compat_r, Rabs_triang|]. fold n. lra.
  - exists MD. split; [exact EM|]. split; [exact E|]. split; [exact ED|]. intros i j Hi Hj. destruct (BM i j Hi Hj) as [F1 C1]. destruct (BD i j Hi Hj) as [F2 C2]. split; [exact F1|]. split; [exact F2|].
    assert (EL : Lsum (T_LamRound.weight 3) (exact_layup l) = mscale (T ^ 3 / 12) (bracketsR I1 I2 I3 I4 I5 v1 v2 v3 v4)).
    { cbn [T_LamRound.weight]. rewrite <- (D_xi _ _ _ Rd Ss T0 Ev), Qp, EI', <- height_exact. unfold D_from_xi, bracketsR, mscale. cbn [a11 a12 a13 a21 a22 a23 a31 a32 a33]. fold T. f_equal; field. }
    rewrite EL, as_arr_scale in C1 by assumption. rewrite as_arr_scale in C2 by assumption. destruct (HB i j Hi Hj) as (_ & _ & Bb). assert (Cb := Cl i j Hi Hj).
    unfold trip_off. rewrite Tt. set (b := as_arr (bracketsR I1 I2 I3 I4 I5 (B2R x1) (B2R x2) (B2R x3) (B2R x4)) i j) in *. set (b0 := as_arr (bracketsR I1 I2 I3 I4 I5 v1 v2 v3 v4) i j) in *.
    assert (C3 : Rabs (Tf ^ 3 - T ^ 3) <= 4 * (n * unit) * T ^ 3).
    { apply Rabs_le_inv in Et. assert (sl : n * slack * unit * T <= 101 / 100 * (n * unit) * T) by (apply Rmult_le_compat_r; [lra|]; unfold slack; lra). set (e := n * unit) in *.
      replace (Tf ^ 3 - T ^ 3) with ((Tf - T) * (Tf ^ 2 + Tf * T + T ^ 2)) by ring. rewrite Rabs_mult.
      assert (A1 : Rabs (Tf - T) <= 101 / 100 * e * T) by (apply Rabs_le; lra). assert (eT : 0 <= e * T <= / 1000000 * T) by (split; [apply Rmult_le_pos; lra|apply Rmult_le_compat_r; lra]).
      assert (A0 : 0 <= Tf <= 1001 / 1000 * T) by lra.
      assert (A2 : 0 <= Tf ^ 2 + Tf * T + T ^ 2 <= 301 / 100 * T ^ 2). { assert (Tf * T <= 1001 / 1000 * T * T) by (apply Rmult_le_compat_r; lra). assert (Tf * Tf <= 1001 / 1000 * T * (1001 / 1000 * T)) by (apply Rmult_le_compat; lra). assert (0 <= Tf * T) by (apply Rmult_le_pos; lra). assert (0 <= T * T) by (apply Rmult_le_pos; lra). assert (0 <= Tf * Tf) by (apply Rmult_le_pos; lra). split; lra. }
      rewrite (Rabs_pos_eq (Tf ^ 2 + Tf * T + T ^ 2)) by lra. apply Rle_trans with (101 / 100 * e * T * (301 / 100 * T ^ 2)); [apply Rmult_le_compat; [apply Rabs_pos|lra|exact A1|lra]|].
      assert (0 <= e * T ^ 3) by (apply Rmult_le_pos; [lra|apply pow_le; lra]). replace (101 / 100 * e * T * (301 / 100 * T ^ 2)) with (30401 / 10000 * (e * T ^ 3)) by field. lra. }
    assert (T3 : 0 < T ^ 3) by (apply pow_lt, TP).
    assert (K : Rabs (T ^ 3 / 12 * b0 - Tf ^ 3 / 12 * b) <= (3 * n * unit + 2 * xi_off 3 l) * q * T ^ 3).
    { replace (T ^ 3 / 12 * b0 - Tf ^ 3 / 12 * b) with (- ((Tf ^ 3 - T ^ 3) * b) * / 12 - T ^ 3 * / 12 * (b - b0)) by field. apply Rle_trans with (1 := Rabs_triang _ _). rewrite Rabs_Ropp, !Rabs_mult, Rabs_Ropp, !Rabs_mult, (Rabs_pos_eq (T ^ 3)), (Rabs_pos_eq (/ 12)) by lra.
      assert (Rabs (Tf ^ 3 - T ^ 3) * Rabs b <= 4 * (n * unit) * T ^ 3 * (23 / 10 * q)) by (apply Rmult_le_compat; try apply Rabs_pos; assumption).
      assert (T ^ 3 * / 12 * Rabs (b - b0) <= T ^ 3 * / 12 * (3 / 2 * q * xi_off 3 l)) by (apply Rmult_le_compat_l; lra).
      assert (0 <= n * unit * (q * T ^ 3)) by (apply Rmult_le_pos; [lra|apply Rmult_le_pos; lra]). assert (0 <= xi_off 3 l * (q * T ^ 3)) by (apply Rmult_le_pos; [lra|apply Rmult_le_pos; lra]). lra. }
    replace (B2R (M i j) - B2R (MD i j)) with ((B2R (M i j) - T ^ 3 / 12 * b0) + (T ^ 3 / 12 * b0 - Tf ^ 3 / 12 * b) - (B2R (MD i j) - Tf ^ 3 / 12 * b)) by ring.
    apply Rle_trans with (1 := Rabs_triang _ _). rewrite Rabs_Ropp. apply Rle_trans with (Rabs (B2R (M i j) - T ^ 3 / 12 * b0) + Rabs (T ^ 3 / 12 * b0 - Tf ^ 3 / 12 * b) + Rabs (B2R (MD i j) - Tf ^ 3 / 12 * b)); [apply Rplus_le_compat_r, Rabs_triang|]. fold n. lra.
Qed.

(** ** examples *)
Lemma xi_near_zero cs sn pw iv mm : feq (cs fzero) fone = true -> fin (cs fzero) -> feq (sn fzero) fzero = true -> fin (sn fzero) -> xi_near (Numpy cs sn pw iv mm) fzero.
Proof.
  intros C Fc S Fs. destruct fone_val as [F1 V1]. apply (proj1 (feq_fin _ _ Fc F1)) in C. apply (proj1 (feq_fin _ _ Fs (eq_refl : fin fzero))) in S.
  assert (E2 : fmul (f_of_Z 2) (scaled_angle fzero) = fzero) by (vm_compute; reflexivity). assert (E4 : fmul (f_of_Z 4) (scaled_angle fzero) = fzero) by (vm_compute; reflexivity).
  assert (G : trig_near (Numpy cs sn pw iv mm) fzero).
  { unfold trig_near. cbn [np_cos np_sin]. rewrite C, S, V1. change (B2R fzero) with 0. rewrite cos_0, sin_0, !Rminus_diag_eq, Rabs_R0 by reflexivity. assert (u := unit_val). repeat split; try assumption; lra. }
  unfold xi_near. rewrite E2, E4. split; exact G.
Qed.
Lemma usual_zero : usual_angle fzero.
Proof. split; [split; [reflexivity|left; reflexivity]|]. change (B2R fzero) with 0. rewrite Rabs_R0. lra. Qed.
Definition tenth_ply : fmaterial := FOrtho (made (f_of_Z 4) (f_of_Z 2) (f_of_Z_exp 1 (-2)) (f_of_Z 1) tenth).
Lemma xsum_zero f h c l : h 0 = c -> Forall (fun p => fst p = 0) l -> forall z, xsum h f z l = c * xsum one f z l.
Proof. intros Hh H. induction H as [|p l Hp _ IH]; intros z; cbn [xsum]; [ring|]. rewrite IH, Hp, Hh. unfold one. ring. Qed.
(*@ C95, staying in [-1, 1] is refuted: eight plies of thickness 0.1 at 0 degrees have exact parameters 1 and computed ones above 1, with exact cosine and sine. @*)
Lemma t_C95_unit_interval_refuted : exists np l, xi_layup np l /\ Forall (fun p => fst p = fzero) l /\ forall p, p = 1%nat \/ p = 3%nat ->
  parameters p (exact_layup l) = Ok (1, 0, 1, 0) /\ exists x1 x2 x3 x4, parameters_f np p l = Ok [x1; x2; x3; x4] /\ B2R x1 > 1.
Proof.
  exists ex_np, (repeat (fzero, tenth_ply) 8).
  assert (H : xi_layup ex_np (repeat (fzero, tenth_ply) 8)).
  { split; [exact square_cube_near|]. split.
    - apply Forall_forall. intros x Hx. apply repeat_spec in Hx. subst x. split; [|exact usual_zero]. apply xi_near_zero; vm_compute; reflexivity.
    - split; [|cbn; split; [lia|lra]]. apply Forall_forall. intros x Hx. cbn [map repeat] in Hx. assert (x = tenth) by (repeat (destruct Hx as [Hx|Hx]; [exact (eq_sym Hx)|]); destruct Hx). subst x. apply usual_of; lia. }
  split; [exact H|]. split; [apply Forall_forall; intros x Hx; apply repeat_spec in Hx; subst x; reflexivity|]. intros p Hp.
  destruct (t_C95_accurate ex_np p _ Hp H) as (xs & v & E & Ev & W). destruct (four_inv _ _ _ W) as (x1 & x2 & x3 & x4 & v1 & v2 & v3 & v4 & -> & -> & [F1 _] & _). split.
  - assert (HU := proj2 (proj2 H)). assert (Z := height_range _ HU). assert (P0 := bpow_gt_0 radix2 (-64)). fold (thick (repeat (fzero, tenth_ply) 8)) in Z. rewrite height_exact in Z.
    set (L := exact_layup (repeat (fzero, tenth_ply) 8)) in *. assert (T0 : S_Laminate.total L <> 0) by lra.
    assert (A : forall f h c, h 0 = c -> xsum h f (zb L) L = c * xsum one f (zb L) L).
    { intros f h c Hh. apply xsum_zero; [exact Hh|]. unfold L, exact_layup. rewrite Forall_map. apply Forall_forall. intros x Hx. apply repeat_spec in Hx. subst x. reflexivity. }
    assert (C2 : c2 0 = 1) by (unfold c2; rewrite Rmult_0_l, Rmult_0_r, cos_0; reflexivity). assert (S2 : s2 0 = 0) by (unfold s2; rewrite Rmult_0_l, Rmult_0_r, sin_0; reflexivity).
    assert (C4 : c4 0 = 1) by (unfold c4; rewrite Rmult_0_l, Rmult_0_r, cos_0; reflexivity). assert (S4 : s4 0 = 0) by (unfold s4; rewrite Rmult_0_l, Rmult_0_r, sin_0; reflexivity).
    destruct Hp as [-> | ->]; cbn [parameters].
    + rewrite xiA_of_eq by exact T0. rewrite (A wA c2 1 C2), (A wA s2 0 S2), (A wA c4 1 C4), (A wA s4 0 S4). rewrite xsum_one_wA. f_equal. f_equal; [f_equal; [f_equal|]|]; field; exact T0.
    + rewrite xiD_of_eq by exact T0. rewrite (A wX c2 1 C2), (A wX s2 0 S2), (A wX c4 1 C4), (A wX s4 0 S4). rewrite xsum_one_wX. f_equal. f_equal; [f_equal; [f_equal|]|]; field; exact T0.
  - exists x1, x2, x3, x4. split; [exact E|]. destruct fone_val as [Fo Vo].
    assert (G : match parameters_f ex_np p (repeat (fzero, tenth_ply) 8) with Ok (x :: _) => flt fone x | _ => false end = true) by (destruct Hp as [-> | ->]; vm_compute; reflexivity).
    rewrite E in G. apply (proj1 (flt_fin _ _ Fo F1)) in G. lra.
Qed.

(** a cosine and sine good at 0 and at the doubles nearest to half a pi and pi *)
Definition xi_np : numpy := Numpy (fun x => if feq x fzero then fone else if flt x (f_of_Z 2) then fzero else f_of_Z (-1)) (fun x => if feq x fzero then fzero else if flt x (f_of_Z 2) then fone else fzero) square_cube
  (fun T => Ok T) (np_mm ex_np).
Lemma pi_double : forall x, fin x -> feq x (f_of_Z_exp 884279719003555 (-48)) = true -> B2R x = 884279719003555 / 281474976710656.
Proof. intros x F E. destruct (f_of_Z_exp_denotes 884279719003555 (-48) ltac:(lia) ltac:(lia)) as [F' V]. apply (proj1 (feq_fin _ _ F F')) in E. rewrite E, V. cbn. lra. Qed.
Lemma xi_near_45 : xi_near xi_np (f_of_Z 45).
Proof.
  destruct fone_val as [F1 V1]. assert (U : 2 * unit >= 15 / 100000000000000000) by (unfold unit; lra). assert (Pn := pi_near). split.
  - set (x := fmul (f_of_Z 2) (scaled_angle (f_of_Z 45))). assert (V : B2R x = 884279719003555 / 562949953421312).
    { destruct radians_90 as [F Vr]. assert (E : feq x (radians (f_of_Z 90)) = true) by (vm_compute; reflexivity). apply (proj1 (feq_fin x _ ltac:(vm_compute; reflexivity) F)) in E. rewrite E. exact Vr. }
    assert (C : np_cos xi_np x = fzero) by (vm_compute; reflexivity). assert (S : np_sin xi_np x = fone). { unfold np_sin, xi_np. replace (feq x fzero) with false by (vm_compute; reflexivity). replace (flt x (f_of_Z 2)) with true by (vm_compute; reflexivity). reflexivity. }
    unfold trig_near. rewrite C, S, V, V1. change (B2R fzero) with 0. destruct cos_half as (Ch & _ & Sh).
    split; [reflexivity|]. split; [apply Rabs_le; lra|]. split; [exact F1|]. rewrite Rabs_minus_sym. lra.
  - set (x := fmul (f_of_Z 4) (scaled_angle (f_of_Z 45))). assert (V : B2R x = 884279719003555 / 281474976710656) by (apply pi_double; vm_compute; reflexivity).
    assert (C : np_cos xi_np x = f_of_Z (-1)). { unfold np_cos, xi_np. replace (feq x fzero) with false by (vm_compute; reflexivity). replace (flt x (f_of_Z 2)) with false by (vm_compute; reflexivity). reflexivity. }
    assert (S : np_sin xi_np x = fzero) by (vm_compute; reflexivity). destruct (int_val (-1) eq_refl) as [Fm Vm]. unfold trig_near. rewrite C, S, V, Vm. change (B2R fzero) with 0.
    assert (D : Rabs (PI - 884279719003555 / 281474976710656) <= 15 / 100000000000000000) by (apply Rabs_le; lra).
    split; [exact Fm|]. split; [rewrite <- cos_PI; eapply Rle_trans; [apply cos_lip|]; lra|]. split; [reflexivity|]. rewrite <- sin_PI. eapply Rle_trans; [apply sin_lip|]; lra.
Qed.
(*@ C95, an example: two plies at 0 and 45 degrees, with exact parameters 1/2, 1/2, 0, 0. @*)
Example t_C95_ex : exists np l, xi_layup np l /\ map (fun p => B2R (fst p)) l = [0; 45] /\ parameters 1 (exact_layup l) = Ok (1/2, 1/2, 0, 0) /\
  exists x1 x2 x3 x4, parameters_f np 1 l = Ok [x1; x2; x3; x4] /\ Rabs (B2R x1 - 1/2) <= 126 * unit /\ Rabs (B2R x2 - 1/2) <= 126 * unit /\ Rabs (B2R x3) <= 126 * unit /\ Rabs (B2R x4) <= 126 * unit.
Proof.
  exists xi_np, [(fzero, ex_ply); (f_of_Z 45, ex_ply)]. destruct (int_val 45 eq_refl) as [F45 V45]. assert (V45' : B2R (f_of_Z 45) = 45) by exact V45.
  assert (H : xi_layup xi_np [(fzero, ex_ply); (f_of_Z 45, ex_ply)]).
  { split; [exact square_cube_near|]. split.
    - constructor; [split; [apply xi_near_zero; vm_compute; reflexivity|exact usual_zero]|]. constructor; [|constructor]. split; [exact xi_near_45|]. cbn [fst]. split.
      + split; [exact F45|right]. rewrite V45', Rabs_right by lra. rewrite !pz. split; [apply Rle_trans with (bp 0); [apply bpow_le; lia|cbn; lra]|apply Rle_trans with (bp 6); [cbn; lra|apply bpow_le; lia]].
      + rewrite V45', Rabs_right by lra. lra.
    - split; [|cbn; split; [lia|lra]]. cbn [map snd f_thickness ex_ply made fo_thickness]. constructor; [apply usual_of; lia|]. constructor; [apply usual_of; lia|constructor]. }
  split; [exact H|]. split; [cbn [map fst]; rewrite V45'; reflexivity|].
  assert (E : parameters 1 (exact_layup [(fzero, ex_ply); (f_of_Z 45, ex_ply)]) = Ok (1/2, 1/2, 0, 0)).
  { assert (Th : thickness (exact_mat ex_ply) = 1 / 8) by (rewrite ex_exact; reflexivity).
    assert (Tt : S_Laminate.total (exact_layup [(fzero, ex_ply); (f_of_Z 45, ex_ply)]) = 1 / 4). { unfold S_Laminate.total, exact_layup, hsum. cbn [map snd rsum]. rewrite Th. lra. }
    cbn [parameters]. rewrite xiA_of_eq by (rewrite Tt; lra). rewrite Tt. generalize (zb (exact_layup [(fzero, ex_ply); (f_of_Z 45, ex_ply)])). intros z. unfold exact_layup. cbn [map xsum fst snd]. rewrite Th, V45'. change (B2R fzero) with 0.
    unfold wA, c2, s2, c4, s4. replace (2 * (45 * (PI / 180))) with (PI / 2) by field. replace (4 * (45 * (PI / 180))) with PI by field. rewrite !Rmult_0_l, !Rmult_0_r, cos_0, sin_0, cos_PI2, sin_PI2, cos_PI, sin_PI.
    f_equal. f_equal; [f_equal; [f_equal|]|]; field. }
  split; [exact E|]. destruct (t_C95_accurate xi_np 1 _ (or_introl eq_refl) H) as (xs & v & Ex & Ev & W). rewrite E in Ev. apply Ok_inj in Ev. subst v.
  destruct (four_inv _ _ _ W) as (x1 & x2 & x3 & x4 & v1 & v2 & v3 & v4 & -> & Ev & [_ D1] & [_ D2] & [_ D3] & [_ D4]). exists x1, x2, x3, x4. split; [exact Ex|].
  assert (V4 : v1 = 1 / 2 /\ v2 = 1 / 2 /\ v3 = 0 /\ v4 = 0) by (inversion Ev; auto). destruct V4 as (-> & -> & -> & ->). rewrite Rminus_0_r in D3, D4.
  assert (O : xi_off 1 [(fzero, ex_ply); (f_of_Z 45, ex_ply)] = 126 * unit) by (unfold xi_off; cbn; ring). rewrite O in *. repeat split; assumption.
Qed.
(*@ C95, an example of the round trip: two plies at 0 degrees. @*)
Example t_C95_ex_round_trip : exists np l f, good_layup np 0 (1 / 2) 8 l /\ Forall (fun p => snd p = FOrtho f) l /\ xi_layup np l /\ pow_close (np_pow np) /\ usual (total_f np l) /\ length l = 2%nat /\ trip_off np 0 (1 / 2) 8 3 l <= 850 * unit.
Proof.
  exists ex_np, [(fzero, ex_ply); (fzero, ex_ply)]. eexists.
  assert (Ut : usual (total_f ex_np [(fzero, ex_ply); (fzero, ex_ply)])).
  { assert (E : feq (total_f ex_np [(fzero, ex_ply); (fzero, ex_ply)]) (f_of_Z_exp 1 (-2)) = true) by (vm_compute; reflexivity).
    assert (F : fin (total_f ex_np [(fzero, ex_ply); (fzero, ex_ply)])) by (vm_compute; reflexivity). assert (U := usual_of 1 (-2) ltac:(lia) ltac:(lia) ltac:(lia)). destruct U as [F' U]. apply (proj1 (feq_fin _ _ F F')) in E. split; [exact F|]. rewrite E. exact U. }
  split; [|split; [|split; [|split; [|split; [exact Ut|split; [reflexivity|]]]]]].
  - destruct ex_good as [G U]. inversion G as [|? ? G1 _]; subst. split; [constructor; [exact G1|constructor; [exact G1|constructor]]|exact U].
  - constructor; [reflexivity|]. constructor; [reflexivity|constructor].
  - split; [exact square_cube_near|]. split; [|exact (proj2 ex_good)]. constructor; [|constructor; [|constructor]]; (split; [apply xi_near_zero; vm_compute; reflexivity|exact usual_zero]).
  - exact pow_mul_close.
  - assert (E : B2R (total_f ex_np [(fzero, ex_ply); (fzero, ex_ply)]) = 1 / 4).
    { assert (E : feq (total_f ex_np [(fzero, ex_ply); (fzero, ex_ply)]) (f_of_Z_exp 1 (-2)) = true) by (vm_compute; reflexivity).
      assert (F : fin (total_f ex_np [(fzero, ex_ply); (fzero, ex_ply)])) by (vm_compute; reflexivity). destruct (f_of_Z_exp_denotes 1 (-2) ltac:(lia) ltac:(lia)) as [F' V]. apply (proj1 (feq_fin _ _ F F')) in E. rewrite E, V. cbn. lra. }
    assert (Tt : total [(fzero, ex_ply); (fzero, ex_ply)] = 1 / 4). { unfold total, height, ex_ply. cbn [map snd f_thickness made fo_thickness rsum]. rewrite val by lia. cbn. lra. }
    unfold trip_off, matrix_off, lp_off, xi_off, ply_units. rewrite Tt, E. cbn [length INR]. assert (u := unit_val). lra.
Qed.
