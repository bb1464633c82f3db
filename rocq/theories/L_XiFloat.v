(** Rounding errors of lamination parameters in binary64. *)
From Coq Require Import Reals ZArith Lra Lia Bool.
From Flocq Require Import Core.Core IEEE754.BinarySingleNaN Relative Plus_error.
From Coq Require Import List.
From Verif Require Import M_Py M_K M_Float M_FloatArith M_Validate M_Material M_Laminate M_MatFloat M_LamArith M_LayupFloat M_XiFloat S_Mat S_Laminate S_Ritz S_Validate S_Round S_LamRound S_MatFloat S_LayupFloat S_XiFloat L_Mat L_Lam L_LamEnergy L_Float L_Round L_LamRound L_MatFloat L_LayupFloat.
Import ListNotations.
Open Scope R_scope.

(** ** the angles *)
Lemma scaled_near theta : usual_angle theta -> numk (31 / 10) 220 (scaled_angle theta) (B2R theta * (PI / 180)).
Proof.
  intros [U B]. destruct (usual0_rng _ U) as [F G]. assert (P := pi_near).
  assert (Gp : rng 2 PI). { right. rewrite Rabs_right by lra. assert (bp 2 = 4) by (cbn; lra). assert (bp (- (2)) = / 4) by (cbn; lra). lra. }
  destruct (int_val 180 eq_refl) as [F8 V8].
  assert (G8 : rng 8 180). { right. rewrite Rabs_right by lra. assert (bp 8 = 256) by (cbn; lra). assert (bp (- (8)) = / 256) by (cbn; lra). lra. }
  assert (X : numk 0 200 theta (B2R theta)) by (split; [apply relk_self, F|exact G]). assert (Y : numk 1 2 fpi PI) by (split; [apply fpi_near|exact Gp]).
  assert (Z : numk 0 8 (f_of_Z 180) 180) by (split; [rewrite <- V8; apply relk_self, F8|exact G8]).
  destruct (div_numk _ _ _ _ _ _ _ _ Y Z ltac:(lra) ltac:(lra) ltac:(lia) ltac:(lra)) as [_ D].
  destruct (mul_numk _ _ _ _ _ _ _ _ X D ltac:(lra) ltac:(lra) ltac:(lia)) as [M G']. split; [apply (relk_weak _ _ _ _ M); lra|]. apply (rng_weak _ _ _ G'). lia.
Qed.
Lemma multiple_near c theta : c = 2%Z \/ c = 4%Z -> usual_angle theta ->
  fin (fmul (f_of_Z c) (scaled_angle theta)) /\ Rabs (B2R (fmul (f_of_Z c) (scaled_angle theta)) - IZR c * (B2R theta * (PI / 180))) <= 108 * unit.
Proof.
  intros C U. assert (P := pi_near). assert (u := unit_val). assert (Cv : 2 <= IZR c <= 4) by (destruct C as [-> | ->]; lra).
  destruct (int_val c ltac:(destruct C as [-> | ->]; reflexivity)) as [Fc Vc].
  assert (Gc : rng 2 (IZR c)). { right. rewrite Rabs_right by lra. assert (bp 2 = 4) by (cbn; lra). assert (bp (- (2)) = / 4) by (cbn; lra). lra. }
  assert (X : numk 0 2 (f_of_Z c) (IZR c)) by (split; [rewrite <- Vc; apply relk_self, Fc|exact Gc]).
  destruct (mul_numk _ _ _ _ _ _ _ _ X (scaled_near theta U) ltac:(lra) ltac:(lra) ltac:(lia)) as [[F M] _]. split; [exact F|]. apply Rle_trans with (1 := M).
  destruct U as [_ B]. apply Rle_trans with (42 / 10 * unit * (4 * (360 * (32 / 10 * / 180)))).
  - apply Rmult_le_compat; [apply Rmult_le_pos; lra|apply Rabs_pos|apply Rmult_le_compat_r; lra|]. unfold Rdiv. rewrite !Rabs_mult, (Rabs_right PI), (Rabs_right (/ 180)), (Rabs_right (IZR c)) by lra.
    assert (Rabs (B2R theta) * (PI * / 180) <= 360 * (32 / 10 * / 180)) by (apply Rmult_le_compat; try lra; apply Rabs_pos). assert (0 <= Rabs (B2R theta) * (PI * / 180)) by (apply Rmult_le_pos; [apply Rabs_pos|lra]).
    apply Rmult_le_compat; lra.
  - lra.
Qed.
Definition htrig (k : nat) : R -> R := match k with 0%nat => c2 | 1%nat => s2 | 2%nat => c4 | _ => s4 end.
Lemma htrig_le k th : Rabs (htrig k th) <= 1.
Proof. destruct k as [|[|[|k]]]; unfold htrig, c2, s2, c4, s4; apply Rabs_le; (apply COS_bound || apply SIN_bound). Qed.
Lemma trig4_near np theta k : usual_angle theta -> xi_near np theta -> fin (trig4 np (scaled_angle theta) k) /\ Rabs (B2R (trig4 np (scaled_angle theta) k) - htrig k (B2R theta)) <= 110 * unit.
Proof.
  intros U [(F1 & C1 & F2 & S1) (F3 & C3 & F4 & S3)]. destruct (multiple_near 2 theta ltac:(left; reflexivity) U) as [_ E2]. destruct (multiple_near 4 theta ltac:(right; reflexivity) U) as [_ E4].
  assert (G : forall (f : R -> R) (y x r : R), (forall a b, Rabs (f a - f b) <= Rabs (a - b)) -> Rabs (y - f x) <= 2 * unit -> Rabs (x - r) <= 108 * unit -> Rabs (y - f r) <= 110 * unit).
  { intros f y x r L A B. replace (y - f r) with ((y - f x) + (f x - f r)) by ring. apply Rle_trans with (1 := Rabs_triang _ _). assert (Q := L x r). lra. }
  destruct k as [|[|[|k]]]; cbn [trig4 htrig]; (split; [assumption|]); unfold c2, s2, c4, s4.
  - apply (G cos _ _ _ cos_lip C1 E2).
  - apply (G sin _ _ _ sin_lip S1 E2).
  - apply (G cos _ _ _ cos_lip C3 E4).
  - apply (G sin _ _ _ sin_lip S3 E4).
Qed.

(** ** the weights *)
Section Cubes.
Variable pow : f64 -> nat -> res f64.
Hypothesis Hpow : pow_near pow.
Lemma cubes_err n T x1 x0 z t : near_ply n T x1 x0 z t -> exists w, weight_cubes pow x1 x0 = Ok w /\ fin w /\
  Rabs (B2R w - wX (z + t) z) <= unit * T ^ 2 * (116 / 100 * T + (301 / 100 * n + 53 / 10) * t).
Proof.
  intros N. destruct (near_abs _ _ _ _ _ _ N) as (T0 & e & A0 & A1). destruct N as [N HT Ht L H F1 F0 E0 E1 D]. assert (u := unit_val).
  destruct (int_val 1 eq_refl) as [Fh Vh]. set (h := f_of_Z 1) in *. assert (Bh : Rabs (B2R h - 1) <= unit * 1) by (rewrite Vh, Rminus_diag_eq, Rabs_R0 by reflexivity; lra).
  destruct (pow_err pow Hpow T x1 3 HT F1 A1 ltac:(right; reflexivity)) as (p1 & G1 & Fp1 & B1). destruct (pow_err pow Hpow T x0 3 HT F0 A0 ltac:(right; reflexivity)) as (p0 & G0 & Fp0 & B0).
  cbn [Nat.eqb] in B1, B0. unfold weight_cubes. rewrite G1. cbn [bind]. rewrite G0. cbn [bind].
  exists (fsub p1 p0). split; [reflexivity|]. assert (T2 : 0 < T ^ 2) by (apply pow_lt; lra). assert (T3 : 0 < T ^ 3) by (apply pow_lt; lra).
  assert (tT : 0 <= T ^ 2 * t <= T ^ 3) by (split; [apply Rmult_le_pos; lra|replace (T ^ 3) with (T ^ 2 * T) by ring; apply Rmult_le_compat_l; lra]).
  assert (uT : 0 < unit * T) by (apply Rmult_lt_0_compat; lra).
  set (X1 := B2R x1) in *. set (X0 := B2R x0) in *. set (E := (n + 1) * unit * T) in *. assert (PE : 0 <= E) by (apply Rmult_le_pos; [apply Rmult_le_pos; lra|lra]).
  assert (b : T * (T / 2) = T ^ 2 / 2) by field.
  assert (az1 : Rabs (z + t) <= T / 2) by (apply Rabs_le; lra). assert (az0 : Rabs z <= T / 2) by (apply Rabs_le; lra).
  destruct (scaled_weight h p1 p0 1 (t * ((z + t) ^ 2 + (z + t) * z + z ^ 2)) (T ^ 3) (T ^ 2 * t) (115 / 100) (301 / 100 * (n + 1)) (3 / 4) Fh Fp1 Fp0) as [F B].
  { exact Bh. } { lra. }
  { replace (B2R p1 - B2R p0 - t * ((z + t) ^ 2 + (z + t) * z + z ^ 2)) with
      ((B2R p1 - X1 ^ 3) - (B2R p0 - X0 ^ 3) + ((X1 - X0 - t) * (X1 * X1 + X1 * X0 + X0 * X0) + t * ((X1 - (z + t)) * (X1 + (z + t) + X0) + (X0 - z) * (X0 + z + (z + t))))) by ring.
    set (c := (1 / 2 + 1 / 100000) * T) in *. assert (Pc : 0 < c) by (unfold c; apply Rmult_lt_0_compat; lra).
    assert (M1 : Rabs ((X1 - X0 - t) * (X1 * X1 + X1 * X0 + X0 * X0)) <= ((1 / 2 + 1 / 1000) * unit * T) * (3 * (c * c))).
    { rewrite Rabs_mult. apply Rmult_le_compat; try apply Rabs_pos; [exact D|]. eapply Rle_trans; [apply Rabs_triang|]. assert (Q := Rabs_triang (X1 * X1) (X1 * X0)).
      rewrite !Rabs_mult in *. assert (Rabs X1 * Rabs X1 <= c * c) by (apply Rmult_le_compat; try apply Rabs_pos; assumption).
      assert (Rabs X1 * Rabs X0 <= c * c) by (apply Rmult_le_compat; try apply Rabs_pos; assumption). assert (Rabs X0 * Rabs X0 <= c * c) by (apply Rmult_le_compat; try apply Rabs_pos; assumption). lra. }
    assert (M2 : Rabs (t * ((X1 - (z + t)) * (X1 + (z + t) + X0) + (X0 - z) * (X0 + z + (z + t)))) <= t * (E * ((3 + 1 / 1000) * T))).
    { rewrite Rabs_mult, (Rabs_right t) by lra. apply Rmult_le_compat_l; [lra|]. eapply Rle_trans; [apply Rabs_triang|]. rewrite !Rabs_mult.
      assert (Q1 : Rabs (X1 + (z + t) + X0) <= 2 * c + T / 2). { eapply Rle_trans; [apply Rabs_triang|]. assert (Q := Rabs_triang X1 (z + t)). lra. }
      assert (Q2 : Rabs (X0 + z + (z + t)) <= c + T). { eapply Rle_trans; [apply Rabs_triang|]. assert (Q := Rabs_triang X0 z). lra. }
      assert (Rabs (X1 - (z + t)) * Rabs (X1 + (z + t) + X0) <= E * (2 * c + T / 2)) by (apply Rmult_le_compat; try apply Rabs_pos; assumption).
      assert (Rabs (X0 - z) * Rabs (X0 + z + (z + t)) <= E * (c + T)) by (apply Rmult_le_compat; try apply Rabs_pos; assumption).
      assert (E * (2 * c + T / 2 + (c + T)) <= E * ((3 + 1 / 1000) * T)) by (apply Rmult_le_compat_l; [exact PE|unfold c; lra]). lra. }
    eapply Rle_trans; [apply Rabs_triang|]. eapply Rle_trans; [apply Rplus_le_compat; [apply Rabs_triang|apply Rabs_triang]|]. rewrite Rabs_Ropp.
    assert (W : 0 <= unit * T ^ 3) by (apply Rmult_le_pos; lra). assert (W2 : 0 <= unit * (T ^ 2 * t)) by (apply Rmult_le_pos; lra).
    assert (W3 : 0 <= n * (unit * (T ^ 2 * t))) by (apply Rmult_le_pos; lra).
    replace (((1 / 2 + 1 / 1000) * unit * T) * (3 * (c * c))) with ((1 / 2 + 1 / 1000) * 3 * ((1 / 2 + 1 / 100000) * (1 / 2 + 1 / 100000)) * (unit * T ^ 3)) in M1 by (unfold c; ring).
    replace (t * (E * ((3 + 1 / 1000) * T))) with ((3 + 1 / 1000) * (n * (unit * (T ^ 2 * t)) + unit * (T ^ 2 * t))) in M2 by (unfold E; ring).
    lra. }
  { rewrite Rabs_mult, (Rabs_right t) by lra. replace (3 / 4 * (T ^ 2 * t)) with (t * (3 / 4 * T ^ 2)) by ring. apply Rmult_le_compat_l; [lra|].
    eapply Rle_trans; [apply Rabs_triang|]. assert (Q := Rabs_triang ((z + t) ^ 2) ((z + t) * z)). rewrite <- !RPow_abs in *. rewrite Rabs_mult in Q.
    assert (Rabs (z + t) ^ 2 <= (T / 2) ^ 2) by (apply pow_incr; split; [apply Rabs_pos|assumption]). assert (Rabs z ^ 2 <= (T / 2) ^ 2) by (apply pow_incr; split; [apply Rabs_pos|assumption]).
    assert (Rabs (z + t) * Rabs z <= T / 2 * (T / 2)) by (apply Rmult_le_compat; try apply Rabs_pos; assumption).
    replace ((T / 2) ^ 2) with (T ^ 2 / 4) in * by field. replace (T / 2 * (T / 2)) with (T ^ 2 / 4) in * by field. lra. }
  { exact tT. } { lra. } { lra. } { lra. } { apply small_T; [exact HT|lia]. }
  assert (Fs : fin (fsub p1 p0) /\ B2R (fmul h (fsub p1 p0)) = B2R (fsub p1 p0)).
  { assert (Sm : Rabs (B2R p1 - B2R p0) <= bp 302).
    { assert (H3 := small_T 3 T HT ltac:(lia)). apply Rle_trans with (bp 300 * bp 2); [|rewrite <- bpow_plus; apply bpow_le; lia]. assert (b2 : bp 2 = 4) by (cbn; lra). rewrite b2.
      assert (C1 : Rabs (X1 ^ 3) <= T ^ 3) by (rewrite <- RPow_abs; apply pow_incr; split; [apply Rabs_pos|lra]). assert (C0 : Rabs (X0 ^ 3) <= T ^ 3) by (rewrite <- RPow_abs; apply pow_incr; split; [apply Rabs_pos|lra]).
      assert (uu : unit * (38 / 100) * T ^ 3 <= / 10 * T ^ 3) by (apply Rmult_le_compat_r; lra).
      replace (B2R p1 - B2R p0) with ((B2R p1 - X1 ^ 3) - (B2R p0 - X0 ^ 3) + (X1 ^ 3 - X0 ^ 3)) by ring.
      assert (Q1 := Rabs_triang (B2R p1 - X1 ^ 3 - (B2R p0 - X0 ^ 3)) (X1 ^ 3 - X0 ^ 3)). assert (Q2 := Rabs_triang (B2R p1 - X1 ^ 3) (- (B2R p0 - X0 ^ 3))). assert (Q3 := Rabs_triang (X1 ^ 3) (- X0 ^ 3)). rewrite Rabs_Ropp in Q2, Q3. unfold Rminus in *. lra. }
    destruct (sub_err p1 p0 Fp1 Fp0 ltac:(apply Rle_trans with (1 := Sm); apply bpow_le; lia)) as [Fs Eq]. split; [exact Fs|].
    destruct (mul_rnd h (fsub p1 p0) Fh Fs) as [_ Em].
    { rewrite Vh, Rmult_1_l. apply Rle_trans with (bp 302 * bp 1); [|rewrite <- bpow_plus; apply bpow_le; lia]. assert (b1 : bp 1 = 2) by (cbn; lra). rewrite b1.
      replace (B2R (fsub p1 p0)) with ((B2R (fsub p1 p0) - (B2R p1 - B2R p0)) + (B2R p1 - B2R p0)) by ring. apply Rle_trans with (1 := Rabs_triang _ _).
      assert (unit * Rabs (B2R p1 - B2R p0) <= 1 * Rabs (B2R p1 - B2R p0)) by (apply Rmult_le_compat_r; [apply Rabs_pos|lra]). lra. }
    rewrite Em, Vh, Rmult_1_l. apply round_generic; [apply valid_rnd_round_mode|apply generic_format_B2R]. }
  destruct Fs as [Fs Es]. split; [exact Fs|]. rewrite Es in B. unfold wX. replace ((z + t) ^ 3 - z ^ 3) with (1 * (t * ((z + t) ^ 2 + (z + t) * z + z ^ 2))) by ring.
  eapply Rle_trans; [exact B|]. assert (0 <= unit * T ^ 3) by (apply Rmult_le_pos; lra). assert (W2 : 0 <= unit * (T ^ 2 * t)) by (apply Rmult_le_pos; lra).
  assert (W3 : 0 <= n * (unit * (T ^ 2 * t))) by (apply Rmult_le_pos; lra).
  replace (unit * T ^ 2 * (116 / 100 * T + (301 / 100 * n + 53 / 10) * t)) with (116 / 100 * (unit * T ^ 3) + 301 / 100 * (n * (unit * (T ^ 2 * t))) + 53 / 10 * (unit * (T ^ 2 * t))) by ring.
  lra.
Qed.
End Cubes.

(** ** the loop *)
Definition qarr (np : numpy) (theta : f64) : farr := fun i j => trig4 np (scaled_angle theta) (3 * i + j).
Lemma loop_plies np (w : f64 -> f64 -> res f64) (z : list f64) angles : forall i (acc : nat -> f64),
  @sum_plies (FA (np_pow np)) w z (map (qarr np) angles) i (fun p q => acc (3 * p + q)%nat) = bind (xi_loop_f np w z angles i acc) (fun r => Ok (fun p q => r (3 * p + q)%nat)).
Proof.
  induction angles as [|th r IH]; intros i acc; [reflexivity|]. cbn [map sum_plies xi_loop_f]. change (@get (num (FA (np_pow np)))) with (@get f64). destruct (get z (i + 1)) as [z1|]; [|reflexivity]. cbn [bind]. destruct (get z i) as [z0|]; [|reflexivity]. cbn [bind].
  destruct (w z1 z0) as [v|]; [|reflexivity]. cbn [bind]. rewrite <- IH. reflexivity.
Qed.
Lemma thick_exact l : map (@B2R 53 1024) (thick l) = map (fun p => thickness (snd p)) (exact_layup l).
Proof. unfold thick, exact_layup. rewrite !map_map. apply map_ext. intros [th [o|i]]; reflexivity. Qed.
Lemma height_exact l : height (thick l) = S_Laminate.total (exact_layup l).
Proof. unfold height, S_Laminate.total. rewrite thick_exact. reflexivity. Qed.

Lemma xi_sum np l (f : f64 -> f64 -> res f64) g W al be ga : xi_layup np l -> let n := INR (length l) in let T := height (thick l) in
  0 < W -> bp (-300) <= W * T <= bp 300 -> 0 <= al <= 2 -> 0 <= be <= 4000000 -> 0 <= ga <= 1 ->
  (forall x1 x0 z t, near_ply n T x1 x0 z t -> exists w, f x1 x0 = Ok w /\ fin w /\ Rabs (B2R w - g z t) <= unit * W * (al * T + be * t)) ->
  (forall z t, - T / 2 <= z -> z + t <= T / 2 -> 0 < t -> Rabs (g z t) <= ga * (W * t)) ->
  exists z s, @positions (FA (np_pow np)) (thick l) = Ok z /\ xi_loop_f np f z (map fst l) 0 (fun _ => f_of_Z 0) = Ok s /\
    forall k, (k < 4)%nat -> fin (s k) /\
      Rabs (B2R (s k) - gmoment g (- T / 2) (map (@B2R 53 1024) (thick l)) (map (fun p => B2R (trig4 np (scaled_angle (fst p)) k)) l)) <= unit * (101 / 100 * W) * ((al + ga + 1 / 1000) * T * n + (be + ga) * T).
Proof.
  intros (HP & HA & HU) n T W0 WT Ha Hb Hg Hw Hgb. fold (thick l) in HU. destruct (bottom_err (np_pow np) (thick l) HU) as (z & E & F & Bz). assert (R := height_range (thick l) HU).
  fold T in R, Bz. assert (Ln : length (thick l) = length l) by (unfold thick; apply map_length). assert (HU' := HU). destruct HU' as (U & N1 & M). rewrite Ln in *. fold n in M, Bz.
  assert (n1 : 1 <= n) by (apply (le_INR 1), N1). assert (u := unit_val).
  assert (EB : entries_below (101 / 100) (map (qarr np) (map fst l))).
  { unfold entries_below. rewrite map_map. apply Forall_map. eapply Forall_impl; [|exact HA]. intros [th m] [X A]. cbn [fst] in *. intros i j _ _. unfold qarr.
    destruct (trig4_near np th (3 * i + j) A X) as [Ft Et]. split; [exact Ft|]. assert (H1 := htrig_le (3 * i + j) (B2R th)).
    replace (B2R (trig4 np (scaled_angle th) (3 * i + j))) with ((B2R (trig4 np (scaled_angle th) (3 * i + j)) - htrig (3 * i + j) (B2R th)) + htrig (3 * i + j) (B2R th)) by ring. apply Rle_trans with (1 := Rabs_triang _ _). lra. }
  assert (Hq : bp (-200) <= 101 / 100 <= bp 200). { split; [apply Rle_trans with (bp 0); [apply bpow_le; lia|cbn; lra]|apply Rle_trans with (bp 1); [cbn; lra|apply bpow_le; lia]]. }
  destruct (sum_rec_err (np_pow np) g f n T (101 / 100) W al be ga ltac:(lra) R (conj W0 WT) Hq Ha Hb Hg Hw Hgb (thick l) (map (qarr np) (map fst l)) z (- T / 2) (fun _ _ => f_of_Z 0) (fun _ _ => 0) (n * slack + 1 + 1 / 100) 0 0) as (M0 & EM & BM);
    try assumption; try (rewrite ?Ln; fold n; unfold slack in *; lra); try (fold (height (thick l)); fold T; lra).
  { rewrite !map_length, Ln. reflexivity. }
  { intros i j _ _. destruct (int_val 0 eq_refl) as [Fz Ez]. split; [exact Fz|]. rewrite Ez, Rminus_0_r, Rabs_R0, !Rmult_0_r, Rplus_0_l, Rmult_0_r. split; apply Rle_refl. }
  assert (Ps : @positions (FA (np_pow np)) (thick l) = Ok (z :: @interfaces (FA (np_pow np)) (thick l) z)).
  { destruct (thick l) as [|t ts] eqn:El; [cbn in Ln; lia|]. unfold positions. rewrite E. reflexivity. }
  assert (LL : length (map (qarr np) (map fst l)) = length (thick l)) by (rewrite !map_length, Ln; reflexivity).
  assert (SP := @sum_plies_rec (FA (np_pow np)) f (thick l) [] z (map (qarr np) (map fst l)) (fun _ _ => f_of_Z 0) LL). cbn [List.app length] in SP.
  assert (LP := loop_plies np f (z :: @interfaces (FA (np_pow np)) (thick l) z) (map fst l) 0 (fun _ => f_of_Z 0)).
  assert (Q : bind (xi_loop_f np f (z :: @interfaces (FA (np_pow np)) (thick l) z) (map fst l) 0 (fun _ => f_of_Z 0)) (fun r => Ok (fun p q : nat => r (3 * p + q)%nat)) = Ok M0).
  { rewrite <- LP. etransitivity; [exact SP|exact EM]. }
  destruct (xi_loop_f np f (z :: @interfaces (FA (np_pow np)) (thick l) z) (map fst l) 0 (fun _ => f_of_Z 0)) as [s|e] eqn:Es; [|discriminate Q]. cbn [bind] in Q.
  exists (z :: @interfaces (FA (np_pow np)) (thick l) z), s. split; [exact Ps|]. split; [exact Es|]. intros k Hk.
  assert (C : exists i j, (i < 3)%nat /\ (j < 3)%nat /\ (3 * i + j = k)%nat).
  { destruct k as [|[|[|[|k]]]]; try lia; [exists 0%nat, 0%nat|exists 0%nat, 1%nat|exists 0%nat, 2%nat|exists 1%nat, 0%nat]; lia. }
  destruct C as (i & j & Hi & Hj & Ek). destruct (BM i j Hi Hj) as [FM RM]. assert (Mk : M0 i j = s k). { assert (Q' : (fun p q : nat => s (3 * p + q)%nat) = M0) by (apply (f_equal (fun r => match r with Ok a => a | Err _ => M0 end)) in Q; exact Q). rewrite <- Q', Ek. reflexivity. }
  rewrite Mk in *. split; [exact FM|]. rewrite !map_map in RM. fold (height (thick l)) in RM. fold T in RM. rewrite Ln in RM. fold n in RM. rewrite !Rplus_0_l in RM.
  replace (map (fun p => B2R (trig4 np (scaled_angle (fst p)) k)) l) with (map (fun x => B2R (qarr np (fst x) i j)) l); [exact RM|]. apply map_ext. intros [th m]. unfold qarr. rewrite Ek. reflexivity.
Qed.

(** ** against the exact sums *)
Lemma gm_close (f : R -> R -> R) (h : R -> R) eps : (forall z t, 0 < t -> 0 <= f (z + t) z) -> forall (L : list (R * material)) z qs,
  Forall (fun p => 0 < thickness (snd p)) L -> Forall2 (fun q p => Rabs (q - h (fst p)) <= eps) qs L ->
  Rabs (gmoment (fun z t => f (z + t) z) z (map (fun p => thickness (snd p)) L) qs - xsum h f z L) <= eps * xsum one f z L.
Proof.
  intros Hf. induction L as [|p L IH]; intros z qs Ht F; inversion F as [|q ? qs' ? Hq F']; subst; cbn [map gmoment xsum]. { rewrite Rminus_0_r, Rabs_R0, Rmult_0_r. lra. }
  inversion Ht as [|? ? T1 T2]; subst. specialize (IH (z + thickness (snd p)) qs' T2 F'). assert (P := Hf z (thickness (snd p)) T1). unfold one at 1.
  set (w := f (z + thickness (snd p)) z) in *. set (G := gmoment _ _ _ _) in *. set (X := xsum h f _ L) in *. set (O := xsum one f _ L) in *.
  replace (w * q + G - (w * h (fst p) + X)) with (w * (q - h (fst p)) + (G - X)) by ring. apply Rle_trans with (1 := Rabs_triang _ _). rewrite Rabs_mult, (Rabs_pos_eq w) by exact P.
  assert (w * Rabs (q - h (fst p)) <= w * eps) by (apply Rmult_le_compat_l; assumption). lra.
Qed.
Lemma xsum_le (f : R -> R -> R) (h : R -> R) : (forall z t, 0 < t -> 0 <= f (z + t) z) -> (forall x, Rabs (h x) <= 1) -> forall (L : list (R * material)) z, Forall (fun p => 0 < thickness (snd p)) L -> Rabs (xsum h f z L) <= xsum one f z L.
Proof.
  intros Hf Hh. induction L as [|p L IH]; intros z Ht; cbn [xsum]; [rewrite Rabs_R0; lra|]. inversion Ht as [|? ? T1 T2]; subst. specialize (IH (z + thickness (snd p)) T2). assert (P := Hf z (thickness (snd p)) T1).
  apply Rle_trans with (1 := Rabs_triang _ _). rewrite Rabs_mult, (Rabs_pos_eq _ P). unfold one at 1. assert (f (z + thickness (snd p)) z * Rabs (h (fst p)) <= f (z + thickness (snd p)) z * 1) by (apply Rmult_le_compat_l; auto). lra.
Qed.

Lemma quot (N D : f64) N0 D0 a b : fin N -> fin D -> 0 < D0 -> Rabs (B2R N - N0) <= a * unit * D0 -> Rabs N0 <= D0 -> Rabs (B2R D - D0) <= b * unit * D0 -> 0 <= a * unit <= / 1000000 -> 0 <= b * unit <= / 1000000 ->
  fin (fdiv N D) /\ Rabs (B2R (fdiv N D) - N0 / D0) <= (1001 / 1000 * (a + b) + 11 / 10) * unit.
Proof.
  intros FN FD P EN SN ED Ha Hb. assert (u := unit_val). set (x := B2R N) in *. set (y := B2R D) in *.
  assert (Hy : (1 - / 1000000) * D0 <= y). { assert (b * unit * D0 <= / 1000000 * D0) by (apply Rmult_le_compat_r; lra). apply Rabs_le_inv in ED. lra. }
  assert (y0 : 0 < y) by nra. assert (Iy : 0 < / y <= 10001 / 10000 * / D0).
  { split; [apply Rinv_0_lt_compat, y0|]. apply Rmult_le_reg_r with y; [exact y0|]. rewrite Rinv_l by lra. apply Rmult_le_reg_r with D0; [exact P|]. replace (10001 / 10000 * / D0 * y * D0) with (10001 / 10000 * y) by (field; lra). lra. }
  assert (Q : Rabs (x / y - N0 / D0) <= 10001 / 10000 * (a + b) * unit).
  { replace (x / y - N0 / D0) with ((x - N0) * / y + N0 * / y * ((D0 - y) * / D0)) by (field; split; lra). apply Rle_trans with (1 := Rabs_triang _ _). rewrite !Rabs_mult, (Rabs_pos_eq (/ y)), (Rabs_pos_eq (/ D0)) by (left; try apply Rinv_0_lt_compat; lra). rewrite (Rabs_minus_sym D0 y).
    assert (ID : 0 < / D0) by (apply Rinv_0_lt_compat, P).
    assert (Q1 : Rabs (x - N0) * / y <= a * unit * D0 * (10001 / 10000 * / D0)) by (apply Rmult_le_compat; [apply Rabs_pos|lra|exact EN|lra]).
    assert (Q2 : Rabs N0 * / y <= D0 * (10001 / 10000 * / D0)) by (apply Rmult_le_compat; [apply Rabs_pos|lra|exact SN|lra]).
    assert (Q3 : Rabs (y - D0) * / D0 <= b * unit * D0 * / D0) by (apply Rmult_le_compat_r; [lra|exact ED]).
    replace (a * unit * D0 * (10001 / 10000 * / D0)) with (10001 / 10000 * (a * unit)) in Q1 by (field; lra). replace (D0 * (10001 / 10000 * / D0)) with (10001 / 10000) in Q2 by (field; lra). replace (b * unit * D0 * / D0) with (b * unit) in Q3 by (field; lra).
    assert (Q4 : Rabs N0 * / y * (Rabs (y - D0) * / D0) <= 10001 / 10000 * (b * unit)) by (apply Rmult_le_compat; [apply Rmult_le_pos; [apply Rabs_pos|lra]|apply Rmult_le_pos; [apply Rabs_pos|lra]|exact Q2|exact Q3]). lra. }
  assert (S1 : Rabs (N0 / D0) <= 1). { unfold Rdiv. rewrite Rabs_mult, (Rabs_pos_eq (/ D0)) by (left; apply Rinv_0_lt_compat, P). apply Rmult_le_reg_r with D0; [exact P|]. rewrite Rmult_assoc, Rinv_l by lra. lra. }
  assert (S2 : Rabs (x / y) <= 101 / 100). { replace (x / y) with ((x / y - N0 / D0) + N0 / D0) by ring. apply Rle_trans with (1 := Rabs_triang _ _). lra. }
  destruct (div_rnd N D FN ltac:(fold y; lra)) as [F E]. { fold x y. apply Rle_trans with (1 := S2). apply Rle_trans with (bp 1); [cbn; lra|apply bpow_le; lia]. }
  split; [exact F|]. rewrite E. fold x y. destruct (rnd_err (x / y)) as (d & h & Hd & Hh & Er). rewrite Er. assert (T := tiny).
  replace (x / y * (1 + d) + h - N0 / D0) with ((x / y - N0 / D0) + x / y * d + h) by ring. apply Rle_trans with (1 := Rabs_triang _ _). apply Rle_trans with (Rabs (x / y - N0 / D0) + Rabs (x / y * d) + Rabs h); [apply Rplus_le_compat_r, Rabs_triang|].
  rewrite Rabs_mult. assert (Rabs (x / y) * Rabs d <= 101 / 100 * unit) by (apply Rmult_le_compat; try apply Rabs_pos; assumption). lra.
Qed.
