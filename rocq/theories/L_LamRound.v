(** Rounding errors of the through-thickness sums in binary64. *)
From Coq Require Import Reals ZArith Lra Lia Bool.
From Flocq Require Import Core.Core IEEE754.BinarySingleNaN Relative Plus_error.
From Coq Require Import List.
From Verif Require Import M_Py M_K M_Float M_FloatArith M_LamArith S_Mat S_Validate S_Round S_LamRound L_Float L_Round.
Import ListNotations.
Open Scope R_scope.

Lemma sub_err x y : fin x -> fin y -> Rabs (B2R x - B2R y) <= bp 1023 -> fin (fsub x y) /\ Rabs (B2R (fsub x y) - (B2R x - B2R y)) <= unit * Rabs (B2R x - B2R y).
Proof.
  intros Fx Fy H. assert (M := @Bminus_correct 53 1024 f64_prec f64_emax mode_NE x y Fx Fy). fold (fsub x y) in M.
  rewrite Rlt_bool_true in M by (apply rnd_small, H). destruct M as (E & F & _). split; [exact F|]. rewrite E.
  destruct (Rle_or_lt (bp (-1022)) (Rabs (B2R x - B2R y))) as [G|G]; [apply rnd_rel; right; exact G|].
  rewrite round_generic.
  - rewrite Rminus_diag_eq, Rabs_R0 by reflexivity. apply Rmult_le_pos; [assert (T := unit_val); lra|apply Rabs_pos].
  - apply valid_rnd_round_mode.
  - unfold Rminus in *. rewrite <- B2R_Bopp in *. apply (@FLT_format_plus_small radix2 (-1074) 53 f64_prec (B2R x) (B2R (Bopp y))); try apply generic_format_B2R.
    apply Rlt_le, (Rlt_le_trans _ _ _ G). apply bpow_le. lia.
Qed.
Lemma mul_err x y : fin x -> fin y -> Rabs (B2R x * B2R y) <= bp 1023 ->
  fin (fmul x y) /\ Rabs (B2R (fmul x y) - B2R x * B2R y) <= unit * Rabs (B2R x * B2R y) + bp (-1075).
Proof.
  intros Fx Fy H. destruct (mul_rnd x y Fx Fy H) as [F E]. split; [exact F|]. rewrite E. destruct (rnd_err (B2R x * B2R y)) as (d & h & Hd & Hh & ->).
  replace (B2R x * B2R y * (1 + d) + h - B2R x * B2R y) with (d * (B2R x * B2R y) + h) by ring. eapply Rle_trans; [apply Rabs_triang|].
  apply Rplus_le_compat; [|exact Hh]. rewrite Rabs_mult. apply Rmult_le_compat_r; [apply Rabs_pos|exact Hd].
Qed.
Lemma int_val z : (Z.abs z < 2 ^ 53)%Z -> fin (f_of_Z z) /\ B2R (f_of_Z z) = IZR z.
Proof.
  intros H. destruct (f_of_Z_exp_denotes z 0 H ltac:(lia)) as [F E]. split; [exact F|]. change (B2R (f_of_Z z)) with (B2R (f_of_Z_exp z 0)). rewrite E. cbn. ring.
Qed.

(** ** total thickness *)
Definition slack : R := 1 + 1 / 100000000.
Lemma unit_n k : 0 <= k <= 1000000 -> 0 <= k * slack * unit <= 1 / 1000000000.
Proof. intros H. unfold slack, unit. lra. Qed.
Lemma usual_pos t : usual t -> fin t /\ 0 < B2R t <= bp 64 /\ bp (-64) <= B2R t.
Proof. intros [F [L U]]. split; [exact F|]. assert (P : 0 < bp (-64)) by apply bpow_gt_0. rewrite !(bpow_powerRZ radix2). cbn [radix_val radix2]. rewrite (bpow_powerRZ radix2) in P. split; [split; [eapply Rlt_le_trans; [exact P|exact L]|exact U]|exact L]. Qed.
Lemma heights_pos ts : Forall usual ts -> 0 <= rsum (map (@B2R 53 1024) ts).
Proof. induction 1 as [|t r U _ IH]; cbn; [lra|]. destruct (usual_pos t U) as (_ & P & _). lra. Qed.
Lemma heights_le ts : Forall usual ts -> rsum (map (@B2R 53 1024) ts) <= INR (length ts) * bp 64.
Proof.
  induction 1 as [|t r U _ IH]; [cbn [map rsum length INR]; lra|]. cbn [map rsum length]. rewrite S_INR. destruct (usual_pos t U) as (_ & P & _). rewrite Rmult_plus_distr_r, Rmult_1_l. lra.
Qed.
Lemma height_range ts : usual_plies ts -> bp (-64) <= height ts <= bp 84.
Proof.
  intros (U & N & L). unfold height. split.
  - destruct U as [|t r U V]; [cbn in N; lia|]. cbn [map rsum]. destruct (usual_pos t U) as (_ & _ & P). assert (Q := heights_pos r V). lra.
  - eapply Rle_trans; [apply heights_le, U|]. apply Rle_trans with (bp 20 * bp 64).
    + apply Rmult_le_compat_r; [apply bpow_ge_0|]. change (bp 20) with 1048576. lra.
    + rewrite <- bpow_plus. apply bpow_le. lia.
Qed.
(** the loop over the plies without indexing *)
Fixpoint sum_rec {A : arith} (f : num A -> num A -> res (num A)) (ts : list (num A)) (Qs : list (@arr A)) (z : num A) (acc : @arr A) : res (@arr A) :=
  match ts, Qs with
  | t :: ts', Q :: Qs' => w <- f (nadd A z t) z ;; sum_rec f ts' Qs' (nadd A z t) (fun p q => nadd A (acc p q) (nmul A w (Q p q)))
  | _, _ => Ok acc
  end.
Lemma sum_plies_rec {A : arith} (f : num A -> num A -> res (num A)) ts : forall pre z Qs acc, length Qs = length ts ->
  sum_plies f (pre ++ z :: interfaces ts z)%list Qs (length pre) acc = sum_rec f ts Qs z acc.
Proof.
  induction ts as [|t r IH]; intros pre z Qs acc L; destruct Qs as [|Q Qs]; try discriminate; [reflexivity|].
  cbn [sum_plies sum_rec interfaces]. unfold get. rewrite !nth_error_app2 by lia. replace (length pre + 1 - length pre)%nat with 1%nat by lia. rewrite Nat.sub_diag. cbn [nth_error bind].
  destruct (f (nadd A z t) z) as [w|e]; [|reflexivity]. cbn [bind]. injection L as L.
  specialize (IH (pre ++ [z])%list (nadd A z t) Qs (fun p q => nadd A (acc p q) (nmul A w (Q p q))) L). rewrite app_length in IH. cbn [length] in IH.
  rewrite <- app_assoc in IH. exact IH.
Qed.
Section Pow.
Variable pow : f64 -> nat -> res f64.
Notation tsum := (@thickness_sum (FA pow)).
Notation inter := (@interfaces (FA pow)).
Lemma sum_err ts : forall acc s k, Forall usual ts -> fin acc -> 0 <= s -> 0 <= k -> k + INR (length ts) <= 1000000 ->
  Rabs (B2R acc - s) <= k * slack * unit * s -> s + rsum (map (@B2R 53 1024) ts) <= bp 84 ->
  fin (tsum ts acc) /\ Rabs (B2R (tsum ts acc) - (s + rsum (map (@B2R 53 1024) ts))) <= (k + INR (length ts)) * slack * unit * (s + rsum (map (@B2R 53 1024) ts)).
Proof.
  induction ts as [|t r IH]; intros acc s k U F S K N E L.
  { cbn in *. split; [exact F|]. rewrite !Rplus_0_r in *. exact E. }
  inversion U as [|? ? Ut Ur]; subst. destruct (usual_pos t Ut) as (Ft & Pt & _). cbn [map rsum length] in *. rewrite S_INR in *.
  cbn [thickness_sum]. change (nadd (FA pow) acc t) with (fadd acc t). assert (Q := heights_pos r Ur). assert (J := pos_INR (length r)).
  assert (B := unit_n k ltac:(lra)). assert (u := unit_val).
  assert (V : k * slack * unit * s <= 1 / 1000000000 * s) by (apply Rmult_le_compat_r; lra).
  assert (G : Rabs (B2R acc + B2R t) <= (1 + 1 / 1000000000) * (s + B2R t)).
  { replace (B2R acc + B2R t) with ((B2R acc - s) + (s + B2R t)) by ring. eapply Rle_trans; [apply Rabs_triang|]. rewrite (Rabs_right (s + B2R t)) by lra. lra. }
  destruct (add_err acc t F Ft) as [F1 E1].
  { eapply Rle_trans; [exact G|]. apply Rle_trans with (bp 1 * bp 84); [change (bp 1) with 2; lra|]. rewrite <- bpow_plus. apply bpow_le. lia. }
  specialize (IH (fadd acc t) (s + B2R t) (k + 1) Ur F1 ltac:(lra) ltac:(lra) ltac:(lra)).
  replace (s + (B2R t + rsum (map (@B2R 53 1024) r))) with (s + B2R t + rsum (map (@B2R 53 1024) r)) in * by ring.
  replace (k + (INR (length r) + 1)) with (k + 1 + INR (length r)) by ring. apply IH; [|lra].
  replace (B2R (fadd acc t) - (s + B2R t)) with ((B2R (fadd acc t) - (B2R acc + B2R t)) + (B2R acc - s)) by ring.
  eapply Rle_trans; [apply Rabs_triang|].
  assert (H1 : unit * Rabs (B2R acc + B2R t) <= unit * ((1 + 1 / 1000000000) * (s + B2R t))) by (apply Rmult_le_compat_l; lra).
  assert (H2 : k * slack * unit * s <= k * slack * unit * (s + B2R t)) by (apply Rmult_le_compat_l; lra).
  assert (H3 : unit * ((1 + 1 / 1000000000) * (s + B2R t)) <= slack * unit * (s + B2R t)).
  { replace (unit * ((1 + 1 / 1000000000) * (s + B2R t))) with ((1 + 1 / 1000000000) * (unit * (s + B2R t))) by ring. rewrite Rmult_assoc.
    apply Rmult_le_compat_r; [apply Rmult_le_pos; lra|]. unfold slack. lra. }
  lra.
Qed.
(** ** the bottom face *)
Lemma bottom_err ts : usual_plies ts -> exists z, ndiv (FA pow) (nneg (FA pow) (tsum ts (nint (FA pow) 0))) (nint (FA pow) 2) = Ok z /\ fin z /\
  Rabs (B2R z - - height ts / 2) <= (INR (length ts) * slack + 1 + 1 / 100) * unit * (height ts / 2).
Proof.
  intros U. assert (R := height_range ts U). destruct U as (U & N & L). set (T := height ts) in *. set (n := INR (length ts)) in *.
  assert (Pn : 0 <= n) by apply pos_INR.
  assert (P64 : 0 < bp (-64)) by apply bpow_gt_0.
  destruct (sum_err ts (f_of_Z 0) 0 0 U) as [F E].
  { apply int_val. reflexivity. } { lra. } { lra. } { fold n. lra. }
  { rewrite (proj2 (int_val 0 eq_refl)). rewrite Rminus_0_r, Rabs_R0. lra. }
  { fold (height ts). fold T. lra. }
  fold (height ts) in E. fold T n in E. rewrite !Rplus_0_l in E. set (S := tsum ts (f_of_Z 0)) in *.
  change (nint (FA pow) 0) with (f_of_Z 0). fold S. change (nneg (FA pow) S) with (fopp S). change (nint (FA pow) 2) with (f_of_Z 2).
  destruct (int_val 2 eq_refl) as [F2 E2].
  assert (Fo : fin (fopp S)). { unfold fopp. rewrite is_finite_Bopp. exact F. }
  assert (Eo : B2R (fopp S) = - B2R S) by apply B2R_Bopp.
  assert (u := unit_val). assert (B := unit_n n ltac:(lra)).
  assert (D : - (n * slack * unit * T) <= B2R S - T <= n * slack * unit * T) by (apply Rabs_le_inv, E).
  assert (D' : n * slack * unit * T <= 1 / 1000000000 * T) by (apply Rmult_le_compat_r; lra).
  assert (Z : B2R (fopp S) / B2R (f_of_Z 2) = - (B2R S / 2)) by (rewrite Eo, E2; field).
  assert (A : Rabs (B2R (fopp S) / B2R (f_of_Z 2)) = B2R S / 2) by (rewrite Z, Rabs_Ropp, Rabs_right; lra).
  destruct (div_rnd (fopp S) (f_of_Z 2) Fo) as [Fd Ed].
  { rewrite E2. lra. }
  { rewrite A. apply Rle_trans with (bp 84); [lra|]. apply bpow_le. lia. }
  exists (fdiv (fopp S) (f_of_Z 2)). split; [|split; [exact Fd|]].
  { cbn [ndiv FA]. rewrite feq_zero; [reflexivity|exact F2|rewrite E2; lra]. }
  rewrite Ed. assert (Q : Rabs (rnd64 (B2R (fopp S) / B2R (f_of_Z 2)) - B2R (fopp S) / B2R (f_of_Z 2)) <= unit * (B2R S / 2)).
  { rewrite <- A. apply rnd_rel. right. rewrite A. apply Rle_trans with (bp (-66)); [apply bpow_le; lia|].
    replace (bp (-66)) with (bp (-64) / 4); [lra|]. change (-66)%Z with (-64 + -2)%Z. rewrite bpow_plus. change (bp (-2)) with (/ 4). field. }
  replace (rnd64 (B2R (fopp S) / B2R (f_of_Z 2)) - - T / 2) with ((rnd64 (B2R (fopp S) / B2R (f_of_Z 2)) - B2R (fopp S) / B2R (f_of_Z 2)) + - ((B2R S - T) / 2)) by (rewrite Z; field).
  eapply Rle_trans; [apply Rabs_triang|]. rewrite Rabs_Ropp. unfold Rdiv at 3. rewrite Rabs_mult, (Rabs_right (/ 2)) by lra.
  assert (unit * (B2R S / 2) <= unit * ((1 + 1 / 100) * (T / 2))) by (apply Rmult_le_compat_l; lra). lra.
Qed.

(** ** one interface *)
Lemma step_err T zz z t e : usual t -> fin zz -> Rabs (B2R zz - z) <= e * unit * (T / 2) -> 0 <= e <= 3000000 -> - T / 2 <= z -> z + B2R t <= T / 2 -> 0 < T <= bp 84 ->
  fin (fadd zz t) /\ Rabs (B2R (fadd zz t) - (B2R zz + B2R t)) <= (1 / 2 + 1 / 1000) * unit * T /\ Rabs (B2R (fadd zz t) - (z + B2R t)) <= (e + slack) * unit * (T / 2).
Proof.
  intros U F H E L R [P Q]. destruct (usual_pos t U) as (Ft & Pt & _). assert (u := unit_val).
  assert (eu : 0 <= e * unit <= 1 / 1000000000) by (unfold unit; lra).
  assert (V : e * unit * (T / 2) <= 1 / 1000000000 * (T / 2)) by (apply Rmult_le_compat_r; lra).
  assert (D := Rabs_le_inv _ _ (Rle_trans _ _ _ H V)).
  assert (G : Rabs (B2R zz + B2R t) <= (1 + 1 / 1000000000) * (T / 2)) by (apply Rabs_le; lra).
  destruct (add_err zz t F Ft) as [F1 E1].
  { eapply Rle_trans; [exact G|]. apply Rle_trans with (bp 84); [lra|]. apply bpow_le. lia. }
  assert (H1 : unit * Rabs (B2R zz + B2R t) <= unit * ((1 + 1 / 1000000000) * (T / 2))) by (apply Rmult_le_compat_l; lra).
  assert (W : 0 < unit * T) by (apply Rmult_lt_0_compat; lra).
  assert (E2 : Rabs (B2R (fadd zz t) - (B2R zz + B2R t)) <= (1 + 1 / 1000000000) / 2 * (unit * T)) by lra.
  split; [exact F1|]. split; [lra|].
  replace (B2R (fadd zz t) - (z + B2R t)) with ((B2R (fadd zz t) - (B2R zz + B2R t)) + (B2R zz - z)) by ring. eapply Rle_trans; [apply Rabs_triang|].
  unfold slack. lra.
Qed.
(** ** the weights of a ply *)
Lemma scaled_weight h p1 p0 k v X y a b g : fin h -> fin p1 -> fin p0 -> Rabs (B2R h - k) <= unit * k -> 1 / 4 <= k <= 1 ->
  Rabs (B2R p1 - B2R p0 - v) <= unit * (a * X + b * y) -> Rabs v <= g * y -> 0 <= y <= X -> 0 <= a <= 10 -> 0 <= b <= 4000000 -> 0 <= g <= 1 -> bp (-300) <= X <= bp 300 ->
  fin (fmul h (fsub p1 p0)) /\ Rabs (B2R (fmul h (fsub p1 p0)) - k * v) <= k * (unit * ((a + 1 / 100) * X + (b + 3 * g + 1 / 100) * y)).
Proof.
  intros Fh F1 F0 Hh K D V Y A B G R. assert (u := unit_val). assert (P : 0 < bp (-300)) by apply bpow_gt_0. assert (X0 : 0 < X) by lra.
  assert (T1 : a * X + b * y <= 5000000 * X).
  { assert (a * X <= 10 * X) by (apply Rmult_le_compat_r; lra). assert (b * y <= 4000000 * X) by (apply Rmult_le_compat; lra). lra. }
  assert (T2 : unit * (a * X + b * y) <= 1 / 1000000000 * X).
  { apply Rle_trans with (unit * (5000000 * X)); [apply Rmult_le_compat_l; lra|]. rewrite <- Rmult_assoc. apply Rmult_le_compat_r; [lra|]. unfold unit. lra. }
  assert (gy : 0 <= g * y <= X). { split; [apply Rmult_le_pos; lra|]. apply Rle_trans with (1 * y); [apply Rmult_le_compat_r; lra|lra]. }
  set (d := B2R p1 - B2R p0) in *.
  assert (Ad : Rabs d <= g * y + 1 / 1000000000 * X).
  { replace d with (d - v + v) by ring. eapply Rle_trans; [apply Rabs_triang|]. lra. }
  assert (BX : X * 4 <= bp 1023). { apply Rle_trans with (bp 300 * bp 2); [change (bp 2) with 4; lra|]. rewrite <- bpow_plus. apply bpow_le. lia. }
  destruct (sub_err p1 p0 F1 F0) as [Fs Es]; [fold d; lra|]. fold d in Es. set (s := B2R (fsub p1 p0)) in *.
  assert (Us : unit * Rabs d <= unit * (g * y + 1 / 1000000000 * X)) by (apply Rmult_le_compat_l; lra).
  assert (Us' : unit * (g * y + 1 / 1000000000 * X) <= 1 / 1000000000 * X).
  { apply Rle_trans with (unit * (2 * X)); [apply Rmult_le_compat_l; lra|]. rewrite <- Rmult_assoc. apply Rmult_le_compat_r; [lra|]. unfold unit. lra. }
  assert (As : Rabs s <= g * y + 2 / 1000000000 * X).
  { replace s with (s - d + d) by ring. eapply Rle_trans; [apply Rabs_triang|]. lra. }
  assert (uk : 0 <= unit * k <= unit) by (split; [apply Rmult_le_pos; lra|]; apply Rle_trans with (unit * 1); [apply Rmult_le_compat_l; lra|lra]).
  assert (Hh' := Rabs_le_inv _ _ Hh).
  assert (ah : Rabs (B2R h) <= k * (1 + unit)) by (apply Rabs_le; lra).
  assert (gX : 0 <= g * y + 2 / 1000000000 * X) by lra.
  assert (Ap : Rabs (B2R h * s) <= k * (1 + unit) * (g * y + 2 / 1000000000 * X)).
  { rewrite Rabs_mult. apply Rmult_le_compat; try apply Rabs_pos; assumption. }
  assert (Ap' : k * (1 + unit) * (g * y + 2 / 1000000000 * X) <= k * (g * y + 4 / 1000000000 * X)).
  { rewrite Rmult_assoc. apply Rmult_le_compat_l; [lra|]. assert (unit * (g * y + 2 / 1000000000 * X) <= unit * (2 * X)) by (apply Rmult_le_compat_l; lra).
    assert (unit * (2 * X) <= 1 / 1000000000 * X) by (rewrite <- Rmult_assoc; apply Rmult_le_compat_r; [lra|unfold unit; lra]). lra. }
  assert (kg : k * (g * y + 4 / 1000000000 * X) <= 1 * (2 * X)) by (apply Rmult_le_compat; lra).
  destruct (mul_err h (fsub p1 p0) Fh Fs) as [Fm Em]; [fold s; lra|]. fold s in Em. split; [exact Fm|].
  assert (tn : bp (-1075) <= k * (unit * (1 / 1000000000 * X))).
  { rewrite unit_bp. apply Rle_trans with (bp (-2) * (bp (-53) * (bp (-30) * bp (-300)))).
    - rewrite <- !bpow_plus. apply bpow_le. lia.
    - apply Rmult_le_compat; [apply bpow_ge_0|repeat apply Rmult_le_pos; apply bpow_ge_0|change (bp (-2)) with (/ 4); lra|].
      apply Rmult_le_compat_l; [apply bpow_ge_0|]. apply Rmult_le_compat; [apply bpow_ge_0|apply bpow_ge_0| |lra]. change (bp (-30)) with (/ 1073741824). lra. }
  replace (B2R (fmul h (fsub p1 p0)) - k * v) with ((B2R (fmul h (fsub p1 p0)) - B2R h * s) + (k * ((s - d) + (d - v)) + (B2R h - k) * s)) by ring.
  eapply Rle_trans; [apply Rabs_triang|]. eapply Rle_trans; [apply Rplus_le_compat_l, Rabs_triang|]. rewrite !(Rabs_mult (B2R h - k)), (Rabs_mult k), (Rabs_right k) by lra.
  assert (M1 : k * Rabs (s - d + (d - v)) <= k * (unit * (g * y + 1 / 1000000000 * X) + unit * (a * X + b * y))).
  { apply Rmult_le_compat_l; [lra|]. eapply Rle_trans; [apply Rabs_triang|]. lra. }
  assert (M2 : Rabs (B2R h - k) * Rabs s <= (unit * k) * (g * y + 2 / 1000000000 * X)) by (apply Rmult_le_compat; try apply Rabs_pos; assumption).
  assert (M3 : unit * Rabs (B2R h * s) <= unit * (k * (g * y + 4 / 1000000000 * X))) by (apply Rmult_le_compat_l; lra).
  assert (W : 0 <= k * unit * X) by (repeat apply Rmult_le_pos; lra). assert (W' : 0 <= k * unit * y) by (repeat apply Rmult_le_pos; lra).
  lra.
Qed.

Record near_ply (n T : R) (x1 x0 : f64) (z t : R) : Prop := {
  np_n : 0 <= n <= 1000000; np_T : bp (-64) <= T <= bp 84; np_t : 0 < t; np_lo : - T / 2 <= z; np_hi : z + t <= T / 2;
  np_1 : fin x1; np_0 : fin x0; np_e0 : Rabs (B2R x0 - z) <= (n + 1) * unit * T; np_e1 : Rabs (B2R x1 - (z + t)) <= (n + 1) * unit * T;
  np_d : Rabs (B2R x1 - B2R x0 - t) <= (1 / 2 + 1 / 1000) * unit * T }.
Lemma near_abs n T x1 x0 z t : near_ply n T x1 x0 z t -> 0 < T /\ (n + 1) * unit * T <= 1 / 100000 * T /\
  Rabs (B2R x0) <= (1 / 2 + 1 / 100000) * T /\ Rabs (B2R x1) <= (1 / 2 + 1 / 100000) * T.
Proof.
  intros [N HT Ht L H F1 F0 E0 E1 D]. assert (P : 0 < bp (-64)) by apply bpow_gt_0. assert (T0 : 0 < T) by lra.
  assert (e : (n + 1) * unit * T <= 1 / 100000 * T) by (apply Rmult_le_compat_r; [lra|unfold unit; lra]).
  assert (A0 := Rabs_le_inv _ _ E0). assert (A1 := Rabs_le_inv _ _ E1). split; [exact T0|]. split; [exact e|]. split; apply Rabs_le; lra.
Qed.
Lemma weight_A_err n T x1 x0 z t : near_ply n T x1 x0 z t -> exists w, @weight_A (FA pow) x1 x0 = Ok w /\ fin w /\
  Rabs (B2R w - ((z + t) ^ 1 - z ^ 1) / INR 1) <= unit * T ^ 0 * (51 / 100 * T + 101 / 100 * t).
Proof.
  intros N. destruct (near_abs _ _ _ _ _ _ N) as (T0 & e & A0 & A1). destruct N as [N HT Ht L H F1 F0 E0 E1 D]. assert (u := unit_val).
  assert (D' := Rabs_le_inv _ _ D). assert (uT : 0 < unit * T) by (apply Rmult_lt_0_compat; lra). assert (uT' : unit * T <= 1 / 1000 * T) by (apply Rmult_le_compat_r; lra).
  assert (Ad : Rabs (B2R x1 - B2R x0) <= t + 1 / 1000 * T) by (apply Rabs_le; lra).
  destruct (sub_err x1 x0 F1 F0) as [F E]. { apply Rle_trans with (bp 84 * 2); [|change 2 with (bp 1); rewrite <- bpow_plus; apply bpow_le; lia]. lra. }
  exists (fsub x1 x0). split; [reflexivity|]. split; [exact F|].
  assert (unit * Rabs (B2R x1 - B2R x0) <= unit * (t + 1 / 1000 * T)) by (apply Rmult_le_compat_l; lra).
  assert (0 < unit * t) by (apply Rmult_lt_0_compat; lra).
  replace (((z + t) ^ 1 - z ^ 1) / INR 1) with t by (cbn; field). cbn [Datatypes.length Nat.add Rpow_def.pow].
  replace (B2R (fsub x1 x0) - t) with ((B2R (fsub x1 x0) - (B2R x1 - B2R x0)) + (B2R x1 - B2R x0 - t)) by ring. eapply Rle_trans; [apply Rabs_triang|]. lra.
Qed.
Lemma half_third k : k = 2%Z \/ k = 3%Z -> exists h, ndiv (FA pow) (nint (FA pow) 1) (nint (FA pow) k) = Ok h /\ fin h /\ Rabs (B2R h - / IZR k) <= unit * / IZR k.
Proof.
  intros K. assert (Kv : 2 <= IZR k <= 3) by (destruct K as [-> | ->]; lra).
  destruct (int_val 1 eq_refl) as [F1 E1]. destruct (int_val k) as [F2 E2]; [destruct K as [-> | ->]; reflexivity|].
  cbn [ndiv FA nint]. rewrite feq_zero; [|exact F2|rewrite E2; lra]. eexists. split; [reflexivity|].
  assert (I : / 3 <= / IZR k <= / 2) by (split; apply Rinv_le; lra).
  destruct (div_rnd (f_of_Z 1) (f_of_Z k) F1) as [F E]; [rewrite E2; lra| |].
  { rewrite E1, E2. unfold Rdiv. rewrite Rmult_1_l, Rabs_right by lra. apply Rle_trans with (bp 0); [change (bp 0) with 1; lra|apply bpow_le; lia]. }
  split; [exact F|]. rewrite E, E1, E2. unfold Rdiv. rewrite Rmult_1_l. assert (Q := rnd_rel (/ IZR k)). rewrite (Rabs_right (/ IZR k)) in Q by lra. apply Q.
  right. apply Rle_trans with (bp (-2)); [apply bpow_le; lia|]. change (bp (-2)) with (/ 4). lra.
Qed.
Lemma small_T p T : bp (-64) <= T <= bp 84 -> (p <= 3)%nat -> bp (-300) <= T ^ p <= bp 300.
Proof.
  intros [L H] P. assert (P0 : 0 < bp (-64)) by apply bpow_gt_0. split.
  - apply Rle_trans with (bp (-64) ^ p); [|apply pow_incr; lra]. destruct p as [|[|[|[|p]]]]; try lia; cbn [Rpow_def.pow]; rewrite ?Rmult_1_r, <- ?bpow_plus;
      try (apply bpow_le; lia). change 1 with (bp 0). apply bpow_le; lia.
  - apply Rle_trans with (bp 84 ^ p); [apply pow_incr; lra|]. destruct p as [|[|[|[|p]]]]; try lia; cbn [Rpow_def.pow]; rewrite ?Rmult_1_r, <- ?bpow_plus;
      try (apply bpow_le; lia). change 1 with (bp 0). apply bpow_le; lia.
Qed.
Hypothesis Hpow : pow_near pow.
Lemma pow_err T x p : bp (-64) <= T <= bp 84 -> fin x -> Rabs (B2R x) <= (1 / 2 + 1 / 100000) * T -> p = 2%nat \/ p = 3%nat ->
  exists y, pow x p = Ok y /\ fin y /\ Rabs (B2R y - B2R x ^ p) <= unit * (if Nat.eqb p 2 then 76 / 100 else 38 / 100) * T ^ p.
Proof.
  intros HT F A P. assert (P0 : 0 < bp (-64)) by apply bpow_gt_0. assert (u := unit_val).
  destruct (Hpow x p F) as (y & E & Fy & B); [|exact P|].
  { change (powerRZ 2 90) with (powerRZ (IZR radix2) 90). rewrite <- bpow_powerRZ. eapply Rle_trans; [exact A|]. apply Rle_trans with (bp 84); [lra|apply bpow_le; lia]. }
  exists y. split; [exact E|]. split; [exact Fy|]. eapply Rle_trans; [exact B|]. rewrite <- RPow_abs.
  assert (C : Rabs (B2R x) ^ p <= ((1 / 2 + 1 / 100000) * T) ^ p) by (apply pow_incr; split; [apply Rabs_pos|exact A]). rewrite Rpow_mult_distr in C.
  assert (R := small_T p T HT ltac:(lia)). assert (P3 : 0 < bp (-300)) by apply bpow_gt_0.
  assert (tn : powerRZ 2 (-900) <= unit * (1 / 1000) * T ^ p).
  { change 2 with (IZR radix2). rewrite <- bpow_powerRZ. rewrite unit_bp. apply Rle_trans with (bp (-53) * bp (-10) * bp (-300)); [rewrite <- !bpow_plus; apply bpow_le; lia|].
    apply Rmult_le_compat; [apply Rmult_le_pos; apply bpow_ge_0|apply bpow_ge_0| |lra]. apply Rmult_le_compat_l; [apply bpow_ge_0|]. change (bp (-10)) with (/ 1024). lra. }
  assert (K : 3 * (1 / 2 + 1 / 100000) ^ p + 1 / 1000 <= (if Nat.eqb p 2 then 76 / 100 else 38 / 100)) by (destruct P as [-> | ->]; cbn [Nat.eqb Rpow_def.pow]; lra).
  assert (M : unit * (Rabs (B2R x) ^ p) <= unit * ((1 / 2 + 1 / 100000) ^ p * T ^ p)) by (apply Rmult_le_compat_l; lra).
  assert (N : unit * T ^ p * (3 * (1 / 2 + 1 / 100000) ^ p + 1 / 1000) <= unit * T ^ p * (if Nat.eqb p 2 then 76 / 100 else 38 / 100)).
  { apply Rmult_le_compat_l; [apply Rmult_le_pos; lra|exact K]. }
  lra.
Qed.
Lemma weight_B_err n T x1 x0 z t : near_ply n T x1 x0 z t -> exists w, @weight_B (FA pow) x1 x0 = Ok w /\ fin w /\
  Rabs (B2R w - ((z + t) ^ 2 - z ^ 2) / INR 2) <= unit * T ^ 1 * (102 / 100 * T + (n + 26 / 10) * t).
Proof.
  intros N. destruct (near_abs _ _ _ _ _ _ N) as (T0 & e & A0 & A1). destruct N as [N HT Ht L H F1 F0 E0 E1 D]. assert (u := unit_val).
  destruct (half_third 2 ltac:(left; reflexivity)) as (h & Eh & Fh & Bh).
  destruct (pow_err T x1 2 HT F1 A1 ltac:(left; reflexivity)) as (p1 & G1 & Fp1 & B1). destruct (pow_err T x0 2 HT F0 A0 ltac:(left; reflexivity)) as (p0 & G0 & Fp0 & B0).
  cbn [Nat.eqb] in B1, B0. unfold weight_B. rewrite Eh. cbn [bind npow FA]. rewrite G1, G0. cbn [bind nmul nsub].
  exists (fmul h (fsub p1 p0)). split; [reflexivity|].
  assert (tT : 0 <= T * t <= T ^ 2) by (split; [apply Rmult_le_pos; lra|replace (T ^ 2) with (T * T) by ring; apply Rmult_le_compat_l; lra]).
  assert (uT : 0 < unit * T) by (apply Rmult_lt_0_compat; lra).
  destruct (scaled_weight h p1 p0 (/ 2) (t * (2 * z + t)) (T ^ 2) (T * t) (203 / 100) (2 * (n + 1)) 1 Fh Fp1 Fp0) as [F E].
  { exact Bh. } { lra. }
  { replace (B2R p1 - B2R p0 - t * (2 * z + t)) with
      ((B2R p1 - B2R x1 ^ 2) - (B2R p0 - B2R x0 ^ 2) + ((B2R x1 - B2R x0 - t) * (B2R x1 + B2R x0) + t * ((B2R x1 - (z + t)) + (B2R x0 - z)))) by ring.
    assert (M1 : Rabs ((B2R x1 - B2R x0 - t) * (B2R x1 + B2R x0)) <= ((1 / 2 + 1 / 1000) * unit * T) * ((1 + 2 / 100000) * T)).
    { rewrite Rabs_mult. apply Rmult_le_compat; try apply Rabs_pos; [exact D|]. eapply Rle_trans; [apply Rabs_triang|]. lra. }
    assert (M2 : Rabs (t * ((B2R x1 - (z + t)) + (B2R x0 - z))) <= t * (2 * ((n + 1) * unit * T))).
    { rewrite Rabs_mult, (Rabs_right t) by lra. apply Rmult_le_compat_l; [lra|]. eapply Rle_trans; [apply Rabs_triang|]. lra. }
    eapply Rle_trans; [apply Rabs_triang|]. eapply Rle_trans; [apply Rplus_le_compat; [apply Rabs_triang|apply Rabs_triang]|]. rewrite Rabs_Ropp.
    assert (W : 0 <= unit * T ^ 2) by (apply Rmult_le_pos; [lra|apply pow_le; lra]).
    replace ((1 / 2 + 1 / 1000) * unit * T * ((1 + 2 / 100000) * T)) with ((1 / 2 + 1 / 1000) * (1 + 2 / 100000) * (unit * T ^ 2)) in M1 by ring.
    lra. }
  { rewrite Rabs_mult, (Rabs_right t) by lra. rewrite Rmult_1_l, (Rmult_comm T). apply Rmult_le_compat_l; [lra|]. apply Rabs_le. lra. }
  { exact tT. } { lra. } { lra. } { lra. } { apply small_T; [exact HT|lia]. }
  split; [exact F|]. cbn [Rpow_def.pow INR]. replace (((z + t) * ((z + t) * 1) - z * (z * 1)) / (1 + 1)) with (/ 2 * (t * (2 * z + t))) by field.
  eapply Rle_trans; [exact E|]. assert (0 <= unit * T ^ 2) by (apply Rmult_le_pos; [lra|apply pow_le; lra]). assert (0 <= unit * (T * t)) by (apply Rmult_le_pos; lra). lra.
Qed.
Lemma weight_D_err n T x1 x0 z t : near_ply n T x1 x0 z t -> exists w, @weight_D (FA pow) x1 x0 = Ok w /\ fin w /\
  Rabs (B2R w - ((z + t) ^ 3 - z ^ 3) / INR 3) <= unit * T ^ 2 * (40 / 100 * T + (102 / 100 * n + 2) * t).
Proof.
  intros N. destruct (near_abs _ _ _ _ _ _ N) as (T0 & e & A0 & A1). destruct N as [N HT Ht L H F1 F0 E0 E1 D]. assert (u := unit_val).
  destruct (half_third 3 ltac:(right; reflexivity)) as (h & Eh & Fh & Bh).
  destruct (pow_err T x1 3 HT F1 A1 ltac:(right; reflexivity)) as (p1 & G1 & Fp1 & B1). destruct (pow_err T x0 3 HT F0 A0 ltac:(right; reflexivity)) as (p0 & G0 & Fp0 & B0).
  cbn [Nat.eqb] in B1, B0. unfold weight_D. rewrite Eh. cbn [bind npow FA]. rewrite G1, G0. cbn [bind nmul nsub].
  exists (fmul h (fsub p1 p0)). split; [reflexivity|]. assert (T2 : 0 < T ^ 2) by (apply pow_lt; lra). assert (T3 : 0 < T ^ 3) by (apply pow_lt; lra).
  assert (tT : 0 <= T ^ 2 * t <= T ^ 3) by (split; [apply Rmult_le_pos; lra|replace (T ^ 3) with (T ^ 2 * T) by ring; apply Rmult_le_compat_l; lra]).
  assert (uT : 0 < unit * T) by (apply Rmult_lt_0_compat; lra).
  set (X1 := B2R x1) in *. set (X0 := B2R x0) in *. set (E := (n + 1) * unit * T) in *. assert (PE : 0 <= E) by (apply Rmult_le_pos; [apply Rmult_le_pos; lra|lra]).
  assert (b : T * (T / 2) = T ^ 2 / 2) by field.
  assert (az1 : Rabs (z + t) <= T / 2) by (apply Rabs_le; lra). assert (az0 : Rabs z <= T / 2) by (apply Rabs_le; lra).
  destruct (scaled_weight h p1 p0 (/ 3) (t * ((z + t) ^ 2 + (z + t) * z + z ^ 2)) (T ^ 3) (T ^ 2 * t) (115 / 100) (301 / 100 * (n + 1)) (3 / 4) Fh Fp1 Fp0) as [F B].
  { exact Bh. } { lra. }
  { replace (B2R p1 - B2R p0 - t * ((z + t) ^ 2 + (z + t) * z + z ^ 2)) with
      ((B2R p1 - X1 ^ 3) - (B2R p0 - X0 ^ 3) + ((X1 - X0 - t) * (X1 * X1 + X1 * X0 + X0 * X0) + t * ((X1 - (z + t)) * (X1 + (z + t) + X0) + (X0 - z) * (X0 + z + (z + t))))) by ring.
    set (c := (1 / 2 + 1 / 100000) * T) in *. assert (Pc : 0 < c) by (unfold c; apply Rmult_lt_0_compat; lra).
    assert (M1 : Rabs ((X1 - X0 - t) * (X1 * X1 + X1 * X0 + X0 * X0)) <= ((1 / 2 + 1 / 1000) * unit * T) * (3 * (c * c))).
    { rewrite Rabs_mult. apply Rmult_le_compat; try apply Rabs_pos; [exact D|]. eapply Rle_trans; [apply Rabs_triang|]. assert (Q := Rabs_triang (X1 * X1) (X1 * X0)).
      rewrite !Rabs_mult in *. assert (Rabs X1 * Rabs X1 <= c * c) by (apply Rmult_le_compat; try apply Rabs_pos; assumption).
      assert (Rabs X1 * Rabs X0 <= c * c) by (apply Rmult_le_compat; try apply Rabs_pos; assumption). assert (Rabs X0 * Rabs X0 <= c * c) by (apply Rmult_le_compat; try apply Rabs_pos; assumption). lra. }
    assert (M2 : Rabs (t * ((X1 - (z + t)) * (X1 + (z + t) + X0) + (X0 - z) * (X0 + z + (z + t)))) <= t * (E * ((3 + 1 / 1000) * T))).
    { rewrite Rabs_mult, (Rabs_right t) by lra. apply Rmult_le_compat_l; [lra|]. eapply Rle_trans; [apply Rabs_triang|]. rewrite !Rabs_mult.
      assert (Q1 : Rabs (X1 + (z + t) + X0) <= 2 * c + T / 2). { eapply Rle_trans; [apply Rabs_triang|]. assert (Q := Rabs_triang X1 (z + t)). lra. }
      assert (Q2 : Rabs (X0 + z + (z + t)) <= c + T). { eapply Rle_trans; [apply Rabs_triang|]. assert (Q := Rabs_triang X0 z). lra. }
      assert (Rabs (X1 - (z + t)) * Rabs (X1 + (z + t) + X0) <= E * (2 * c + T / 2)) by (apply Rmult_le_compat; try apply Rabs_pos; assumption).
      assert (Rabs (X0 - z) * Rabs (X0 + z + (z + t)) <= E * (c + T)) by (apply Rmult_le_compat; try apply Rabs_pos; assumption).
      assert (E * (2 * c + T / 2 + (c + T)) <= E * ((3 + 1 / 1000) * T)) by (apply Rmult_le_compat_l; [exact PE|unfold c; lra]). lra. }
    eapply Rle_trans; [apply Rabs_triang|]. eapply Rle_trans; [apply Rplus_le_compat; [apply Rabs_triang|apply Rabs_triang]|]. rewrite Rabs_Ropp.
    assert (W : 0 <= unit * T ^ 3) by (apply Rmult_le_pos; lra). assert (W2 : 0 <= unit * (T ^ 2 * t)) by (apply Rmult_le_pos; lra).
    assert (W3 : 0 <= n * (unit * (T ^ 2 * t))) by (apply Rmult_le_pos; lra).
    replace (((1 / 2 + 1 / 1000) * unit * T) * (3 * (c * c))) with ((1 / 2 + 1 / 1000) * 3 * ((1 / 2 + 1 / 100000) * (1 / 2 + 1 / 100000)) * (unit * T ^ 3)) in M1 by (unfold c; ring).
    replace (t * (E * ((3 + 1 / 1000) * T))) with ((3 + 1 / 1000) * (n * (unit * (T ^ 2 * t)) + unit * (T ^ 2 * t))) in M2 by (unfold E; ring).
    lra. }
  { rewrite Rabs_mult, (Rabs_right t) by lra. replace (3 / 4 * (T ^ 2 * t)) with (t * (3 / 4 * T ^ 2)) by ring. apply Rmult_le_compat_l; [lra|].
    eapply Rle_trans; [apply Rabs_triang|]. assert (Q := Rabs_triang ((z + t) ^ 2) ((z + t) * z)). rewrite <- !RPow_abs in *. rewrite Rabs_mult in Q.
    assert (Rabs (z + t) ^ 2 <= (T / 2) ^ 2) by (apply pow_incr; split; [apply Rabs_pos|assumption]). assert (Rabs z ^ 2 <= (T / 2) ^ 2) by (apply pow_incr; split; [apply Rabs_pos|assumption]).
    assert (Rabs (z + t) * Rabs z <= T / 2 * (T / 2)) by (apply Rmult_le_compat; try apply Rabs_pos; assumption).
    replace ((T / 2) ^ 2) with (T ^ 2 / 4) in * by field. replace (T / 2 * (T / 2)) with (T ^ 2 / 4) in * by field. lra. }
  { exact tT. } { lra. } { lra. } { lra. } { apply small_T; [exact HT|lia]. }
  split; [exact F|]. replace (((z + t) ^ 3 - z ^ 3) / INR 3) with (/ 3 * (t * ((z + t) ^ 2 + (z + t) * z + z ^ 2))) by (cbn [INR]; field).
  eapply Rle_trans; [exact B|]. assert (0 <= unit * T ^ 3) by (apply Rmult_le_pos; lra). assert (W2 : 0 <= unit * (T ^ 2 * t)) by (apply Rmult_le_pos; lra).
  assert (W3 : 0 <= n * (unit * (T ^ 2 * t))) by (apply Rmult_le_pos; lra).
  replace (unit * T ^ 2 * (40 / 100 * T + (102 / 100 * n + 2) * t)) with (40 / 100 * (unit * T ^ 3) + 102 / 100 * (n * (unit * (T ^ 2 * t))) + 2 * (unit * (T ^ 2 * t))) by ring.
  lra.
Qed.

(** ** the sum over the plies, with weight g *)
Fixpoint gmoment (g : R -> R -> R) (z : R) (ts qs : list R) : R :=
  match ts, qs with
  | t :: ts', q :: qs' => g z t * q + gmoment g (z + t) ts' qs'
  | _, _ => 0
  end.
Lemma gmoment_moment p ts : forall z qs, gmoment (fun z t => ((z + t) ^ p - z ^ p) / INR p) z ts qs = moment p z ts qs.
Proof. induction ts as [|t ts IH]; intros z [|q qs]; cbn [gmoment moment]; try reflexivity. rewrite IH. reflexivity. Qed.
Section Sum.
Variables (g : R -> R -> R) (f : f64 -> f64 -> res f64) (n T q W al be ga : R).
Hypothesis Hn : 0 <= n <= 1000000.
Hypothesis HT : bp (-64) <= T <= bp 84.
Hypothesis HW : 0 < W /\ bp (-300) <= W * T <= bp 300.
Hypothesis Hq : bp (-200) <= q <= bp 200.
Hypothesis Hal : 0 <= al <= 2.
Hypothesis Hbe : 0 <= be <= 4000000.
Hypothesis Hga : 0 <= ga <= 1.
Hypothesis Hw : forall x1 x0 z t, near_ply n T x1 x0 z t -> exists w, f x1 x0 = Ok w /\ fin w /\ Rabs (B2R w - g z t) <= unit * W * (al * T + be * t).
Hypothesis Hg : forall z t, - T / 2 <= z -> z + t <= T / 2 -> 0 < t -> Rabs (g z t) <= ga * (W * t).
Lemma product_err w Q w0 t : fin w -> fin Q -> Rabs (B2R Q) <= q -> 0 < t <= T -> Rabs (B2R w - w0) <= unit * W * (al * T + be * t) -> Rabs w0 <= ga * (W * t) ->
  fin (fmul w Q) /\ Rabs (B2R (fmul w Q) - w0 * B2R Q) <= unit * (q * W) * ((al + 1 / 10000) * T + (be + ga) * t).
Proof.
  intros Fw FQ AQ Ht E A. assert (u := unit_val). assert (P64 : 0 < bp (-64)) by apply bpow_gt_0. assert (P2 : 0 < bp (-200)) by apply bpow_gt_0.
  destruct HW as [W0 HX]. assert (T0 : 0 < T) by lra. assert (q0 : 0 < q) by lra. assert (P3 : 0 < bp (-300)) by apply bpow_gt_0.
  assert (WT : 0 < W * T) by lra. assert (Wt : 0 < W * t) by (apply Rmult_lt_0_compat; lra).
  assert (S : unit * W * (al * T + be * t) <= 1 / 1000000 * (W * T)).
  { assert (al * T + be * t <= 5000000 * T). { assert (al * T <= 2 * T) by (apply Rmult_le_compat_r; lra). assert (be * t <= 4000000 * T) by (apply Rmult_le_compat; lra). lra. }
    replace (unit * W * (al * T + be * t)) with (unit * (W * (al * T + be * t))) by ring. apply Rle_trans with (unit * (W * (5000000 * T))).
    - apply Rmult_le_compat_l; [lra|]. apply Rmult_le_compat_l; lra.
    - replace (unit * (W * (5000000 * T))) with (unit * 5000000 * (W * T)) by ring. apply Rmult_le_compat_r; [lra|]. unfold unit. lra. }
  assert (Aw : Rabs (B2R w) <= ga * (W * t) + 1 / 1000000 * (W * T)).
  { replace (B2R w) with (B2R w - w0 + w0) by ring. eapply Rle_trans; [apply Rabs_triang|]. lra. }
  assert (ga * (W * t) <= W * T). { apply Rle_trans with (1 * (W * t)); [apply Rmult_le_compat_r; lra|]. rewrite Rmult_1_l. apply Rmult_le_compat_l; lra. }
  assert (0 <= ga * (W * t)) by (apply Rmult_le_pos; lra).
  assert (AP : Rabs (B2R w * B2R Q) <= q * (ga * (W * t) + 1 / 1000000 * (W * T))).
  { rewrite Rabs_mult, Rmult_comm. apply Rmult_le_compat; try apply Rabs_pos; assumption. }
  assert (qX : q * (ga * (W * t) + 1 / 1000000 * (W * T)) <= bp 200 * (bp 300 * 2)) by (apply Rmult_le_compat; lra).
  destruct (mul_err w Q Fw FQ) as [F M].
  { eapply Rle_trans; [exact AP|]. eapply Rle_trans; [exact qX|]. change 2 with (bp 1). rewrite <- !bpow_plus. apply bpow_le. lia. }
  split; [exact F|].
  assert (tn : bp (-1075) <= unit * (q * W) * (1 / 100000 * T)).
  { replace (unit * (q * W) * (1 / 100000 * T)) with (unit * (1 / 100000) * (q * (W * T))) by ring. rewrite unit_bp.
    apply Rle_trans with (bp (-53) * bp (-20) * (bp (-200) * bp (-300))); [rewrite <- !bpow_plus; apply bpow_le; lia|].
    apply Rmult_le_compat; [apply Rmult_le_pos; apply bpow_ge_0|apply Rmult_le_pos; apply bpow_ge_0| |].
    - apply Rmult_le_compat_l; [apply bpow_ge_0|]. change (bp (-20)) with (/ 1048576). lra.
    - apply Rmult_le_compat; lra. }
  replace (B2R (fmul w Q) - w0 * B2R Q) with ((B2R (fmul w Q) - B2R w * B2R Q) + (B2R w - w0) * B2R Q) by ring. eapply Rle_trans; [apply Rabs_triang|]. rewrite (Rabs_mult (B2R w - w0)).
  assert (M1 : Rabs (B2R w - w0) * Rabs (B2R Q) <= unit * W * (al * T + be * t) * q) by (apply Rmult_le_compat; try apply Rabs_pos; assumption).
  assert (M2 : unit * Rabs (B2R w * B2R Q) <= unit * (q * (ga * (W * t) + 1 / 1000000 * (W * T)))) by (apply Rmult_le_compat_l; lra).
  assert (V : 0 <= unit * (q * W) * T) by (apply Rmult_le_pos; [apply Rmult_le_pos; [lra|apply Rmult_le_pos; lra]|lra]). lra.
Qed.
Lemma sum_rec_err ts : forall (Qs : list (nat -> nat -> f64)) zz z (acc : nat -> nat -> f64) (a : nat -> nat -> R) e s k,
  Forall usual ts -> length Qs = length ts -> entries_below q Qs -> fin zz -> 0 <= e -> e + slack * INR (length ts) <= 2 * n + 2 -> Rabs (B2R zz - z) <= e * unit * (T / 2) ->
  - T / 2 <= z -> z + rsum (map (@B2R 53 1024) ts) <= T / 2 -> 0 <= s -> s + rsum (map (@B2R 53 1024) ts) <= T -> 0 <= k -> k + INR (length ts) <= n ->
  (forall i j, (i < 3)%nat -> (j < 3)%nat -> fin (acc i j) /\ Rabs (a i j) <= ga * (q * W) * s /\ Rabs (B2R (acc i j) - a i j) <= unit * (q * W) * ((al + ga + 1 / 1000) * T * k + (be + ga) * s)) ->
  exists r, @sum_rec (FA pow) f ts Qs zz acc = Ok r /\ forall i j, (i < 3)%nat -> (j < 3)%nat -> fin (r i j) /\
    Rabs (B2R (r i j) - (a i j + gmoment g z (map (@B2R 53 1024) ts) (map (fun Q => B2R (Q i j)) Qs))) <=
    unit * (q * W) * ((al + ga + 1 / 1000) * T * (k + INR (length ts)) + (be + ga) * (s + rsum (map (@B2R 53 1024) ts))).
Proof.
  assert (u := unit_val). assert (P64 : 0 < bp (-64)) by apply bpow_gt_0. assert (P2 : 0 < bp (-200)) by apply bpow_gt_0.
  destruct HW as [W0 HX]. assert (T0 : 0 < T) by lra. assert (q0 : 0 < q) by lra. assert (P3 : 0 < bp (-300)) by apply bpow_gt_0. assert (WT : 0 < W * T) by lra.
  assert (qW : 0 < q * W) by (apply Rmult_lt_0_compat; lra).
  induction ts as [|t r IH]; intros Qs zz z acc a e s k U L B F He Le E Lz Hz S ST K KN Acc.
  { destruct Qs; [|discriminate]. exists acc. split; [reflexivity|]. intros i j Hi Hj. cbn [gmoment map rsum length INR] in *. rewrite !Rplus_0_r in *.
    destruct (Acc i j Hi Hj) as (F1 & _ & E1). split; assumption. }
  destruct Qs as [|Q Qs]; [discriminate|]. injection L as L. inversion U as [|? ? Ut Ur]; subst. inversion B as [|? ? BQ BQs]; subst.
  destruct (usual_pos t Ut) as (Ft & Pt & _). assert (Hr := heights_pos r Ur). assert (J := pos_INR (length r)).
  cbn [map rsum length] in *. rewrite S_INR in *. unfold slack in *.
  destruct (step_err T zz z t e Ut F E ltac:(lra) Lz ltac:(lra) ltac:(lra)) as (F1 & D1 & E1).
  assert (uT : 0 < unit * T) by (apply Rmult_lt_0_compat; lra).
  assert (NP : near_ply n T (fadd zz t) zz z (B2R t)).
  { constructor; try assumption; try lra.
    - eapply Rle_trans; [exact E|]. replace (e * unit * (T / 2)) with (e / 2 * (unit * T)) by field. rewrite Rmult_assoc. apply Rmult_le_compat_r; lra.
    - eapply Rle_trans; [exact E1|]. replace ((e + slack) * unit * (T / 2)) with ((e + slack) / 2 * (unit * T)) by field. rewrite Rmult_assoc. apply Rmult_le_compat_r; [lra|]. unfold slack. lra.
    - replace (B2R (fadd zz t) - B2R zz - B2R t) with (B2R (fadd zz t) - (B2R zz + B2R t)) by ring. exact D1. }
  destruct (Hw _ _ _ _ NP) as (w & Ew & Fw & Bw). assert (Gw := Hg z (B2R t) Lz ltac:(lra) ltac:(lra)).
  set (w0 := g z (B2R t)) in *.
  cbn [sum_rec]. change (nadd (FA pow) zz t) with (fadd zz t). rewrite Ew. cbn [bind].
  destruct (IH Qs (fadd zz t) (z + B2R t) (fun i j => fadd (acc i j) (fmul w (Q i j))) (fun i j => a i j + w0 * B2R (Q i j)) (e + slack) (s + B2R t) (k + 1)) as (res & Er & Br);
    try assumption; try (unfold slack in *; lra).
  2:{ exists res. split; [exact Er|]. intros i j Hi Hj. destruct (Br i j Hi Hj) as [Fr Rr]. split; [exact Fr|].
      cbn [gmoment map]. fold w0. replace (a i j + (w0 * B2R (Q i j) + gmoment g (z + B2R t) (map (@B2R 53 1024) r) (map (fun Q0 => B2R (Q0 i j)) Qs))) with
        (a i j + w0 * B2R (Q i j) + gmoment g (z + B2R t) (map (@B2R 53 1024) r) (map (fun Q0 => B2R (Q0 i j)) Qs)) by ring.
      eapply Rle_trans; [exact Rr|]. right. ring. }
  intros i j Hi Hj. destruct (Acc i j Hi Hj) as (Fa & Aa & Ea). destruct (BQ i j Hi Hj) as [FQ AQ].
  destruct (product_err w (Q i j) w0 (B2R t) Fw FQ AQ ltac:(lra) Bw Gw) as [Fp Ep].
  assert (AwQ : Rabs (w0 * B2R (Q i j)) <= ga * (q * W) * B2R t).
  { rewrite Rabs_mult. apply Rle_trans with (ga * (W * B2R t) * q); [apply Rmult_le_compat; try apply Rabs_pos; assumption|right; ring]. }
  set (Y := unit * (q * W)) in *. assert (Y0 : 0 < Y) by (apply Rmult_lt_0_compat; lra).
  assert (gq : 0 <= ga * (q * W)) by (apply Rmult_le_pos; lra).
  (* everything accumulated so far is small against q W T *)
  assert (Small : Y * ((al + ga + 1 / 1000) * T * k + (be + ga) * s) + Y * ((al + 1 / 10000) * T + (be + ga) * B2R t) <= 1 / 100000 * (q * W * T)).
  { assert (H1 : (al + ga + 1 / 1000) * k <= 4 * 1000000) by (apply Rmult_le_compat; lra).
    assert (H2 : (be + ga) * (s + B2R t) <= 5000000 * T) by (apply Rmult_le_compat; lra).
    assert (H3 : (al + 1 / 10000) * T <= 3 * T) by (apply Rmult_le_compat_r; lra).
    assert (H4 : (al + ga + 1 / 1000) * T * k <= 4000000 * T). { replace ((al + ga + 1 / 1000) * T * k) with ((al + ga + 1 / 1000) * k * T) by ring. apply Rmult_le_compat_r; lra. }
    rewrite <- Rmult_plus_distr_l. apply Rle_trans with (Y * (10000000 * T)); [apply Rmult_le_compat_l; lra|].
    unfold Y. replace (unit * (q * W) * (10000000 * T)) with (unit * 10000000 * (q * W * T)) by ring. apply Rmult_le_compat_r; [apply Rmult_le_pos; lra|unfold unit; lra]. }
  assert (Sum : Rabs (B2R (acc i j) + B2R (fmul w (Q i j))) <= (ga + 1 / 100000) * (q * W * T)).
  { replace (B2R (acc i j) + B2R (fmul w (Q i j))) with ((B2R (acc i j) - a i j) + (B2R (fmul w (Q i j)) - w0 * B2R (Q i j)) + (a i j + w0 * B2R (Q i j))) by ring.
    eapply Rle_trans; [apply Rabs_triang|]. eapply Rle_trans; [apply Rplus_le_compat; [apply Rabs_triang|apply Rabs_triang]|].
    assert (ga * (q * W) * (s + B2R t) <= ga * (q * W) * T) by (apply Rmult_le_compat_l; lra). lra. }
  destruct (add_err (acc i j) (fmul w (Q i j)) Fa Fp) as [Fs Es].
  { eapply Rle_trans; [exact Sum|]. apply Rle_trans with (2 * (bp 200 * bp 300)).
    - apply Rmult_le_compat; [lra|apply Rmult_le_pos; lra|lra|]. rewrite Rmult_assoc. apply Rmult_le_compat; lra.
    - change 2 with (bp 1). rewrite <- !bpow_plus. apply bpow_le. lia. }
  split; [exact Fs|]. split.
  { eapply Rle_trans; [apply Rabs_triang|]. lra. }
  replace (B2R (fadd (acc i j) (fmul w (Q i j))) - (a i j + w0 * B2R (Q i j))) with
    ((B2R (fadd (acc i j) (fmul w (Q i j))) - (B2R (acc i j) + B2R (fmul w (Q i j)))) + ((B2R (acc i j) - a i j) + (B2R (fmul w (Q i j)) - w0 * B2R (Q i j)))) by ring.
  eapply Rle_trans; [apply Rabs_triang|]. eapply Rle_trans; [apply Rplus_le_compat_l, Rabs_triang|].
  assert (M : unit * Rabs (B2R (acc i j) + B2R (fmul w (Q i j))) <= unit * ((ga + 1 / 100000) * (q * W * T))) by (apply Rmult_le_compat_l; lra).
  assert (YT : 0 < Y * T) by (apply Rmult_lt_0_compat; lra).
  replace (unit * ((ga + 1 / 100000) * (q * W * T))) with ((ga + 1 / 100000) * (Y * T)) in M by (unfold Y; ring). lra.
Qed.
End Sum.
End Pow.
