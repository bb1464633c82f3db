(** Rounding errors of the binary64 operations. *)
From Coq Require Import Reals ZArith Lra Lia Bool.
From Flocq Require Import Core.Core IEEE754.BinarySingleNaN.
From Flocq Require Import Relative Plus_error.
From Verif Require Import M_Py M_Float S_Validate S_Round L_Float.
Open Scope R_scope.

Notation fexp64 := (SpecFloat.fexp 53 1024).
Notation rnd64 := (round radix2 fexp64 (round_mode mode_NE)).
Notation bp := (bpow radix2).
Notation fin x := (is_finite x = true).

Lemma unit_bp : unit = bp (-53). Proof. unfold unit. cbn. reflexivity. Qed.
Lemma unit_val : 0 < unit < 1 / 1000000000000000. Proof. unfold unit. lra. Qed.
(** every rounding *)
Lemma rnd_err z : exists d h, Rabs d <= unit /\ Rabs h <= bp (-1075) /\ rnd64 z = z * (1 + d) + h.
Proof.
  destruct (error_N_FLT radix2 (-1074) 53 eq_refl (fun x => negb (Z.even x)) z) as (d & h & H1 & H2 & _ & H).
  exists d, h. split; [|split; [|exact H]].
  - rewrite unit_bp. replace (bp (-53)) with (/ 2 * bp (- (53) + 1)); [exact H1|]. change (/ 2) with (bp (-1)). rewrite <- bpow_plus. reflexivity.
  - replace (bp (-1075)) with (/ 2 * bp (-1074)); [exact H2|]. change (/ 2) with (bp (-1)). rewrite <- bpow_plus. reflexivity.
Qed.
Lemma rnd_rel z : z = 0 \/ bp (-1022) <= Rabs z -> Rabs (rnd64 z - z) <= unit * Rabs z.
Proof.
  intros [-> | H].
  - rewrite round_0 by (apply valid_rnd_round_mode). rewrite Rminus_0_r, Rabs_R0. lra.
  - destruct (relative_error_N_FLT_ex radix2 (-1074) 53 eq_refl (fun x => negb (Z.even x)) z H) as (d & Hd & E).
    change (rnd64 z = z * (1 + d)) in E. rewrite E. replace (z * (1 + d) - z) with (d * z) by ring. rewrite Rabs_mult.
    apply Rmult_le_compat_r; [apply Rabs_pos|]. rewrite unit_bp. replace (bp (-53)) with (/ 2 * bp (- (53) + 1)); [exact Hd|].
    change (/ 2) with (bp (-1)). rewrite <- bpow_plus. reflexivity.
Qed.
Lemma rnd_small z : Rabs z <= bp 1023 -> Rabs (rnd64 z) < bp 1024.
Proof.
  intros H. apply Rle_lt_trans with (bp 1023); [|apply bpow_lt; lia].
  apply abs_round_le_generic; [apply (fexp_correct 53 1024 eq_refl)|apply valid_rnd_round_mode| |exact H].
  apply generic_format_bpow. cbn. lia.
Qed.

(** ** operations *)
Lemma mul_rnd x y : fin x -> fin y -> Rabs (B2R x * B2R y) <= bp 1023 -> fin (fmul x y) /\ B2R (fmul x y) = rnd64 (B2R x * B2R y).
Proof.
  intros Fx Fy H. assert (M := @Bmult_correct 53 1024 f64_prec f64_emax mode_NE x y). fold (fmul x y) in M.
  rewrite Rlt_bool_true in M by (apply rnd_small, H). destruct M as (A & B & _). split; [|exact A].
  etransitivity; [exact B|]. rewrite Fx, Fy. reflexivity.
Qed.
Lemma div_rnd x y : fin x -> B2R y <> 0 -> Rabs (B2R x / B2R y) <= bp 1023 -> fin (fdiv x y) /\ B2R (fdiv x y) = rnd64 (B2R x / B2R y).
Proof.
  intros Fx Ny H. assert (M := @Bdiv_correct 53 1024 f64_prec f64_emax mode_NE x y Ny). fold (fdiv x y) in M.
  rewrite Rlt_bool_true in M by (apply rnd_small, H). destruct M as (A & B & _). split; [|exact A]. rewrite <- Fx. exact B.
Qed.
Lemma add_rnd x y : fin x -> fin y -> Rabs (B2R x + B2R y) <= bp 1023 -> fin (fadd x y) /\ B2R (fadd x y) = rnd64 (B2R x + B2R y).
Proof.
  intros Fx Fy H. assert (M := @Bplus_correct 53 1024 f64_prec f64_emax mode_NE x y Fx Fy). fold (fadd x y) in M.
  rewrite Rlt_bool_true in M by (apply rnd_small, H). destruct M as (A & B & _). split; assumption.
Qed.
(** addition never loses more than half a unit of the result *)
Lemma add_err x y : fin x -> fin y -> Rabs (B2R x + B2R y) <= bp 1023 -> fin (fadd x y) /\ Rabs (B2R (fadd x y) - (B2R x + B2R y)) <= unit * Rabs (B2R x + B2R y).
Proof.
  intros Fx Fy H. destruct (add_rnd x y Fx Fy H) as [F E]. split; [exact F|]. rewrite E.
  destruct (Rle_or_lt (bp (-1022)) (Rabs (B2R x + B2R y))) as [G|G]; [apply rnd_rel; right; exact G|].
  rewrite round_generic.
  - rewrite Rminus_diag_eq, Rabs_R0 by reflexivity. apply Rmult_le_pos; [assert (T := unit_val); lra|apply Rabs_pos].
  - apply valid_rnd_round_mode.
  - apply (@FLT_format_plus_small radix2 (-1074) 53 f64_prec (B2R x) (B2R y)); try apply generic_format_B2R.
    apply Rlt_le, (Rlt_le_trans _ _ _ G). apply bpow_le. lia.
Qed.
Lemma feq_zero x : fin x -> B2R x <> 0 -> feq x fzero = false.
Proof.
  intros F N. destruct (feq x fzero) eqn:E; [|reflexivity]. apply is_zero_spec in E. destruct E as [_ E]. contradiction.
Qed.

(** ** relative errors, counted in units *)
Definition relk (k : R) (x : f64) (r : R) : Prop := fin x /\ Rabs (B2R x - r) <= k * unit * Rabs r.
Lemma relk_weak k k' x r : relk k x r -> k <= k' -> relk k' x r.
Proof.
  intros [F H] L. split; [exact F|]. eapply Rle_trans; [exact H|]. assert (U := unit_val).
  apply Rmult_le_compat_r; [apply Rabs_pos|]. apply Rmult_le_compat_r; lra.
Qed.
Lemma relk_ex k x r : relk k x r -> 0 <= k -> exists d, Rabs d <= k * unit /\ B2R x = r * (1 + d).
Proof.
  intros [F H] K. destruct (Req_dec r 0) as [-> |N].
  - exists 0. rewrite Rabs_R0 in *. split; [assert (U := unit_val); nra|]. rewrite Rmult_0_r, Rminus_0_r in H.
    assert (T := Rabs_pos (B2R x)). destruct (Req_dec (B2R x) 0) as [E|E]; [rewrite E; ring|]. apply Rabs_pos_lt in E. lra.
  - exists ((B2R x - r) / r). split; [|field; exact N]. unfold Rdiv. rewrite Rabs_mult, Rabs_inv.
    assert (P : 0 < Rabs r) by (apply Rabs_pos_lt, N). apply (Rmult_le_reg_r (Rabs r)); [exact P|].
    rewrite Rmult_assoc, Rinv_l by lra. lra.
Qed.
Lemma relk_by k x r d : fin x -> Rabs d <= k * unit -> B2R x = r * (1 + d) -> relk k x r.
Proof.
  intros F H E. split; [exact F|]. rewrite E. replace (r * (1 + d) - r) with (d * r) by ring. rewrite Rabs_mult.
  apply Rmult_le_compat_r; [apply Rabs_pos|exact H].
Qed.
Lemma rnd_by z : z = 0 \/ bp (-1022) <= Rabs z -> exists d, Rabs d <= unit /\ rnd64 z = z * (1 + d).
Proof.
  intros H. apply rnd_rel in H. destruct (Req_dec z 0) as [-> |N].
  - exists 0. rewrite Rabs_R0. split; [assert (U := unit_val); lra|]. rewrite round_0 by (apply valid_rnd_round_mode). ring.
  - exists ((rnd64 z - z) / z). split; [|field; exact N]. unfold Rdiv. rewrite Rabs_mult, Rabs_inv.
    assert (P : 0 < Rabs z) by (apply Rabs_pos_lt, N). apply (Rmult_le_reg_r (Rabs z)); [exact P|]. rewrite Rmult_assoc, Rinv_l by lra. lra.
Qed.
Lemma mix2 d e p q : Rabs d <= p * unit -> Rabs e <= q * unit -> 0 <= p <= 1000 -> 0 <= q <= 1000 ->
  Rabs ((1 + d) * (1 + e) - 1) <= (p + q + 1 / 100) * unit.
Proof.
  intros H1 H2 Hp Hq. replace ((1 + d) * (1 + e) - 1) with (d + e + d * e) by ring. assert (U := unit_val).
  eapply Rle_trans; [apply Rabs_triang|]. assert (T := Rabs_triang d e). rewrite (Rabs_mult d e).
  assert (X : Rabs d * Rabs e <= (p * unit) * (q * unit)) by (apply Rmult_le_compat; try apply Rabs_pos; assumption).
  assert (Y : (p * unit) * (q * unit) <= 1 / 100 * unit).
  { replace ((p * unit) * (q * unit)) with ((p * q * unit) * unit) by ring. apply Rmult_le_compat_r; [lra|].
    assert (p * q <= 1000 * 1000) by (apply Rmult_le_compat; lra). assert (p * q * unit <= 1000 * 1000 * unit) by (apply Rmult_le_compat_r; lra). lra. }
  lra.
Qed.
Lemma mixd d e p q : Rabs d <= p * unit -> Rabs e <= q * unit -> 0 <= p <= 1000 -> 0 <= q <= 1000 ->
  Rabs ((1 + d) / (1 + e) - 1) <= (p + q + 1 / 100) * unit.
Proof.
  intros H1 H2 Hp Hq. assert (U := unit_val). assert (Q : q * unit <= 1000 * unit) by (apply Rmult_le_compat_r; lra). assert (P : p * unit <= 1000 * unit) by (apply Rmult_le_compat_r; lra).
  assert (E : - (q * unit) <= e <= q * unit) by (apply Rabs_le_inv, H2).
  assert (N : 0 < 1 + e) by lra.
  replace ((1 + d) / (1 + e) - 1) with ((d - e) * / (1 + e)) by (field; lra). rewrite Rabs_mult, Rabs_inv, (Rabs_right (1 + e)) by lra.
  apply (Rmult_le_reg_r (1 + e)); [exact N|]. rewrite Rmult_assoc, Rinv_l, Rmult_1_r by lra.
  assert (T : Rabs (d - e) <= p * unit + q * unit) by (eapply Rle_trans; [apply Rabs_triang|]; rewrite Rabs_Ropp; lra).
  assert (Z : (p + q + 1 / 100) * unit * e >= - (1 / 100 * unit)).
  { assert ((p + q + 1/100) * unit <= 2001 * unit) by (apply Rmult_le_compat_r; lra).
    assert (0 <= (p + q + 1/100) * unit) by (apply Rmult_le_pos; lra).
    assert (A : (p + q + 1 / 100) * unit * (- e) <= (2001 * unit) * (1000 * unit)).
    { destruct (Rle_or_lt 0 (- e)); [apply Rmult_le_compat; lra|]. apply Rle_trans with 0; [|repeat apply Rmult_le_pos; lra].
      replace 0 with ((p + q + 1 / 100) * unit * 0) by ring. apply Rmult_le_compat_l; lra. }
    assert (B : (2001 * unit) * (1000 * unit) <= 1 / 100 * unit).
    { replace ((2001 * unit) * (1000 * unit)) with ((2001 * 1000 * unit) * unit) by ring. apply Rmult_le_compat_r; lra. }
    lra. }
  lra.
Qed.
Lemma mul_relk p q x y r s : relk p x r -> relk q y s -> 0 <= p <= 400 -> 0 <= q <= 400 -> r * s = 0 \/ bp (-900) <= Rabs (r * s) -> Rabs (r * s) <= bp 900 ->
  relk (p + q + 1 + 3 / 100) (fmul x y) (r * s).
Proof.
  intros X Y Hp Hq L U. destruct (relk_ex p x r X ltac:(lra)) as (d & Hd & Ex). destruct (relk_ex q y s Y ltac:(lra)) as (e & He & Ey).
  assert (u := unit_val). assert (M := mix2 d e p q Hd He ltac:(lra) ltac:(lra)).
  set (f := (1 + d) * (1 + e) - 1) in *. assert (E : B2R x * B2R y = r * s * (1 + f)) by (rewrite Ex, Ey; unfold f; ring).
  assert (B1 : (p + q + 1/100) * unit <= 801 * unit) by (apply Rmult_le_compat_r; lra).
  assert (F1 : - (1 / 2) <= f <= 1 / 2) by (apply Rabs_le_inv; lra).
  assert (A1 : Rabs (1 + f) = 1 + f) by (apply Rabs_right; lra).
  destruct (mul_rnd x y (proj1 X) (proj1 Y)) as [F R].
  { rewrite E, Rabs_mult, A1. apply Rle_trans with (bp 900 * 2); [apply Rmult_le_compat; try apply Rabs_pos; lra|]. change 2 with (bp 1). rewrite <- bpow_plus. apply bpow_le. lia. }
  destruct (rnd_by (B2R x * B2R y)) as (g & Hg & Eg).
  { rewrite E. destruct L as [-> |L]; [left; ring|right]. rewrite Rabs_mult, A1. apply Rle_trans with (bp (-900) * / 2).
    - change (/ 2) with (bp (-1)). rewrite <- bpow_plus. apply bpow_le. lia.
    - apply Rmult_le_compat; try lra. apply bpow_ge_0. }
  apply (relk_by _ _ _ ((1 + f) * (1 + g) - 1)); [exact F| |rewrite R, Eg, E; ring].
  eapply Rle_trans; [apply (mix2 f g (p + q + 1/100) 1); lra|]. apply Rmult_le_compat_r; lra.
Qed.
Lemma div_relk p q x y r s : relk p x r -> relk q y s -> 0 <= p <= 400 -> 0 <= q <= 400 -> s <> 0 -> r / s = 0 \/ bp (-900) <= Rabs (r / s) -> Rabs (r / s) <= bp 900 ->
  feq y fzero = false /\ relk (p + q + 1 + 3 / 100) (fdiv x y) (r / s).
Proof.
  intros X Y Hp Hq Ns L U. destruct (relk_ex p x r X ltac:(lra)) as (d & Hd & Ex). destruct (relk_ex q y s Y ltac:(lra)) as (e & He & Ey).
  assert (u := unit_val). assert (M := mixd d e p q Hd He ltac:(lra) ltac:(lra)).
  assert (E1 : - (1/2) <= e <= 1/2). { assert (q * unit <= 400 * unit) by (apply Rmult_le_compat_r; lra). apply Rabs_le_inv; lra. }
  assert (Ny : B2R y <> 0) by (rewrite Ey; apply Rmult_integral_contrapositive_currified; lra).
  set (f := (1 + d) / (1 + e) - 1) in *. assert (E : B2R x / B2R y = r / s * (1 + f)) by (rewrite Ex, Ey; unfold f; field; lra).
  assert (B1 : (p + q + 1/100) * unit <= 801 * unit) by (apply Rmult_le_compat_r; lra).
  assert (F1 : - (1 / 2) <= f <= 1 / 2) by (apply Rabs_le_inv; lra).
  assert (A1 : Rabs (1 + f) = 1 + f) by (apply Rabs_right; lra).
  split; [apply feq_zero; [apply Y|exact Ny]|].
  destruct (div_rnd x y (proj1 X) Ny) as [F R].
  { rewrite E, Rabs_mult, A1. apply Rle_trans with (bp 900 * 2); [apply Rmult_le_compat; try apply Rabs_pos; lra|]. change 2 with (bp 1). rewrite <- bpow_plus. apply bpow_le. lia. }
  destruct (rnd_by (B2R x / B2R y)) as (g & Hg & Eg).
  { rewrite E. destruct L as [-> |L]; [left; ring|right]. rewrite Rabs_mult, A1. apply Rle_trans with (bp (-900) * / 2).
    - change (/ 2) with (bp (-1)). rewrite <- bpow_plus. apply bpow_le. lia.
    - apply Rmult_le_compat; try lra. apply bpow_ge_0. }
  apply (relk_by _ _ _ ((1 + f) * (1 + g) - 1)); [exact F| |rewrite R, Eg, E; ring].
  eapply Rle_trans; [apply (mix2 f g (p + q + 1/100) 1); lra|]. apply Rmult_le_compat_r; lra.
Qed.

(** ** magnitudes *)
Definition rng (k : Z) (r : R) : Prop := r = 0 \/ bp (- k) <= Rabs r <= bp k.
Lemma rng_mul j k r s : rng j r -> rng k s -> rng (j + k) (r * s).
Proof.
  intros [-> |[A B]] H; [left; ring|]. destruct H as [-> |[C D]]; [left; ring|]. right. rewrite Rabs_mult.
  replace (- (j + k))%Z with (- j + - k)%Z by lia. rewrite !bpow_plus.
  split; apply Rmult_le_compat; try assumption; try apply bpow_ge_0; apply Rabs_pos.
Qed.
Lemma rng_div j k r s : rng j r -> rng k s -> s <> 0 -> rng (j + k) (r / s).
Proof.
  intros H [-> |[A B]] N; [contradiction|]. apply rng_mul; [exact H|]. right. rewrite Rabs_inv.
  assert (P := bpow_gt_0 radix2 k). assert (P' := bpow_gt_0 radix2 (- k)). split.
  - rewrite bpow_opp. apply Rinv_le; [lra|exact B].
  - rewrite <- (Z.opp_involutive k) at 1. rewrite (bpow_opp _ (- k)). apply Rinv_le; [lra|exact A].
Qed.
Lemma rng_weak j k r : rng j r -> (j <= k)%Z -> rng k r.
Proof. intros [-> |[A B]] L; [left; reflexivity|right]. split; [eapply Rle_trans; [|exact A]|eapply Rle_trans; [exact B|]]; apply bpow_le; lia. Qed.
(** relative error and magnitude together *)
Definition numk (p : R) (k : Z) (x : f64) (r : R) : Prop := relk p x r /\ rng k r.
Lemma mul_numk p q j k x y r s : numk p j x r -> numk q k y s -> 0 <= p <= 400 -> 0 <= q <= 400 -> (j + k <= 900)%Z ->
  numk (p + q + 1 + 3 / 100) (j + k) (fmul x y) (r * s).
Proof.
  intros [X RX] [Y RY] Hp Hq L. assert (G := rng_mul _ _ _ _ RX RY). split; [|exact G]. apply rng_weak with (k := 900%Z) in G; [|exact L].
  assert (H := Rabs_R0). apply mul_relk; try assumption.
  - destruct G as [G|[G _]]; [left|right]; assumption.
  - destruct G as [-> |[_ G]]; [rewrite H; apply bpow_ge_0|exact G].
Qed.
Lemma div_numk p q j k x y r s : numk p j x r -> numk q k y s -> 0 <= p <= 400 -> 0 <= q <= 400 -> (j + k <= 900)%Z -> s <> 0 ->
  feq y fzero = false /\ numk (p + q + 1 + 3 / 100) (j + k) (fdiv x y) (r / s).
Proof.
  intros [X RX] [Y RY] Hp Hq L N. assert (G := rng_div _ _ _ _ RX RY N). assert (G' := G). apply rng_weak with (k := 900%Z) in G; [|exact L].
  assert (H := Rabs_R0). destruct (div_relk p q x y r s X Y Hp Hq N) as [A B].
  - destruct G as [G|[G _]]; [left|right]; assumption.
  - destruct G as [-> |[_ G]]; [rewrite H; apply bpow_ge_0|exact G].
  - split; [exact A|split; assumption].
Qed.
Lemma numk_weak p q k x r : numk p k x r -> p <= q -> numk q k x r.
Proof. intros [A B] L. split; [apply (relk_weak p); assumption|exact B]. Qed.

(** ** weighted absolute errors *)
Definition offk (k m w : R) (x : f64) (t : R) : Prop := fin x /\ Rabs (B2R x - t) <= k * unit * w /\ Rabs t <= m * w.
Lemma offk_weak k k' m w x t : offk k m w x t -> k <= k' -> 0 <= w -> offk k' m w x t.
Proof.
  intros (F & A & B) L W. split; [exact F|]. split; [|exact B]. eapply Rle_trans; [exact A|]. assert (U := unit_val).
  apply Rmult_le_compat_r; [exact W|]. apply Rmult_le_compat_r; lra.
Qed.
Lemma offk_val k m w x t : offk k m w x t -> 0 <= k <= 400 -> 0 <= w -> Rabs (B2R x) <= (m + 1 / 100) * w.
Proof.
  intros (F & A & B) K W. assert (U := unit_val). assert (T := Rabs_triang (B2R x - t) t). replace (B2R x - t + t) with (B2R x) in T by ring.
  assert (k * unit <= 1 / 100) by (assert (k * unit <= 400 * unit) by (apply Rmult_le_compat_r; lra); lra).
  assert (k * unit * w <= 1 / 100 * w) by (apply Rmult_le_compat_r; lra). lra.
Qed.
Lemma offk_add k m w v x y t s : offk k m w x t -> offk k m v y s -> 0 <= k <= 400 -> 0 <= m <= 10 -> 0 <= w -> 0 <= v -> w + v <= bp 900 ->
  offk (k + m + 1 / 100) m (w + v) (fadd x y) (t + s).
Proof.
  intros X Y K M W V L. assert (Ax := offk_val _ _ _ _ _ X K W). assert (Ay := offk_val _ _ _ _ _ Y K V).
  destruct X as (Fx & X1 & X2). destruct Y as (Fy & Y1 & Y2). assert (U := unit_val).
  assert (S : Rabs (B2R x + B2R y) <= (m + 1 / 100) * (w + v)) by (eapply Rle_trans; [apply Rabs_triang|lra]).
  destruct (add_err x y Fx Fy) as [F E].
  { eapply Rle_trans; [exact S|]. apply Rle_trans with (bp 4 * bp 900).
    - apply Rmult_le_compat; try lra. change (bp 4) with 16. lra.
    - rewrite <- bpow_plus. apply bpow_le. lia. }
  split; [exact F|]. split.
  - replace (B2R (fadd x y) - (t + s)) with ((B2R (fadd x y) - (B2R x + B2R y)) + ((B2R x - t) + (B2R y - s))) by ring.
    eapply Rle_trans; [apply Rabs_triang|]. eapply Rle_trans; [apply Rplus_le_compat; [exact E|apply Rabs_triang]|].
    assert (unit * Rabs (B2R x + B2R y) <= unit * ((m + 1 / 100) * (w + v))) by (apply Rmult_le_compat_l; lra). lra.
  - eapply Rle_trans; [apply Rabs_triang|]. lra.
Qed.
Lemma tiny r v : bp (-800) <= Rabs r -> 1 <= v -> bp (-1075) <= 1 / 100 * unit * (Rabs r * v).
Proof.
  intros H V. apply Rle_trans with (1 / 100 * unit * bp (-800)).
  - rewrite unit_bp. apply Rle_trans with (bp (-7) * bp (-53) * bp (-800)); [rewrite <- !bpow_plus; apply bpow_le; lia|].
    apply Rmult_le_compat_r; [apply bpow_ge_0|]. apply Rmult_le_compat_r; [apply bpow_ge_0|]. cbn. lra.
  - assert (U := unit_val). apply Rmult_le_compat_l; [lra|]. apply Rle_trans with (Rabs r * 1); [lra|]. apply Rmult_le_compat_l; [apply Rabs_pos|exact V].
Qed.
Lemma offk_scale p j q m v x y r t : numk p j x r -> offk q m v y t -> (j <= 800)%Z -> 0 <= p <= 100 -> 0 <= q <= 100 -> 0 <= m <= 10 -> 1 <= v <= 4 ->
  offk (p * m + q + m + 1 / 10) m (Rabs r * v) (fmul x y) (r * t).
Proof.
  intros [X RX] Y J P Q M V. assert (U := unit_val). destruct (relk_ex p x r X ltac:(lra)) as (d & Hd & Ex).
  assert (Ay := offk_val _ _ _ _ _ Y ltac:(lra) ltac:(lra)). destruct Y as (Fy & Y1 & Y2).
  assert (Pu : p * unit <= 100 * unit) by (apply Rmult_le_compat_r; lra). assert (Qu : q * unit <= 100 * unit) by (apply Rmult_le_compat_r; lra).
  assert (D1 : - (p * unit) <= d <= p * unit) by (apply Rabs_le_inv, Hd).
  assert (R0 := Rabs_pos r). assert (Br : Rabs r <= bp 800).
  { destruct RX as [-> |[_ B]]; [rewrite Rabs_R0; apply bpow_ge_0|]. eapply Rle_trans; [exact B|]. apply bpow_le. exact J. }
  assert (Ez : B2R x * B2R y = r * ((1 + d) * B2R y)) by (rewrite Ex; ring).
  assert (Dd : Rabs (1 + d) <= 1 + 1 / 10000) by (rewrite Rabs_right; lra).
  assert (Ad : Rabs ((1 + d) * B2R y) <= (m + 1 / 50) * v).
  { rewrite Rabs_mult. eapply Rle_trans; [apply Rmult_le_compat; [apply Rabs_pos|apply Rabs_pos|exact Dd|exact Ay]|].
    rewrite <- Rmult_assoc. apply Rmult_le_compat_r; lra. }
  assert (Z : Rabs (B2R x * B2R y) <= Rabs r * ((m + 1 / 50) * v)) by (rewrite Ez, Rabs_mult; apply Rmult_le_compat_l; assumption).
  assert (Mv : 0 <= (m + 1 / 50) * v <= 64). { split; [apply Rmult_le_pos; lra|]. apply Rle_trans with (16 * 4); [|lra]. apply Rmult_le_compat; lra. }
  destruct (mul_rnd x y (proj1 X) Fy) as [F E].
  { eapply Rle_trans; [exact Z|]. apply Rle_trans with (bp 800 * bp 6); [|rewrite <- bpow_plus; apply bpow_le; lia].
    apply Rmult_le_compat; try lra. change (bp 6) with 64. lra. }
  split; [exact F|]. split.
  2:{ rewrite Rabs_mult. replace (m * (Rabs r * v)) with (Rabs r * (m * v)) by ring. apply Rmult_le_compat_l; assumption. }
  assert (G1 : Rabs (B2R x * B2R y - r * t) <= (p * m + q + 1 / 50) * unit * (Rabs r * v)).
  { replace (B2R x * B2R y - r * t) with (r * (d * B2R y + (B2R y - t))) by (rewrite Ex; ring). rewrite Rabs_mult.
    replace ((p * m + q + 1 / 50) * unit * (Rabs r * v)) with (Rabs r * ((p * m + q + 1 / 50) * unit * v)) by ring. apply Rmult_le_compat_l; [exact R0|].
    eapply Rle_trans; [apply Rabs_triang|]. rewrite Rabs_mult.
    assert (Ay2 : Rabs (B2R y) <= (m + q * unit) * v). { assert (T := Rabs_triang (B2R y - t) t). replace (B2R y - t + t) with (B2R y) in T by ring. lra. }
    assert (H1 : Rabs d * Rabs (B2R y) <= (p * unit) * ((m + q * unit) * v)) by (apply Rmult_le_compat; try apply Rabs_pos; assumption).
    assert (H2 : p * (q * unit) <= 1 / 50).
    { assert (0 <= q * unit) by (apply Rmult_le_pos; lra). apply Rle_trans with (100 * (100 * unit)); [apply Rmult_le_compat; lra|]. lra. }
    assert (H3 : p * (q * unit) * (unit * v) <= 1 / 50 * (unit * v)) by (apply Rmult_le_compat_r; [apply Rmult_le_pos; lra|exact H2]). nra. }
  rewrite E. destruct (rnd_err (B2R x * B2R y)) as (g & h & Hg & Hh & Eg). rewrite Eg.
  destruct RX as [-> |[RX _]].
  - assert (B2R x = 0) by (rewrite Ex; ring). rewrite <- Eg. rewrite H, !Rmult_0_l, round_0, Rabs_R0 by (apply valid_rnd_round_mode).
    rewrite Rminus_0_r, Rabs_R0, Rmult_0_l, Rmult_0_r. lra.
  - replace (B2R x * B2R y * (1 + g) + h - r * t) with ((B2R x * B2R y - r * t) + (g * (B2R x * B2R y) + h)) by ring.
    eapply Rle_trans; [apply Rabs_triang|]. assert (T := Rabs_triang (g * (B2R x * B2R y)) h). rewrite Rabs_mult in T.
    assert (G2 : Rabs g * Rabs (B2R x * B2R y) <= unit * (Rabs r * ((m + 1 / 50) * v))) by (apply Rmult_le_compat; try apply Rabs_pos; assumption).
    assert (G3 : Rabs h <= 1 / 100 * unit * (Rabs r * v)).
    { eapply Rle_trans; [exact Hh|]. apply tiny; [|lra]. eapply Rle_trans; [|exact RX]. apply bpow_le. lia. }
    assert (W : 0 <= unit * (Rabs r * v)) by (apply Rmult_le_pos; [lra|apply Rmult_le_pos; lra]). nra.
Qed.
Lemma offk_of p k x r m w : relk p x r -> Rabs r <= m * w -> 0 <= p -> p * m <= k -> 0 <= w -> offk k m w x r.
Proof.
  intros [F E] B P K W. split; [exact F|]. split; [|exact B]. eapply Rle_trans; [exact E|]. assert (U := unit_val).
  apply Rle_trans with (p * unit * (m * w)); [apply Rmult_le_compat_l; [apply Rmult_le_pos; lra|exact B]|].
  replace (p * unit * (m * w)) with ((p * m) * (unit * w)) by ring. replace (k * unit * w) with (k * (unit * w)) by ring.
  apply Rmult_le_compat_r; [apply Rmult_le_pos; lra|exact K].
Qed.
