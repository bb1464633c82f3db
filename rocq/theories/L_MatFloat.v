(** Rounding errors in the stiffness of a ply. *)
From Coq Require Import Reals ZArith Lra Lia Bool.
From Flocq Require Import Core.Core IEEE754.BinarySingleNaN.
From Verif Require Import M_Py M_Float M_Validate M_MatFloat S_Validate S_Round L_Float L_Round.
Open Scope R_scope.

Lemma fsub_add x y : fsub x y = fadd x (fopp y). Proof. destruct x, y; reflexivity. Qed.
Lemma fopp_val x : B2R (fopp x) = - B2R x. Proof. apply B2R_Bopp. Qed.
Lemma fopp_fin x : fin x -> fin (fopp x). Proof. intros H. unfold fopp. rewrite is_finite_Bopp. exact H. Qed.
Lemma sub_err x y : fin x -> fin y -> Rabs (B2R x - B2R y) <= bp 1023 -> fin (fsub x y) /\ Rabs (B2R (fsub x y) - (B2R x - B2R y)) <= unit * Rabs (B2R x - B2R y).
Proof.
  intros Fx Fy H. rewrite fsub_add. destruct (add_err x (fopp y) Fx (fopp_fin y Fy)) as [F E]; rewrite fopp_val in *; [exact H|].
  split; [exact F|exact E].
Qed.
Lemma offk_opp k m w x t : offk k m w x t -> offk k m w (fopp x) (- t).
Proof.
  intros (F & A & B). split; [apply fopp_fin, F|]. rewrite fopp_val, Rabs_Ropp. split; [|exact B]. replace (- B2R x - - t) with (- (B2R x - t)) by ring. rewrite Rabs_Ropp. exact A.
Qed.
Lemma offk_sub k m w v x y t s : offk k m w x t -> offk k m v y s -> 0 <= k <= 400 -> 0 <= m <= 10 -> 0 <= w -> 0 <= v -> w + v <= bp 900 ->
  offk (k + m + 1 / 100) m (w + v) (fsub x y) (t - s).
Proof. intros X Y K M W V L. rewrite fsub_add. apply (offk_add k m w v x (fopp y) t (- s)); try assumption. apply offk_opp, Y. Qed.

Lemma usual0_rng x : usual0 x -> fin x /\ rng 200 (B2R x).
Proof.
  intros [F H]. split; [exact F|]. destruct H as [H|H]; [left; exact H|right]. rewrite !bpow_powerRZ. exact H.
Qed.
Lemma relk_self x : fin x -> relk 0 x (B2R x).
Proof. intros F. split; [exact F|]. rewrite Rminus_diag_eq, Rabs_R0 by reflexivity. rewrite Rmult_0_l, Rmult_0_l. lra. Qed.
Lemma fone_val : fin fone /\ B2R fone = 1. Proof. exact fone_denotes. Qed.

(** 1 - p for p known up to c units *)
Lemma rest_err c x p d : relk c x p -> 0 <= c <= 10 -> 0 <= p -> d = 1 - p -> bp (-40) <= d ->
  fin (fsub fone x) /\ exists e, Rabs e <= (c + 1 + 1/100) * unit / d /\ B2R (fsub fone x) = d * (1 + e).
Proof.
  intros [Fx Ex] Hc Hp Ed Hd. destruct fone_val as [F1 V1]. assert (U := unit_val).
  assert (D0 : 0 < d) by (eapply Rlt_le_trans; [apply (bpow_gt_0 radix2 (-40))|exact Hd]). rewrite (Rabs_right p) in Ex by lra.
  assert (P1 : p <= 1) by lra. set (q := B2R x) in *.
  assert (Eq : Rabs (q - p) <= c * unit). { eapply Rle_trans; [exact Ex|]. assert (0 <= c * unit) by (apply Rmult_le_pos; lra). assert (c * unit * p <= c * unit * 1) by (apply Rmult_le_compat_l; lra). lra. }
  assert (Cu : c * unit <= 10 * unit) by (apply Rmult_le_compat_r; lra). assert (Q : - (1 / 10) <= q <= 11 / 10). { apply Rabs_le_inv in Eq. lra. }
  destruct (sub_err fone x F1 Fx) as [F E].
  { rewrite V1. fold q. apply Rle_trans with 2; [apply Rabs_le; lra|]. change 2 with (bp 1). apply bpow_le. lia. }
  rewrite V1 in E. fold q in E. split; [exact F|]. exists ((B2R (fsub fone x) - d) / d). split; [|field; lra].
  unfold Rdiv at 1. rewrite Rabs_mult, Rabs_inv, (Rabs_right d) by lra. apply Rmult_le_compat_r; [left; apply Rinv_0_lt_compat, D0|].
  replace (B2R (fsub fone x) - d) with ((B2R (fsub fone x) - (1 - q)) + (p - q)) by (rewrite Ed; ring).
  eapply Rle_trans; [apply Rabs_triang|]. rewrite (Rabs_minus_sym p q).
  assert (A : Rabs (1 - q) <= 1 + c * unit). { apply Rabs_le_inv in Eq. apply Rabs_le. lra. }
  assert (B : unit * Rabs (1 - q) <= unit * (1 + c * unit)) by (apply Rmult_le_compat_l; lra).
  assert (unit * (c * unit) <= unit * (1 / 100)) by (apply Rmult_le_compat_l; lra). lra.
Qed.
(** division by that *)
Lemma over_rest k c x r y d e : relk k x r -> 0 <= k <= 3 -> rng 400 r -> 0 <= c <= 6 -> fin y -> bp (-40) <= d <= 1 -> Rabs e <= c * unit / d -> B2R y = d * (1 + e) ->
  feq y fzero = false /\ fin (fdiv x y) /\ (exists h, Rabs h <= (k + 1 + 1 / 100) * unit /\ B2R (fdiv x y) = r / B2R y * (1 + h)) /\
  Rabs (B2R (fdiv x y) - r / d) <= (k + c + 1 + 2 / 10) * unit / d * Rabs (r / d).
Proof.
  intros X Hk Hr Hc Fy Hd He Ey. assert (U := unit_val). assert (Hb : bp (-40) = / 1099511627776) by (cbn; lra). rewrite Hb in Hd.
  assert (D0 : 0 < d) by lra. assert (Inv : 1 <= / d <= 1099511627776).
  { split; [rewrite <- Rinv_1; apply Rinv_le; lra|]. rewrite <- (Rinv_inv 1099511627776). apply Rinv_le; lra. }
  assert (UD : unit / d <= / 8192). { unfold Rdiv. apply Rle_trans with (unit * 1099511627776); [apply Rmult_le_compat_l; lra|]. unfold unit. lra. }
  assert (UD' : unit <= unit / d). { unfold Rdiv. rewrite <- (Rmult_1_r unit) at 1. apply Rmult_le_compat_l; lra. }
  assert (Ee : Rabs e <= / 1000). { eapply Rle_trans; [exact He|]. unfold Rdiv. rewrite Rmult_assoc. fold (unit / d). apply Rle_trans with (6 * (unit / d)); [apply Rmult_le_compat_r; lra|]. lra. }
  apply Rabs_le_inv in Ee.
  assert (Ny : B2R y <> 0) by (rewrite Ey; apply Rmult_integral_contrapositive_currified; lra).
  destruct (relk_ex k x r X ltac:(lra)) as (f & Hf & Ex).
  assert (Ku : k * unit <= 3 * unit) by (apply Rmult_le_compat_r; lra). assert (Fb := Rabs_le_inv _ _ Hf).
  set (t := (1 + f) / (1 + e)). assert (T : 9 / 10 <= t <= 11 / 10).
  { unfold t. split; [apply Rmult_le_reg_r with (1 + e); [lra|]|apply Rmult_le_reg_r with (1 + e); [lra|]]; replace ((1 + f) / (1 + e) * (1 + e)) with (1 + f) by (field; lra); lra. }
  assert (Eq : B2R x / B2R y = r / d * t) by (rewrite Ex, Ey; unfold t; field; lra).
  assert (G : rng 440 (r / d)). { apply (rng_div 400 40); [exact Hr| |lra]. right. rewrite Rabs_right by lra. change (- (40))%Z with (-40)%Z. rewrite Hb. assert (bp 40 = 1099511627776) by (cbn; lra). lra. }
  assert (At : Rabs t = t) by (apply Rabs_right; lra).
  destruct (div_rnd x y (proj1 X) Ny) as [F R].
  { rewrite Eq, Rabs_mult, At. destruct G as [-> |[_ G]]; [rewrite Rabs_R0, Rmult_0_l; apply bpow_ge_0|]. apply Rle_trans with (bp 440 * 2); [apply Rmult_le_compat; try apply Rabs_pos; lra|]. change 2 with (bp 1). rewrite <- bpow_plus. apply bpow_le. lia. }
  destruct (rnd_by (B2R x / B2R y)) as (g & Hg & Eg).
  { rewrite Eq. destruct G as [-> |[G _]]; [left; ring|right]. change (- (440))%Z with (-440)%Z in G. rewrite Rabs_mult, At. apply Rle_trans with (bp (-440) * / 2).
    - change (/ 2) with (bp (-1)). rewrite <- bpow_plus. apply bpow_le. lia.
    - apply Rmult_le_compat; try lra. apply bpow_ge_0. }
  assert (M := mix2 f g k 1 Hf ltac:(lra) ltac:(lra) ltac:(lra)). set (h := (1 + f) * (1 + g) - 1) in *.
  split; [apply feq_zero; assumption|]. split; [exact F|]. split.
  - exists h. split; [exact M|]. rewrite R, Eg, Ex. unfold h. field. exact Ny.
  - assert (E1 : B2R (fdiv x y) = r / d * ((1 + h) / (1 + e))). { rewrite R, Eg, Eq. unfold t, h. field. lra. }
    rewrite E1. replace (r / d * ((1 + h) / (1 + e)) - r / d) with ((h - e) / (1 + e) * (r / d)) by (field; lra). rewrite Rabs_mult. apply Rmult_le_compat_r; [apply Rabs_pos|].
    unfold Rdiv at 1. rewrite Rabs_mult, Rabs_inv, (Rabs_right (1 + e)) by lra. apply Rmult_le_reg_r with (1 + e); [lra|]. rewrite Rmult_assoc, Rinv_l, Rmult_1_r by lra.
    assert (A : Rabs (h - e) <= (k + 1 + 1 / 100) * unit + c * unit / d) by (eapply Rle_trans; [apply Rabs_triang|]; rewrite Rabs_Ropp; lra).
    eapply Rle_trans; [exact A|]. replace ((k + c + 1 + 2 / 10) * unit / d * (1 + e)) with ((k + c + 1 + 2 / 10) * (1 + e) * (unit / d)) by (unfold Rdiv; ring).
    replace (c * unit / d) with (c * (unit / d)) by (unfold Rdiv; ring).
    apply Rle_trans with ((k + c + 1 + 1 / 100) * (unit / d)).
    + assert ((k + 1 + 1 / 100) * unit <= (k + 1 + 1 / 100) * (unit / d)) by (apply Rmult_le_compat_l; lra). lra.
    + apply Rmult_le_compat_r; [lra|]. assert ((k + c + 1 + 2 / 10) * (1 - / 1000) <= (k + c + 1 + 2 / 10) * (1 + e)) by (apply Rmult_le_compat_l; lra). lra.
Qed.
