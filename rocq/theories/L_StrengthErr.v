(** Rounding errors of the strains and stresses of a ply *)
From Coq Require Import Reals ZArith Lra Lia Bool String.
From Coquelicot Require Import Coquelicot.
From Flocq Require Import Core.Core IEEE754.BinarySingleNaN.
From Coq Require Import List.
From Verif Require Import M_Py M_Float M_FloatArith M_RealArith M_Validate M_Material M_Laminate M_Strength M_K M_MatFloat M_LamArith M_LayupFloat M_XiFloat M_Margin M_StrengthFloat S_Mat S_Laminate S_Ritz S_Validate S_Round S_LamRound S_MatFloat S_LayupFloat S_Strength S_Reserve S_StrengthFloat L_Float L_Round L_LamRound L_Mat L_Lam L_LamAlg L_LamSums L_LamEnergy L_Linalg L_LayupFloat L_XiFloat L_Strength T_Laminate L_MatFloat T_MatFloat T_LayupFloat L_StrengthFloat.
Import ListNotations.
Open Scope R_scope.

Definition sz (T : R) (e : fvec) (k : nat) : R := Rabs (B2R (e k)) + T * Rabs (B2R (e (3 + k)%nat)).
Lemma sz_sum T e : strain_size T (six e) = sz T e 0 + sz T e 1 + sz T e 2.
Proof. unfold strain_size, sz, six. cbn [fst snd vx vy vz Nat.add]. ring. Qed.
Lemma sz_pos T e k : 0 < T -> 0 <= sz T e k.
Proof. intros H. unfold sz. apply Rplus_le_le_0_compat; [apply Rabs_pos|apply Rmult_le_pos; [lra|apply Rabs_pos]]. Qed.
Lemma part_ep e z k : (k < 3)%nat -> part (ep (six e) z) k = B2R (e k) + z * B2R (e (3 + k)%nat).
Proof. intros H. destruct k as [|[|[|k]]]; [reflexivity|reflexivity|reflexivity|lia]. Qed.
Lemma lt6 k : (k < 3)%nat -> (k < 6)%nat /\ (3 + k < 6)%nat. Proof. lia. Qed.

Lemma strain_err n T e a z k : 1 <= n <= 1000000 -> bp (-64) <= T <= bp 84 -> finite_vec 6 e -> strain_size T (six e) <= bp 300 -> fin a -> Rabs (B2R a - z) <= (n + 1) * unit * T -> Rabs z <= T / 2 -> (k < 3)%nat ->
  fin (strain_f e a k) /\ Rabs (B2R (strain_f e a k) - part (ep (six e) z) k) <= (n + 3) * unit * sz T e k + bp (-1000) /\ Rabs (part (ep (six e) z) k) <= sz T e k.
Proof.
  intros Hn HT Fe HS Fa Ea Hz Hk. assert (u := unit_val). assert (P64 : 0 < bp (-64)) by apply bpow_gt_0. assert (T0 : 0 < T) by lra.
  assert (S0 := sz_pos T e 0 T0). assert (S1 := sz_pos T e 1 T0). assert (S2 := sz_pos T e 2 T0). rewrite sz_sum in HS.
  assert (HSk : sz T e k <= bp 300) by (destruct k as [|[|[|k]]]; try lia; lra).
  rewrite part_ep by exact Hk. destruct (lt6 k Hk) as [H1 H2]. assert (Fk := Fe _ H1). assert (Fc := Fe _ H2). unfold strain_f. set (x := e k) in *. set (c := e (3 + k)%nat) in *.
  unfold sz in *. fold x c in HSk |- *. clear S0 S1 S2 HS. set (s := Rabs (B2R x)) in *. set (w := Rabs (B2R c)) in *. assert (s0 : 0 <= s) by apply Rabs_pos. assert (w0 : 0 <= w) by apply Rabs_pos.
  assert (W : 0 <= T * w) by (apply Rmult_le_pos; lra).
  assert (nu : (n + 1) * unit <= / 1000000) by (unfold unit; lra).
  assert (nT : (n + 1) * unit * T <= / 1000000 * T) by (apply Rmult_le_compat_r; lra).
  assert (Aa : Rabs (B2R a) <= (1 / 2 + / 1000000) * T).
  { replace (B2R a) with ((B2R a - z) + z) by ring. eapply Rle_trans; [apply Rabs_triang|]. lra. }
  assert (Am : Rabs (B2R a * B2R c) <= (1 / 2 + / 1000000) * (T * w)).
  { rewrite Rabs_mult. fold w. apply Rle_trans with ((1 / 2 + / 1000000) * T * w); [apply Rmult_le_compat_r; lra|right; ring]. }
  assert (B300 : bp 300 <= bp 1020) by (apply bpow_le; lia). assert (B23 : bp 1023 = 8 * bp 1020). { replace 1023%Z with (3 + 1020)%Z by lia. rewrite bpow_plus. reflexivity. }
  destruct (mul_err a c Fa Fc) as [Fm Em]. { lra. }
  set (m := fmul a c) in *.
  assert (t0 : 0 < bp (-1075)) by apply bpow_gt_0. assert (tk : bp (-1000) = 37778931862957161709568 * bp (-1075)). { replace (-1000)%Z with (75 + -1075)%Z by lia. rewrite bpow_plus. f_equal. }
  assert (t1 : bp (-1075) <= 1) by (change 1 with (bp 0); apply bpow_le; lia). assert (B1 : 1 <= bp 1020) by (change 1 with (bp 0); apply bpow_le; lia).
  assert (uA : unit * Rabs (B2R a * B2R c) <= unit * ((1 / 2 + / 1000000) * (T * w))) by (apply Rmult_le_compat_l; lra).
  assert (Am' : Rabs (B2R m) <= (1 / 2 + / 100000) * (T * w) + bp (-1075)).
  { replace (B2R m) with ((B2R m - B2R a * B2R c) + B2R a * B2R c) by ring. eapply Rle_trans; [apply Rabs_triang|].
    assert (unit * ((1 / 2 + / 1000000) * (T * w)) <= / 1000000 * ((1 / 2 + / 1000000) * (T * w))) by (apply Rmult_le_compat_r; [apply Rmult_le_pos; lra|lra]). lra. }
  assert (As : Rabs (B2R x + B2R m) <= s + (1 / 2 + / 100000) * (T * w) + bp (-1075)).
  { eapply Rle_trans; [apply Rabs_triang|]. fold s. lra. }
  destruct (add_err x m Fk Fm) as [Fs Es]. { lra. }
  split; [exact Fs|]. split.
  - replace (B2R (fadd x m) - (B2R x + z * B2R c)) with ((B2R (fadd x m) - (B2R x + B2R m)) + ((B2R m - B2R a * B2R c) + (B2R a - z) * B2R c)) by ring.
    eapply Rle_trans; [apply Rabs_triang|]. eapply Rle_trans; [apply Rplus_le_compat_l, Rabs_triang|]. rewrite (Rabs_mult (B2R a - z)). fold w.
    assert (Z : Rabs (B2R a - z) * w <= (n + 1) * unit * T * w) by (apply Rmult_le_compat_r; assumption).
    assert (Y : unit * Rabs (B2R x + B2R m) <= unit * (s + (1 / 2 + / 100000) * (T * w) + bp (-1075))) by (apply Rmult_le_compat_l; lra).
    assert (us : 0 <= unit * s) by (apply Rmult_le_pos; lra). assert (uw : 0 <= unit * (T * w)) by (apply Rmult_le_pos; lra). assert (ut : unit * bp (-1075) <= 1 * bp (-1075)) by (apply Rmult_le_compat_r; lra).
    assert (ns : 0 <= n * (unit * s)) by (apply Rmult_le_pos; lra).
    replace ((n + 1) * unit * T * w) with (n * (unit * (T * w)) + unit * (T * w)) in Z by ring. replace ((n + 3) * unit * (s + T * w)) with (n * (unit * s) + 3 * (unit * s) + n * (unit * (T * w)) + 3 * (unit * (T * w))) by ring.
    replace (unit * (s + (1 / 2 + / 100000) * (T * w) + bp (-1075))) with (unit * s + (1 / 2 + / 100000) * (unit * (T * w)) + unit * bp (-1075)) in Y by ring.
    replace (unit * ((1 / 2 + / 1000000) * (T * w))) with ((1 / 2 + / 1000000) * (unit * (T * w))) in uA by ring. lra.
  - eapply Rle_trans; [apply Rabs_triang|]. fold s. rewrite Rabs_mult. fold w. assert (Rabs z * w <= T / 2 * w) by (apply Rmult_le_compat_r; assumption). lra.
Qed.

(** three products *)
Lemma row3 X v i : row_product 3 X v i = B2R (X i 0%nat) * B2R (v 0%nat) + B2R (X i 1%nat) * B2R (v 1%nat) + B2R (X i 2%nat) * B2R (v 2%nat).
Proof. unfold row_product, row_sum. cbn [seq map rsum]. ring. Qed.
Lemma mag3 X v i : row_magnitude 3 X v i = Rabs (B2R (X i 0%nat) * B2R (v 0%nat)) + Rabs (B2R (X i 1%nat) * B2R (v 1%nat)) + Rabs (B2R (X i 2%nat) * B2R (v 2%nat)).
Proof. unfold row_magnitude, row_sum. cbn [seq map rsum]. ring. Qed.
Lemma part_mvec M v i : (i < 3)%nat -> part (mvec M v) i = as_arr M i 0%nat * part v 0 + as_arr M i 1%nat * part v 1 + as_arr M i 2%nat * part v 2.
Proof. intros H. destruct i as [|[|[|i]]]; [reflexivity|reflexivity|reflexivity|lia]. Qed.
Lemma mv_err mv (X : farr) (M : mat3) (v : fvec) (w : vec3) b dx d0 d1 d2 s sw : mv_near 3 mv -> 0 <= b -> 0 <= dx ->
  (forall i j, (i < 3)%nat -> (j < 3)%nat -> fin (X i j) /\ Rabs (B2R (X i j)) <= b /\ Rabs (B2R (X i j) - as_arr M i j) <= dx) -> finite_vec 3 v ->
  Rabs (B2R (v 0%nat) - part w 0) <= d0 -> Rabs (B2R (v 1%nat) - part w 1) <= d1 -> Rabs (B2R (v 2%nat) - part w 2) <= d2 ->
  Rabs (B2R (v 0%nat)) + Rabs (B2R (v 1%nat)) + Rabs (B2R (v 2%nat)) <= s -> Rabs (part w 0) + Rabs (part w 1) + Rabs (part w 2) <= sw -> b * s <= bp 900 ->
  forall i, (i < 3)%nat -> fin (mv X v i) /\ Rabs (B2R (mv X v i) - part (mvec M w) i) <= b * (d0 + d1 + d2) + dx * sw + 4 * unit * (b * s) + bp (-900).
Proof.
  intros N b0 x0 HX Fv D0 D1 D2 Sv Sw L. assert (u := unit_val).
  assert (MG : forall i, (i < 3)%nat -> row_magnitude 3 X v i <= b * s).
  { intros i Hi. rewrite mag3, !Rabs_mult. destruct (HX i 0%nat Hi ltac:(lia)) as (_ & B0 & _). destruct (HX i 1%nat Hi ltac:(lia)) as (_ & B1 & _). destruct (HX i 2%nat Hi ltac:(lia)) as (_ & B2 & _).
    apply Rle_trans with (b * Rabs (B2R (v 0%nat)) + b * Rabs (B2R (v 1%nat)) + b * Rabs (B2R (v 2%nat))); [repeat apply Rplus_le_compat; apply Rmult_le_compat_r; try apply Rabs_pos; assumption|].
    replace (b * Rabs (B2R (v 0%nat)) + b * Rabs (B2R (v 1%nat)) + b * Rabs (B2R (v 2%nat))) with (b * (Rabs (B2R (v 0%nat)) + Rabs (B2R (v 1%nat)) + Rabs (B2R (v 2%nat)))) by ring. apply Rmult_le_compat_l; assumption. }
  intros i Hi. destruct (N X v) with (i := i) as [F E]; try assumption.
  { intros p q Hp Hq. apply HX; assumption. } { intros p Hp. rewrite pz. eapply Rle_trans; [apply MG, Hp|exact L]. }
  split; [exact F|]. rewrite pz in E. rewrite row3 in E. rewrite part_mvec by exact Hi. replace (INR 3 + 1) with 4 in E by (cbn; lra).
  destruct (HX i 0%nat Hi ltac:(lia)) as (_ & B0 & C0). destruct (HX i 1%nat Hi ltac:(lia)) as (_ & B1 & C1). destruct (HX i 2%nat Hi ltac:(lia)) as (_ & B2 & C2).
  set (x := B2R (X i 0%nat)) in *. set (y := B2R (X i 1%nat)) in *. set (z := B2R (X i 2%nat)) in *. set (p := as_arr M i 0%nat) in *. set (q := as_arr M i 1%nat) in *. set (r := as_arr M i 2%nat) in *.
  set (f := B2R (v 0%nat)) in *. set (g := B2R (v 1%nat)) in *. set (h := B2R (v 2%nat)) in *.
  replace (B2R (mv X v i) - (p * part w 0 + q * part w 1 + r * part w 2)) with
    ((B2R (mv X v i) - (x * f + y * g + z * h)) + ((x * (f - part w 0) + y * (g - part w 1) + z * (h - part w 2)) + ((x - p) * part w 0 + (y - q) * part w 1 + (z - r) * part w 2))) by ring.
  eapply Rle_trans; [apply Rabs_triang|]. eapply Rle_trans; [apply Rplus_le_compat_l, Rabs_triang|].
  assert (K1 : Rabs (x * (f - part w 0) + y * (g - part w 1) + z * (h - part w 2)) <= b * d0 + b * d1 + b * d2) by (apply abs3; apply abs_mul; assumption).
  assert (K2 : Rabs ((x - p) * part w 0 + (y - q) * part w 1 + (z - r) * part w 2) <= dx * Rabs (part w 0) + dx * Rabs (part w 1) + dx * Rabs (part w 2)) by (apply abs3; apply abs_mul; try assumption; lra).
  assert (K3 : dx * Rabs (part w 0) + dx * Rabs (part w 1) + dx * Rabs (part w 2) <= dx * sw).
  { replace (dx * Rabs (part w 0) + dx * Rabs (part w 1) + dx * Rabs (part w 2)) with (dx * (Rabs (part w 0) + Rabs (part w 1) + Rabs (part w 2))) by ring. apply Rmult_le_compat_l; assumption. }
  assert (K4 : 4 * unit * row_magnitude 3 X v i <= 4 * unit * (b * s)) by (apply Rmult_le_compat_l; [lra|apply MG, Hi]). lra.
Qed.

(** ** one end of a ply *)
Section End.
Variables (np : numpy) (nv : numpy_v) (k mu q n T E z : R) (th : f64) (m : fmaterial) (e : fvec) (a : f64).
Hypothesis (Hmv : mv_near 3 (np_mv nv)) (Hnp : numpy_near np k th) (Hth : usual_angle th) (Hk : 0 <= k <= 1000000) (Hg : good_ply mu m) (Hmu : powerRZ 2 (-40) <= mu) (Hs : stiff_below q m)
  (Hq : powerRZ 2 (-200) <= q <= powerRZ 2 190) (Hn : 1 <= n <= 1000000) (HT : bp (-64) <= T <= bp 84) (Fe : finite_vec 6 e) (EE : E = strain_size T (six e)) (HE : E <= bp 300) (Fa : fin a)
  (Ea : Rabs (B2R a - z) <= (n + 1) * unit * T) (Hz : Rabs z <= T / 2).
Notation u := unit.
Notation v := (strain_f e a).
Notation w := (ep (six e) z).
Lemma E_pos : 0 <= E.
Proof. assert (P64 : 0 < bp (-64)) by apply bpow_gt_0. rewrite EE, sz_sum. assert (A := sz_pos T e 0 ltac:(lra)). assert (B := sz_pos T e 1 ltac:(lra)). assert (C := sz_pos T e 2 ltac:(lra)). lra. Qed.
Lemma E_sum : sz T e 0 + sz T e 1 + sz T e 2 = E. Proof. rewrite EE, sz_sum. reflexivity. Qed.
Lemma st j : (j < 3)%nat -> fin (v j) /\ Rabs (B2R (v j) - part w j) <= (n + 3) * u * sz T e j + bp (-1000) /\ Rabs (part w j) <= sz T e j.
Proof. apply strain_err; try assumption. rewrite <- EE. exact HE. Qed.
Lemma nu_small : (n + 3) * u <= / 1000000. Proof. unfold unit. lra. Qed.
Lemma abs_near x y d : Rabs (x - y) <= d -> Rabs x <= Rabs y + d.
Proof. intros H. replace x with ((x - y) + y) by ring. eapply Rle_trans; [apply Rabs_triang|]. lra. Qed.
Lemma v_sum : Rabs (B2R (v 0%nat)) + Rabs (B2R (v 1%nat)) + Rabs (B2R (v 2%nat)) <= (1 + / 1000000) * E + 3 * bp (-1000).
Proof.
  destruct (st 0 ltac:(lia)) as (_ & A & A'). destruct (st 1 ltac:(lia)) as (_ & B & B'). destruct (st 2 ltac:(lia)) as (_ & C & C').
  apply abs_near in A. apply abs_near in B. apply abs_near in C. assert (ES := E_sum). assert (E0 := E_pos). assert (N := nu_small).
  assert ((n + 3) * u * E <= / 1000000 * E) by (apply Rmult_le_compat_r; lra). rewrite <- ES in *. lra.
Qed.
Lemma w_sum : Rabs (part w 0) + Rabs (part w 1) + Rabs (part w 2) <= E.
Proof. destruct (st 0 ltac:(lia)) as (_ & _ & A). destruct (st 1 ltac:(lia)) as (_ & _ & B). destruct (st 2 ltac:(lia)) as (_ & _ & C). assert (ES := E_sum). lra. Qed.
Lemma sz_le j : (j < 3)%nat -> sz T e j <= E.
Proof. intros H. assert (P64 : 0 < bp (-64)) by apply bpow_gt_0. assert (A := sz_pos T e 0 ltac:(lra)). assert (B := sz_pos T e 1 ltac:(lra)). assert (C := sz_pos T e 2 ltac:(lra)). assert (ES := E_sum). destruct j as [|[|[|j]]]; try lia; lra. Qed.

Lemma pu_small : 0 < ply_units k mu /\ ply_units k mu * u <= / 400.
Proof.
  unfold ply_units. assert (Hb : powerRZ 2 (-40) = / 1099511627776) by (rewrite pz; cbn; lra). rewrite Hb in Hmu.
  assert (I : 0 < / mu <= 1099511627776) by (split; [apply Rinv_0_lt_compat; lra|rewrite <- (Rinv_inv 1099511627776); apply Rinv_le; lra]).
  unfold Rdiv. split; [lra|]. unfold unit. lra.
Qed.
Lemma tiny_chain : 0 < bp (-1000) /\ 1024 * bp (-1000) <= bp (-900) /\ 1024 * bp (-900) <= bp (-800) /\ q * bp (-900) <= / 1024 * bp (-700) /\ q * bp (-1000) <= / 1024 * bp (-800) /\ 1024 * bp (-800) <= bp (-700) /\ 1024 * bp (-700) <= bp (-500).
Proof.
  destruct Hq as [_ Q]. rewrite pz in Q. assert (B : 1024 = bp 10) by (cbn; lra). assert (B' : / 1024 = bp (-10)) by (cbn; lra).
  repeat split; try apply bpow_gt_0; rewrite ?B', ?B, <- ?bpow_plus; try (apply bpow_le; lia).
  - apply Rle_trans with (bp 190 * bp (-900)); [apply Rmult_le_compat_r; [apply bpow_ge_0|exact Q]|]. rewrite <- !bpow_plus. apply bpow_le. lia.
  - apply Rle_trans with (bp 190 * bp (-1000)); [apply Rmult_le_compat_r; [apply bpow_ge_0|exact Q]|]. rewrite <- !bpow_plus. apply bpow_le. lia.
Qed.
Lemma q_pos : 0 < q /\ q * (E + 1) <= bp 500.
Proof.
  destruct Hq as [A B]. rewrite pz in A, B. assert (P : 0 < bp (-200)) by apply bpow_gt_0. split; [lra|]. assert (E0 := E_pos). assert (B1 : 1 <= bp 300) by (change 1 with (bp 0); apply bpow_le; lia).
  apply Rle_trans with (bp 190 * (2 * bp 300)); [apply Rmult_le_compat; lra|]. change 2 with (bp 1). rewrite <- !bpow_plus. apply bpow_le. lia.
Qed.

(** the stress in plate directions *)
Definition Qb := Qbar (B2R th) (exact_mat m).
Lemma stress_err : exists Q, Q_ply_f np th m = Ok Q /\ forall i, (i < 3)%nat -> fin (np_mv nv Q v i) /\
  Rabs (B2R (np_mv nv Q v i) - part (mvec Qb w) i) <= (ply_units k mu + 3 * n + 22) * u * (q * E) + bp (-700) /\ Rabs (part (mvec Qb w) i) <= (3 + / 400) * (q * E).
Proof.
  destruct (t_C88_ply np k mu q th m Hth Hnp Hk Hg Hmu Hs Hq) as (Q & Y & EQ & EY & B). exists Q. split; [exact EQ|].
  assert (Rd : readable (exact_mat m)) by (destruct Hs as (X & EX & _); exists X; exact EX). rewrite (Q_ply_ok _ _ (proj1 (readable_ok _) Rd)) in EY. apply Ok_inj in EY. fold Qb in EY. subst Y.
  destruct q_pos as [q0 qE]. destruct pu_small as [p0 pu]. destruct tiny_chain as (t0 & t1 & t2 & t3 & t4 & t5 & t6). assert (E0 := E_pos). assert (uv := unit_val). assert (Vs := v_sum). assert (Ws := w_sum).
  assert (puq : 0 <= ply_units k mu * u * q) by (apply Rmult_le_pos; [apply Rmult_le_pos|]; lra).
  intros i Hi. destruct (st 0 ltac:(lia)) as (F0 & A0 & _). destruct (st 1 ltac:(lia)) as (F1 & A1 & _). destruct (st 2 ltac:(lia)) as (F2 & A2 & _).
  destruct (mv_err (np_mv nv) Q Qb v w (3 * q) (ply_units k mu * u * q) ((n + 3) * u * sz T e 0 + bp (-1000)) ((n + 3) * u * sz T e 1 + bp (-1000)) ((n + 3) * u * sz T e 2 + bp (-1000)) ((1 + / 1000000) * E + 3 * bp (-1000)) E Hmv ltac:(lra) puq) with (i := i) as [F R]; try assumption.
  { intros p r Hp Hr. destruct (B p r Hp Hr) as (B1 & B2 & B3). split; [exact B1|]. split; assumption. }
  { intros [|[|[|j]]] Hj; try assumption; lia. }
  { assert (b1 : bp (-1000) <= / 10). { apply Rle_trans with (bp (-4)); [apply bpow_le; lia|cbn; lra]. }
    apply Rle_trans with (3 * q * (2 * (E + 1))); [apply Rmult_le_compat_l; lra|]. replace (3 * q * (2 * (E + 1))) with (6 * (q * (E + 1))) by ring. apply Rle_trans with (8 * bp 500); [assert (0 < bp 500) by apply bpow_gt_0; lra|]. change 8 with (bp 3). rewrite <- bpow_plus. apply bpow_le. lia. }
  split; [exact F|]. split.
  - eapply Rle_trans; [exact R|].
    replace ((n + 3) * u * sz T e 0 + bp (-1000) + ((n + 3) * u * sz T e 1 + bp (-1000)) + ((n + 3) * u * sz T e 2 + bp (-1000))) with ((n + 3) * u * E + 3 * bp (-1000)) by (rewrite <- E_sum; ring).
    assert (qe : 0 <= q * E) by (apply Rmult_le_pos; lra). assert (uq : 0 <= u * (q * E)) by (apply Rmult_le_pos; lra).
    assert (G1 : 3 * q * ((n + 3) * u * E + 3 * bp (-1000)) = (3 * n + 9) * (u * (q * E)) + 9 * (q * bp (-1000))) by ring.
    assert (G2 : 4 * u * (3 * q * ((1 + / 1000000) * E + 3 * bp (-1000))) = 12 * (1 + / 1000000) * (u * (q * E)) + 36 * u * (q * bp (-1000))) by ring.
    assert (G3 : 36 * u * (q * bp (-1000)) <= 1 * (q * bp (-1000))) by (apply Rmult_le_compat_r; [apply Rmult_le_pos; lra|lra]).
    rewrite G1, G2. replace (ply_units k mu * u * q * E) with (ply_units k mu * (u * (q * E))) by ring. replace ((ply_units k mu + 3 * n + 22) * u * (q * E)) with (ply_units k mu * (u * (q * E)) + (3 * n + 22) * (u * (q * E))) by ring. lra.
  - rewrite part_mvec by exact Hi.
    assert (Bd : forall j, (j < 3)%nat -> Rabs (as_arr Qb i j) <= (3 + / 400) * q).
    { intros j Hj. destruct (B i j Hi Hj) as (_ & B2 & B3). rewrite Rabs_minus_sym in B2. apply abs_near in B2. assert (ply_units k mu * u * q <= / 400 * q) by (apply Rmult_le_compat_r; lra). lra. }
    eapply Rle_trans; [apply abs3; apply abs_mul; try apply Bd; try lia; apply Rle_refl|]. set (x := Rabs (part w 0)) in *. set (y := Rabs (part w 1)) in *. set (t := Rabs (part w 2)) in *.
    replace ((3 + / 400) * q * x + (3 + / 400) * q * y + (3 + / 400) * q * t) with ((3 + / 400) * q * (x + y + t)) by ring. rewrite <- Rmult_assoc. apply Rmult_le_compat_l; [apply Rmult_le_pos; lra|exact Ws].
Qed.

(** the transformation *)
Lemma rotation_near : exists Tr, rotation_f np th = Ok Tr /\ forall i j, (i < 3)%nat -> (j < 3)%nat ->
  fin (Tr i j) /\ Rabs (B2R (Tr i j)) <= 1 + 100 * u /\ Rabs (B2R (Tr i j) - as_arr (T_real (cdeg (B2R th)) (sdeg (B2R th))) i j) <= 100 * u.
Proof.
  destruct (T_near np k th Hth Hnp) as (Tr & Te & ET & NT & _). exists Tr. split.
  { unfold rotation_f. unfold T_ply_f in ET. destruct (T_real_f np (np_cos np (radians th)) (np_sin np (radians th))) as [X|]; [|discriminate]. cbn [bind] in ET.
    destruct (T_engineering_f np (np_cos np (radians th)) (np_sin np (radians th))) as [X'|]; [|discriminate]. cbn [bind] in ET. apply Ok_inj in ET. apply pair_equal_spec in ET. destruct ET as [-> _]. reflexivity. }
  intros i j Hi Hj. destruct (NT i j Hi Hj) as [F D]. split; [exact F|]. split; [|exact D]. apply abs_near in D. eapply Rle_trans; [exact D|]. apply Rplus_le_compat_r.
  destruct (unit_circle (B2R th)) as (Bc & Bs & B2). set (c := cdeg (B2R th)) in *. set (s := sdeg (B2R th)) in *. assert (Pc := Rabs_le_inv _ _ Bc). assert (Ps := Rabs_le_inv _ _ Bs). assert (P2 := Rabs_le_inv _ _ B2).
  destruct i as [|[|[|i]]]; [| | |lia]; (destruct j as [|[|[|j]]]; [| | |lia]); cbn [as_arr T_real a11 a12 a13 a21 a22 a23 a31 a32 a33]; apply Rabs_le; nra.
Qed.

(** the stress in material directions *)
Lemma stress12_err : exists Q Tr, Q_ply_f np th m = Ok Q /\ rotation_f np th = Ok Tr /\
  vec_near ((3 * ply_units k mu + 9 * n + 1100) * u * q * E + bp (-500)) (np_mv nv Q v) (mvec Qb w) /\
  vec_near ((3 * ply_units k mu + 9 * n + 1100) * u * q * E + bp (-500)) (np_mv nv Tr (np_mv nv Q v)) (mvec (T_real (cdeg (B2R th)) (sdeg (B2R th))) (mvec Qb w)).
Proof.
  destruct stress_err as (Q & EQ & SE). destruct rotation_near as (Tr & ET & NT). exists Q, Tr. do 2 (split; [assumption|]).
  destruct q_pos as [q0 qE]. destruct pu_small as [p0 pu]. destruct tiny_chain as (t0 & t1 & t2 & t3 & t4 & t5 & t6). assert (E0 := E_pos). assert (uv := unit_val).
  assert (qe : 0 <= q * E) by (apply Rmult_le_pos; lra). assert (uq : 0 <= u * (q * E)) by (apply Rmult_le_pos; lra). assert (puq : 0 <= ply_units k mu * (u * (q * E))) by (apply Rmult_le_pos; lra). assert (nuq : 0 <= n * (u * (q * E))) by (apply Rmult_le_pos; lra).
  set (P := ply_units k mu) in *.
  replace ((3 * P + 9 * n + 1100) * u * q * E) with (3 * (P * (u * (q * E))) + 9 * (n * (u * (q * E))) + 1100 * (u * (q * E))) by ring.
  set (d := (P + 3 * n + 22) * u * (q * E) + bp (-700)) in *.
  assert (Dd : d = P * (u * (q * E)) + 3 * (n * (u * (q * E))) + 22 * (u * (q * E)) + bp (-700)) by (unfold d; ring).
  assert (Ds : d <= / 200 * (q * E) + bp (-700)).
  { unfold d. apply Rplus_le_compat_r, Rmult_le_compat_r; [exact qe|]. replace ((P + 3 * n + 22) * u) with (P * u + (3 * n + 22) * u) by ring. assert ((3 * n + 22) * u <= / 1000000) by (unfold unit; lra). lra. }
  split.
  { intros i Hi. destruct (SE i Hi) as (F & D & _). split; [exact F|]. eapply Rle_trans; [exact D|]. rewrite Dd. lra. }
  destruct (SE 0%nat ltac:(lia)) as (F0 & D0 & S0). destruct (SE 1%nat ltac:(lia)) as (F1 & D1 & S1). destruct (SE 2%nat ltac:(lia)) as (F2 & D2 & S2).
  assert (b7 : bp (-700) <= / 10). { apply Rle_trans with (bp (-4)); [apply bpow_le; lia|cbn; lra]. }
  intros i Hi.
  destruct (mv_err (np_mv nv) Tr (T_real (cdeg (B2R th)) (sdeg (B2R th))) (np_mv nv Q v) (mvec Qb w) (1 + 100 * u) (100 * u) d d d ((9 + / 40) * (q * E) + 3 * bp (-700)) ((9 + / 100) * (q * E)) Hmv ltac:(lra) ltac:(lra)) with (i := i) as [F R]; try assumption; try lra.
  { intros [|[|[|j]]] Hj; try assumption; lia. }
  { apply abs_near in D0. apply abs_near in D1. apply abs_near in D2. lra. }
  { apply Rle_trans with (2 * (10 * (q * E + 1))); [apply Rmult_le_compat; unfold unit in *; lra|]. apply Rle_trans with (2 * (10 * (bp 500 + bp 500))).
    - assert (1 <= bp 500) by (change 1 with (bp 0); apply bpow_le; lia). lra.
    - apply Rle_trans with (64 * bp 500); [assert (0 < bp 500) by apply bpow_gt_0; lra|]. change 64 with (bp 6). rewrite <- bpow_plus. apply bpow_le. lia. }
  split; [exact F|]. eapply Rle_trans; [exact R|].
  assert (G1 : (1 + 100 * u) * (d + d + d) = 3 * d + 300 * u * d) by ring.
  assert (G2 : 300 * u * d <= 300 * u * (/ 200 * (q * E) + bp (-700))) by (apply Rmult_le_compat_l; lra).
  assert (G3 : 4 * u * ((1 + 100 * u) * ((9 + / 40) * (q * E) + 3 * bp (-700))) <= 4 * u * ((1 + / 1000) * ((9 + / 40) * (q * E) + 3 * bp (-700)))).
  { apply Rmult_le_compat_l; [lra|]. apply Rmult_le_compat_r; [lra|unfold unit; lra]. }
  assert (u7 : 0 <= u * bp (-700) <= / 1000000 * bp (-700)) by (split; [apply Rmult_le_pos; lra|apply Rmult_le_compat_r; lra]).
  rewrite G1. replace (300 * u * (/ 200 * (q * E) + bp (-700))) with (3 / 2 * (u * (q * E)) + 300 * (u * bp (-700))) in G2 by field.
  replace (4 * u * ((1 + / 1000) * ((9 + / 40) * (q * E) + 3 * bp (-700)))) with (4 * (1 + / 1000) * (9 + / 40) * (u * (q * E)) + 12 * (1 + / 1000) * (u * bp (-700))) in G3 by ring.
  replace (100 * u * ((9 + / 100) * (q * E))) with (901 * (u * (q * E))) by field. rewrite Dd at 1. lra.
Qed.

(** the strains *)
Lemma halve_val (x : f64) : fin x -> Rabs (B2R x) <= bp 1000 -> fin (fdiv x (f_of_Z 2)) /\ Rabs (B2R (fdiv x (f_of_Z 2)) - B2R x / 2) <= u * Rabs (B2R x / 2) + bp (-1075).
Proof.
  intros Fx Hx. destruct (int_val 2 eq_refl) as [F2 V2]. destruct (div_rnd x (f_of_Z 2) Fx) as [Fd Ed]. { rewrite V2. lra. }
  { rewrite V2. unfold Rdiv. rewrite Rabs_mult, (Rabs_right (/ 2)) by lra. apply Rle_trans with (bp 1000); [assert (A := Rabs_pos (B2R x)); lra|apply bpow_le; lia]. }
  split; [exact Fd|]. rewrite Ed, V2. destruct (rnd_err (B2R x / 2)) as (d & h & Hd & Hh & ->). replace (B2R x / 2 * (1 + d) + h - B2R x / 2) with (d * (B2R x / 2) + h) by ring.
  eapply Rle_trans; [apply Rabs_triang|]. apply Rplus_le_compat; [|exact Hh]. rewrite Rabs_mult. apply Rmult_le_compat_r; [apply Rabs_pos|exact Hd].
Qed.
Lemma strain12_err : exists Tr, rotation_f np th = Ok Tr /\
  vec_near ((2 * n + 230) * u * E + bp (-800)) v w /\
  vec_near ((2 * n + 230) * u * E + bp (-800)) (double_f (np_mv nv Tr (halve_f v))) (double3 (mvec (T_real (cdeg (B2R th)) (sdeg (B2R th))) (halve3 w))).
Proof.
  destruct rotation_near as (Tr & ET & NT). exists Tr. split; [assumption|].
  destruct tiny_chain as (t0 & t1 & t2 & _). assert (E0 := E_pos). assert (uv := unit_val). assert (Vs := v_sum). assert (Ws := w_sum).
  assert (uE : 0 <= u * E) by (apply Rmult_le_pos; lra). assert (nuE : 0 <= n * (u * E)) by (apply Rmult_le_pos; lra).
  replace ((2 * n + 230) * u * E) with (2 * (n * (u * E)) + 230 * (u * E)) by ring.
  split.
  { intros j Hj. destruct (st j Hj) as (F & D & _). split; [exact F|]. eapply Rle_trans; [exact D|].
    assert ((n + 3) * u * sz T e j <= (n + 3) * u * E) by (apply Rmult_le_compat_l; [apply Rmult_le_pos; lra|apply sz_le, Hj]). replace ((n + 3) * u * E) with (n * (u * E) + 3 * (u * E)) in H by ring. lra. }
  destruct (st 0 ltac:(lia)) as (F0 & A0 & A0'). destruct (st 1 ltac:(lia)) as (F1 & A1 & A1'). destruct (st 2 ltac:(lia)) as (F2 & A2 & A2').
  assert (Q0 := Rabs_pos (B2R (v 0%nat))). assert (Q1 := Rabs_pos (B2R (v 1%nat))). assert (Q2 := Rabs_pos (B2R (v 2%nat))).
  assert (R0 := Rabs_pos (part w 0)). assert (R1 := Rabs_pos (part w 1)). assert (R2 := Rabs_pos (part w 2)).
  assert (B1 : 1 <= bp 300) by (change 1 with (bp 0); apply bpow_le; lia). assert (b1 : bp (-1000) <= / 10). { apply Rle_trans with (bp (-4)); [apply bpow_le; lia|cbn; lra]. }
  assert (B3 : 8 * bp 300 <= bp 900). { change 8 with (bp 3). rewrite <- bpow_plus. apply bpow_le. lia. } assert (B9 : bp 900 <= bp 1000) by (apply bpow_le; lia). assert (B10 : 8 * bp 1000 <= bp 1023). { change 8 with (bp 3). rewrite <- bpow_plus. apply bpow_le. lia. }
  destruct (halve_val (v 2%nat) F2 ltac:(lra)) as [Fh Dh].
  assert (t75 : 0 < bp (-1075) <= bp (-1000)) by (split; [apply bpow_gt_0|apply bpow_le; lia]).
  assert (Hv : forall j, halve_f v j = if Nat.eqb j 2 then fdiv (v 2%nat) (f_of_Z 2) else v j). { intros j. unfold halve_f. destruct (Nat.eqb j 2) eqn:Ej; [apply Nat.eqb_eq in Ej; subst j; reflexivity|reflexivity]. }
  assert (Ha : Rabs (B2R (v 2%nat) / 2) = Rabs (B2R (v 2%nat)) / 2) by (unfold Rdiv; rewrite Rabs_mult, (Rabs_right (/ 2)) by lra; reflexivity).
  assert (uV : u * Rabs (B2R (v 2%nat) / 2) <= u * (((1 + / 1000000) * E + 3 * bp (-1000)) / 2)) by (apply Rmult_le_compat_l; [lra|rewrite Ha; lra]).
  assert (ut : u * bp (-1000) <= / 1000000 * bp (-1000)) by (apply Rmult_le_compat_r; lra).
  replace (u * (((1 + / 1000000) * E + 3 * bp (-1000)) / 2)) with ((1 + / 1000000) / 2 * (u * E) + 3 / 2 * (u * bp (-1000))) in uV by field.
  assert (H2 : Rabs (B2R (halve_f v 2%nat) - part (halve3 w) 2) <= (n + 3) * u * sz T e 2 / 2 + 51 / 100 * (u * E) + 2 * bp (-1000)).
  { rewrite Hv. cbn [Nat.eqb]. change (part (halve3 w) 2) with (part w 2 / 2).
    replace (B2R (fdiv (v 2%nat) (f_of_Z 2)) - part w 2 / 2) with ((B2R (fdiv (v 2%nat) (f_of_Z 2)) - B2R (v 2%nat) / 2) + (B2R (v 2%nat) - part w 2) * / 2) by field.
    eapply Rle_trans; [apply Rabs_triang|]. rewrite (Rabs_mult (B2R (v 2%nat) - part w 2)), (Rabs_right (/ 2)) by lra. lra. }
  assert (hs : (n + 3) * u * sz T e 2 / 2 <= (n + 3) * u * sz T e 2).
  { assert (0 <= (n + 3) * u * sz T e 2). { apply Rmult_le_pos; [apply Rmult_le_pos; lra|]. apply Rle_trans with (2 := A2'). apply Rabs_pos. } lra. }
  assert (SS : (n + 3) * u * sz T e 0 + (n + 3) * u * sz T e 1 + (n + 3) * u * sz T e 2 = n * (u * E) + 3 * (u * E)) by (rewrite <- E_sum; ring).
  assert (nE : n * (u * E) + 3 * (u * E) <= / 1000000 * E). { replace (n * (u * E) + 3 * (u * E)) with ((n + 3) * u * E) by ring. apply Rmult_le_compat_r; [exact E0|apply nu_small]. }
  assert (uE' : u * E <= / 1000000 * E) by (apply Rmult_le_compat_r; lra).
  assert (MV : forall i, (i < 3)%nat -> fin (np_mv nv Tr (halve_f v) i) /\ Rabs (B2R (np_mv nv Tr (halve_f v) i) - part (mvec (T_real (cdeg (B2R th)) (sdeg (B2R th))) (halve3 w)) i) <= n * (u * E) + 109 * (u * E) + 2 * bp (-900) /\
    Rabs (part (mvec (T_real (cdeg (B2R th)) (sdeg (B2R th))) (halve3 w)) i) <= (1 + / 1000) * E).
  { intros i Hi.
    assert (W' : Rabs (part (halve3 w) 0) + Rabs (part (halve3 w) 1) + Rabs (part (halve3 w) 2) <= E).
    { change (part (halve3 w) 0) with (part w 0). change (part (halve3 w) 1) with (part w 1). change (part (halve3 w) 2) with (part w 2 / 2). unfold Rdiv. rewrite (Rabs_mult (part w 2)), (Rabs_right (/ 2)) by lra. lra. }
    destruct (mv_err (np_mv nv) Tr (T_real (cdeg (B2R th)) (sdeg (B2R th))) (halve_f v) (halve3 w) (1 + 100 * u) (100 * u) ((n + 3) * u * sz T e 0 + bp (-1000)) ((n + 3) * u * sz T e 1 + bp (-1000)) ((n + 3) * u * sz T e 2 / 2 + 51 / 100 * (u * E) + 2 * bp (-1000)) ((1 + / 100000) * E + 10 * bp (-1000)) E Hmv ltac:(lra) ltac:(lra)) with (i := i) as [F R]; try assumption.
    { intros [|[|[|j]]] Hj; rewrite ?Hv; cbn [Nat.eqb]; try assumption; lia. }
    { rewrite !Hv. cbn [Nat.eqb]. apply abs_near in Dh. rewrite Ha in *. lra. }
    { apply Rle_trans with (2 * (2 * (E + 1))); [apply Rmult_le_compat; lra|]. lra. }
    split; [exact F|]. split.
    - eapply Rle_trans; [exact R|]. set (D := (n + 3) * u * sz T e 0 + bp (-1000) + ((n + 3) * u * sz T e 1 + bp (-1000)) + ((n + 3) * u * sz T e 2 / 2 + 51 / 100 * (u * E) + 2 * bp (-1000))).
      assert (DD : D <= n * (u * E) + 4 * (u * E) + 4 * bp (-1000)) by (unfold D; lra). assert (DD' : D <= / 100000 * E + 4 * bp (-1000)) by lra.
      assert (K1 : 100 * u * D <= 100 * u * (/ 100000 * E + 4 * bp (-1000))) by (apply Rmult_le_compat_l; lra).
      replace (100 * u * (/ 100000 * E + 4 * bp (-1000))) with (/ 1000 * (u * E) + 400 * (u * bp (-1000))) in K1 by field.
      replace ((1 + 100 * u) * D) with (D + 100 * u * D) by ring.
      assert (K2 : 4 * u * ((1 + 100 * u) * ((1 + / 100000) * E + 10 * bp (-1000))) <= 4 * u * ((1 + / 1000) * ((1 + / 100000) * E + 10 * bp (-1000)))).
      { apply Rmult_le_compat_l; [lra|]. apply Rmult_le_compat_r; [lra|unfold unit; lra]. }
      replace (4 * u * ((1 + / 1000) * ((1 + / 100000) * E + 10 * bp (-1000)))) with (4 * (1 + / 1000) * (1 + / 100000) * (u * E) + 40 * (1 + / 1000) * (u * bp (-1000))) in K2 by ring. lra.
    - rewrite part_mvec by exact Hi. assert (Bd : forall j, (j < 3)%nat -> Rabs (as_arr (T_real (cdeg (B2R th)) (sdeg (B2R th))) i j) <= 1 + 200 * u).
      { intros j Hj. destruct (NT i j Hi Hj) as (_ & N1 & N2). rewrite Rabs_minus_sym in N2. apply abs_near in N2. lra. }
      eapply Rle_trans; [apply abs3; apply abs_mul; try apply Bd; try lia; apply Rle_refl|].
      set (x := Rabs (part (halve3 w) 0)) in *. set (y := Rabs (part (halve3 w) 1)) in *. set (t := Rabs (part (halve3 w) 2)) in *.
      replace ((1 + 200 * u) * x + (1 + 200 * u) * y + (1 + 200 * u) * t) with ((1 + 200 * u) * (x + y + t)) by ring.
      assert (0 <= x + y + t) by (unfold x, y, t; assert (P0 := Rabs_pos (part (halve3 w) 0)); assert (P1 := Rabs_pos (part (halve3 w) 1)); assert (P2 := Rabs_pos (part (halve3 w) 2)); lra). apply Rmult_le_compat; unfold unit in *; lra. }
  intros i Hi. destruct (MV i Hi) as (F & D & S). unfold double_f. destruct (Nat.eqb i 2) eqn:Ei.
  - apply Nat.eqb_eq in Ei. subst i. change (part (double3 ?x) 2) with (part x 2 * 2). set (y := np_mv nv Tr (halve_f v) 2%nat) in *. destruct (int_val 2 eq_refl) as [G2 V2].
    assert (Dy := D). apply abs_near in Dy. assert (Ay : Rabs (B2R y * B2R (f_of_Z 2)) <= 2 * ((1 + / 500) * E + 2 * bp (-900))) by (rewrite V2, Rabs_mult, (Rabs_right 2) by lra; lra).
    assert (t9 : bp (-900) <= / 10). { apply Rle_trans with (bp (-4)); [apply bpow_le; lia|cbn; lra]. }
    destruct (mul_err y (f_of_Z 2) F G2) as [Fm Em]; [lra|]. split; [exact Fm|]. rewrite V2 in *.
    change (part (double3 (mvec (T_real (cdeg (B2R th)) (sdeg (B2R th))) (halve3 w))) 2) with (part (mvec (T_real (cdeg (B2R th)) (sdeg (B2R th))) (halve3 w)) 2 * 2). set (o := part (mvec (T_real (cdeg (B2R th)) (sdeg (B2R th))) (halve3 w)) 2) in *.
    replace (B2R (fmul y (f_of_Z 2)) - o * 2) with ((B2R (fmul y (f_of_Z 2)) - B2R y * 2) + (B2R y - o) * 2) by ring. eapply Rle_trans; [apply Rabs_triang|]. rewrite (Rabs_mult (B2R y - o)), (Rabs_right 2) by lra.
    assert (uy : u * Rabs (B2R y * 2) <= u * (2 * ((1 + / 500) * E + 2 * bp (-900)))) by (apply Rmult_le_compat_l; lra). replace (u * (2 * ((1 + / 500) * E + 2 * bp (-900)))) with (2 * (1 + / 500) * (u * E) + 4 * (u * bp (-900))) in uy by ring.
    assert (u9 : u * bp (-900) <= / 1000000 * bp (-900)) by (apply Rmult_le_compat_r; lra). lra.
  - assert (P : part (double3 (mvec (T_real (cdeg (B2R th)) (sdeg (B2R th))) (halve3 w))) i = part (mvec (T_real (cdeg (B2R th)) (sdeg (B2R th))) (halve3 w)) i) by (destruct i as [|[|[|i]]]; [reflexivity|reflexivity|discriminate Ei|lia]).
    rewrite P. split; [exact F|]. lra.
Qed.
End End.
