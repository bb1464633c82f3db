(** Proofs of the theorems on LaminateStrength in binary64 *)
From Coq Require Import Reals ZArith Lra Lia Bool String.
From Coquelicot Require Import Coquelicot.
From Flocq Require Import Core.Core IEEE754.BinarySingleNaN.
From Coq Require Import List.
From Verif Require Import M_Py M_Float M_FloatArith M_RealArith M_Validate M_Material M_Laminate M_Strength M_K M_MatFloat M_LamArith M_LayupFloat M_XiFloat M_Margin M_Linalg S_Margin M_StrengthFloat S_Mat S_Laminate S_Ritz S_Validate S_Round S_LamRound S_MatFloat S_LayupFloat S_Strength S_Reserve S_StrengthFloat L_Float L_Round L_LamRound L_Mat L_Lam L_LamAlg L_LamSums L_LamEnergy L_Linalg L_LayupFloat L_XiFloat L_Strength T_Margin T_Laminate T_LamRound T_Strength L_MatFloat T_MatFloat T_LayupFloat L_StrengthFloat L_StrengthErr.
Import ListNotations.
Open Scope R_scope.

(** ** the exact laminate is admissible *)
Lemma pos_def_block x y z g : 0 < x -> 0 < x * z - y * y -> 0 < g -> pos_def (M3 x y 0 y z 0 0 0 g).
Proof.
  intros Hx Hd Hg [a b c] Nz. unfold quad, dot, mvec. cbn [vx vy vz a11 a12 a13 a21 a22 a23 a31 a32 a33].
  replace (a * (x * a + y * b + 0 * c) + b * (y * a + z * b + 0 * c) + c * (0 * a + 0 * b + g * c)) with (/ x * ((x * a + y * b) * (x * a + y * b)) + / x * ((x * z - y * y) * (b * b)) + g * (c * c)) by (field; lra).
  assert (I : 0 < / x) by (apply Rinv_0_lt_compat; lra).
  assert (P1 : 0 <= / x * ((x * a + y * b) * (x * a + y * b))) by (apply Rmult_le_pos; [lra|apply Rle_0_sqr]).
  assert (P2 : 0 <= / x * ((x * z - y * y) * (b * b))) by (apply Rmult_le_pos; [lra|apply Rmult_le_pos; [lra|apply Rle_0_sqr]]).
  assert (P3 : 0 <= g * (c * c)) by (apply Rmult_le_pos; [lra|apply Rle_0_sqr]).
  destruct (Req_dec c 0) as [->|Nc].
  - destruct (Req_dec b 0) as [->|Nb].
    + assert (Na : a <> 0) by (intros ->; apply Nz; reflexivity). assert (0 < (x * a + y * 0) * (x * a + y * 0)). { replace (x * a + y * 0) with (x * a) by ring. apply Rsqr_pos_lt. apply Rmult_integral_contrapositive. split; lra. }
      assert (0 < / x * ((x * a + y * 0) * (x * a + y * 0))) by (apply Rmult_lt_0_compat; assumption). lra.
    + assert (0 < b * b) by (apply Rsqr_pos_lt, Nb). assert (0 < / x * ((x * z - y * y) * (b * b))) by (apply Rmult_lt_0_compat; [lra|apply Rmult_lt_0_compat; assumption]). lra.
  - assert (0 < c * c) by (apply Rsqr_pos_lt, Nc). assert (0 < g * (c * c)) by (apply Rmult_lt_0_compat; assumption). lra.
Qed.
Lemma good_admissible mu m : good_ply mu m -> powerRZ 2 (-40) <= mu -> usual (f_thickness m) -> admissible (exact_mat m).
Proof.
  intros G Hmu Ut. split; [|rewrite thick_mat; apply usual_pos, Ut]. assert (b40 : 0 < powerRZ 2 (-40)) by (rewrite pz; apply bpow_gt_0).
  destruct m as [f|f]; cbn [good_ply exact_mat Q_0] in *.
  - destruct G as (_ & U & M). assert (D : 0 < margin f) by lra. exists (Xof f). split; [apply exact_Q; assumption|]. unfold Xof. assert (e1 := proj2 (up_e1 f U)). assert (e2 := proj2 (up_e2 f U)). assert (g := proj2 (up_g12 f U)).
    set (E1 := B2R (fo_e1 f)) in *. set (E2 := B2R (fo_e2 f)) in *. set (V := B2R (fo_v12 f)) in *.
    apply pos_def_block; [apply Rdiv_lt_0_compat; assumption| |exact g].
    replace (E1 / margin f * (E2 / margin f) - V * E2 / margin f * (V * E2 / margin f)) with (E1 * E2 / (margin f) * (margin f / margin f)); [|].
    + replace (margin f / margin f) with 1 by (field; lra). rewrite Rmult_1_r. apply Rdiv_lt_0_compat; [apply Rmult_lt_0_compat; assumption|assumption].
    + unfold margin in *. fold E1 E2 V in D |- *. field. split; [lra|]. intros Z. apply (Rlt_irrefl 0). apply Rlt_le_trans with (1 := D). right. rewrite <- (Rmult_0_r (/ E1)), <- Z. field. lra.
  - destruct G as ((parse & a & I) & U). destruct (t_C87_isotropic parse a f I) as (Q & _ & _ & _ & _ & _ & _ & H). destruct (H U) as (X & EX & _). exists X. split; [exact EX|].
    apply iso_v in I. destruct (uo_v f U) as [Fv _]. assert (B : - (1 / 2) <= B2R (fi_v f) <= 1 / 2). { destruct I as [N|(r & [_ V] & B)]; [rewrite N in Fv; discriminate|rewrite V; exact B]. }
    assert (e := proj2 (uo_e f U)). assert (g := proj2 (uo_g f U)). unfold i_Q0, exact_iso in EX. cbn [i_e i_v i_g] in EX. set (v := B2R (fi_v f)) in *. set (E := B2R (fi_e f)) in *.
    assert (D : 3 / 4 <= 1 - v * v) by nra. unfold pydiv in EX. destruct (Req_EM_T (1 - v * v) 0) as [Z|_]; [lra|]. cbn [bind] in EX. apply Ok_inj in EX. subst X.
    apply pos_def_block; [apply Rdiv_lt_0_compat; lra| |exact g]. replace (E / (1 - v * v) * (E / (1 - v * v)) - v * E / (1 - v * v) * (v * E / (1 - v * v))) with (E * E / (1 - v * v)) by (field; lra).
    apply Rdiv_lt_0_compat; [apply Rmult_lt_0_compat; assumption|lra].
Qed.
Lemma layup_admissible np k mu q l : good_layup np k mu q l -> powerRZ 2 (-40) <= mu -> all_admissible (exact_layup l) /\ exact_layup l <> [].
Proof.
  intros [G (U & L & _)] Hmu. split.
  - unfold all_admissible, exact_layup. apply Forall_map. cbn [snd]. apply Forall_map in U. revert G U. induction l as [|[th m] l IH]; intros G U; [constructor|]. inversion G as [|? ? (A & B & C & D) G']; subst. inversion U as [|? ? U1 U']; subst. cbn [snd] in *.
    constructor; [eapply good_admissible; eassumption|]. destruct l; [constructor|]. apply IH; try assumption. cbn. lia.
  - destruct l; [cbn in L; lia|discriminate].
Qed.
Lemma sol_back l e : l <> [] -> all_admissible l -> sol l (mvec6 (ABDp l) e) = Ok e.
Proof. intros H1 H2. destruct (sol_exists l (mvec6 (ABDp l) e) H1 H2) as [x E]. rewrite E. destruct (sol_inv _ _ _ E) as [_ U]. rewrite (U e eq_refl). reflexivity. Qed.

(** ** closed forms *)
Definition Qf np (x : (f64 * fmaterial) * (f64 * f64)) : farr := match Q_ply_f np (fst (fst x)) (snd (fst x)) with Ok Q => Q | Err _ => fun _ _ => fzero end.
Definition Tf np (x : (f64 * fmaterial) * (f64 * f64)) : farr := match rotation_f np (fst (fst x)) with Ok Q => Q | Err _ => fun _ _ => fzero end.
Lemma mapM_ok {A B} (f : A -> res B) (g : A -> B) l : Forall (fun x => f x = Ok (g x)) l -> mapM f l = Ok (map g l).
Proof. induction 1 as [|x t H _ IH]; [reflexivity|]. cbn [mapM map]. rewrite H. cbn [bind]. rewrite IH. reflexivity. Qed.
Lemma mapM_compose {A B C} (f : B -> res C) (g : A -> B) l : mapM f (map g l) = mapM (fun x => f (g x)) l.
Proof. induction l as [|x t IH]; [reflexivity|]. cbn [map mapM]. rewrite IH. reflexivity. Qed.
Section Closed.
Variables (np : numpy) (nv : numpy_v) (k mu q : R) (l : list (f64 * fmaterial)) (N e : fvec) (c : f64).
Hypothesis (G : good_layup np k mu q l) (Hk : 0 <= k <= 1000000) (Hmu : powerRZ 2 (-40) <= mu) (Hq : powerRZ 2 (-200) <= q <= powerRZ 2 190) (He : epsilon0_f np nv l N = Ok e)
  (Hp : @positions (FA (np_pow np)) (thick l) = Ok (c :: @interfaces (FA (np_pow np)) (thick l) c)).
Lemma ply_fact x : In x (zf c l) -> numpy_near np k (fst (fst x)) /\ usual_angle (fst (fst x)) /\ good_ply mu (snd (fst x)) /\ stiff_below q (snd (fst x)).
Proof. intros H. destruct G as [F _]. rewrite Forall_forall in F. apply F. rewrite <- (zf_fst l c). apply in_map, H. Qed.
Lemma Q_ok x : In x (zf c l) -> Q_ply_f np (fst (fst x)) (snd (fst x)) = Ok (Qf np x).
Proof. intros H. destruct (ply_fact x H) as (A & B & C & D). destruct (t_C88_ply np k mu q _ _ B A Hk C Hmu D Hq) as (Q & _ & E & _). unfold Qf. rewrite E. reflexivity. Qed.
Lemma T_ok x : In x (zf c l) -> rotation_f np (fst (fst x)) = Ok (Tf np x).
Proof. intros H. destruct (ply_fact x H) as (A & B & _). destruct (rotation_near np k (fst (fst x)) A B) as (Q & E & _). unfold Tf. rewrite E. reflexivity. Qed.
Lemma epsilonk_closed : epsilonk_f np nv l N = Ok (map (ends_f (fun _ z => strain_f e z)) (zf c l)).
Proof.
  unfold epsilonk_f. rewrite Hp. cbn [bind]. assert (Z := zmid_f (np_pow np) l [] c). cbn [List.app List.length] in Z.
  match goal with |- bind ?m _ = _ => replace m with (Ok (map snd (zf c l)) : res (list (f64 * f64))) by (symmetry; exact Z) end. cbn [bind]. rewrite He. cbn [bind]. rewrite map_map. reflexivity.
Qed.
Lemma stressk_closed : stressk_f np nv l N = Ok (map (ends_f (fun x z => np_mv nv (Qf np x) (strain_f e z))) (zf c l)).
Proof.
  unfold stressk_f. assert (EQ : Q_layup_f np l = Ok (map (Qf np) (zf c l))).
  { unfold Q_layup_f. rewrite <- (zf_fst l c) at 1. rewrite mapM_compose. apply mapM_ok. apply Forall_forall. apply Q_ok. }
  rewrite EQ. cbn [bind]. rewrite epsilonk_closed. cbn [bind]. rewrite combine_map, map_map. reflexivity.
Qed.
Lemma angles_closed : map fst l = map angle_f (zf c l).
Proof. rewrite <- (zf_fst l c) at 1. rewrite map_map. reflexivity. Qed.
Lemma epsilonk_123_closed : epsilonk_123_f np nv l N = Ok (map (ends_f (fun x z => double_f (np_mv nv (Tf np x) (halve_f (strain_f e z))))) (zf c l)).
Proof.
  unfold epsilonk_123_f. rewrite epsilonk_closed. cbn [bind]. rewrite angles_closed, combine_map, mapM_compose. apply mapM_ok. apply Forall_forall. intros x Hx. cbn [fst snd]. unfold angle_f. rewrite (T_ok x Hx). reflexivity.
Qed.
Lemma stressk_123_closed : stressk_123_f np nv l N = Ok (map (ends_f (fun x z => np_mv nv (Tf np x) (np_mv nv (Qf np x) (strain_f e z)))) (zf c l)).
Proof.
  unfold stressk_123_f. rewrite stressk_closed. cbn [bind]. rewrite angles_closed, combine_map, mapM_compose. apply mapM_ok. apply Forall_forall. intros x Hx. cbn [fst snd]. unfold angle_f. rewrite (T_ok x Hx). reflexivity.
Qed.
Lemma strain_closed : calculate_strain_f np nv l N = Ok (rows_f (fun _ z => strain_f e z) (fun x z => double_f (np_mv nv (Tf np x) (halve_f (strain_f e z)))) 0 (zf c l)).
Proof.
  unfold calculate_strain_f. rewrite epsilonk_closed. cbn [bind]. rewrite epsilonk_123_closed. cbn [bind]. rewrite Hp. cbn [bind]. rewrite angles_closed.
  apply (row_loop_rows (np_pow np) (fun _ z => strain_f e z) (fun x z => double_f (np_mv nv (Tf np x) (halve_f (strain_f e z)))) l [] c).
Qed.
Lemma stress_closed : calculate_stress_f np nv l N = Ok (rows_f (fun x z => np_mv nv (Qf np x) (strain_f e z)) (fun x z => np_mv nv (Tf np x) (np_mv nv (Qf np x) (strain_f e z))) 0 (zf c l)).
Proof.
  unfold calculate_stress_f. rewrite stressk_closed. cbn [bind]. rewrite stressk_123_closed. cbn [bind]. rewrite Hp. cbn [bind]. rewrite angles_closed.
  apply (row_loop_rows (np_pow np) (fun x z => np_mv nv (Qf np x) (strain_f e z)) (fun x z => np_mv nv (Tf np x) (np_mv nv (Qf np x) (strain_f e z))) l [] c).
Qed.
End Closed.

(** ** the same rows for other strains *)
Lemma tri off d v w w' : vec_near off v w -> (forall k, (k < 3)%nat -> Rabs (part w k - part w' k) <= d) -> vec_near (off + d) v w'.
Proof. intros H D k Hk. destruct (H k Hk) as [F R]. split; [exact F|]. replace (B2R (v k) - part w' k) with ((B2R (v k) - part w k) + (part w k - part w' k)) by ring. eapply Rle_trans; [apply Rabs_triang|]. specialize (D k Hk). lra. Qed.
Definition gap (w w' : vec3) : R := Rabs (part w 0 - part w' 0) + Rabs (part w 1 - part w' 1) + Rabs (part w 2 - part w' 2).
Lemma gap_part w w' k : (k < 3)%nat -> Rabs (part w k - part w' k) <= gap w w'.
Proof. intros H. unfold gap. assert (A := Rabs_pos (part w 0 - part w' 0)). assert (B := Rabs_pos (part w 1 - part w' 1)). assert (C := Rabs_pos (part w 2 - part w' 2)). destruct k as [|[|[|k]]]; try lia; lra. Qed.
Lemma gap_ep T a b z : 0 < T -> Rabs z <= T / 2 -> gap (ep a z) (ep b z) <= strain_size T (minus6 a b).
Proof.
  intros HT Hz. destruct a as [[a1 a2 a3] [a4 a5 a6]], b as [[b1 b2 b3] [b4 b5 b6]]. unfold gap, strain_size, minus6, ep, vadd, vscale, part. cbn [fst snd vx vy vz].
  assert (K : forall x y u v, Rabs (x + z * u - (y + z * v)) <= Rabs (x - y) + T * Rabs (u - v)).
  { intros x y u v. replace (x + z * u - (y + z * v)) with ((x - y) + z * (u - v)) by ring. eapply Rle_trans; [apply Rabs_triang|]. apply Rplus_le_compat_l. rewrite Rabs_mult. apply Rmult_le_compat_r; [apply Rabs_pos|lra]. }
  assert (K1 := K a1 b1 a4 b4). assert (K2 := K a2 b2 a5 b5). assert (K3 := K a3 b3 a6 b6). lra.
Qed.
Lemma mvec_gap M b w w' i : (i < 3)%nat -> (forall j, (j < 3)%nat -> Rabs (as_arr M i j) <= b) -> Rabs (part (mvec M w) i - part (mvec M w') i) <= b * gap w w'.
Proof.
  intros Hi HM. rewrite !part_mvec by exact Hi. unfold gap.
  replace (as_arr M i 0%nat * part w 0 + as_arr M i 1%nat * part w 1 + as_arr M i 2%nat * part w 2 - (as_arr M i 0%nat * part w' 0 + as_arr M i 1%nat * part w' 1 + as_arr M i 2%nat * part w' 2)) with
    (as_arr M i 0%nat * (part w 0 - part w' 0) + as_arr M i 1%nat * (part w 1 - part w' 1) + as_arr M i 2%nat * (part w 2 - part w' 2)) by ring.
  assert (K : forall j x, (j < 3)%nat -> Rabs (as_arr M i j * x) <= b * Rabs x) by (intros j x Hj; rewrite Rabs_mult; apply Rmult_le_compat_r; [apply Rabs_pos|apply HM, Hj]).
  eapply Rle_trans; [apply Rabs_triang|]. assert (A := Rabs_triang (as_arr M i 0%nat * (part w 0 - part w' 0)) (as_arr M i 1%nat * (part w 1 - part w' 1))).
  assert (K0 := K 0%nat (part w 0 - part w' 0) ltac:(lia)). assert (K1 := K 1%nat (part w 1 - part w' 1) ltac:(lia)). assert (K2 := K 2%nat (part w 2 - part w' 2) ltac:(lia)). lra.
Qed.
Lemma T_entries th i j : (i < 3)%nat -> (j < 3)%nat -> Rabs (as_arr (T_real (cdeg th) (sdeg th)) i j) <= 1.
Proof.
  intros Hi Hj. destruct (unit_circle th) as (Bc & Bs & B2). set (c := cdeg th) in *. set (s := sdeg th) in *. assert (Pc := Rabs_le_inv _ _ Bc). assert (Ps := Rabs_le_inv _ _ Bs). assert (P2 := Rabs_le_inv _ _ B2).
  destruct i as [|[|[|i]]]; [| | |lia]; (destruct j as [|[|[|j]]]; [| | |lia]); cbn [as_arr T_real a11 a12 a13 a21 a22 a23 a31 a32 a33]; apply Rabs_le; nra.
Qed.
Lemma strain_shift T a b x z k : 0 < T -> Rabs z <= T / 2 -> (k < 3)%nat ->
  Rabs (part (f_strain a x z) k - part (f_strain b x z) k) <= 2 * strain_size T (minus6 a b) /\ Rabs (part (f_strain12 a x z) k - part (f_strain12 b x z) k) <= 2 * strain_size T (minus6 a b).
Proof.
  intros HT Hz Hk. assert (G := gap_ep T a b z HT Hz). assert (G0 : forall w w', 0 <= gap w w') by (intros; unfold gap; repeat apply Rplus_le_le_0_compat; apply Rabs_pos). split.
  - unfold f_strain. assert (P := gap_part (ep a z) (ep b z) k Hk). assert (Q := G0 (ep a z) (ep b z)). lra.
  - unfold f_strain12. set (Tm := T_real _ _). assert (H : gap (halve3 (ep a z)) (halve3 (ep b z)) <= gap (ep a z) (ep b z)).
    { unfold gap, halve3, part. cbn [vx vy vz]. apply Rplus_le_compat_l. replace (vz (ep a z) / 2 - vz (ep b z) / 2) with (/ 2 * (vz (ep a z) - vz (ep b z))) by field. rewrite Rabs_mult, (Rabs_right (/ 2)) by lra. assert (Q := Rabs_pos (vz (ep a z) - vz (ep b z))). lra. }
    assert (M := fun i Hi => mvec_gap Tm 1 (halve3 (ep a z)) (halve3 (ep b z)) i Hi (fun j Hj => T_entries (theta_of x) i j Hi Hj)).
    assert (M0 := M 0%nat ltac:(lia)). assert (M1 := M 1%nat ltac:(lia)). assert (M2 := M 2%nat ltac:(lia)). assert (Q := G0 (halve3 (ep a z)) (halve3 (ep b z))). unfold double3. destruct k as [|[|[|k]]]; try lia; cbn [part vx vy vz] in *; try lra.
    set (p := vz (mvec Tm (halve3 (ep a z)))) in *. set (p' := vz (mvec Tm (halve3 (ep b z)))) in *. replace (p * 2 - p' * 2) with (2 * (p - p')) by ring. rewrite Rabs_mult, (Rabs_right 2) by lra. lra.
Qed.
Lemma stress_shift np k mu q T a b th m x z i : numpy_near np k th -> usual_angle th -> 0 <= k <= 1000000 -> good_ply mu m -> powerRZ 2 (-40) <= mu -> stiff_below q m -> powerRZ 2 (-200) <= q <= powerRZ 2 190 ->
  fst x = (B2R th, exact_mat m) -> 0 < T -> Rabs z <= T / 2 -> (i < 3)%nat ->
  Rabs (part (f_stress a x z) i - part (f_stress b x z) i) <= 10 * q * strain_size T (minus6 a b) /\ Rabs (part (f_stress12 a x z) i - part (f_stress12 b x z) i) <= 10 * q * strain_size T (minus6 a b).
Proof.
  intros Hnp Hth Hk Hg Hmu Hs Hq Ex HT Hz Hi. assert (G := gap_ep T a b z HT Hz). assert (q0 : 0 < q). { assert (0 < powerRZ 2 (-200)) by (rewrite pz; apply bpow_gt_0). lra. }
  destruct (t_C88_ply np k mu q _ _ Hth Hnp Hk Hg Hmu Hs Hq) as (Q & Y & EQ & EY & B).
  assert (Rd : readable (exact_mat m)) by (destruct Hs as (X & EX & _); exists X; exact EX). rewrite (Q_ply_ok _ _ (proj1 (readable_ok _) Rd)) in EY. apply Ok_inj in EY. subst Y.
  assert (PU := proj2 (pu_small k mu Hk Hmu)).
  assert (Bd : forall i j, (i < 3)%nat -> (j < 3)%nat -> Rabs (as_arr (Qbar (B2R th) (exact_mat m)) i j) <= (3 + / 400) * q).
  { intros i' j Hi' Hj. destruct (B i' j Hi' Hj) as (_ & B2 & B3). rewrite Rabs_minus_sym in B2. apply abs_near in B2. assert (ply_units k mu * unit * q <= / 400 * q) by (apply Rmult_le_compat_r; [lra|exact PU]). lra. }
  assert (S1 : forall i, (i < 3)%nat -> Rabs (part (f_stress a x z) i - part (f_stress b x z) i) <= (3 + / 400) * q * strain_size T (minus6 a b)).
  { intros i' Hi'. unfold f_stress, theta_of, mat_of. rewrite Ex. cbn [fst snd]. eapply Rle_trans; [apply (mvec_gap _ ((3 + / 400) * q)); [exact Hi'|intros j Hj; apply Bd; assumption]|]. apply Rmult_le_compat_l; [apply Rmult_le_pos; lra|exact G]. }
  assert (S0 : 0 <= q * strain_size T (minus6 a b)). { apply Rmult_le_pos; [lra|]. eapply Rle_trans; [|exact G]. unfold gap. repeat apply Rplus_le_le_0_compat; apply Rabs_pos. }
  split; [specialize (S1 i Hi); lra|]. unfold f_stress12. eapply Rle_trans; [apply (mvec_gap _ 1); [exact Hi|intros j Hj; apply T_entries; assumption]|].
  unfold gap. assert (A := S1 0%nat ltac:(lia)). assert (B' := S1 1%nat ltac:(lia)). assert (C := S1 2%nat ltac:(lia)). lra.
Qed.
Lemma size_n np k mu q l : good_layup np k mu q l -> 1 <= INR (List.length l) <= 1000000 /\ bp (-64) <= total l <= bp 84.
Proof.
  intros [_ U]. assert (R := height_range _ U). destruct U as (_ & L & M). rewrite map_length in *. split; [split; [apply (le_INR 1), L|exact M]|exact R].
Qed.
Lemma strain_rows np nv k mu q l N e x0 : good_layup np k mu q l -> 0 <= k <= 1000000 -> powerRZ 2 (-40) <= mu -> powerRZ 2 (-200) <= q <= powerRZ 2 190 -> mv_near 3 (np_mv nv) ->
  epsilon0_f np nv l N = Ok e -> finite_vec 6 e -> strain_size (total l) (six e) <= powerRZ 2 300 ->
  exists rows, calculate_strain_f np nv l N = Ok rows /\ Forall2 (row_near (z_off l) (strain_off l (six e) + 2 * strain_size (total l) (minus6 (six e) x0))) rows (L_Strength.rows (f_strain x0) (f_strain12 x0) 0 (X (exact_layup l))).
Proof.
  intros G Hk Hmu Hq Hmv He Fe HS. rewrite pz in HS. destruct (size_n _ _ _ _ _ G) as [Hn HT]. destruct (positions_rel (np_pow np) l (proj2 G)) as (c & Hp & Rel).
  eexists. split; [apply (strain_closed np nv k mu q l N e c); assumption|]. apply (rows_near (INR (List.length l)) (total l)); [apply Rle_refl|exact Rel|].
  intros x y a z Hx Rxy Fa Da Hz. destruct (ply_fact np k mu q l c G x Hx) as (A & B & C & D).
  destruct (strain12_err np nv k q (INR (List.length l)) (total l) (strain_size (total l) (six e)) z (fst (fst x)) e a Hmv A B Hq Hn HT Fe eq_refl HS Fa Da Hz) as (Tr & ET & V1 & V2).
  assert (Eq := T_ok np k mu q l c G x Hx). rewrite ET in Eq. apply Ok_inj in Eq. rewrite <- Eq. destruct Rxy as (E1 & _). assert (T0 : 0 < total l) by (assert (0 < bp (-64)) by apply bpow_gt_0; lra).
  assert (H1 : vec_near (strain_off l (six e)) (strain_f e a) (f_strain (six e) y z) /\ vec_near (strain_off l (six e)) (double_f (np_mv nv Tr (halve_f (strain_f e a)))) (f_strain12 (six e) y z)).
  { unfold f_strain, f_strain12, theta_of. rewrite E1. cbn [fst]. unfold strain_off. rewrite pz. split; assumption. }
  split; [apply (tri _ _ _ _ _ (proj1 H1))|apply (tri _ _ _ _ _ (proj2 H1))]; intros k0 Hk0; apply strain_shift; assumption.
Qed.
Lemma stress_rows np nv k mu q l N e x0 : good_layup np k mu q l -> 0 <= k <= 1000000 -> powerRZ 2 (-40) <= mu -> powerRZ 2 (-200) <= q <= powerRZ 2 190 -> mv_near 3 (np_mv nv) ->
  epsilon0_f np nv l N = Ok e -> finite_vec 6 e -> strain_size (total l) (six e) <= powerRZ 2 300 ->
  exists rows, calculate_stress_f np nv l N = Ok rows /\ Forall2 (row_near (z_off l) (stress_off k mu q l (six e) + 10 * q * strain_size (total l) (minus6 (six e) x0))) rows (L_Strength.rows (f_stress x0) (f_stress12 x0) 0 (X (exact_layup l))).
Proof.
  intros G Hk Hmu Hq Hmv He Fe HS. rewrite pz in HS. destruct (size_n _ _ _ _ _ G) as [Hn HT]. destruct (positions_rel (np_pow np) l (proj2 G)) as (c & Hp & Rel).
  eexists. split; [apply (stress_closed np nv k mu q l N e c); assumption|]. apply (rows_near (INR (List.length l)) (total l)); [apply Rle_refl|exact Rel|].
  intros x y a z Hx Rxy Fa Da Hz. destruct (ply_fact np k mu q l c G x Hx) as (A & B & C & D).
  destruct (stress12_err np nv k mu q (INR (List.length l)) (total l) (strain_size (total l) (six e)) z (fst (fst x)) (snd (fst x)) e a Hmv A B Hk C Hmu D Hq Hn HT Fe eq_refl HS Fa Da Hz) as (Q & Tr & EQ & ET & V1 & V2).
  assert (Eq := T_ok np k mu q l c G x Hx). rewrite ET in Eq. apply Ok_inj in Eq. rewrite <- Eq. assert (Eq' := Q_ok np k mu q l c G Hk Hmu Hq x Hx). rewrite EQ in Eq'. apply Ok_inj in Eq'. rewrite <- Eq'.
  destruct Rxy as (E1 & _). assert (T0 : 0 < total l) by (assert (0 < bp (-64)) by apply bpow_gt_0; lra).
  assert (H1 : vec_near (stress_off k mu q l (six e)) (np_mv nv Q (strain_f e a)) (f_stress (six e) y z) /\ vec_near (stress_off k mu q l (six e)) (np_mv nv Tr (np_mv nv Q (strain_f e a))) (f_stress12 (six e) y z)).
  { unfold f_stress12, f_stress, theta_of, mat_of. rewrite E1. cbn [fst snd]. unfold stress_off. rewrite pz. split; assumption. }
  split; [apply (tri _ _ _ _ _ (proj1 H1))|apply (tri _ _ _ _ _ (proj2 H1))]; intros k0 Hk0; apply (stress_shift np k mu q (total l) (six e) x0 (fst (fst x)) (snd (fst x))); assumption.
Qed.
Lemma minus6_self T v : strain_size T (minus6 v v) = 0.
Proof. unfold strain_size, minus6. cbn [fst snd vx vy vz]. rewrite !Rminus_diag_eq, Rabs_R0 by reflexivity. ring. Qed.

(*@ C96: the strains as computed. Whatever strains epsilon0() has returned (finite, of usual size), calculate_strain() returns the table of the exact laminate under the loads that
    produce exactly these strains, to within strain_off: the same plies, positions and angles, z to within n + 1 units of the thickness, the strains in both axes to within
    2n + 230 units of the strains in the laminate. @*)
Lemma t_C96_strain : forall np nv k mu q l N e, good_layup np k mu q l -> 0 <= k <= 1000000 -> powerRZ 2 (-40) <= mu -> powerRZ 2 (-200) <= q <= powerRZ 2 190 -> mv_near 3 (np_mv nv) ->
  epsilon0_f np nv l N = Ok e -> finite_vec 6 e -> strain_size (total l) (six e) <= powerRZ 2 300 ->
  exists M rows rows', ABD_of (exact_layup l) = Ok M /\ calculate_strain_f np nv l N = Ok rows /\ strain_of (exact_layup l) (mvec6 M (six e)) = Ok rows' /\
    Forall2 (row_near (z_off l) (strain_off l (six e))) rows rows'.
Proof.
  intros np nv k mu q l N e G Hk Hmu Hq Hmv He Fe HS. destruct (layup_admissible _ _ _ _ _ G Hmu) as [Ad Ne]. assert (Rd := admissible_readable _ Ad).
  destruct (strain_rows np nv k mu q l N e (six e) G Hk Hmu Hq Hmv He Fe HS) as (rows & Er & Fr). rewrite minus6_self, Rmult_0_r, Rplus_0_r in Fr. exists (ABDp (exact_layup l)), rows. eexists. split; [apply ABD_of_eq, Rd|]. split; [exact Er|].
  rewrite strain_of_eq by exact Rd. rewrite sol_back by assumption. split; [reflexivity|exact Fr].
Qed.
(*@ C96: the stresses as computed, in the same sense: calculate_stress() is within stress_off of the table of the exact laminate under the loads that produce exactly the strains
    epsilon0() has returned. @*)
Lemma t_C96_stress : forall np nv k mu q l N e, good_layup np k mu q l -> 0 <= k <= 1000000 -> powerRZ 2 (-40) <= mu -> powerRZ 2 (-200) <= q <= powerRZ 2 190 -> mv_near 3 (np_mv nv) ->
  epsilon0_f np nv l N = Ok e -> finite_vec 6 e -> strain_size (total l) (six e) <= powerRZ 2 300 ->
  exists M rows rows', ABD_of (exact_layup l) = Ok M /\ calculate_stress_f np nv l N = Ok rows /\ stress_of (exact_layup l) (mvec6 M (six e)) = Ok rows' /\
    Forall2 (row_near (z_off l) (stress_off k mu q l (six e))) rows rows'.
Proof.
  intros np nv k mu q l N e G Hk Hmu Hq Hmv He Fe HS. destruct (layup_admissible _ _ _ _ _ G Hmu) as [Ad Ne]. assert (Rd := admissible_readable _ Ad).
  destruct (stress_rows np nv k mu q l N e (six e) G Hk Hmu Hq Hmv He Fe HS) as (rows & Er & Fr). rewrite minus6_self, Rmult_0_r, Rplus_0_r in Fr. exists (ABDp (exact_layup l)), rows. eexists. split; [apply ABD_of_eq, Rd|]. split; [exact Er|].
  rewrite stress_of_eq by exact Rd. rewrite sol_back by assumption. split; [reflexivity|exact Fr].
Qed.

(** ** the loads *)
Lemma rs_ext n f g : (forall j, (j < n)%nat -> f j = g j) -> row_sum n f = row_sum n g.
Proof. intros H. unfold row_sum. f_equal. apply map_ext_in. intros j Hj. apply in_seq in Hj. apply H. lia. Qed.
Lemma rs_le n f g : (forall j, (j < n)%nat -> f j <= g j) -> row_sum n f <= row_sum n g.
Proof.
  unfold row_sum. intros H. assert (K : forall s, (forall j, In j s -> f j <= g j) -> rsum (map f s) <= rsum (map g s)).
  { induction s as [|j s IH]; intros Hs; cbn [map rsum]; [lra|]. apply Rplus_le_compat; [apply Hs; left; reflexivity|apply IH; intros; apply Hs; right; assumption]. }
  apply K. intros j Hj. apply in_seq in Hj. apply H. lia.
Qed.
Lemma rs_abs n f : Rabs (row_sum n f) <= row_sum n (fun j => Rabs (f j)).
Proof. unfold row_sum. induction (seq 0 n) as [|j s IH]; cbn [map rsum]; [rewrite Rabs_R0; lra|]. eapply Rle_trans; [apply Rabs_triang|]. lra. Qed.
Definition entry6 (M : mat6) (i j : nat) : R :=
  if Nat.ltb i 3 then (if Nat.ltb j 3 then as_arr (blkA M) i j else as_arr (blkB M) i (j - 3)%nat) else (if Nat.ltb j 3 then as_arr (blkC M) (i - 3)%nat j else as_arr (blkD M) (i - 3)%nat (j - 3)%nat).
Lemma part6_mvec M e i : (i < 6)%nat -> part6 (mvec6 M (six e)) i = row_sum 6 (fun j => entry6 M i j * B2R (e j)).
Proof.
  intros H. destruct M as [A B C D]. unfold row_sum. cbn [seq map rsum]. unfold mvec6, six, part6, entry6, mvec, vadd. cbn [fst snd vx vy vz blkA blkB blkC blkD].
  destruct i as [|[|[|[|[|[|i]]]]]]; try lia; cbn [Nat.ltb Nat.leb Nat.sub part fst snd vx vy vz as_arr]; ring.
Qed.
Lemma expand (Me Mf Y : nat -> nat -> R) (e N : nat -> R) i : (i < 6)%nat ->
  row_sum 6 (fun j => Me i j * e j) - N i = row_sum 6 (fun m => (row_sum 6 (fun k => Mf i k * Y k m) - (if Nat.eqb i m then 1 else 0)) * N m) +
    row_sum 6 (fun j => Mf i j * (e j - row_sum 6 (fun m => Y j m * N m))) + row_sum 6 (fun j => (Me i j - Mf i j) * e j).
Proof.
  intros H. unfold row_sum. cbn [seq map rsum]. destruct i as [|[|[|[|[|[|i]]]]]]; try lia; cbn [Nat.eqb]; ring.
Qed.
Lemma ABD_near np k mu q l : good_layup np k mu q l -> 0 <= k <= 1000000 -> powerRZ 2 (-40) <= mu -> powerRZ 2 (-200) <= q <= powerRZ 2 190 ->
  exists Mf, ABD_f np l = Ok Mf /\ forall i j, (i < 6)%nat -> (j < 6)%nat -> is_finite (Mf i j) = true /\ Rabs (entry6 (ABDp (exact_layup l)) i j - B2R (Mf i j)) <= abd_off k mu q l i j.
Proof.
  intros G Hk Hm Hq. assert (Rd := admissible_readable _ (proj1 (layup_admissible _ _ _ _ _ G Hm))).
  destruct (t_C88_matrices np k mu q 1 l ltac:(lia) G Hk Hm Hq) as (A & XA & EA & EX1 & BA). destruct (t_C88_matrices np k mu q 2 l ltac:(lia) G Hk Hm Hq) as (B & XB & EB & EX2 & BB). destruct (t_C88_matrices np k mu q 3 l ltac:(lia) G Hk Hm Hq) as (D & XD & ED & EX3 & BD).
  rewrite (attribute_eq 1 _ ltac:(lia) Rd) in EX1. rewrite (attribute_eq 2 _ ltac:(lia) Rd) in EX2. rewrite (attribute_eq 3 _ ltac:(lia) Rd) in EX3. apply Ok_inj in EX1, EX2, EX3. subst XA XB XD.
  exists (blocks A B D). split.
  - unfold ABD_f. change (A_f np l) with (matrix_f np 1 l). rewrite EA. cbn [bind]. change (B_f np l) with (matrix_f np 2 l). rewrite EB. cbn [bind]. change (D_f np l) with (matrix_f np 3 l). rewrite ED. reflexivity.
  - intros i j Hi Hj. unfold blocks, entry6, abd_off, ABDp. cbn [blkA blkB blkC blkD].
    destruct (Nat.ltb_spec i 3) as [I|I]; destruct (Nat.ltb_spec j 3) as [J|J]; cbn [Nat.add].
    + destruct (BA i j I J) as [F R]. split; [exact F|]. rewrite Rabs_minus_sym. exact R.
    + destruct (BB i (j - 3)%nat I ltac:(lia)) as [F R]. split; [exact F|]. rewrite Rabs_minus_sym. exact R.
    + destruct (BB (i - 3)%nat j ltac:(lia) J) as [F R]. split; [exact F|]. rewrite Rabs_minus_sym. exact R.
    + destruct (BD (i - 3)%nat (j - 3)%nat ltac:(lia) ltac:(lia)) as [F R]. split; [exact F|]. rewrite Rabs_minus_sym. exact R.
Qed.
(*@ C96: the strains as computed produce the given loads. With an inverse Y of the computed ABD whose residual is r, the strains e of epsilon0() times the exact ABD give back each
    of the six loads to within load_off: the residual times the loads, seven units of the product, and the error of ABD times the strains. @*)
Lemma t_C96_loads : forall np nv k mu q r l N Mf Y, good_layup np k mu q l -> 0 <= k <= 1000000 -> powerRZ 2 (-40) <= mu -> powerRZ 2 (-200) <= q <= powerRZ 2 190 -> mv_near 6 (np_mv6 nv) ->
  ABD_f np l = Ok Mf -> inv6_near nv r Mf Y -> finite_vec 6 N -> (forall i, (i < 6)%nat -> row_magnitude 6 Y N i <= powerRZ 2 900) ->
  exists e M, epsilon0_f np nv l N = Ok e /\ finite_vec 6 e /\ ABD_of (exact_layup l) = Ok M /\
    forall i, (i < 6)%nat -> Rabs (part6 (mvec6 M (six e)) i - B2R (N i)) <= load_off k mu q r l Mf Y N e i.
Proof.
  intros np nv k mu q r l N Mf Y G Hk Hm Hq Hmv EM (EY & FY & RY) FN HM. assert (Rd := admissible_readable _ (proj1 (layup_admissible _ _ _ _ _ G Hm))).
  destruct (ABD_near np k mu q l G Hk Hm Hq) as (Mf' & EM' & BM). rewrite EM in EM'. apply Ok_inj in EM'. subst Mf'.
  exists (np_mv6 nv Y N), (ABDp (exact_layup l)). assert (B := Hmv Y N FY FN HM).
  split; [unfold epsilon0_f; rewrite EM; cbn [bind]; rewrite EY; reflexivity|]. split; [intros j Hj; apply B, Hj|]. split; [apply ABD_of_eq, Rd|].
  set (e := np_mv6 nv Y N) in *. intros i Hi. rewrite (part6_mvec _ e i Hi). rewrite (expand (entry6 (ABDp (exact_layup l))) (fun i j => B2R (Mf i j)) (fun i j => B2R (Y i j)) (fun j => B2R (e j)) (fun j => B2R (N j)) i Hi). unfold load_off.
  eapply Rle_trans; [apply Rabs_triang|]. apply Rplus_le_compat; [eapply Rle_trans; [apply Rabs_triang|]; apply Rplus_le_compat|].
  - eapply Rle_trans; [apply rs_abs|]. apply rs_le. intros j Hj. rewrite Rabs_mult. apply Rmult_le_compat_r; [apply Rabs_pos|]. apply RY; assumption.
  - eapply Rle_trans; [apply rs_abs|]. apply rs_le. intros j Hj. rewrite Rabs_mult. apply Rmult_le_compat_l; [apply Rabs_pos|]. eapply Rle_trans; [apply (proj2 (B j Hj))|]. replace (INR 6 + 1) with 7 by (cbn; lra). lra.
  - eapply Rle_trans; [apply rs_abs|]. apply rs_le. intros j Hj. rewrite Rabs_mult. apply Rmult_le_compat_r; [apply Rabs_pos|]. apply BM; assumption.
Qed.

(** ** from the loads to the strains *)
Lemma young n a b : 0 < n -> a * b <= n / 2 * (a * a) + / (2 * n) * (b * b).
Proof.
  intros H. assert (0 <= / (2 * n) * ((n * a - b) * (n * a - b))) by (apply Rmult_le_pos; [left; apply Rinv_0_lt_compat; lra|apply Rle_0_sqr]).
  replace (n / 2 * (a * a) + / (2 * n) * (b * b)) with (a * b + / (2 * n) * ((n * a - b) * (n * a - b))) by (field; lra). lra.
Qed.
Lemma sq_abs x y : Rabs x <= y -> x * x <= y * y.
Proof. intros H. apply Rsqr_le_abs_1. rewrite (Rabs_right y) by (assert (A := Rabs_pos x); lra). exact H. Qed.
Lemma near_solution nu M (e x : vec3 * vec3) (off : nat -> R) (N : vec3 * vec3) : 0 < nu -> (forall v, nu * dot6 v v <= dot6 v (mvec6 M v)) -> mvec6 M x = N ->
  (forall i, (i < 6)%nat -> Rabs (part6 (mvec6 M e) i - part6 N i) <= off i) -> nu * nu * squares6 (part6 (minus6 e x)) <= squares6 off.
Proof.
  intros Hn HP HX HO. subst N. specialize (HP (minus6 e x)).
  assert (S : squares6 (part6 (minus6 e x)) = dot6 (minus6 e x) (minus6 e x)). { unfold squares6, row_sum, dot6, dot, part6. cbn [seq map rsum Nat.ltb Nat.leb Nat.sub part]. ring. }
  assert (L : forall i, (i < 6)%nat -> part6 (mvec6 M (minus6 e x)) i = part6 (mvec6 M e) i - part6 (mvec6 M x) i).
  { intros i Hi. destruct e as [[e1 e2 e3] [e4 e5 e6]], x as [[x1 x2 x3] [x4 x5 x6]]. unfold minus6, mvec6, mvec, vadd, part6. cbn [fst snd vx vy vz]. destruct i as [|[|[|[|[|[|i]]]]]]; try lia; cbn [Nat.ltb Nat.leb Nat.sub part vx vy vz]; ring. }
  assert (D : dot6 (minus6 e x) (mvec6 M (minus6 e x)) = row_sum 6 (fun i => part6 (minus6 e x) i * part6 (mvec6 M (minus6 e x)) i)).
  { unfold row_sum, dot6, dot, part6. cbn [seq map rsum Nat.ltb Nat.leb Nat.sub part]. ring. }
  rewrite D in HP. rewrite <- S in HP. set (d := part6 (minus6 e x)) in *. set (w := part6 (mvec6 M (minus6 e x))) in *.
  assert (Q : row_sum 6 (fun i => d i * w i) <= row_sum 6 (fun i => nu / 2 * (d i * d i) + / (2 * nu) * (off i * off i))).
  { apply rs_le. intros i Hi. eapply Rle_trans; [apply (young nu), Hn|]. apply Rplus_le_compat_l. apply Rmult_le_compat_l; [left; apply Rinv_0_lt_compat; lra|]. apply sq_abs. unfold w. rewrite L by exact Hi. apply HO, Hi. }
  assert (E : row_sum 6 (fun i => nu / 2 * (d i * d i) + / (2 * nu) * (off i * off i)) = nu / 2 * squares6 d + / (2 * nu) * squares6 off). { unfold squares6, row_sum. cbn [seq map rsum]. ring. }
  rewrite E in Q. assert (K : nu / 2 * squares6 d <= / (2 * nu) * squares6 off) by lra. apply Rmult_le_compat_l with (r := 2 * nu) in K; [|lra].
  replace (2 * nu * (nu / 2 * squares6 d)) with (nu * nu * squares6 d) in K by field. replace (2 * nu * (/ (2 * nu) * squares6 off)) with (squares6 off) in K by (field; lra). exact K.
Qed.
(*@ C96: the strains as computed against the exact strains. If the smallest stiffness of the exact ABD is at least nu, the strains of epsilon0() differ from the exact solution of the
    given loads by at most the loads' error divided by nu (root of the sum of squares). @*)
Lemma t_C96_epsilon0 : forall np nv k mu q r l N Mf Y nu M, good_layup np k mu q l -> 0 <= k <= 1000000 -> powerRZ 2 (-40) <= mu -> powerRZ 2 (-200) <= q <= powerRZ 2 190 -> mv_near 6 (np_mv6 nv) ->
  ABD_f np l = Ok Mf -> inv6_near nv r Mf Y -> finite_vec 6 N -> (forall i, (i < 6)%nat -> row_magnitude 6 Y N i <= powerRZ 2 900) ->
  ABD_of (exact_layup l) = Ok M -> 0 < nu -> (forall v, nu * dot6 v v <= dot6 v (mvec6 M v)) ->
  exists e x, epsilon0_f np nv l N = Ok e /\ finite_vec 6 e /\ epsilon0_of (exact_layup l) (six N) = Ok x /\
    nu * nu * squares6 (part6 (minus6 (six e) x)) <= squares6 (load_off k mu q r l Mf Y N e).
Proof.
  intros np nv k mu q r l N Mf Y nu M G Hk Hm Hq Hmv EM IY FN HM EA Hn HP. destruct (layup_admissible _ _ _ _ _ G Hm) as [Ad Ne]. assert (Rd := admissible_readable _ Ad).
  destruct (t_C96_loads np nv k mu q r l N Mf Y G Hk Hm Hq Hmv EM IY FN HM) as (e & M' & Ee & Fe & EA' & B). rewrite EA in EA'. apply Ok_inj in EA'. subst M'.
  destruct (sol_exists _ (six N) Ne Ad) as [x Ex]. exists e, x. split; [exact Ee|]. split; [exact Fe|]. split; [rewrite epsilon0_of_eq by exact Rd; exact Ex|].
  destruct (ABDp_of _ _ EA) as [_ ->]. destruct (sol_inv _ _ _ Ex) as [SX _]. apply (near_solution nu (ABDp (exact_layup l)) (six e) x _ (six N) Hn HP SX).
  intros i Hi. specialize (B i Hi). replace (part6 (six N) i) with (B2R (N i)); [exact B|]. destruct i as [|[|[|[|[|[|i]]]]]]; try lia; reflexivity.
Qed.
(*@ C96: the tables as computed against the exact tables of the given loads: the errors of t_C96_strain and t_C96_stress, plus the effect of the difference between the computed
    strains e and the exact ones x (bounded in C96_epsilon0). @*)
Lemma t_C96_tables : forall np nv k mu q l N e, good_layup np k mu q l -> 0 <= k <= 1000000 -> powerRZ 2 (-40) <= mu -> powerRZ 2 (-200) <= q <= powerRZ 2 190 -> mv_near 3 (np_mv nv) ->
  epsilon0_f np nv l N = Ok e -> finite_vec 6 e -> strain_size (total l) (six e) <= powerRZ 2 300 ->
  exists x strains strains' stresses stresses', epsilon0_of (exact_layup l) (six N) = Ok x /\
    calculate_strain_f np nv l N = Ok strains /\ strain_of (exact_layup l) (six N) = Ok strains' /\
    Forall2 (row_near (z_off l) (strain_off l (six e) + 2 * strain_size (total l) (minus6 (six e) x))) strains strains' /\
    calculate_stress_f np nv l N = Ok stresses /\ stress_of (exact_layup l) (six N) = Ok stresses' /\
    Forall2 (row_near (z_off l) (stress_off k mu q l (six e) + 10 * q * strain_size (total l) (minus6 (six e) x))) stresses stresses'.
Proof.
  intros np nv k mu q l N e G Hk Hmu Hq Hmv He Fe HS. destruct (layup_admissible _ _ _ _ _ G Hmu) as [Ad Ne]. assert (Rd := admissible_readable _ Ad). destruct (sol_exists _ (six N) Ne Ad) as [x Ex].
  destruct (strain_rows np nv k mu q l N e x G Hk Hmu Hq Hmv He Fe HS) as (r1 & E1 & F1). destruct (stress_rows np nv k mu q l N e x G Hk Hmu Hq Hmv He Fe HS) as (r2 & E2 & F2).
  exists x, r1. eexists. exists r2. eexists. rewrite epsilon0_of_eq, strain_of_eq, stress_of_eq, Ex by exact Rd. split; [reflexivity|]. split; [exact E1|]. split; [reflexivity|]. split; [exact F1|]. split; [exact E2|]. split; [reflexivity|exact F2].
Qed.

(** ** margins *)
Definition allow_f (m : fmaterial) : fallow := match m with FOrtho o => FAllow (fo_t1 o) (fo_c1 o) (fo_t2 o) (fo_c2 o) (fo_s o) | FIso _ => FAllow fzero fzero fzero fzero fzero end.
Definition allow_x (m : fmaterial) : allow := match exact_mat m with Ortho o => Allow (o_t1 o) (o_c1 o) (o_t2 o) (o_c2 o) (o_s o) | Iso _ => Allow 0 0 0 0 0 end.
Definition allow_ok (a : fallow) (b : allow) : Prop :=
  (denotes (fa_t1 a) (al_t1 b) /\ denotes (fa_c1 a) (al_c1 b) /\ denotes (fa_t2 a) (al_t2 b) /\ denotes (fa_c2 a) (al_c2 b) /\ denotes (fa_s a) (al_s b)) /\
  (0 <= al_t1 b /\ 0 <= al_c1 b /\ 0 <= al_t2 b /\ 0 <= al_c2 b /\ 0 <= al_s b).
Lemma allows l : allowables_good l ->
  mapM (fun p => allowable_f (snd p)) l = Ok (map (fun p => allow_f (snd p)) l) /\ mapM (fun p => allowable (snd p)) (exact_layup l) = Ok (map (fun p => allow_x (snd p)) l) /\
  forall i, Forall2 (fun (x : nat * string * f64 * fallow) (y : arow) => fst (fst (fst x)) = ar_ply y /\ snd (fst (fst x)) = ar_position y /\ B2R (snd (fst x)) = ar_angle y /\ allow_ok (snd x) (ar_allow y))
    (allow_loop_f i (combine (map (fun p => allow_f (snd p)) l) (map fst l))) (allow_loop i (combine (map (fun p => allow_x (snd p)) l) (map fst (exact_layup l)))).
Proof.
  intros H. split; [|split].
  - apply mapM_ok. eapply Forall_impl; [|exact H]. intros [th m] (o & E & _). cbn [snd] in *. subst m. reflexivity.
  - unfold exact_layup. rewrite mapM_compose. apply mapM_ok. eapply Forall_impl; [|exact H]. intros [th m] (o & E & _). cbn [snd] in *. subst m. reflexivity.
  - induction H as [|[th m] l (o & E & A) H IH]; intros i; [constructor|]. cbn [snd] in E. subst m. cbn [map fst snd combine allow_loop_f allow_loop exact_layup].
    assert (K : allow_ok (allow_f (FOrtho o)) (allow_x (FOrtho o))).
    { inversion A as [|? ? [F1 P1] A1]; subst. inversion A1 as [|? ? [F2 P2] A2]; subst. inversion A2 as [|? ? [F3 P3] A3]; subst. inversion A3 as [|? ? [F4 P4] A4]; subst. inversion A4 as [|? ? [F5 P5] A5]; subst.
      split; [repeat split; assumption|]. repeat split; assumption. }
    constructor; [repeat split; apply K|]. constructor; [repeat split; apply K|]. apply IH.
Qed.
Lemma Forall2_combine {A B C D} (R1 : A -> B -> Prop) (R2 : C -> D -> Prop) a b : Forall2 R1 a b -> forall c d, Forall2 R2 c d -> Forall2 (fun x y => R1 (fst x) (fst y) /\ R2 (snd x) (snd y)) (combine a c) (combine b d).
Proof. induction 1 as [|x y a b H _ IH]; intros c d K; [constructor|]. inversion K as [|u v c' d' Ku Kc]; subst; cbn [combine]; constructor; [split; assumption|apply IH, Kc]. Qed.
Lemma Forall2_imp {A B} (R1 R2 : A -> B -> Prop) a b : (forall x y, R1 x y -> R2 x y) -> Forall2 R1 a b -> Forall2 R2 a b.
Proof. intros H. induction 1; constructor; auto. Qed.
Lemma Forall2_map2 {A B C D} (R1 : C -> D -> Prop) (f : A -> C) (g : B -> D) a b : Forall2 (fun x y => R1 (f x) (g y)) a b -> Forall2 R1 (map f a) (map g b).
Proof. induction 1; constructor; assumption. Qed.
Lemma not_less x y : fin x -> fin y -> (flt x y = false <-> B2R y <= B2R x).
Proof. intros Fx Fy. rewrite <- not_true_iff_false, (flt_fin x y Fx Fy). lra. Qed.
Lemma nbz x r : denotes x r -> 0 <= r -> not_below_zero x.
Proof. intros H K. right. right. eauto. Qed.
Lemma tension t r s : denotes t r -> 0 <= r -> fin s -> (flt (margin_t t s) fzero = false -> B2R s <= r) /\ (B2R s <= r -> B2R s <> 0 -> flt (margin_t t s) fzero = false).
Proof.
  intros D P F. assert (K := T_Margin.t_C31_tension t s (nbz _ _ D P)). rewrite <- !flt_less in K. destruct D as [Ft Vt]. rewrite (flt_fin t s Ft F), Vt in K. split.
  - intros H. destruct (Rle_or_lt (B2R s) r) as [L|L]; [exact L|]. rewrite (proj2 K (or_introl L)) in H. discriminate.
  - intros L N. apply not_true_iff_false. intros C. apply K in C. destruct C as [C|[C _]]; [lra|]. subst s. apply N. reflexivity.
Qed.
Lemma compression t r s : denotes t r -> 0 <= r -> fin s -> (flt (margin_c t s) fzero = false <-> - r <= B2R s).
Proof.
  intros D P F. assert (K := T_Margin.t_C31_compression t s (nbz _ _ D P)). rewrite <- !flt_less in K. destruct D as [Ft Vt].
  assert (F' : fin (fopp s)) by (unfold fopp; rewrite is_finite_Bopp; exact F). assert (V' : B2R (fopp s) = - B2R s) by apply B2R_Bopp. rewrite (flt_fin t _ Ft F'), Vt, V' in K. rewrite <- not_true_iff_false, K. lra.
Qed.
Lemma shear t r s : denotes t r -> 0 <= r -> fin s -> (flt (margin_s t s) fzero = false <-> Rabs (B2R s) <= r).
Proof.
  intros D P F. assert (K := T_Margin.t_C31_shear t s (nbz _ _ D P)). rewrite <- !flt_less in K. destruct D as [Ft Vt].
  assert (F' : fin (fabs s)) by (unfold fabs; rewrite is_finite_Babs; exact F). assert (V' : B2R (fabs s) = Rabs (B2R s)) by apply B2R_Babs. rewrite (flt_fin t _ Ft F'), Vt, V' in K. rewrite <- not_true_iff_false, K. lra.
Qed.
Lemma one_row zo off (x : nat * string * f64 * fallow) (y : arow) (f : frow) (r : row) : fst (fst (fst x)) = ar_ply y /\ snd (fst (fst x)) = ar_position y /\ B2R (snd (fst x)) = ar_angle y /\ allow_ok (snd x) (ar_allow y) -> row_near zo off f r ->
  margin_near off (margin_row x f) (MRow (ar_ply y) (ar_position y) (ar_angle y) (ar_allow y, r_12 r)).
Proof.
  destruct x as [[[ply pos] ang] al]. destruct y as [ply' pos' ang' b]. cbn [fst snd ar_ply ar_position ar_angle ar_allow]. intros (-> & -> & EA & (D1 & D2 & D3 & D4 & D5) & P1 & P2 & P3 & P4 & P5) H.
  destruct (rn_12 _ _ _ _ H 0%nat ltac:(lia)) as [F0 R0]. destruct (rn_12 _ _ _ _ H 1%nat ltac:(lia)) as [F1 R1]. destruct (rn_12 _ _ _ _ H 2%nat ltac:(lia)) as [F2 R2]. cbn [part] in R0, R1, R2. set (w := r_12 r) in *.
  set (s0 := fr_12 f 0%nat) in *. set (s1 := fr_12 f 1%nat) in *. set (s2 := fr_12 f 2%nat) in *. assert (A0 := Rabs_le_inv _ _ R0). assert (A1 := Rabs_le_inv _ _ R1). assert (A2 := Rabs_le_inv _ _ R2).
  assert (B2 := Rabs_triang_inv (vz w) (B2R s2)). rewrite Rabs_minus_sym in B2. assert (B2' := Rabs_triang_inv (B2R s2) (vz w)).
  assert (T1 := tension _ _ s0 D1 P1 F0). assert (C1 := compression _ _ s0 D2 P2 F0). assert (T2 := tension _ _ s1 D3 P3 F1). assert (C2 := compression _ _ s1 D4 P4 F1). assert (S := shear _ _ s2 D5 P5 F2).
  constructor; cbn [fm_ply fm_position fm_angle fm_margins margin_row mr_ply mr_position mr_angle mr_margins fst snd]; try reflexivity; try exact EA; unfold none_negative, margin_row, margin_columns; cbn [fm_margins fs_1 fs_2 fs_12]; fold s0 s1 s2.
  - intros L. inversion L as [|? ? N1 L1]; subst. inversion L1 as [|? ? N2 L2]; subst. inversion L2 as [|? ? N3 L3]; subst. inversion L3 as [|? ? N4 L4]; subst. inversion L4 as [|? ? N5 _]; subst. cbn [snd] in *.
    apply T1 in N1. apply C1 in N2. apply T2 in N3. apply C2 in N4. apply S in N5. unfold survives_within. lra.
  - intros (V1 & V2 & V3) W1 W2. assert (Z1 : B2R s0 <> 0). { intros Z. rewrite Z in R0. rewrite <- Rabs_Ropp in W1. replace (- vx w) with (0 - vx w) in W1 by ring. lra. }
    assert (Z2 : B2R s1 <> 0). { intros Z. rewrite Z in R1. rewrite <- Rabs_Ropp in W2. replace (- vy w) with (0 - vy w) in W2 by ring. lra. }
    repeat constructor; cbn [snd]; [apply T1; [lra|exact Z1]|apply C1; lra|apply T2; [lra|exact Z2]|apply C2; lra|apply S; lra].
  - assert (Ac : accepted al) by (repeat split; [apply (nbz _ _ D1 P1)|apply (nbz _ _ D2 P2)|apply (nbz _ _ D3 P3)|apply (nbz _ _ D4 P4)|apply (nbz _ _ D5 P5)]).
    assert (LT : forall x u y, denotes x u -> fin y -> (less x y <-> u < B2R y)) by (intros x u y [Fx <-] Fy; rewrite <- flt_less; apply flt_fin; assumption).
    assert (FO : forall y, fin y -> fin (fopp y) /\ B2R (fopp y) = - B2R y) by (intros y Fy; unfold fopp; rewrite is_finite_Bopp, B2R_Bopp; auto).
    assert (FA' : fin (fabs s2) /\ B2R (fabs s2) = Rabs (B2R s2)) by (unfold fabs; rewrite is_finite_Babs, B2R_Babs; auto). destruct (FO s0 F0) as [G0 W0]. destruct (FO s1 F1) as [G1 W1]. destruct FA' as [G2 W2].
    intros Y1 Y2 n Hn. assert (Z1 : B2R s0 <> 0). { intros Z. rewrite Z in R0. rewrite <- Rabs_Ropp in Y1. replace (- vx w) with (0 - vx w) in Y1 by ring. lra. }
    assert (Z2 : B2R s1 <> 0). { intros Z. rewrite Z in R1. rewrite <- Rabs_Ropp in Y2. replace (- vy w) with (0 - vy w) in Y2 by ring. lra. }
    assert (Ex : exceeds al (FStress s0 s1 s2) n).
    { destruct Hn; constructor; cbn [fs_1 fs_2 fs_12]; [apply (LT _ _ _ D1 F0)|apply (LT _ _ _ D2 G0); rewrite W0|apply (LT _ _ _ D3 F1)|apply (LT _ _ _ D4 G1); rewrite W1|apply (LT _ _ _ D5 G2); rewrite W2]; lra. }
    destruct (t_C33_failure al (FStress s0 s1 s2) n Ac ltac:(cbn [fs_1]; intros Z; apply Z1; rewrite Z; reflexivity) ltac:(cbn [fs_2]; intros Z; apply Z2; rewrite Z; reflexivity) Ex) as (n' & E' & X'). exists n'. split; [exact E'|].
    destruct X' as [X'|X'|X'|X'|X']; cbn [fs_1 fs_2 fs_12] in X'; constructor; [apply (LT _ _ _ D1 F0) in X'|apply (LT _ _ _ D2 G0) in X'; rewrite W0 in X'|apply (LT _ _ _ D3 F1) in X'|apply (LT _ _ _ D4 G1) in X'; rewrite W1 in X'|apply (LT _ _ _ D5 G2) in X'; rewrite W2 in X']; lra.
Qed.
(*@ C96: the verdict of the margin table. With orthotropic plies and allowables that are numbers >= 0, the table of margins computed in binary64 has the plies, positions and angles of
    the exact table under the given loads; a row without a negative margin means that the exact stresses exceed no allowable by more than the error of the stresses, and exact stresses
    inside the allowables by that error (and not within it of zero) give no negative margin. If an allowable is exceeded by more than the error, the column critical names one that
    is exceeded up to the error. @*)
Lemma t_C96_margins : forall np nv k mu q l N e, good_layup np k mu q l -> 0 <= k <= 1000000 -> powerRZ 2 (-40) <= mu -> powerRZ 2 (-200) <= q <= powerRZ 2 190 -> mv_near 3 (np_mv nv) ->
  epsilon0_f np nv l N = Ok e -> finite_vec 6 e -> strain_size (total l) (six e) <= powerRZ 2 300 -> allowables_good l ->
  exists x rows rows', epsilon0_of (exact_layup l) (six N) = Ok x /\ calculate_maxstressmargin_f np nv l N = Ok rows /\ table (exact_layup l) (six N) = Ok rows' /\
    Forall2 (margin_near (stress_off k mu q l (six e) + 10 * q * strain_size (total l) (minus6 (six e) x))) rows rows'.
Proof.
  intros np nv k mu q l N e G Hk Hmu Hq Hmv He Fe HS HA. destruct (layup_admissible _ _ _ _ _ G Hmu) as [Ad Ne]. assert (Rd := admissible_readable _ Ad). destruct (sol_exists _ (six N) Ne Ad) as [x Ex].
  destruct (stress_rows np nv k mu q l N e x G Hk Hmu Hq Hmv He Fe HS) as (r2 & E2 & F2). destruct (allows l HA) as (A1 & A2 & A3).
  exists x. eexists. eexists. unfold table. rewrite epsilon0_of_eq, margin_of_eq by exact Rd. split; [exact Ex|]. unfold calculate_maxstressmargin_f, pure_margin. rewrite A1, A2, Ex. cbn [bind]. rewrite E2. cbn [bind]. split; [reflexivity|]. split; [reflexivity|].
  unfold mg_rows. apply Forall2_map2. eapply Forall2_imp; [|apply (Forall2_combine _ _ _ _ (A3 0%nat) _ _ F2)]. intros [xa xf] [ya yr] [H1 H2]. cbn [fst snd] in *. eapply one_row; eassumption.
Qed.

(** ** the plain loop *)
Lemma rs_S n f : row_sum (S n) f = row_sum n f + f n.
Proof. unfold row_sum. rewrite seq_S, map_app, rsum_app. cbn [map rsum Nat.add]. ring. Qed.
Lemma loop_inv (x y : fvec) m : (m < 1000)%nat -> (forall k, (k <= m)%nat -> fin (x k) /\ fin (y k)) -> row_sum (S m) (fun k => Rabs (B2R (x k) * B2R (y k))) <= bp 900 ->
  fin (dot_loop x y m) /\ Rabs (B2R (dot_loop x y m) - row_sum (S m) (fun k => B2R (x k) * B2R (y k))) <=
    (INR (S m) * unit + INR (S m) * INR (S m) * unit * unit) * row_sum (S m) (fun k => Rabs (B2R (x k) * B2R (y k))) + 4 * INR (S m) * bp (-1075).
Proof.
  assert (u := unit_val). assert (E9 : bp 900 * 8 = bp 903) by (replace 8 with (bp 3) by (cbn; lra); rewrite <- bpow_plus; reflexivity). assert (E23 : bp 903 <= bp 1023) by (apply bpow_le; lia).
  assert (P9 : 1 <= bp 900) by (change 1 with (bp 0); apply bpow_le; lia). assert (t0 : 0 < bp (-1075)) by apply bpow_gt_0. assert (t1 : bp (-1075) <= / 1000000) by (apply Rle_trans with (bp (-20)); [apply bpow_le; lia|cbn; lra]).
  induction m as [|m IH]; intros Hm F HM.
  - cbn [dot_loop]. rewrite !rs_S in *. change (row_sum 0 (fun k => Rabs (B2R (x k) * B2R (y k)))) with 0 in *. change (row_sum 0 (fun k => B2R (x k) * B2R (y k))) with 0 in *. rewrite !Rplus_0_l in *.
    destruct (F 0%nat ltac:(lia)) as [Fx Fy]. destruct (mul_err (x 0%nat) (y 0%nat) Fx Fy ltac:(lra)) as [F0 E0]. split; [exact F0|]. eapply Rle_trans; [exact E0|]. cbn [INR].
    set (a := Rabs (B2R (x 0%nat) * B2R (y 0%nat))) in *. assert (0 <= a) by apply Rabs_pos. assert (0 <= 1 * 1 * unit * unit * a) by (repeat apply Rmult_le_pos; lra). lra.
  - rewrite (rs_S (S m)) in HM. set (xm := B2R (x (S m)) * B2R (y (S m))) in *. set (Mg := row_sum (S m) (fun k => Rabs (B2R (x k) * B2R (y k)))) in *. assert (X0 := Rabs_pos xm).
    assert (M0 : 0 <= Mg). { unfold Mg. replace 0 with (row_sum (S m) (fun _ => 0)). - apply rs_le. intros j _. apply Rabs_pos. - unfold row_sum. induction (seq 0 (S m)) as [|i s IHs]; cbn [map rsum]; [reflexivity|rewrite IHs; ring]. }
    destruct (IH ltac:(lia) ltac:(intros k Hk; apply F; lia) ltac:(lra)) as [Fs Es]. cbn [dot_loop]. rewrite !(rs_S (S m)). fold xm Mg. set (s := dot_loop x y m) in *. set (Sm := row_sum (S m) (fun k => B2R (x k) * B2R (y k))) in *.
    assert (SM : Rabs Sm <= Mg) by apply rs_abs.
    destruct (F (S m) ltac:(lia)) as [Fx Fy]. destruct (mul_err (x (S m)) (y (S m)) Fx Fy ltac:(fold xm; lra)) as [Fp Ep]. fold xm in Ep. set (p := fmul (x (S m)) (y (S m))) in *.
    rewrite (S_INR (S m)). set (n := INR (S m)) in *. assert (n1 : 1 <= n <= 1000). { unfold n. split; [apply (le_INR 1); lia|]. replace 1000 with (INR 1000) by (rewrite INR_IZR_INZ; reflexivity). apply le_INR. lia. }
    set (t := bp (-1075)) in *. set (w := unit) in *. assert (w0 : 0 < w) by lra.
    assert (nn : n * n <= 1000000) by nra. assert (nw : n * w + n * n * w * w <= / 1000). { assert (n * w <= 1000 * w) by (apply Rmult_le_compat_r; lra). assert (n * n * w * w <= 1000000 * w * w) by (repeat (apply Rmult_le_compat_r; [lra|]); exact nn). assert (1000000 * w * w <= 1000000 * / 1000000000 * w) by (apply Rmult_le_compat_r; [lra|apply Rmult_le_compat_l; lra]). lra. }
    assert (Es' : Rabs (B2R s - Sm) <= / 1000 * Mg + 4000 * t). { eapply Rle_trans; [exact Es|]. apply Rplus_le_compat; [apply Rmult_le_compat_r; assumption|]. apply Rmult_le_compat_r; lra. }
    assert (Bs : Rabs (B2R s) <= Mg + Rabs (B2R s - Sm)). { replace (B2R s) with (Sm + (B2R s - Sm)) at 1 by ring. eapply Rle_trans; [apply Rabs_triang|]. lra. }
    assert (Bp : Rabs (B2R p) <= Rabs xm + (w * Rabs xm + t)). { replace (B2R p) with (xm + (B2R p - xm)) by ring. eapply Rle_trans; [apply Rabs_triang|]. lra. }
    assert (wx : w * Rabs xm <= / 1000 * Rabs xm) by (apply Rmult_le_compat_r; lra). assert (Tr := Rabs_triang (B2R s) (B2R p)).
    destruct (add_err s p Fs Fp ltac:(lra)) as [Fa Ea]. split; [exact Fa|]. fold w in Ea.
    replace (B2R (fadd s p) - (Sm + xm)) with ((B2R (fadd s p) - (B2R s + B2R p)) + ((B2R s - Sm) + (B2R p - xm))) by ring.
    eapply Rle_trans; [apply Rabs_triang|]. assert (Tr2 := Rabs_triang (B2R s - Sm) (B2R p - xm)).
    set (e := Rabs (B2R s - Sm)) in *. assert (e0 : 0 <= e) by apply Rabs_pos.
    assert (Ea' : Rabs (B2R (fadd s p) - (B2R s + B2R p)) <= w * (Mg + e + (Rabs xm + (w * Rabs xm + t)))). { eapply Rle_trans; [exact Ea|]. apply Rmult_le_compat_l; lra. }
    assert (we : w * e <= w * ((n * w + n * n * w * w) * Mg + 4 * n * t)) by (apply Rmult_le_compat_l; lra).
    set (ax := Rabs xm) in *.
    assert (H1 : n * n * w * (w * (w * Mg)) <= 1 * (w * (w * Mg))). { apply Rmult_le_compat_r; [repeat apply Rmult_le_pos; lra|]. assert (n * n * w <= 1000000 * w) by (apply Rmult_le_compat_r; lra). lra. }
    assert (H2 : 4 * n * (w * t) <= 1 * t). { replace (4 * n * (w * t)) with (4 * n * w * t) by ring. apply Rmult_le_compat_r; [lra|]. assert (n * w <= 1000 * w) by (apply Rmult_le_compat_r; lra). lra. }
    assert (H3 : w * t <= 1 * t) by (apply Rmult_le_compat_r; lra).
    assert (H4 : 0 <= w * (w * Mg)) by (repeat apply Rmult_le_pos; lra). assert (H4n : w * (w * Mg) <= n * (w * (w * Mg))) by (rewrite <- (Rmult_1_l (w * (w * Mg))) at 1; apply Rmult_le_compat_r; lra).
    assert (H5 : 0 <= w * (w * ax)) by (repeat apply Rmult_le_pos; lra). assert (H6 : 0 <= w * ax) by (apply Rmult_le_pos; lra).
    assert (H7 : 1 * (w * ax) <= n * (w * ax)) by (apply Rmult_le_compat_r; lra). assert (H8 : 1 * (w * (w * ax)) <= (n + 1) * (n + 1) * (w * (w * ax))) by (apply Rmult_le_compat_r; [lra|nra]).
    replace (((n + 1) * w + (n + 1) * (n + 1) * w * w) * (Mg + ax) + 4 * (n + 1) * t) with
      ((n * w + n * n * w * w) * Mg + w * Mg + 2 * (n * (w * (w * Mg))) + w * (w * Mg) + n * (w * ax) + w * ax + (n + 1) * (n + 1) * (w * (w * ax)) + 4 * n * t + 4 * t) by ring.
    replace (w * (Mg + e + (ax + (w * ax + t)))) with (w * Mg + w * e + w * ax + w * (w * ax) + w * t) in Ea' by ring.
    replace (w * ((n * w + n * n * w * w) * Mg + 4 * n * t)) with (n * (w * (w * Mg)) + n * n * w * (w * (w * Mg)) + 4 * n * (w * t)) in we by ring. lra.
Qed.
(*@ C96: what is assumed of numpy's products of an array with a vector holds for the plain loop, for vectors of up to a thousand entries. @*)
Lemma t_C96_loop : forall n, (1 <= n <= 1000)%nat -> mv_near n (loop_product n).
Proof.
  intros n Hn X v FX Fv HM i Hi. specialize (HM i Hi). unfold row_magnitude, row_product, loop_product in *. rewrite pz in *. destruct n as [|m]; [lia|]. replace (S m - 1)%nat with m by lia.
  destruct (loop_inv (X i) v m ltac:(lia) ltac:(intros k Hk; split; [apply FX; lia|apply Fv; lia]) HM) as [F E]. split; [exact F|]. eapply Rle_trans; [exact E|]. assert (u := unit_val).
  set (Mg := row_sum (S m) (fun k => Rabs (B2R (X i k) * B2R (v k)))) in *. assert (M0 : 0 <= Mg) by (eapply Rle_trans; [apply Rabs_pos|apply rs_abs]).
  set (k := INR (S m)) in *. assert (n1 : 1 <= k <= 1000). { unfold k. split; [apply (le_INR 1); lia|]. replace 1000 with (INR 1000) by (rewrite INR_IZR_INZ; reflexivity). apply le_INR. lia. }
  apply Rplus_le_compat.
  - apply Rmult_le_compat_r; [exact M0|]. assert (k * k <= 1000000) by nra. assert (k * k * unit * unit <= 1 * unit); [|lra]. apply Rmult_le_compat_r; [lra|]. assert (k * k * unit <= 1000000 * unit) by (apply Rmult_le_compat_r; lra). lra.
  - assert (t0 : 0 < bp (-1075)) by apply bpow_gt_0. assert (b12 : bp 12 = 4096) by (cbn; lra). apply Rle_trans with (bp 12 * bp (-1075)); [apply Rmult_le_compat_r; [lra|rewrite b12; lra]|]. rewrite <- bpow_plus. apply bpow_le. lia.
Qed.

(** ** an example *)
Definition one_ply : fomat := let a := fone in FOMat (f_of_Z 4) (f_of_Z 2) fzero (f_of_Z 1) (f_of_Z_exp 1 (-1)) a a a a a (fmul fzero (fdiv (f_of_Z 2) (f_of_Z 4))).
Definition one_lay : list (f64 * fmaterial) := [(fzero, FOrtho one_ply)].
Definition one_inv : farr := fun i j => if Nat.eqb i j then match i with 0 => f_of_Z_exp 1 (-1) | 1 => fone | 2 => f_of_Z 2 | 3 => f_of_Z 24 | 4 => f_of_Z 48 | _ => f_of_Z 96 end%nat else fzero.
Definition one_nv : numpy_v := NumpyV (loop_product 3) (fun _ => Ok one_inv) (loop_product 6).
Definition one_load : fvec := fun i => match i with 0 => f_of_Z_exp 1 (-3) | 1 => f_of_Z_exp 1 (-4) | 3 => f_of_Z_exp 1 (-6) | _ => fzero end%nat.
Definition one_ABD : farr := match ABD_f ex_np one_lay with Ok M => M | Err _ => fid end.
Definition one_val (i j : nat) : Z * Z := if Nat.eqb i j then match i with 0%nat => (1, 1) | 1%nat => (1, 0) | 2%nat => (1, -1) | 3%nat => (6004799503160661, -57) | 4%nat => (6004799503160661, -58) | _ => (6004799503160661, -59) end%Z else (0, 0)%Z.
Lemma value_exp x m e : (Z.abs m < 2 ^ 53)%Z -> (-1074 <= e <= 971)%Z -> fin x -> feq x (f_of_Z_exp m e) = true -> B2R x = IZR m * bp e.
Proof. intros H1 H2 F E. destruct (f_of_Z_exp_denotes m e H1 H2) as [F' V]. apply (proj1 (feq_fin _ _ F F')) in E. rewrite E, V. reflexivity. Qed.
Lemma one_entries : forallb (fun i => forallb (fun j => let x := one_ABD i j in (is_finite x && feq x (f_of_Z_exp (fst (one_val i j)) (snd (one_val i j))))%bool) (seq 0 6)) (seq 0 6) = true.
Proof. vm_compute. reflexivity. Qed.
Lemma one_ok : ABD_f ex_np one_lay = Ok one_ABD.
Proof.
  assert (E : match ABD_f ex_np one_lay with Ok _ => true | Err _ => false end = true) by (vm_compute; reflexivity). unfold one_ABD. destruct (ABD_f ex_np one_lay); [reflexivity|discriminate].
Qed.
Lemma one_entry i j : (i < 6)%nat -> (j < 6)%nat -> fin (one_ABD i j) /\ B2R (one_ABD i j) = IZR (fst (one_val i j)) * bp (snd (one_val i j)).
Proof.
  intros Hi Hj. assert (E := one_entries). rewrite forallb_forall in E. specialize (E i ltac:(apply in_seq; lia)). rewrite forallb_forall in E. specialize (E j ltac:(apply in_seq; lia)). cbv zeta in E. apply andb_prop in E. destruct E as [E1 E2].
  split; [exact E1|]. apply value_exp; try assumption; unfold one_val; destruct (Nat.eqb i j); try (cbn; lia); destruct i as [|[|[|[|[|i]]]]]; cbn; lia.
Qed.
Lemma int_val z : (Z.abs z < 2 ^ 53)%Z -> fin (f_of_Z z) /\ B2R (f_of_Z z) = IZR z.
Proof. intros H. destruct (f_of_Z_exp_denotes z 0 H ltac:(lia)) as [F V]. change (f_of_Z_exp z 0) with (f_of_Z z) in *. split; [exact F|]. rewrite V. cbn. ring. Qed.
Lemma one_inv_val i j : (i < 6)%nat -> (j < 6)%nat -> fin (one_inv i j) /\ B2R (one_inv i j) = if Nat.eqb i j then match i with 0%nat => / 2 | 1%nat => 1 | 2%nat => 2 | 3%nat => 24 | 4%nat => 48 | _ => 96 end else 0.
Proof.
  intros Hi Hj. unfold one_inv. destruct (Nat.eqb i j); [|split; reflexivity].
  destruct i as [|[|[|[|[|[|i]]]]]]; try lia; [|exact fone_val|apply (int_val 2); lia|apply (int_val 24); lia|apply (int_val 48); lia|apply (int_val 96); lia].
  destruct (f_of_Z_exp_denotes 1 (-1) ltac:(lia) ltac:(lia)) as [F V]. split; [exact F|]. rewrite V. cbn. lra.
Qed.
Lemma one_inverse : inv6_near one_nv (fun _ _ => powerRZ 2 (-50)) one_ABD one_inv.
Proof.
  split; [reflexivity|]. split; [intros i j Hi Hj; apply one_inv_val; assumption|]. intros i j Hi Hj. rewrite pz. assert (b50 : bp (-50) = / 1125899906842624) by (cbn; lra). rewrite b50.
  unfold row_sum. cbn [seq map rsum]. rewrite !(fun k Hk => proj2 (one_entry i k Hi Hk)) by lia. rewrite !(fun k Hk => proj2 (one_inv_val k j Hk Hj)) by lia.
  assert (b57 : bp (-57) = / 144115188075855872) by (cbn; lra). assert (b58 : bp (-58) = / 288230376151711744) by (cbn; lra). assert (b59 : bp (-59) = / 576460752303423488) by (cbn; lra). assert (b1 : bp 1 = 2) by (cbn; lra). assert (b1' : bp (-1) = / 2) by (cbn; lra). assert (b0 : bp 0 = 1) by reflexivity.
  destruct i as [|[|[|[|[|[|i]]]]]]; try lia; (destruct j as [|[|[|[|[|[|j]]]]]]; try lia); cbn [Nat.eqb one_val fst snd]; rewrite ?b57, ?b58, ?b59, ?b1, ?b1', ?b0; apply Rabs_le; lra.
Qed.
Lemma one_Q0 : Q_0 (exact_mat (FOrtho one_ply)) = Ok (M3 4 0 0 0 2 0 0 0 1) /\ thickness (exact_mat (FOrtho one_ply)) = 1 / 2.
Proof.
  unfold exact_mat, exact_ply, one_ply. cbn [fo_e1 fo_e2 fo_v12 fo_g12 fo_thickness fo_t1 fo_c1 fo_t2 fo_c2 fo_s]. rewrite (proj2 (int_val 4 ltac:(lia))), (proj2 (int_val 2 ltac:(lia))), (proj2 (int_val 1 ltac:(lia))). change (B2R fzero) with 0.
  split; [|cbn [thickness o_thickness]; rewrite val by lia; cbn; lra].
  unfold Q_0, o_Q0, pydiv, o_v21. cbn [o_e1 o_e2 o_v12 o_g12]. destruct (Req_EM_T _ 0) as [Z|_]; [exfalso; lra|]. cbn [bind]. f_equal. f_equal; field.
Qed.
Lemma one_good : good_layup ex_np 0 (1 / 2) 8 one_lay.
Proof.
  destruct (int_val 4 ltac:(lia)) as [F4 V4]. destruct (int_val 2 ltac:(lia)) as [F2 V2]. destruct (int_val 1 ltac:(lia)) as [F1 V1].
  assert (P : forall x r, fin x -> B2R x = r -> / 8 <= r <= 131072 -> usual0 x).
  { intros x r F E B. split; [exact F|right]. rewrite E, Rabs_right by lra. rewrite !pz. split; [apply Rle_trans with (bp (-3)); [apply bpow_le; lia|cbn; lra]|apply Rle_trans with (bp 17); [cbn; lra|apply bpow_le; lia]]. }
  assert (Z0 : usual0 fzero) by (split; [reflexivity|left; reflexivity]).
  split.
  - constructor; [|constructor]. cbn [fst snd]. split; [exact ex_near0|]. split; [split; [exact Z0|change (B2R fzero) with 0; rewrite Rabs_R0; lra]|]. split.
    + split; [|split].
      * exists (fun _ => None), (OArgs (PFloat (f_of_Z 4)) (PFloat (f_of_Z 2)) (PFloat fzero) (PFloat (f_of_Z 1)) (PFloat (f_of_Z_exp 1 (-1))) (PFloat fone) (PFloat fone) (PFloat fone) (PFloat fone) (PFloat fone)).
        assert (N : forall x, flt x fzero = false -> float_number (fun _ => None) (PFloat x) (Some fzero) None = Ok x) by (intros x E; cbn; rewrite E; reflexivity).
        unfold ortho_init. cbn [ao_e1 ao_e2 ao_v12 ao_g12 ao_thickness ao_t1 ao_c1 ao_t2 ao_c2 ao_s]. rewrite !N by (vm_compute; reflexivity). cbn [bind].
        assert (V : float_number (fun _ => None) (PFloat fzero) (Some (fopp fhalf)) (Some fhalf) = Ok fzero) by reflexivity. rewrite V. cbn [bind]. unfold py_fdiv. replace (feq (f_of_Z 4) fzero) with false by (vm_compute; reflexivity). reflexivity.
      * constructor; cbn [one_ply fo_e1 fo_e2 fo_v12 fo_g12]; [split; [apply (P _ _ F4 V4)|]; lra|split; [apply (P _ _ F2 V2)|]; lra|split; [apply (P _ _ F1 V1)|]; lra|exact Z0].
      * unfold margin. cbn [one_ply fo_e1 fo_e2 fo_v12]. rewrite V4, V2. change (B2R fzero) with 0. lra.
    + eexists. split; [apply one_Q0|]. unfold size. cbn [a11 a12 a22 a33]. rewrite !Rabs_right by lra. lra.
  - split; [|cbn [length map INR one_lay]; split; [lia|lra]]. assert (usual (f_of_Z_exp 1 (-1))) by (apply usual_of; lia). apply Forall_cons; [assumption|apply Forall_nil].
Qed.
Definition one_exact : mat6 := M6 (M3 2 0 0 0 1 0 0 0 (1 / 2)) (M3 0 0 0 0 0 0 0 0 0) (M3 0 0 0 0 0 0 0 0 0) (M3 (1 / 24) 0 0 0 (1 / 48) 0 0 0 (1 / 96)).
Lemma one_exact_ok : ABD_of (exact_layup one_lay) = Ok one_exact.
Proof.
  assert (Rd : all_readable (exact_layup one_lay)) by (constructor; [|constructor]; cbn [snd]; eexists; apply one_Q0). rewrite ABD_of_eq by exact Rd. f_equal.
  assert (Q0 : Qbar 0 (exact_mat (FOrtho one_ply)) = M3 4 0 0 0 2 0 0 0 1).
  { unfold Qbar, Q0p. rewrite (proj1 one_Q0). unfold cdeg, sdeg. replace (0 * PI / 180) with 0 by field. rewrite cos_0, sin_0. unfold rot, T_real_inv, T_engineering, mmul. cbn [a11 a12 a13 a21 a22 a23 a31 a32 a33]. apply mat3_ext; cbn [a11 a12 a13 a21 a22 a23 a31 a32 a33]; field. }
  unfold one_exact. fold (ABDp (exact_layup one_lay)). unfold ABDp, Lsum, exact_layup, one_lay, pairs. cbn [map fst snd]. change (B2R fzero) with 0. rewrite Q0, (proj2 one_Q0). unfold z_bottom, hsum. cbn [map fst rsum lsum]. unfold wA, wB, wD, madd, mscale, mzero.
  f_equal; apply mat3_ext; cbn [a11 a12 a13 a21 a22 a23 a31 a32 a33]; field.
Qed.
Lemma one_total : total one_lay = 1 / 2.
Proof. unfold total, height, one_lay. cbn [map rsum snd f_thickness one_ply fo_thickness]. rewrite (val 1 (-1)) by lia. assert (b : bp (-1) = / 2) by (cbn; lra). rewrite b. lra. Qed.
Definition one_e : fvec := loop_product 6 one_inv one_load.
Lemma one_strains : finite_vec 6 one_e /\ six one_e = (V3 (1 / 16) (1 / 16) 0, V3 (3 / 8) 0 0).
Proof.
  assert (E : forallb (fun i => let x := one_e i in (is_finite x && feq x (match i with 0 | 1 => f_of_Z_exp 1 (-4) | 3 => f_of_Z_exp 3 (-3) | _ => f_of_Z_exp 0 0 end%nat))%bool) (seq 0 6) = true) by (vm_compute; reflexivity). rewrite forallb_forall in E.
  assert (K : forall i m e, (i < 6)%nat -> match i with 0 | 1 => f_of_Z_exp 1 (-4) | 3 => f_of_Z_exp 3 (-3) | _ => f_of_Z_exp 0 0 end%nat = f_of_Z_exp m e -> (Z.abs m < 2 ^ 53)%Z -> (-1074 <= e <= 971)%Z -> B2R (one_e i) = IZR m * bp e).
  { intros i m e Hi Hm H1 H2. specialize (E i ltac:(apply in_seq; lia)). cbv zeta in E. rewrite Hm in E. apply andb_prop in E. destruct E as [E1 E2]. apply value_exp; assumption. }
  split; [intros i Hi; specialize (E i ltac:(apply in_seq; lia)); cbv zeta in E; apply andb_prop in E; apply E|].
  unfold six. rewrite (K 0%nat 1%Z (-4)%Z), (K 1%nat 1%Z (-4)%Z), (K 2%nat 0%Z 0%Z), (K 3%nat 3%Z (-3)%Z), (K 4%nat 0%Z 0%Z), (K 5%nat 0%Z 0%Z); try reflexivity; try lia. cbn. do 2 f_equal; lra.
Qed.
(*@ C96: the hypotheses are met, by a ply of thickness 1/2 at 0 degrees (e1 = 4, e2 = 2, v12 = 0, g12 = 1, allowables 1) under Nxx = 1/8, Nyy = 1/16 and Mxx = 1/64: the computed D has
    rounding errors, the inverse used has a residual below 2^-50, and the strains found are 1/16, 1/16 and the curvature 3/8. @*)
Example t_C96_ex : exists np nv l N Mf Y e M, good_layup np 0 (1 / 2) 8 l /\ mv_near 3 (np_mv nv) /\ mv_near 6 (np_mv6 nv) /\ ABD_f np l = Ok Mf /\ inv6_near nv (fun _ _ => powerRZ 2 (-50)) Mf Y /\
  finite_vec 6 N /\ (forall i, (i < 6)%nat -> row_magnitude 6 Y N i <= powerRZ 2 900) /\ epsilon0_f np nv l N = Ok e /\ finite_vec 6 e /\ strain_size (total l) (six e) <= powerRZ 2 300 /\ allowables_good l /\
  six e = (V3 (1 / 16) (1 / 16) 0, V3 (3 / 8) 0 0) /\ ABD_of (exact_layup l) = Ok M /\ B2R (Mf 3%nat 3%nat) <> a11 (blkD M) /\ forall v, / 100 * dot6 v v <= dot6 v (mvec6 M v).
Proof.
  exists ex_np, one_nv, one_lay, one_load, one_ABD, one_inv, one_e, one_exact. destruct one_strains as [Fe Ee].
  split; [exact one_good|]. split; [apply t_C96_loop; lia|]. split; [apply t_C96_loop; lia|]. split; [exact one_ok|]. split; [exact one_inverse|].
  assert (b900 : 128 <= powerRZ 2 900) by (rewrite pz; change 128 with (bp 7); apply bpow_le; lia).
  assert (LV : forall i, (i < 6)%nat -> fin (one_load i) /\ 0 <= B2R (one_load i) <= 1 / 8).
  { intros i Hi. destruct (f_of_Z_exp_denotes 1 (-3) ltac:(lia) ltac:(lia)) as [Fa Va]. destruct (f_of_Z_exp_denotes 1 (-4) ltac:(lia) ltac:(lia)) as [Fb Vb]. destruct (f_of_Z_exp_denotes 1 (-6) ltac:(lia) ltac:(lia)) as [Fc Vc]. assert (b3 : bp (-3) = / 8) by (cbn; lra). assert (b4 : bp (-4) = / 16) by (cbn; lra). assert (b6 : bp (-6) = / 64) by (cbn; lra). rewrite b3 in Va. rewrite b4 in Vb. rewrite b6 in Vc.
    assert (Z : fin fzero /\ 0 <= B2R fzero <= 1 / 8) by (split; [reflexivity|change (B2R fzero) with 0; lra]).
    destruct i as [|[|[|[|[|[|i]]]]]]; try lia; unfold one_load; cbv iota; [split; [exact Fa|rewrite Va; lra]|split; [exact Fb|rewrite Vb; lra]|exact Z|split; [exact Fc|rewrite Vc; lra]|exact Z|exact Z]. }
  split; [intros i Hi; apply LV, Hi|]. split.
  { intros i Hi. eapply Rle_trans; [|exact b900]. unfold row_magnitude. eapply Rle_trans with (row_sum 6 (fun _ => 12)); [|unfold row_sum; cbn; lra]. apply rs_le. intros j Hj. rewrite (proj2 (one_inv_val i j Hi Hj)). destruct (LV j Hj) as [_ L]. rewrite Rabs_mult, (Rabs_right (B2R (one_load j))) by lra.
    assert (A : Rabs (if Nat.eqb i j then match i with 0%nat => / 2 | 1%nat => 1 | 2%nat => 2 | 3%nat => 24 | 4%nat => 48 | _ => 96 end else 0) <= 96). { destruct (Nat.eqb i j); [|rewrite Rabs_R0; lra]. destruct i as [|[|[|[|[|i]]]]]; rewrite Rabs_right; lra. }
    apply Rle_trans with (96 * (1 / 8)); [apply Rmult_le_compat; try apply Rabs_pos; lra|lra]. }
  split; [unfold epsilon0_f; rewrite one_ok; unfold one_nv; cbn [bind np_inv6 np_mv6]; reflexivity|]. split; [exact Fe|].
  split. { rewrite Ee, one_total. unfold strain_size. cbn [fst snd vx vy vz]. rewrite !Rabs_R0, !Rabs_right by lra. apply Rle_trans with 1; [lra|]. rewrite pz. change 1 with (bp 0). apply bpow_le. lia. }
  split. { constructor; [|constructor]. exists one_ply. split; [reflexivity|]. destruct fone_val as [F V]. repeat constructor; cbn [one_ply fo_t1 fo_c1 fo_t2 fo_c2 fo_s]; try exact F; rewrite V; lra. }
  split; [exact Ee|]. split; [exact one_exact_ok|]. split.
  { rewrite (proj2 (one_entry 3 3 ltac:(lia) ltac:(lia))). cbn [one_val Nat.eqb fst snd one_exact blkD a11]. assert (b57 : bp (-57) = / 144115188075855872) by (cbn; lra). rewrite b57. lra. }
  intros [[v1 v2 v3] [v4 v5 v6]]. unfold dot6, mvec6, one_exact, dot, mvec, vadd. cbn [fst snd vx vy vz blkA blkB blkC blkD a11 a12 a13 a21 a22 a23 a31 a32 a33].
  assert (S1 := Rle_0_sqr v1). assert (S2 := Rle_0_sqr v2). assert (S3 := Rle_0_sqr v3). assert (S4 := Rle_0_sqr v4). assert (S5 := Rle_0_sqr v5). assert (S6 := Rle_0_sqr v6). unfold Rsqr in *. lra.
Qed.
