(** Proofs of the theorems on the stiffness of a ply in binary64. *)
From Coq Require Import Reals ZArith Lra Lia Bool String.
From Flocq Require Import Core.Core IEEE754.BinarySingleNaN.
From Coq Require Import List.
From Verif Require Import M_Py M_Float M_Validate M_MatFloat M_Material M_K M_RealArith S_Mat S_Ritz S_Validate S_Laminate S_Round S_Sens S_MatFloat L_Float L_Round L_MatFloat L_Mat L_LamEnergy T_Laminate.
Import ListNotations.
Open Scope R_scope.

Lemma bind_ok {A B} (x : res A) (f : A -> res B) b : bind x f = Ok b -> exists a, x = Ok a /\ f a = Ok b.
Proof. destruct x as [a|e]; cbn; intros H; [exists a; auto|discriminate]. Qed.
Ltac step H x := let E := fresh "E" in apply bind_ok in H; destruct H as (x & E & H).
Lemma init_v21 parse a f : ortho_init parse a = Ok f -> feq (fo_e1 f) fzero = false /\ fo_v21 f = fmul (fo_v12 f) (fdiv (fo_e2 f) (fo_e1 f)).
Proof.
  unfold ortho_init. intros H. step H e1. step H e2. step H v. step H g. step H th. step H b1. step H b2. step H b3. step H b4. step H b5. step H r.
  apply Ok_inj in H. subst f. cbn [fo_e1 fo_v21 fo_v12 fo_e2]. unfold py_fdiv in E9. destruct (feq e1 fzero); [discriminate|]. apply Ok_inj in E9. subst r. split; reflexivity.
Qed.

(** ** when Q_0 raises *)
Lemma one_minus_zero x : feq (fsub fone x) fzero = true <-> same_number x fone.
Proof.
  destruct fone_val as [F1 V1]. destruct (f64_cases x) as [->|[->|[->|Fx]]].
  - split; intros H; [discriminate|]. apply feq_same in H. discriminate.
  - split; intros H; [discriminate|]. apply feq_same in H. discriminate.
  - split; intros H; [discriminate|]. apply feq_same in H. discriminate.
  - assert (S : same_number x fone <-> B2R x = 1).
    { rewrite <- feq_same. split; intros H; [apply (proj1 (feq_fin x fone Fx F1)) in H|apply (proj2 (feq_fin x fone Fx F1))]; rewrite V1 in *; exact H. }
    rewrite S. destruct (Rle_or_lt (Rabs (1 - B2R x)) (bp 1023)) as [L|L].
    + destruct (sub_err fone x F1 Fx) as [F E]; rewrite V1 in *; [exact L|]. rewrite is_zero_spec. unfold is_zero, denotes. assert (U := unit_val). split.
      * intros [_ Z]. rewrite Z in E. assert (Z' : Rabs (0 - (1 - B2R x)) = Rabs (1 - B2R x)) by (rewrite <- Rabs_Ropp; f_equal; ring). rewrite Z' in E.
        assert (0 <= Rabs (1 - B2R x)) by apply Rabs_pos. assert (Rabs (1 - B2R x) = 0) by nra. destruct (Req_dec (1 - B2R x) 0) as [Q|Q]; [lra|]. apply Rabs_no_R0 in Q. contradiction.
      * intros Z. split; [exact F|]. rewrite Z in E. replace (1 - 1) with 0 in E by ring. rewrite Rabs_R0, Rmult_0_r, Rminus_0_r in E.
        destruct (Req_dec (B2R (fsub fone x)) 0) as [Q|Q]; [exact Q|]. apply Rabs_pos_lt in Q. lra.
    + split; intros H.
      * exfalso. assert (M := @Bminus_correct 53 1024 f64_prec f64_emax mode_NE fone x F1 Fx). fold (fsub fone x) in M. rewrite V1 in M.
        apply is_zero_spec in H. destruct H as [F Z]. destruct (Rlt_bool (Rabs (rnd64 (1 - B2R x))) (bp 1024)).
        -- destruct M as (M & _). rewrite Z in M. assert (N := rnd_rel (1 - B2R x)). rewrite <- M in N. specialize (N ltac:(right; apply Rlt_le, Rle_lt_trans with (bp 1023); [apply bpow_le; lia|exact L])).
           assert (Z' : Rabs (0 - (1 - B2R x)) = Rabs (1 - B2R x)) by (rewrite <- Rabs_Ropp; f_equal; ring). rewrite Z' in N. assert (U := unit_val). assert (0 < bp 1023) by apply bpow_gt_0. nra.
        -- destruct M as (M & _). rewrite <- is_finite_SF_B2SF, M in F. cbn in F. discriminate.
      * exfalso. rewrite H in L. rewrite Rminus_diag_eq, Rabs_R0 in L by reflexivity. assert (0 < bp 1023) by apply bpow_gt_0. lra.
Qed.
(*@ C87: reading Q_0 of any accepted material raises ZeroDivisionError exactly when v12*v21, rounded, is 1; otherwise the array is symmetric to the
    last bit, its zeros are zeros and its last entry is g12 unchanged. @*)
Lemma t_C87_array : forall parse a f, ortho_init parse a = Ok f ->
  (ortho_Q0 f = Err ZeroDivisionError <-> same_number (fmul (fo_v12 f) (fo_v21 f)) fone) /\
  (forall e, ortho_Q0 f = Err e -> e = ZeroDivisionError) /\
  (forall Q, ortho_Q0 f = Ok Q -> (forall i j, Q i j = Q j i) /\ Q 0%nat 2%nat = fzero /\ Q 1%nat 2%nat = fzero /\ Q 2%nat 2%nat = fo_g12 f).
Proof.
  intros parse a f H. unfold ortho_Q0, py_fdiv. destruct (feq (fsub fone (fmul (fo_v12 f) (fo_v21 f))) fzero) eqn:E.
  - apply one_minus_zero in E. cbn [bind]. split; [split; intros _; [exact E|reflexivity]|]. split; [intros e X; congruence|intros Q X; discriminate].
  - assert (N : ~ same_number (fmul (fo_v12 f) (fo_v21 f)) fone) by (intros N; apply one_minus_zero in N; congruence).
    cbn [bind]. split; [split; [discriminate|intros X; contradiction]|]. split; [discriminate|]. intros Q EQ. apply Ok_inj in EQ. subst Q. repeat split.
    intros i j. destruct i as [|[|[|i]]], j as [|[|[|j]]]; reflexivity.
Qed.

(** ** accuracy *)
Section Ply.
Variable f : fomat.
Hypothesis Hu : usual_ply f.
Hypothesis H21 : fo_v21 f = fmul (fo_v12 f) (fdiv (fo_e2 f) (fo_e1 f)).
Hypothesis Hm : bp (-40) <= margin f.
Let e1 := B2R (fo_e1 f). Let e2 := B2R (fo_e2 f). Let v := B2R (fo_v12 f). Let g := B2R (fo_g12 f). Let d := margin f.
Let y := fsub fone (fmul (fo_v12 f) (fo_v21 f)).
Lemma pos_e1 : 0 < e1. Proof. apply Hu. Qed.
Lemma pos_e2 : 0 < e2. Proof. apply Hu. Qed.
Lemma d_eq : d = 1 - v * (v * (e2 / e1)). Proof. unfold d, margin, v, e1, e2. field. assert (X := pos_e1). unfold e1 in X. lra. Qed.
Lemma p_pos : 0 <= v * (v * (e2 / e1)).
Proof. replace (v * (v * (e2 / e1))) with (v ^ 2 * (e2 / e1)) by ring. apply Rmult_le_pos; [apply pow2_ge_0|]. left. apply Rdiv_lt_0_compat; [apply pos_e2|apply pos_e1]. Qed.
Lemma d_range : bp (-40) <= d <= 1. Proof. split; [exact Hm|]. rewrite d_eq. assert (X := p_pos). lra. Qed.
Lemma d_pos : 0 < d. Proof. eapply Rlt_le_trans; [apply (bpow_gt_0 radix2 (-40))|apply d_range]. Qed.
Lemma rest_ok : fin y /\ exists e, Rabs e <= (41 / 10 + 1 / 100) * unit / d /\ B2R y = d * (1 + e).
Proof.
  destruct (usual0_rng _ (proj1 (up_e1 f Hu))) as [F1 R1]. destruct (usual0_rng _ (proj1 (up_e2 f Hu))) as [F2 R2]. destruct (usual0_rng _ (up_v12 f Hu)) as [F3 R3].
  assert (N1 := pos_e1). assert (X1 : numk 0 200 (fo_e1 f) e1) by (split; [apply relk_self, F1|exact R1]). assert (X2 : numk 0 200 (fo_e2 f) e2) by (split; [apply relk_self, F2|exact R2]).
  assert (X3 : numk 0 200 (fo_v12 f) v) by (split; [apply relk_self, F3|exact R3]).
  destruct (div_numk 0 0 200 200 _ _ _ _ X2 X1 ltac:(lra) ltac:(lra) ltac:(lia) ltac:(lra)) as [_ Y1].
  assert (Y2 := mul_numk 0 _ 200 _ _ _ _ _ X3 Y1 ltac:(lra) ltac:(lra) ltac:(lia)). assert (Y3 := mul_numk 0 _ 200 _ _ _ _ _ X3 Y2 ltac:(lra) ltac:(lra) ltac:(lia)).
  destruct Y3 as [Y3 _]. apply (relk_weak _ (309 / 100)) in Y3; [|lra]. rewrite <- H21 in Y3.
  destruct (rest_err (309 / 100) _ _ d Y3 ltac:(lra) p_pos d_eq Hm) as (F & e & He & E). split; [exact F|]. exists e. split; [|exact E]. eapply Rle_trans; [exact He|].
  apply Rmult_le_compat_r; [left; apply Rinv_0_lt_compat, d_pos|]. assert (U := unit_val). apply Rmult_le_compat_r; lra.
Qed.
Definition Q11f := fdiv (fo_e1 f) y. Definition Q12f := fdiv (fmul (fo_v12 f) (fo_e2 f)) y. Definition Q22f := fdiv (fo_e2 f) y.
Definition entry_ok (q : f64) (r : R) := fin q /\ (exists h, Rabs h <= (2 + 5 / 100) * unit /\ B2R q = r / B2R y * (1 + h)) /\ Rabs (B2R q - r / d) <= 7 * unit / d * Rabs (r / d).
Lemma over_ok k x r : relk k x r -> 0 <= k <= 103 / 100 -> rng 400 r -> entry_ok (fdiv x y) r.
Proof.
  intros X Hk Hr. destruct rest_ok as (Fy & e & He & Ey). assert (U := unit_val).
  destruct (over_rest k (41 / 10 + 1 / 100) x r y d e X ltac:(lra) Hr ltac:(lra) Fy d_range He Ey) as (_ & F & (h & Hh & Eh) & B).
  split; [exact F|]. split.
  - exists h. split; [|exact Eh]. eapply Rle_trans; [exact Hh|]. apply Rmult_le_compat_r; lra.
  - eapply Rle_trans; [exact B|]. apply Rmult_le_compat_r; [apply Rabs_pos|]. apply Rmult_le_compat_r; [left; apply Rinv_0_lt_compat, d_pos|]. apply Rmult_le_compat_r; lra.
Qed.
End Ply.

Definition Xof (f : fomat) : mat3 := let d := margin f in
  M3 (B2R (fo_e1 f) / d) (B2R (fo_v12 f) * B2R (fo_e2 f) / d) 0 (B2R (fo_v12 f) * B2R (fo_e2 f) / d) (B2R (fo_e2 f) / d) 0 0 0 (B2R (fo_g12 f)).
Lemma bpz z : powerRZ 2 z = bp z. Proof. rewrite bpow_powerRZ. reflexivity. Qed.
Lemma bp40 : powerRZ 2 (-40) = bp (-40). Proof. rewrite bpow_powerRZ. reflexivity. Qed.
Lemma exact_Q f : usual_ply f -> 0 < margin f -> o_Q0 (exact_ply f) = Ok (Xof f).
Proof.
  intros U M. assert (P1 := proj2 (up_e1 f U)).
  assert (E : o_den (exact_ply f) = margin f) by (unfold o_den, o_v21, exact_ply, margin; cbn [o_v12 o_e1 o_e2]; field; lra).
  rewrite o_Q0_spec. destruct (Req_EM_T (o_den (exact_ply f)) 0) as [Z|_]; [rewrite E in Z; lra|]. unfold o_Qval. rewrite E. reflexivity.
Qed.
Record computed (f : fomat) (Q : nat -> nat -> f64) : Prop := {
  cp_eq : ortho_Q0 f = Ok Q; cp_sym : forall i j, Q i j = Q j i; cp_02 : Q 0%nat 2%nat = fzero; cp_12 : Q 1%nat 2%nat = fzero; cp_22 : Q 2%nat 2%nat = fo_g12 f;
  cp_00 : entry_ok f (Q 0%nat 0%nat) (B2R (fo_e1 f)); cp_01 : entry_ok f (Q 0%nat 1%nat) (B2R (fo_v12 f) * B2R (fo_e2 f)); cp_11 : entry_ok f (Q 1%nat 1%nat) (B2R (fo_e2 f)) }.
Lemma compute parse a f : ortho_init parse a = Ok f -> usual_ply f -> powerRZ 2 (-40) <= margin f -> exists Q, computed f Q.
Proof.
  intros H U M. rewrite bp40 in M. destruct (init_v21 parse a f H) as [_ V]. destruct (t_C87_array parse a f H) as (_ & _ & Sh).
  destruct (rest_ok f U V M) as (Fy & e & He & Ey). assert (u := unit_val). assert (D := d_range f U M).
  destruct (usual0_rng _ (proj1 (up_e1 f U))) as [F1 R1]. destruct (usual0_rng _ (proj1 (up_e2 f U))) as [F2 R2]. destruct (usual0_rng _ (up_v12 f U)) as [F3 R3].
  assert (X3 : numk 0 200 (fo_v12 f) (B2R (fo_v12 f))) by (split; [apply relk_self, F3|exact R3]). assert (X2 : numk 0 200 (fo_e2 f) (B2R (fo_e2 f))) by (split; [apply relk_self, F2|exact R2]).
  assert (P12 := mul_numk 0 0 200 200 _ _ _ _ X3 X2 ltac:(lra) ltac:(lra) ltac:(lia)). destruct P12 as [P12 G12].
  destruct (over_rest 0 (41 / 10 + 1 / 100) _ _ _ _ e (relk_self _ F1) ltac:(lra) (rng_weak 200 400 _ R1 ltac:(lia)) ltac:(lra) Fy D He Ey) as (Z & _).
  assert (O1 := over_ok f U V M 0 _ _ (relk_self _ F1) ltac:(lra) (rng_weak 200 400 _ R1 ltac:(lia))).
  assert (O2 := over_ok f U V M 0 _ _ (relk_self _ F2) ltac:(lra) (rng_weak 200 400 _ R2 ltac:(lia))).
  assert (O3 := over_ok f U V M _ _ _ P12 ltac:(lra) G12).
  assert (E : ortho_Q0 f = Ok (array3 (fdiv (fo_e1 f) (fsub fone (fmul (fo_v12 f) (fo_v21 f)))) (fdiv (fmul (fo_v12 f) (fo_e2 f)) (fsub fone (fmul (fo_v12 f) (fo_v21 f)))) (fdiv (fo_e2 f) (fsub fone (fmul (fo_v12 f) (fo_v21 f)))) (fo_g12 f))).
  { unfold ortho_Q0, py_fdiv. rewrite Z. reflexivity. }
  eexists. destruct (Sh _ E) as (S1 & S2 & S3 & S4). constructor; [exact E|exact S1|exact S2|exact S3|exact S4|exact O1|exact O3|exact O2].
Qed.
Lemma close_entry f (q : f64) r : 0 < margin f -> entry_ok f q r -> fin q /\ Rabs (B2R q - r / margin f) <= 7 / margin f * unit * Rabs (r / margin f).
Proof. intros M (F & _ & B). split; [exact F|]. replace (7 / margin f * unit) with (7 * unit / margin f) by (field; lra). exact B. Qed.
Lemma close_same k (x : f64) r : 0 <= k -> fin x -> B2R x = r -> fin x /\ Rabs (B2R x - r) <= k * unit * Rabs r.
Proof.
  intros K F E. split; [exact F|]. rewrite E, Rminus_diag_eq, Rabs_R0 by reflexivity. assert (u := unit_val). apply Rmult_le_pos; [apply Rmult_le_pos; lra|apply Rabs_pos].
Qed.
Lemma margin_pos f : powerRZ 2 (-40) <= margin f -> 0 < margin f.
Proof. intros M. rewrite bp40 in M. eapply Rlt_le_trans; [apply (bpow_gt_0 radix2 (-40))|exact M]. Qed.
(*@ C87: accuracy. For moduli of usual size and 1 - v12*v21 at least 2^-40, every entry of Q_0 is finite and has a relative error of at most
    7 units divided by 1 - v12*v21. @*)
Lemma t_C87_accurate : forall parse a f, ortho_init parse a = Ok f -> usual_ply f -> powerRZ 2 (-40) <= margin f ->
  exists Q X, ortho_Q0 f = Ok Q /\ o_Q0 (exact_ply f) = Ok X /\ array_close (7 / margin f) Q X.
Proof.
  intros parse a f H U M. destruct (compute parse a f H U M) as (Q & C). assert (D := margin_pos f M). exists Q, (Xof f).
  split; [apply C|]. split; [apply exact_Q; assumption|]. assert (K : 0 <= 7 / margin f) by (left; apply Rdiv_lt_0_compat; lra).
  destruct C as [_ S Z1 Z2 Z3 C0 C1 C2]. assert (Fz : fin fzero /\ B2R fzero = 0) by (split; reflexivity). assert (Fg := proj1 (proj1 (up_g12 f U))).
  intros i j Hi Hj. unfold as_arr, Xof. destruct i as [|[|[|i]]]; [| | |lia]; (destruct j as [|[|[|j]]]; [| | |lia]); cbn [a11 a12 a13 a21 a22 a23 a31 a32 a33];
  rewrite ?(S 1%nat 0%nat), ?(S 2%nat 0%nat), ?(S 2%nat 1%nat), ?Z1, ?Z2, ?Z3; first [apply (close_entry f); assumption | apply close_same; tauto].
Qed.
(*@ C87: the computed Q_0 then is symmetric and positive definite like the exact one. @*)
Lemma t_C87_definite : forall parse a f, ortho_init parse a = Ok f -> usual_ply f -> powerRZ 2 (-40) <= margin f ->
  exists Q, ortho_Q0 f = Ok Q /\ symmetric (numbers Q) /\ pos_def (numbers Q).
Proof.
  intros parse a f H U M. destruct (compute parse a f H U M) as (Q & C). assert (D := margin_pos f M). destruct (init_v21 parse a f H) as [_ V].
  rewrite bp40 in M. destruct (rest_ok f U V M) as (Fy & e & He & Ey). assert (Dr := d_range f U M).
  destruct C as [E S Z1 Z2 Z3 C0 C1 C2]. exists Q. split; [exact E|].
  assert (Num : numbers Q = M3 (B2R (Q 0%nat 0%nat)) (B2R (Q 0%nat 1%nat)) 0 (B2R (Q 0%nat 1%nat)) (B2R (Q 1%nat 1%nat)) 0 0 0 (B2R (fo_g12 f))).
  { unfold numbers. rewrite (S 1%nat 0%nat), (S 2%nat 0%nat), (S 2%nat 1%nat), Z1, Z2, Z3. reflexivity. }
  rewrite Num. split; [reflexivity|]. apply pd_block.
  destruct C0 as (_ & (h0 & H0 & E0) & _). destruct C1 as (_ & (h1 & H1 & E1) & _). destruct C2 as (_ & (h2 & H2 & E2) & _).
  assert (u := unit_val). assert (P1 := proj2 (up_e1 f U)). assert (P2 := proj2 (up_e2 f U)). assert (Hb : bp (-40) = / 1099511627776) by (cbn; lra). rewrite Hb in M.
  assert (Yp : 0 < B2R (fsub fone (fmul (fo_v12 f) (fo_v21 f)))).
  { rewrite Ey. apply Rmult_lt_0_compat; [exact D|]. assert (Inv : / margin f <= 1099511627776) by (rewrite <- (Rinv_inv 1099511627776); apply Rinv_le; lra).
    assert (Rabs e <= / 1000). { eapply Rle_trans; [exact He|]. unfold Rdiv at 1. apply Rle_trans with ((41 / 10 + 1 / 100) * unit * 1099511627776); [apply Rmult_le_compat_l; lra|]. unfold unit. lra. }
    apply Rabs_le_inv in H3. lra. }
  set (y := B2R (fsub fone (fmul (fo_v12 f) (fo_v21 f)))) in *. rewrite E0, E1, E2. set (p1 := B2R (fo_e1 f)) in *. set (p2 := B2R (fo_e2 f)) in *. set (w := B2R (fo_v12 f)) in *.
  assert (B : forall h, Rabs h <= (2 + 5 / 100) * unit -> 1 - / 100000000000000 <= 1 + h <= 1 + / 100000000000000). { intros h Hh. apply Rabs_le_inv in Hh. lra. }
  assert (B0 := B _ H0). assert (B1 := B _ H1). assert (B2 := B _ H2).
  assert (Q1 : 0 < p1 / y) by (apply Rdiv_lt_0_compat; assumption). assert (Q2 : 0 < p2 / y) by (apply Rdiv_lt_0_compat; assumption).
  repeat split; try (apply Rmult_lt_0_compat; lra); [|exact (proj2 (up_g12 f U))].
  assert (Mg : w ^ 2 * p2 <= (1 - / 1099511627776) * p1).
  { assert (X : margin f = 1 - w ^ 2 * p2 / p1) by reflexivity. assert (w ^ 2 * p2 / p1 <= 1 - / 1099511627776) by lra.
    apply Rmult_le_reg_r with (/ p1); [apply Rinv_0_lt_compat, P1|]. replace ((1 - / 1099511627776) * p1 * / p1) with (1 - / 1099511627776) by (field; lra). exact H3. }
  replace ((w * p2 / y * (1 + h1)) ^ 2) with (w ^ 2 * p2 * (p2 / y ^ 2) * (1 + h1) ^ 2) by (field; lra).
  replace (p1 / y * (1 + h0) * (p2 / y * (1 + h2))) with (p1 * (p2 / y ^ 2) * ((1 + h0) * (1 + h2))) by (field; lra).
  assert (Q3 : 0 < p2 / y ^ 2) by (apply Rdiv_lt_0_compat; [assumption|apply pow_lt; assumption]).
  assert (S1 : (1 + h1) ^ 2 <= (1 + / 100000000000000) ^ 2) by (apply pow_incr; lra).
  assert (S2 : (1 - / 100000000000000) * (1 - / 100000000000000) <= (1 + h0) * (1 + h2)) by (apply Rmult_le_compat; lra).
  assert (W0 : 0 <= w ^ 2 * p2) by (apply Rmult_le_pos; [apply pow2_ge_0|lra]).
  apply Rle_lt_trans with ((1 - / 1099511627776) * p1 * (p2 / y ^ 2) * (1 + / 100000000000000) ^ 2).
  - apply Rmult_le_compat; [apply Rmult_le_pos; lra|apply pow2_ge_0| |exact S1]. apply Rmult_le_compat_r; lra.
  - apply Rlt_le_trans with (p1 * (p2 / y ^ 2) * ((1 - / 100000000000000) * (1 - / 100000000000000))).
    + replace ((1 - / 1099511627776) * p1 * (p2 / y ^ 2) * (1 + / 100000000000000) ^ 2) with (p1 * (p2 / y ^ 2) * ((1 - / 1099511627776) * (1 + / 100000000000000) ^ 2)) by ring.
      apply Rmult_lt_compat_l; [apply Rmult_lt_0_compat; lra|]. lra.
    + apply Rmult_le_compat_l; [apply Rmult_le_pos; lra|exact S2].
Qed.

(** ** isotropic materials *)
Lemma iso_v parse a f : iso_init parse a = Ok f -> not_outside_half (fi_v f).
Proof.
  unfold iso_init. intros H. step H e. step H v. step H g. step H th. step H b1. step H b2. step H b3. apply Ok_inj in H. subst f. cbn [fi_v].
  unfold float_number in E0. destruct (to_float parse (ai_v a)) as [x|]; [|discriminate]. cbn [below above] in E0.
  destruct (flt x (fopp fhalf)) eqn:L; [discriminate|]. destruct (fgt x fhalf) eqn:G; [discriminate|]. apply Ok_inj in E0. subst v. apply half_spec. split; assumption.
Qed.
Lemma square_half (v : f64) : fin v -> - (1 / 2) <= B2R v <= 1 / 2 -> fin (fmul v v) /\ B2R (fmul v v) <= 1 / 4.
Proof.
  intros F B. assert (Q : 0 <= B2R v * B2R v <= 1 / 4) by nra. destruct (mul_rnd v v F F) as [G E].
  { rewrite Rabs_right by lra. apply Rle_trans with 1; [lra|]. change 1 with (bp 0). apply bpow_le. lia. }
  split; [exact G|]. rewrite E. assert (X : Rabs (rnd64 (B2R v * B2R v)) <= bp (-2)).
  { apply abs_round_le_generic; [apply (fexp_correct 53 1024 eq_refl)|apply valid_rnd_round_mode|apply generic_format_bpow; cbn; lia|]. replace (bp (-2)) with (1 / 4) by (cbn; lra). rewrite Rabs_right; lra. }
  assert (bp (-2) = 1 / 4) by (cbn; lra). apply Rabs_le_inv in X. lra.
Qed.
Lemma iso_never parse a f : iso_init parse a = Ok f -> feq (fsub fone (fmul (fi_v f) (fi_v f))) fzero = false.
Proof.
  intros H. apply iso_v in H. destruct (feq (fsub fone (fmul (fi_v f) (fi_v f))) fzero) eqn:E; [|reflexivity]. exfalso. apply one_minus_zero in E.
  destruct H as [N|(r & [F V] & B)]; [rewrite N in E; apply feq_same in E; discriminate|]. rewrite <- V in B. destruct (square_half _ F B) as [G S].
  apply feq_same in E. destruct fone_val as [F1 V1]. apply (proj1 (feq_fin _ _ G F1)) in E. lra.
Qed.
(*@ C87: an isotropic material never raises when Q_0 is read, whatever was accepted by the constructor (even a NaN); for moduli of usual size every
    entry is finite with a relative error of at most 6 units. @*)
Lemma t_C87_isotropic : forall parse a f, iso_init parse a = Ok f -> exists Q, iso_Q0 f = Ok Q /\
  (forall i j, Q i j = Q j i) /\ Q 0%nat 0%nat = Q 1%nat 1%nat /\ Q 0%nat 2%nat = fzero /\ Q 1%nat 2%nat = fzero /\ Q 2%nat 2%nat = fi_g f /\
  (usual_iso f -> exists X, i_Q0 (exact_iso f) = Ok X /\ array_close 6 Q X).
Proof.
  intros parse a f H. assert (Z := iso_never parse a f H). set (y := fsub fone (fmul (fi_v f) (fi_v f))) in *.
  exists (array3 (fdiv (fi_e f) y) (fdiv (fmul (fi_v f) (fi_e f)) y) (fdiv (fi_e f) y) (fi_g f)).
  split; [unfold iso_Q0, py_fdiv; fold y; rewrite Z; reflexivity|]. split; [intros i j; destruct i as [|[|[|i]]], j as [|[|[|j]]]; reflexivity|].
  do 4 (split; [reflexivity|]). intros U. apply iso_v in H. destruct (uo_v f U) as [Fv _]. destruct (usual0_rng _ (uo_v f U)) as [_ Rv]. destruct (usual0_rng _ (proj1 (uo_e f U))) as [Fe Re].
  assert (B : - (1 / 2) <= B2R (fi_v f) <= 1 / 2). { destruct H as [N|(r & [_ V] & B)]; [rewrite N in Fv; discriminate|rewrite V; exact B]. }
  set (v := B2R (fi_v f)) in *. set (e := B2R (fi_e f)) in *. assert (D : 3 / 4 <= 1 - v * v <= 1) by nra.
  assert (Xv : numk 0 200 (fi_v f) v) by (split; [apply relk_self, Fv|exact Rv]). assert (Xe : numk 0 200 (fi_e f) e) by (split; [apply relk_self, Fe|exact Re]).
  destruct (mul_numk 0 0 200 200 _ _ _ _ Xv Xv ltac:(lra) ltac:(lra) ltac:(lia)) as [S _]. destruct (mul_numk 0 0 200 200 _ _ _ _ Xv Xe ltac:(lra) ltac:(lra) ltac:(lia)) as [P G].
  assert (Hb : bp (-40) = / 1099511627776) by (cbn; lra). assert (Db : bp (-40) <= 1 - v * v <= 1) by (rewrite Hb; lra).
  destruct (rest_err _ _ (v * v) (1 - v * v) S ltac:(lra) ltac:(nra) eq_refl (proj1 Db)) as (Fy & h & Hh & Ey). fold y in Fy, Ey.
  assert (u := unit_val). assert (C : Rabs h <= (21 / 10) * unit / (1 - v * v)).
  { eapply Rle_trans; [exact Hh|]. apply Rmult_le_compat_r; [left; apply Rinv_0_lt_compat; lra|]. apply Rmult_le_compat_r; lra. }
  assert (K : forall k x r, relk k x r -> 0 <= k <= 103 / 100 -> rng 400 r -> fin (fdiv x y) /\ Rabs (B2R (fdiv x y) - r / (1 - v * v)) <= 6 * unit * Rabs (r / (1 - v * v))).
  { intros k x r X Hk Hr. destruct (over_rest k (21 / 10) x r y (1 - v * v) h X ltac:(lra) Hr ltac:(lra) Fy Db C Ey) as (_ & F & _ & E). split; [exact F|].
    eapply Rle_trans; [exact E|]. apply Rmult_le_compat_r; [apply Rabs_pos|]. apply Rmult_le_reg_r with (1 - v * v); [lra|]. unfold Rdiv. rewrite Rmult_assoc, Rinv_l by lra.
    apply Rle_trans with (45 / 10 * unit); [rewrite Rmult_1_r; apply Rmult_le_compat_r; lra|]. apply Rle_trans with (6 * unit * (3 / 4)); [lra|]. apply Rmult_le_compat_l; lra. }
  assert (Ke := K 0 (fi_e f) e (relk_self _ Fe) ltac:(lra) (rng_weak 200 400 _ Re ltac:(lia))). assert (Kp := K _ _ _ P ltac:(lra) G).
  exists (M3 (e / (1 - v * v)) (v * e / (1 - v * v)) 0 (v * e / (1 - v * v)) (e / (1 - v * v)) 0 0 0 (B2R (fi_g f))). split.
  - unfold i_Q0, exact_iso, pydiv. cbn [i_e i_v i_g]. fold v e. destruct (Req_EM_T (1 - v * v) 0); [lra|]. reflexivity.
  - assert (Fz : fin fzero /\ B2R fzero = 0) by (split; reflexivity). assert (Fg := proj1 (proj1 (uo_g f U))).
    intros i j Hi Hj. unfold as_arr. destruct i as [|[|[|i]]]; [| | |lia]; (destruct j as [|[|[|j]]]; [| | |lia]); cbn [a11 a12 a13 a21 a22 a23 a31 a32 a33 array3];
    first [exact Ke | exact Kp | apply close_same; tauto || lra].
Qed.

(** ** invariants *)
Lemma term_ok z (q : f64) w : (0 <= z <= 6)%Z -> fin q -> rng 500 (B2R q) -> Rabs (IZR z * B2R q) = w -> offk (103 / 100) 1 w (fmul (f_of_Z z) q) (IZR z * B2R q).
Proof.
  intros Hz F G W. assert (Zf : fin (f_of_Z z) /\ B2R (f_of_Z z) = IZR z).
  { destruct (f_of_Z_exp_denotes z 0 ltac:(lia) ltac:(lia)) as [A B]. split; [exact A|]. change (B2R (f_of_Z z)) with (B2R (f_of_Z_exp z 0)). rewrite B. cbn. ring. }
  destruct Zf as [Fz Vz]. assert (Gz : rng 3 (IZR z)).
  { assert (z = 0 \/ 1 <= z)%Z as [->|L] by lia; [left; reflexivity|right]. assert (1 <= IZR z <= 6) by (split; apply IZR_le; lia). rewrite Rabs_right by lra.
    assert (bp 3 = 8) by (cbn; lra). assert (bp (- (3)) = / 8) by (cbn; lra). lra. }
  assert (Xz : numk 0 3 (f_of_Z z) (IZR z)) by (split; [rewrite <- Vz; apply relk_self, Fz|exact Gz]).
  assert (Xq : numk 0 500 q (B2R q)) by (split; [apply relk_self, F|exact G]).
  destruct (mul_numk 0 0 3 500 _ _ _ _ Xz Xq ltac:(lra) ltac:(lra) ltac:(lia)) as [P _]. apply (offk_of (103 / 100) _ _ _ 1 w); try lra.
  - apply (relk_weak _ _ _ _ P). lra.
  - rewrite <- W. apply Rabs_pos.
Qed.
Lemma base_ok (q : f64) : fin q -> offk 0 1 (Rabs (B2R q)) q (B2R q).
Proof. intros F. apply (offk_of 0 0 _ _ 1); try lra; [apply relk_self, F|apply Rabs_pos]. Qed.
Lemma factor_ok (cf x : f64) c k w t S : fin cf -> B2R cf = c -> 0 <= c <= 1 -> offk k 1 w x t -> 0 <= k <= 41 / 10 -> 0 <= w -> c * w <= 3 / 4 * S -> bp (-800) <= S -> w <= bp 900 ->
  fin (fmul cf x) /\ Rabs (B2R (fmul cf x) - c * t) <= 4 * unit * S.
Proof.
  intros Fc Vc Hc X Hk W CW SS WW. assert (A := offk_val _ _ _ _ _ X ltac:(lra) W). destruct X as (Fx & Ex & Tx). assert (u := unit_val). assert (S0 : 0 < S) by (eapply Rlt_le_trans; [apply (bpow_gt_0 radix2 (-800))|exact SS]).
  assert (Ac : Rabs (c * B2R x) <= 101 / 100 * (3 / 4 * S)).
  { rewrite Rabs_mult, (Rabs_right c) by lra. apply Rle_trans with (c * (101 / 100 * w)); [apply Rmult_le_compat_l; lra|]. replace (c * (101 / 100 * w)) with (101 / 100 * (c * w)) by ring. apply Rmult_le_compat_l; lra. }
  assert (Big : Rabs (B2R cf * B2R x) <= bp 1023).
  { rewrite Vc, Rabs_mult, (Rabs_right c) by lra. apply Rle_trans with (1 * (2 * bp 900)).
    - apply Rmult_le_compat; try apply Rabs_pos; lra.
    - rewrite Rmult_1_l. change 2 with (bp 1). rewrite <- bpow_plus. apply bpow_le. lia. }
  destruct (mul_rnd cf x Fc Fx Big) as [F E]. split; [exact F|]. rewrite E, Vc. destruct (rnd_err (c * B2R x)) as (d & h & Hd & Hh & R). rewrite R.
  replace (c * B2R x * (1 + d) + h - c * t) with (c * (B2R x - t) + c * B2R x * d + h) by ring.
  eapply Rle_trans; [apply Rabs_triang|]. apply Rle_trans with (41 / 10 * unit * (3 / 4 * S) + 101 / 100 * (3 / 4 * S) * unit + / 100 * unit * S).
  - apply Rplus_le_compat.
    + eapply Rle_trans; [apply Rabs_triang|]. apply Rplus_le_compat.
      * rewrite Rabs_mult, (Rabs_right c) by lra. apply Rle_trans with (c * (k * unit * w)); [apply Rmult_le_compat_l; lra|].
        replace (c * (k * unit * w)) with (k * unit * (c * w)) by ring. apply Rmult_le_compat; try lra; [apply Rmult_le_pos; lra|apply Rmult_le_pos; lra|]. apply Rmult_le_compat_r; lra.
      * rewrite Rabs_mult. apply Rmult_le_compat; try apply Rabs_pos; assumption.
    + eapply Rle_trans; [exact Hh|]. apply Rle_trans with (bp (-60) * bp (-800)); [rewrite <- bpow_plus; apply bpow_le; lia|]. apply Rmult_le_compat; try apply bpow_ge_0; [|exact SS].
      unfold unit. assert (bp (-60) = / 1152921504606846976) by (cbn; lra). lra.
  - nra.
Qed.
Lemma const_ok n e : (0 < e <= 10)%Z -> n = (2 ^ e)%Z -> fin (fdiv (f_of_Z 1) (f_of_Z n)) /\ B2R (fdiv (f_of_Z 1) (f_of_Z n)) = / IZR n.
Proof.
  intros He ->. assert (Hz : (1 <= 2 ^ e <= 2 ^ 10)%Z) by (split; [apply (Z.pow_le_mono_r 2 0 e); lia|apply Z.pow_le_mono_r; lia]).
  destruct (f_of_Z_exp_denotes (2 ^ e) 0 ltac:(cbn in *; lia) ltac:(lia)) as [A B]. change (f_of_Z_exp (2 ^ e) 0) with (f_of_Z (2 ^ e)) in A, B. cbn [bpow] in B. rewrite Rmult_1_r in B.
  destruct fone_val as [F1 V1]. change (f_of_Z 1) with fone. assert (E2 : IZR (2 ^ e) = bp e) by (rewrite <- (IZR_Zpower radix2) by lia; reflexivity).
  assert (Eq : B2R fone / B2R (f_of_Z (2 ^ e)) = bp (- e)) by (rewrite V1, B, E2, bpow_opp; field; apply Rgt_not_eq, bpow_gt_0).
  destruct (div_rnd fone (f_of_Z (2 ^ e)) F1) as [F E].
  - rewrite B, E2. apply Rgt_not_eq, bpow_gt_0.
  - rewrite Eq, Rabs_right by (apply Rle_ge, bpow_ge_0). apply bpow_le. lia.
  - split; [exact F|]. rewrite E, Eq, E2, bpow_opp. rewrite <- bpow_opp. apply round_generic; [apply valid_rnd_round_mode|]. apply generic_format_bpow. unfold SpecFloat.fexp, SpecFloat.emin. lia.
Qed.

Lemma inv_bound c1 c2 c3 c4 q1 q2 q3 q4 x1 x2 x3 x4 e : Rabs c1 <= 3 / 4 -> Rabs c2 <= 3 / 4 -> Rabs c3 <= 3 / 4 -> Rabs c4 <= 3 / 4 -> 0 <= e ->
  Rabs (q1 - x1) <= e * Rabs x1 -> Rabs (q2 - x2) <= e * Rabs x2 -> Rabs (q3 - x3) <= e * Rabs x3 -> Rabs (q4 - x4) <= e * Rabs x4 ->
  Rabs (c1 * q1 + c2 * q2 + c3 * q3 + c4 * q4 - (c1 * x1 + c2 * x2 + c3 * x3 + c4 * x4)) <= 3 / 4 * e * (Rabs x1 + Rabs x2 + Rabs x3 + Rabs x4).
Proof.
  intros C1 C2 C3 C4 E H1 H2 H3 H4. replace (c1 * q1 + c2 * q2 + c3 * q3 + c4 * q4 - (c1 * x1 + c2 * x2 + c3 * x3 + c4 * x4)) with (c1 * (q1 - x1) + c2 * (q2 - x2) + c3 * (q3 - x3) + c4 * (q4 - x4)) by ring.
  assert (T : forall c z x, Rabs c <= 3 / 4 -> Rabs z <= e * Rabs x -> Rabs (c * z) <= 3 / 4 * (e * Rabs x)).
  { intros c z x A B. rewrite Rabs_mult. apply Rmult_le_compat; try apply Rabs_pos; assumption. }
  assert (T1 := T _ _ _ C1 H1). assert (T2 := T _ _ _ C2 H2). assert (T3 := T _ _ _ C3 H3). assert (T4 := T _ _ _ C4 H4).
  assert (R1 := Rabs_triang (c1 * (q1 - x1) + c2 * (q2 - x2) + c3 * (q3 - x3)) (c4 * (q4 - x4))). assert (R2 := Rabs_triang (c1 * (q1 - x1) + c2 * (q2 - x2)) (c3 * (q3 - x3))).
  assert (R3 := Rabs_triang (c1 * (q1 - x1)) (c2 * (q2 - x2))). lra.
Qed.
Lemma inv_final U u I S s d : 0 < d <= 1 -> 0 <= S -> s <= 101 / 100 * S -> Rabs (U - u) <= 4 * unit * s -> Rabs (u - I) <= 3 / 4 * (7 / d * unit) * S -> Rabs (U - I) <= 10 / d * unit * S.
Proof.
  intros D S0 ss A B. assert (u0 := unit_val). replace (U - I) with ((U - u) + (u - I)) by ring. eapply Rle_trans; [apply Rabs_triang|].
  assert (I1 : 1 <= / d) by (rewrite <- Rinv_1; apply Rinv_le; lra). assert (US : 0 <= unit * S) by (apply Rmult_le_pos; lra).
  assert (4 * unit * s <= 404 / 100 * / d * (unit * S)).
  { apply Rle_trans with (4 * unit * (101 / 100 * S)); [apply Rmult_le_compat_l; lra|]. replace (4 * unit * (101 / 100 * S)) with (404 / 100 * 1 * (unit * S)) by lra. apply Rmult_le_compat_r; lra. }
  unfold Rdiv in *. assert (0 <= / d * (unit * S)) by (apply Rmult_le_pos; lra). lra.
Qed.
(*@ C87: the invariants. They are finite and differ from those of the exact Q_0 by at most 10 units of |Q11|+|Q12|+|Q22|+|Q66|, divided by 1 - v12*v21. @*)
Lemma t_C87_invariants : forall parse a f, ortho_init parse a = Ok f -> usual_ply f -> powerRZ 2 (-40) <= margin f ->
  exists U1 U2 U3 U4 U5 X I1 I2 I3 I4 I5, ortho_invariants f = Ok [U1; U2; U3; U4; U5] /\ o_Q0 (exact_ply f) = Ok X /\
  Invariants (Ortho (exact_ply f)) = Ok (I1, I2, I3, I4, I5) /\
  Forall2 (fun (U : f64) I => is_finite U = true /\ Rabs (B2R U - I) <= 10 / margin f * unit * size X) [U1; U2; U3; U4; U5] [I1; I2; I3; I4; I5].
Proof.
  intros parse a f H U M. destruct (t_C87_accurate parse a f H U M) as (Q & X & EQ & EX & C). assert (D := margin_pos f M). assert (EX' := exact_Q f U D). rewrite EX in EX'. apply Ok_inj in EX'.
  rewrite bp40 in M. assert (Dr := d_range f U M). assert (u := unit_val).
  destruct (C 0%nat 0%nat ltac:(lia) ltac:(lia)) as [F0 C0]. destruct (C 0%nat 1%nat ltac:(lia) ltac:(lia)) as [F1 C1]. destruct (C 1%nat 1%nat ltac:(lia) ltac:(lia)) as [F2 C2]. destruct (C 2%nat 2%nat ltac:(lia) ltac:(lia)) as [F3 C3].
  cbn [as_arr] in C0, C1, C2, C3. assert (Hb : bp (-40) = / 1099511627776) by (cbn; lra). rewrite Hb in Dr.
  assert (Eu : 0 <= 7 / margin f * unit <= / 1000).
  { assert (Inv : 0 < / margin f <= 1099511627776) by (split; [apply Rinv_0_lt_compat, D|rewrite <- (Rinv_inv 1099511627776); apply Rinv_le; lra]).
    unfold Rdiv. split; [apply Rmult_le_pos; [apply Rmult_le_pos|]; lra|]. apply Rle_trans with (7 * 1099511627776 * unit); [apply Rmult_le_compat_r; lra|]. unfold unit. lra. }
  assert (Gx : rng 440 (a11 X) /\ rng 440 (a12 X) /\ rng 440 (a22 X) /\ rng 440 (a33 X) /\ bp (-200) <= Rabs (a33 X)).
  { rewrite EX'. unfold Xof. cbn [a11 a12 a22 a33]. assert (Gd : rng 40 (margin f)).
    { right. rewrite Rabs_right by lra. assert (bp (- (40)) = / 1099511627776) by (cbn; lra). assert (bp 40 = 1099511627776) by (cbn; lra). lra. }
    destruct (usual0_rng _ (proj1 (up_e1 f U))) as [_ R1]. destruct (usual0_rng _ (proj1 (up_e2 f U))) as [_ R2]. destruct (usual0_rng _ (up_v12 f U)) as [_ R3]. destruct (usual0_rng _ (proj1 (up_g12 f U))) as [_ R4].
    assert (Nd : margin f <> 0) by lra. assert (P := proj2 (up_g12 f U)).
    split; [apply (rng_weak 240); [apply (rng_div 200 40); assumption|lia]|]. split; [apply (rng_div 400 40); [apply (rng_mul 200 200)| |]; assumption|].
    split; [apply (rng_weak 240); [apply (rng_div 200 40); assumption|lia]|]. split; [apply (rng_weak 200); [exact R4|lia]|].
    destruct R4 as [R4|[R4 _]]; [lra|]. exact R4. }
  destruct Gx as (G0 & G1 & G2 & G3 & L3).
  assert (Near : forall (q : f64) x, Rabs (B2R q - x) <= 7 / margin f * unit * Rabs x -> rng 440 x -> rng 500 (B2R q) /\ Rabs (B2R q) <= 101 / 100 * Rabs x /\ 99 / 100 * Rabs x <= Rabs (B2R q) /\ Rabs (B2R q) <= bp 450).
  { intros q x E G. assert (E' : Rabs (B2R q - x) <= / 1000 * Rabs x) by (eapply Rle_trans; [exact E|]; apply Rmult_le_compat_r; [apply Rabs_pos|lra]).
    assert (Px := Rabs_pos x). assert (A1 := Rabs_triang (B2R q - x) x). replace (B2R q - x + x) with (B2R q) in A1 by ring. assert (A2 := Rabs_triang (x - B2R q) (B2R q)). replace (x - B2R q + B2R q) with x in A2 by ring. rewrite Rabs_minus_sym in A2.
    assert (UB : Rabs (B2R q) <= bp 450).
    { destruct G as [-> |[_ G]]; [rewrite Rabs_R0 in *; assert (0 < bp 450) by apply bpow_gt_0; lra|]. apply Rle_trans with (2 * bp 440); [lra|]. change 2 with (bp 1). rewrite <- bpow_plus. apply bpow_le. lia. }
    split; [|repeat split; lra]. destruct G as [-> |[G G']]; [left; rewrite Rabs_R0, Rminus_0_r in E'; assert (Z : Rabs (B2R q) = 0) by (assert (N := Rabs_pos (B2R q)); lra); destruct (Req_dec (B2R q) 0) as [W|W]; [exact W|apply Rabs_no_R0 in W; contradiction]|right].
    split; [|apply Rle_trans with (bp 450); [exact UB|apply bpow_le; lia]]. change (- (440))%Z with (-440)%Z in G.
    apply Rle_trans with (/ 2 * bp (-440)); [change (/ 2) with (bp (-1)); rewrite <- bpow_plus; apply bpow_le; lia|]. assert (0 < bp (-440)) by apply bpow_gt_0. lra. }
  destruct (Near _ _ C0 G0) as (g0 & n0 & l0 & b0). destruct (Near _ _ C1 G1) as (g1 & n1 & l1 & b1). destruct (Near _ _ C2 G2) as (g2 & n2 & l2 & b2). destruct (Near _ _ C3 G3) as (g3 & n3 & l3 & b3).
  set (q0 := Q 0%nat 0%nat) in *. set (q1 := Q 0%nat 1%nat) in *. set (q2 := Q 1%nat 1%nat) in *. set (q3 := Q 2%nat 2%nat) in *.
  set (s := Rabs (B2R q0) + Rabs (B2R q1) + Rabs (B2R q2) + Rabs (B2R q3)).
  assert (p0 := Rabs_pos (B2R q0)). assert (p1 := Rabs_pos (B2R q1)). assert (p2 := Rabs_pos (B2R q2)). assert (p3 := Rabs_pos (B2R q3)).
  assert (Ss : bp (-800) <= s). { unfold s. apply Rle_trans with (/ 2 * bp (-200)); [change (/ 2) with (bp (-1)); rewrite <- bpow_plus; apply bpow_le; lia|]. lra. }
  assert (Big : 100 * bp 450 <= bp 900). { apply Rle_trans with (bp 7 * bp 450); [apply Rmult_le_compat_r; [apply bpow_ge_0|cbn; lra]|]. rewrite <- bpow_plus. apply bpow_le. lia. }
  assert (sS : s <= 101 / 100 * size X) by (unfold s, size; lra). assert (S0 : 0 <= size X) by (unfold size; assert (A := Rabs_pos (a11 X)); assert (B := Rabs_pos (a12 X)); assert (B' := Rabs_pos (a22 X)); assert (B'' := Rabs_pos (a33 X)); lra).
  assert (W : forall z (q : f64), (0 <= z)%Z -> Rabs (IZR z * B2R q) = IZR z * Rabs (B2R q)) by (intros z q Hz; rewrite Rabs_mult, (Rabs_right (IZR z)); [reflexivity|apply Rle_ge, IZR_le, Hz]).
  destruct (const_ok 8 3 ltac:(lia) eq_refl) as [Fe Ve]. destruct (const_ok 2 1 ltac:(lia) eq_refl) as [Fh Vh].
  assert (D1 : 0 < margin f <= 1) by lra.
  assert (Fin : forall (U : f64) c1 c2 c3 c4 c t, Rabs c1 <= 3 / 4 -> Rabs c2 <= 3 / 4 -> Rabs c3 <= 3 / 4 -> Rabs c4 <= 3 / 4 -> fin U /\ Rabs (B2R U - c * t) <= 4 * unit * s ->
    c * t = c1 * B2R q0 + c2 * B2R q1 + c3 * B2R q2 + c4 * B2R q3 -> is_finite U = true /\ Rabs (B2R U - (c1 * a11 X + c2 * a12 X + c3 * a22 X + c4 * a33 X)) <= 10 / margin f * unit * size X).
  { intros V c1 c2 c3 c4 c t k1 k2 k3 k4 [FV EV] Et. split; [exact FV|]. apply (inv_final _ (c * t) _ _ s); try assumption. rewrite Et. unfold size. apply inv_bound; try assumption; tauto. }
  do 11 eexists. split; [unfold ortho_invariants; rewrite EQ; cbn [bind]; fold q0 q1 q2 q3; reflexivity|]. split; [exact EX|]. split; [unfold Invariants; rewrite EX; cbn [bind]; reflexivity|].
  assert (T0 := base_ok q0 F0). assert (T2 := base_ok q2 F2). assert (u1 : 0 <= 0 <= 400) by lra.
  assert (A02 := offk_add 0 1 _ _ _ _ _ _ T0 T2 ltac:(lra) ltac:(lra) p0 p2 ltac:(lra)). apply (offk_weak _ (103 / 100)) in A02; [|lra|lra].
  assert (t21 := term_ok 2 q1 _ ltac:(lia) F1 g1 (W 2%Z q1 ltac:(lia))). assert (t61 := term_ok 6 q1 _ ltac:(lia) F1 g1 (W 6%Z q1 ltac:(lia))).
  assert (t43 := term_ok 4 q3 _ ltac:(lia) F3 g3 (W 4%Z q3 ltac:(lia))). assert (t30 := term_ok 3 q0 _ ltac:(lia) F0 g0 (W 3%Z q0 ltac:(lia))). assert (t32 := term_ok 3 q2 _ ltac:(lia) F2 g2 (W 3%Z q2 ltac:(lia))).
  assert (t43' := offk_weak _ (205 / 100) _ _ _ _ t43 ltac:(lra) ltac:(lra)). assert (t21' := offk_weak _ (205 / 100) _ _ _ _ t21 ltac:(lra) ltac:(lra)). assert (t43'' := offk_weak _ (307 / 100) _ _ _ _ t43 ltac:(lra) ltac:(lra)).
  constructor; [|constructor; [|constructor; [|constructor; [|constructor; [|constructor]]]]].
  - assert (Z1 := offk_add _ 1 _ _ _ _ _ _ t30 t32 ltac:(lra) ltac:(lra) ltac:(lra) ltac:(lra) ltac:(lra)). apply (offk_weak _ (205 / 100)) in Z1; [|lra|lra].
    assert (Z2 := offk_add _ 1 _ _ _ _ _ _ Z1 t21' ltac:(lra) ltac:(lra) ltac:(lra) ltac:(lra) ltac:(lra)). apply (offk_weak _ (307 / 100)) in Z2; [|lra|lra].
    assert (Z3 := offk_add _ 1 _ _ _ _ _ _ Z2 t43'' ltac:(lra) ltac:(lra) ltac:(lra) ltac:(lra) ltac:(lra)).
    assert (Z := factor_ok _ _ _ _ _ _ s Fe Ve ltac:(lra) Z3 ltac:(lra) ltac:(lra) ltac:(unfold s; lra) Ss ltac:(lra)).
    eapply (Fin _ (3 / 8) (2 / 8) (3 / 8) (4 / 8)) in Z; [|rewrite Rabs_right; lra..|field]. destruct Z as [ZF ZE]. split; [exact ZF|]. eapply Rle_trans; [|exact ZE]. right. f_equal. field.
  - assert (Z1 := offk_sub 0 1 _ _ _ _ _ _ T0 T2 ltac:(lra) ltac:(lra) p0 p2 ltac:(lra)).
    assert (Z := factor_ok _ _ _ _ _ _ s Fh Vh ltac:(lra) Z1 ltac:(lra) ltac:(lra) ltac:(unfold s; lra) Ss ltac:(lra)).
    eapply (Fin _ (1 / 2) 0 (- (1 / 2)) 0) in Z; [|rewrite ?Rabs_Ropp, ?Rabs_R0, ?Rabs_right; lra..|field]. destruct Z as [ZF ZE]. split; [exact ZF|]. eapply Rle_trans; [|exact ZE]. right. f_equal. field.
  - assert (Z2 := offk_sub _ 1 _ _ _ _ _ _ A02 t21 ltac:(lra) ltac:(lra) ltac:(lra) ltac:(lra) ltac:(lra)). apply (offk_weak _ (205 / 100)) in Z2; [|lra|lra].
    assert (Z3 := offk_sub _ 1 _ _ _ _ _ _ Z2 t43' ltac:(lra) ltac:(lra) ltac:(lra) ltac:(lra) ltac:(lra)).
    assert (Z := factor_ok _ _ _ _ _ _ s Fe Ve ltac:(lra) Z3 ltac:(lra) ltac:(lra) ltac:(unfold s; lra) Ss ltac:(lra)).
    eapply (Fin _ (1 / 8) (- (2 / 8)) (1 / 8) (- (4 / 8))) in Z; [|rewrite ?Rabs_Ropp, ?Rabs_R0, ?Rabs_right; lra..|field]. destruct Z as [ZF ZE]. split; [exact ZF|]. eapply Rle_trans; [|exact ZE]. right. f_equal. field.
  - assert (Z2 := offk_add _ 1 _ _ _ _ _ _ A02 t61 ltac:(lra) ltac:(lra) ltac:(lra) ltac:(lra) ltac:(lra)). apply (offk_weak _ (205 / 100)) in Z2; [|lra|lra].
    assert (Z3 := offk_sub _ 1 _ _ _ _ _ _ Z2 t43' ltac:(lra) ltac:(lra) ltac:(lra) ltac:(lra) ltac:(lra)).
    assert (Z := factor_ok _ _ _ _ _ _ s Fe Ve ltac:(lra) Z3 ltac:(lra) ltac:(lra) ltac:(unfold s; lra) Ss ltac:(lra)).
    eapply (Fin _ (1 / 8) (6 / 8) (1 / 8) (- (4 / 8))) in Z; [|rewrite ?Rabs_Ropp, ?Rabs_R0, ?Rabs_right; lra..|field]. destruct Z as [ZF ZE]. split; [exact ZF|]. eapply Rle_trans; [|exact ZE]. right. f_equal. field.
  - assert (Z2 := offk_sub _ 1 _ _ _ _ _ _ A02 t21 ltac:(lra) ltac:(lra) ltac:(lra) ltac:(lra) ltac:(lra)). apply (offk_weak _ (205 / 100)) in Z2; [|lra|lra].
    assert (Z3 := offk_add _ 1 _ _ _ _ _ _ Z2 t43' ltac:(lra) ltac:(lra) ltac:(lra) ltac:(lra) ltac:(lra)).
    assert (Z := factor_ok _ _ _ _ _ _ s Fe Ve ltac:(lra) Z3 ltac:(lra) ltac:(lra) ltac:(unfold s; lra) Ss ltac:(lra)).
    eapply (Fin _ (1 / 8) (- (2 / 8)) (1 / 8) (4 / 8)) in Z; [|rewrite ?Rabs_Ropp, ?Rabs_R0, ?Rabs_right; lra..|field]. destruct Z as [ZF ZE]. split; [exact ZF|]. eapply Rle_trans; [|exact ZE]. right. f_equal. field.
Qed.

(** ** where the doubles and the exact numbers part *)
Definition made (e1 e2 v12 g12 th : f64) : fomat := let z := f_of_Z 0 in FOMat e1 e2 v12 g12 th z z z z z (fmul v12 (fdiv e2 e1)).
Lemma make parse e1 e2 v12 g12 th : flt e1 fzero || flt e2 fzero || (flt v12 (fopp fhalf) || fgt v12 fhalf) || flt g12 fzero || flt th fzero || feq e1 fzero = false ->
  ortho_init parse (oargs5 (PFloat e1) (PFloat e2) (PFloat v12) (PFloat g12) (PFloat th)) = Ok (made e1 e2 v12 g12 th).
Proof.
  intros H. repeat (apply orb_false_elim in H; destruct H as [H ?]). match goal with X : _ || _ = false |- _ => apply orb_false_elim in X; destruct X end.
  assert (Z : float_number parse (PInt 0) (Some fzero) None = Ok (f_of_Z 0)) by reflexivity.
  assert (N : forall x, flt x fzero = false -> float_number parse (PFloat x) (Some fzero) None = Ok x) by (intros x E; cbn; rewrite E; reflexivity).
  unfold ortho_init, oargs5. cbn [ao_e1 ao_e2 ao_v12 ao_g12 ao_thickness ao_t1 ao_c1 ao_t2 ao_c2 ao_s]. rewrite !Z, !N by assumption. cbn [bind].
  assert (V : float_number parse (PFloat v12) (Some (fopp fhalf)) (Some fhalf) = Ok v12). { unfold float_number, to_float, below, above. repeat match goal with X : _ = false |- _ => rewrite X end. reflexivity. }
  rewrite V. cbn [bind]. unfold py_fdiv. match goal with X : feq e1 fzero = false |- _ => rewrite X end. reflexivity.
Qed.
Lemma val m e : (Z.abs m < 2 ^ 53)%Z -> (-1074 <= e <= 971)%Z -> B2R (f_of_Z_exp m e) = IZR m * bp e.
Proof. intros A B. apply (f_of_Z_exp_denotes m e A B). Qed.
(*@ C87: it is not enough that v12^2 e2 < e1. With e1 = 49, e2 = 400 and v12 = 0.35 the double nearest to 0.35 is below it, the ply is stable, and still reading Q_0
    raises ZeroDivisionError. @*)
Lemma t_C87_zero_refuted : exists a f, (forall parse, ortho_init parse a = Ok f) /\ usual_ply f /\ physical (exact_ply f) /\ ortho_Q0 f = Err ZeroDivisionError.
Proof.
  set (e1 := f_of_Z_exp 49 0). set (e2 := f_of_Z_exp 400 0). set (v := f_of_Z_exp 3152519739159347 (-53)). set (g := f_of_Z_exp 5 0). set (t := f_of_Z_exp 1 0).
  exists (oargs5 (PFloat e1) (PFloat e2) (PFloat v) (PFloat g) (PFloat t)), (made e1 e2 v g t).
  assert (V1 : B2R e1 = 49) by (unfold e1; rewrite val by lia; cbn; lra). assert (V2 : B2R e2 = 400) by (unfold e2; rewrite val by lia; cbn; lra).
  assert (V3 : B2R v = 3152519739159347 / 9007199254740992) by (unfold v; rewrite val by lia; cbn; lra). assert (V4 : B2R g = 5) by (unfold g; rewrite val by lia; cbn; lra).
  split; [intros parse; apply make; vm_compute; reflexivity|]. split; [|split].
  - assert (P : forall x r, fin x -> B2R x = r -> / 8 <= r <= 512 -> usual0 x).
    { intros x r F E B. split; [exact F|right]. rewrite E, Rabs_right by lra. rewrite !bpz. split; [apply Rle_trans with (bp (-3)); [apply bpow_le; lia|cbn; lra]|apply Rle_trans with (bp 9); [cbn; lra|apply bpow_le; lia]]. }
    constructor; cbn [made fo_e1 fo_e2 fo_v12 fo_g12]; [split; [apply (P _ 49); [reflexivity|exact V1|lra]|lra]|split; [apply (P _ 400); [reflexivity|exact V2|lra]|lra]|split; [apply (P _ 5); [reflexivity|exact V4|lra]|lra]|].
    eapply P; [|exact V3|]; [reflexivity|lra].
  - unfold physical, exact_ply. cbn [made fo_e1 fo_e2 fo_v12 fo_g12 o_e1 o_e2 o_v12 o_g12]. rewrite V1, V2, V3, V4. lra.
  - unfold ortho_Q0, py_fdiv. cbn [made fo_e1 fo_e2 fo_v12 fo_g12 fo_v21]. assert (E : feq (fsub fone (fmul v (fmul v (fdiv e2 e1)))) fzero = true) by (vm_compute; reflexivity). rewrite E. reflexivity.
Qed.
(*@ C87: nor does a result mean a stiffness. With e1 = 9, e2 = 2418.7046492878258 and v12 = 0.061 the ply is stable and the computed Q11 is a negative number. @*)
Lemma t_C87_negative_refuted : exists a f Q, (forall parse, ortho_init parse a = Ok f) /\ physical (exact_ply f) /\ ortho_Q0 f = Ok Q /\
  is_finite (Q 0%nat 0%nat) = true /\ flt (Q 0%nat 0%nat) fzero = true.
Proof.
  set (e1 := f_of_Z_exp 9 0). set (e2 := f_of_Z_exp 5318787772095673 (-41)). set (v := f_of_Z_exp 1098878309078401 (-54)). set (g := f_of_Z_exp 5 0). set (t := f_of_Z_exp 1 0).
  exists (oargs5 (PFloat e1) (PFloat e2) (PFloat v) (PFloat g) (PFloat t)), (made e1 e2 v g t).
  assert (V1 : B2R e1 = 9) by (unfold e1; rewrite val by lia; cbn; lra). assert (V2 : B2R e2 = 5318787772095673 / 2199023255552) by (unfold e2; rewrite val by lia; cbn; lra).
  assert (V3 : B2R v = 1098878309078401 / 18014398509481984) by (unfold v; rewrite val by lia; cbn; lra). assert (V4 : B2R g = 5) by (unfold g; rewrite val by lia; cbn; lra).
  assert (E : feq (fsub fone (fmul v (fmul v (fdiv e2 e1)))) fzero = false) by (vm_compute; reflexivity).
  exists (array3 (fdiv e1 (fsub fone (fmul v (fmul v (fdiv e2 e1))))) (fdiv (fmul v e2) (fsub fone (fmul v (fmul v (fdiv e2 e1))))) (fdiv e2 (fsub fone (fmul v (fmul v (fdiv e2 e1))))) g).
  split; [intros parse; apply make; vm_compute; reflexivity|]. split; [|split; [|split; vm_compute; reflexivity]].
  - unfold physical, exact_ply. cbn [made fo_e1 fo_e2 fo_v12 fo_g12 o_e1 o_e2 o_v12 o_g12]. rewrite V1, V2, V3, V4. lra.
  - unfold ortho_Q0, py_fdiv. cbn [made fo_e1 fo_e2 fo_v12 fo_g12 fo_v21]. rewrite E. reflexivity.
Qed.
(*@ C87: and the exact division by zero is not always noticed. With e1 = 3721, e2 = 16384 and v12 = 61/128, all exact as doubles, 1 - v12*v21 is 0, and Q_0 is returned with
    finite numbers. @*)
Lemma t_C87_singular_refuted : exists a f Q, (forall parse, ortho_init parse a = Ok f) /\ o_Q0 (exact_ply f) = Err ZeroDivisionError /\ ortho_Q0 f = Ok Q /\
  is_finite (Q 0%nat 0%nat) = true /\ flt fzero (Q 0%nat 0%nat) = true.
Proof.
  set (e1 := f_of_Z_exp 3721 0). set (e2 := f_of_Z_exp 16384 0). set (v := f_of_Z_exp 61 (-7)). set (g := f_of_Z_exp 5 0). set (t := f_of_Z_exp 1 0).
  exists (oargs5 (PFloat e1) (PFloat e2) (PFloat v) (PFloat g) (PFloat t)), (made e1 e2 v g t).
  assert (V1 : B2R e1 = 3721) by (unfold e1; rewrite val by lia; cbn; lra). assert (V2 : B2R e2 = 16384) by (unfold e2; rewrite val by lia; cbn; lra).
  assert (V3 : B2R v = 61 / 128) by (unfold v; rewrite val by lia; cbn; lra).
  assert (E : feq (fsub fone (fmul v (fmul v (fdiv e2 e1)))) fzero = false) by (vm_compute; reflexivity).
  exists (array3 (fdiv e1 (fsub fone (fmul v (fmul v (fdiv e2 e1))))) (fdiv (fmul v e2) (fsub fone (fmul v (fmul v (fdiv e2 e1))))) (fdiv e2 (fsub fone (fmul v (fmul v (fdiv e2 e1))))) g).
  split; [intros parse; apply make; vm_compute; reflexivity|]. split; [|split; [|split; vm_compute; reflexivity]].
  - rewrite o_Q0_spec. destruct (Req_EM_T (o_den (exact_ply (made e1 e2 v g t))) 0) as [_|N]; [reflexivity|]. exfalso. apply N.
    unfold o_den, o_v21, exact_ply. cbn [made fo_e1 fo_e2 fo_v12 o_v12 o_e1 o_e2]. rewrite V1, V2, V3. field.
  - unfold ortho_Q0, py_fdiv. cbn [made fo_e1 fo_e2 fo_v12 fo_g12 fo_v21]. rewrite E. reflexivity.
Qed.
(*@ C87: outside the usual range. With e1 = 2^-600, e2 = 2^600 and v12 = 0 the ply is stable (Q11 = e1, Q22 = e2); the computed Q11 is not a number. @*)
Lemma t_C87_range_refuted : exists a f Q X, (forall parse, ortho_init parse a = Ok f) /\ physical (exact_ply f) /\ margin f = 1 /\ ortho_Q0 f = Ok Q /\ o_Q0 (exact_ply f) = Ok X /\
  a11 X = B2R (fo_e1 f) /\ is_nan (Q 0%nat 0%nat) = true.
Proof.
  set (e1 := f_of_Z_exp 1 (-600)). set (e2 := f_of_Z_exp 1 600). set (v := f_of_Z_exp 0 0). set (g := f_of_Z_exp 5 0). set (t := f_of_Z_exp 1 0).
  exists (oargs5 (PFloat e1) (PFloat e2) (PFloat v) (PFloat g) (PFloat t)), (made e1 e2 v g t).
  assert (V1 : B2R e1 = bp (-600)) by (unfold e1; rewrite val by lia; apply Rmult_1_l). assert (V2 : B2R e2 = bp 600) by (unfold e2; rewrite val by lia; apply Rmult_1_l).
  assert (V3 : B2R v = 0) by (unfold v; rewrite val by lia; cbn; lra). assert (V4 : B2R g = 5) by (unfold g; rewrite val by lia; cbn; lra).
  assert (E : feq (fsub fone (fmul v (fmul v (fdiv e2 e1)))) fzero = false) by (vm_compute; reflexivity).
  exists (array3 (fdiv e1 (fsub fone (fmul v (fmul v (fdiv e2 e1))))) (fdiv (fmul v e2) (fsub fone (fmul v (fmul v (fdiv e2 e1))))) (fdiv e2 (fsub fone (fmul v (fmul v (fdiv e2 e1))))) g).
  assert (P1 : 0 < bp (-600)) by apply bpow_gt_0. assert (P2 : 0 < bp 600) by apply bpow_gt_0.
  assert (Den : o_den (exact_ply (made e1 e2 v g t)) = 1) by (unfold o_den, o_v21, exact_ply; cbn [made fo_e1 fo_e2 fo_v12 o_v12 o_e1 o_e2]; rewrite V3; ring).
  exists (o_Qval (exact_ply (made e1 e2 v g t))).
  split; [intros parse; apply make; vm_compute; reflexivity|]. split; [|split; [|split; [|split; [|split; [|vm_compute; reflexivity]]]]].
  - unfold physical, exact_ply. cbn [made fo_e1 fo_e2 fo_v12 fo_g12 o_e1 o_e2 o_v12 o_g12]. rewrite V1, V2, V3, V4. repeat split; try assumption; [lra|]. rewrite pow_i, Rmult_0_l by lia. exact P1.
  - unfold margin. cbn [made fo_v12 fo_e1 fo_e2]. rewrite V3, pow_i, Rmult_0_l by lia. unfold Rdiv. rewrite Rmult_0_l. apply Rminus_0_r.
  - unfold ortho_Q0, py_fdiv. cbn [made fo_e1 fo_e2 fo_v12 fo_g12 fo_v21]. rewrite E. reflexivity.
  - rewrite o_Q0_spec. destruct (Req_EM_T (o_den (exact_ply (made e1 e2 v g t))) 0) as [N|_]; [lra|reflexivity].
  - unfold o_Qval. rewrite Den. cbn [a11]. unfold exact_ply. cbn [o_e1]. field.
Qed.
(*@ C87: the ply of the docstring, 129500, 9370, 0.38, 5240, 0.2, meets the hypotheses and its margin is above 0.98. @*)
Example t_C87_ex : exists a f, (forall parse, ortho_init parse a = Ok f) /\ usual_ply f /\ powerRZ 2 (-40) <= margin f /\ 98 / 100 <= margin f.
Proof.
  set (e1 := f_of_Z_exp 129500 0). set (e2 := f_of_Z_exp 9370 0). set (v := f_of_Z_exp 6845471433603154 (-54)). set (g := f_of_Z_exp 5240 0). set (t := f_of_Z_exp 3602879701896397 (-54)).
  exists (oargs5 (PFloat e1) (PFloat e2) (PFloat v) (PFloat g) (PFloat t)), (made e1 e2 v g t).
  assert (V1 : B2R e1 = 129500) by (unfold e1; rewrite val by lia; cbn; lra). assert (V2 : B2R e2 = 9370) by (unfold e2; rewrite val by lia; cbn; lra).
  assert (V3 : B2R v = 6845471433603154 / 18014398509481984) by (unfold v; rewrite val by lia; cbn; lra). assert (V4 : B2R g = 5240) by (unfold g; rewrite val by lia; cbn; lra).
  assert (Mg : margin (made e1 e2 v g t) = 1 - (6845471433603154 / 18014398509481984) ^ 2 * 9370 / 129500) by (unfold margin; cbn [made fo_v12 fo_e1 fo_e2]; rewrite V1, V2, V3; reflexivity).
  split; [intros parse; apply make; vm_compute; reflexivity|]. split; [|split].
  - assert (P : forall x r, fin x -> B2R x = r -> / 8 <= r <= 131072 -> usual0 x).
    { intros x r F E B. split; [exact F|right]. rewrite E, Rabs_right by lra. rewrite !bpz. split; [apply Rle_trans with (bp (-3)); [apply bpow_le; lia|cbn; lra]|apply Rle_trans with (bp 17); [cbn; lra|apply bpow_le; lia]]. }
    constructor; cbn [made fo_e1 fo_e2 fo_v12 fo_g12]; [split; [eapply P; [|exact V1|]; [reflexivity|lra]|lra]|split; [eapply P; [|exact V2|]; [reflexivity|lra]|lra]|split; [eapply P; [|exact V4|]; [reflexivity|lra]|lra]|].
    eapply P; [|exact V3|]; [reflexivity|lra].
  - rewrite bp40. apply Rle_trans with (bp (-1)); [apply bpow_le; lia|]. rewrite Mg. cbn. lra.
  - rewrite Mg. lra.
Qed.
