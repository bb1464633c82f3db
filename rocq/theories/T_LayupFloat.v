(** Proofs of the theorems on the laminate in binary64, from the plies to the buckling load *)
From Coq Require Import Reals ZArith Lra Lia Bool String.
From Coquelicot Require Import Coquelicot.
From Flocq Require Import Core.Core IEEE754.BinarySingleNaN.
From Coq Require Import List.
From Verif Require Import M_Py M_Float M_FloatArith M_RealArith M_Validate M_Material M_Laminate M_Plate M_K M_MatFloat M_LamArith M_LayupFloat S_Mat S_Laminate S_Plate S_Bardell S_Energy S_K S_Ritz S_Eigen S_Compare S_Stored S_Validate S_Round S_LamRound S_MatFloat S_Sens S_LayupFloat L_Mat L_Lam L_LamAlg L_Float L_Round L_K L_Ritz L_Energy L_LamRound L_MatFloat L_LayupFloat T_Laminate T_LamRound T_MatFloat T_Compare T_Round T_Sens.
Import ListNotations.
Open Scope R_scope.

(** ** transformations *)
(*@ C88: the transformation matrices of T_layup, computed in binary64, are within 100 units of the exact ones, if cos and sin are accurate to two units at the computed
    radians and squares to three. @*)
Lemma t_C88_transformations : forall np k theta, usual_angle theta -> numpy_near np k theta -> let c := cdeg (B2R theta) in let s := sdeg (B2R theta) in
  exists Tr Te, T_ply_f np theta = Ok (Tr, Te) /\ forall i j, (i < 3)%nat -> (j < 3)%nat ->
    is_finite (Tr i j) = true /\ Rabs (B2R (Tr i j) - as_arr (T_real c s) i j) <= 100 * unit /\
    is_finite (Te i j) = true /\ Rabs (B2R (Te i j) - as_arr (T_engineering c s) i j) <= 100 * unit.
Proof.
  intros np k theta U N c s. destruct (T_near np k theta U N) as (Tr & Te & E & H1 & H2). exists Tr, Te. split; [exact E|]. intros i j Hi Hj.
  destruct (H1 i j Hi Hj) as [A B]. destruct (H2 i j Hi Hj) as [A' B']. repeat split; assumption.
Qed.

(** ** one ply *)
Lemma Q0_near mu m : good_ply mu m -> powerRZ 2 (-40) <= mu -> exists Q X, f_Q_0 m = Ok Q /\ Q_0 (exact_mat m) = Ok X /\
  colsum X 0 + colsum X 1 + colsum X 2 <= 2 * size X /\ (0 <= 7 / mu * unit <= / 1000) /\
  exists rho, 0 <= rho <= Rmax 6 (7 / mu) * unit /\ forall i j, (i < 3)%nat -> (j < 3)%nat -> fin (Q i j) /\ Rabs (B2R (Q i j) - as_arr X i j) <= rho * Rabs (as_arr X i j).
Proof.
  intros G Hmu. assert (u := unit_val). assert (Hb : powerRZ 2 (-40) = / 1099511627776) by (rewrite pz; cbn; lra). rewrite Hb in Hmu.
  assert (Inv : 0 < / mu <= 1099511627776) by (split; [apply Rinv_0_lt_compat; lra|rewrite <- (Rinv_inv 1099511627776); apply Rinv_le; lra]).
  assert (Eu : 0 <= 7 / mu * unit <= / 1000).
  { unfold Rdiv. split; [apply Rmult_le_pos; [apply Rmult_le_pos|]; lra|]. apply Rle_trans with (7 * 1099511627776 * unit); [apply Rmult_le_compat_r; lra|]. unfold unit. lra. }
  assert (CS : forall x y z w, colsum (M3 x y 0 y z 0 0 0 w) 0 + colsum (M3 x y 0 y z 0 0 0 w) 1 + colsum (M3 x y 0 y z 0 0 0 w) 2 <= 2 * size (M3 x y 0 y z 0 0 0 w)).
  { intros x y z w. unfold colsum, size. cbn [as_arr a11 a12 a13 a21 a22 a23 a31 a32 a33]. rewrite !Rabs_R0. assert (A := Rabs_pos x). assert (B := Rabs_pos y). assert (C := Rabs_pos z). assert (D := Rabs_pos w). lra. }
  destruct m as [f|f]; cbn [good_ply f_Q_0 exact_mat Q_0] in *.
  - destruct G as ((parse & a & I) & U & M). destruct (t_C87_accurate parse a f I U ltac:(rewrite Hb; lra)) as (Q & X & EQ & EX & C). exists Q, X. do 2 (split; [assumption|]).
    assert (D : 0 < margin f) by lra. rewrite (exact_Q f U D) in EX. apply Ok_inj in EX. subst X. split; [apply CS|]. split; [exact Eu|]. exists (7 / margin f * unit). split; [|exact C].
    split; [apply Rmult_le_pos; [left; apply Rdiv_lt_0_compat|]; lra|]. apply Rmult_le_compat_r; [lra|]. eapply Rle_trans; [|apply Rmax_r]. unfold Rdiv. apply Rmult_le_compat_l; [lra|]. apply Rinv_le; lra.
  - destruct G as ((parse & a & I) & U). destruct (t_C87_isotropic parse a f I) as (Q & EQ & _ & _ & _ & _ & _ & H). destruct (H U) as (X & EX & C). exists Q, X. do 2 (split; [assumption|]).
    split.
    { unfold i_Q0 in EX. destruct (pydiv (i_e (exact_iso f)) (1 - i_v (exact_iso f) * i_v (exact_iso f))) as [q11|] eqn:E1; [|discriminate]. cbn [bind] in EX.
      destruct (pydiv (i_v (exact_iso f) * i_e (exact_iso f)) (1 - i_v (exact_iso f) * i_v (exact_iso f))) as [q12|] eqn:E2; [|discriminate]. cbn [bind] in EX. apply Ok_inj in EX. subst X. apply CS. }
    split; [exact Eu|]. exists (6 * unit). split; [|exact C]. split; [lra|]. apply Rmult_le_compat_r; [lra|]. apply Rmax_l.
Qed.
Lemma T_small c s : c ^ 2 + s ^ 2 = 1 -> forall i j, (i < 3)%nat -> (j < 3)%nat -> Rabs (as_arr (T_real_inv c s) i j) <= 1 /\ Rabs (as_arr (T_engineering c s) i j) <= 1.
Proof.
  intros H i j Hi Hj. assert (P := pow2_ge_0 (c + s)). assert (M := pow2_ge_0 (c - s)). assert (Pc := pow2_ge_0 c). assert (Ps := pow2_ge_0 s).
  destruct i as [|[|[|i]]]; try lia; (destruct j as [|[|[|j]]]; try lia); unfold T_real_inv, T_engineering; cbn [as_arr a11 a12 a13 a21 a22 a23 a31 a32 a33]; split; apply Rabs_le; lra.
Qed.
Lemma Q_ply_exact theta m X : Q_0 m = Ok X -> Q_ply theta m = Ok (mmul (mmul (T_real_inv (cdeg theta) (sdeg theta)) X) (T_engineering (cdeg theta) (sdeg theta))).
Proof. intros H. unfold Q_ply. rewrite inv3_T_real by apply cs1. cbn [bind]. rewrite H. reflexivity. Qed.
(*@ C88: the stiffness of a ply turned into the axes of the laminate, as computed: within ply_units units of q of the exact one, where the numbers of Q_0 add up to at
    most q, mu is a lower bound for 1 - v12 v21 and T inv(T) - 1 has entries of at most k units. @*)
Lemma t_C88_ply : forall np k mu q theta m, usual_angle theta -> numpy_near np k theta -> 0 <= k <= 1000000 -> good_ply mu m -> powerRZ 2 (-40) <= mu -> stiff_below q m ->
  powerRZ 2 (-200) <= q <= powerRZ 2 190 ->
  exists Q Y, Q_ply_f np theta m = Ok Q /\ Q_ply (B2R theta) (exact_mat m) = Ok Y /\ forall i j, (i < 3)%nat -> (j < 3)%nat ->
    is_finite (Q i j) = true /\ Rabs (B2R (Q i j) - as_arr Y i j) <= ply_units k mu * unit * q /\ Rabs (B2R (Q i j)) <= 3 * q.
Proof.
  intros np k mu q theta m U N Hk G Hmu (X0 & EX0 & SX) Hq. assert (u := unit_val). destruct (Q0_near mu m G Hmu) as (Qf & X & EQ & EX & CX & Eu & rho & Hr & HQ). rewrite EX in EX0. apply Ok_inj in EX0. subst X0.
  destruct (T_near np k theta U N) as (Tr & Te & ET & H1 & H2). set (c := cdeg (B2R theta)) in *. set (s := sdeg (B2R theta)) in *. assert (CS : c ^ 2 + s ^ 2 = 1) by apply cs1.
  destruct (inv_val np k Tr c s CS Hk H1 (nn_inv _ _ _ N Tr Te ET)) as (Y & EY & HY).
  assert (Mx : Rmax 6 (7 / mu) * unit <= / 1000). { unfold Rmax. destruct (Rle_dec 6 (7 / mu)); [apply Eu|]. unfold unit. lra. }
  assert (q0 : 0 < q). { assert (0 < powerRZ 2 (-200)) by (rewrite pz; apply bpow_gt_0). lra. }
  assert (He : 0 <= (3 * k + 906) * unit <= / 1000). { split; [apply Rmult_le_pos; lra|]. apply Rle_trans with (3000906 * unit); [apply Rmult_le_compat_r; lra|]. unfold unit. lra. }
  assert (RN := rot_near (np_mm np) (3 * k + 906) rho q Y Qf Te (T_real_inv c s) X (T_engineering c s) (nn_mm _ _ _ N) He ltac:(lra) ltac:(lra)).
  rewrite !pz in Hq. specialize (RN ltac:(split; [apply Hq|eapply Rle_trans; [apply Hq|apply bpow_le; lia]]) HY H2
    (fun i j Hi Hj => proj1 (T_small c s CS i j Hi Hj)) (fun i j Hi Hj => proj2 (T_small c s CS i j Hi Hj)) HQ ltac:(lra)).
  exists (np_mm np (np_mm np Y Qf) Te). eexists. split; [unfold Q_ply_f; rewrite ET; cbn [bind fst snd]; rewrite EY; cbn [bind]; rewrite EQ; reflexivity|]. split; [apply Q_ply_exact, EX|].
  intros i j Hi Hj. destruct (RN i j Hi Hj) as (F & E & B). split; [exact F|]. split; [|exact B]. eapply Rle_trans; [exact E|]. unfold ply_units.
  assert (R1 : rho <= (6 + 7 / mu) * unit). { eapply Rle_trans; [apply Hr|]. apply Rmult_le_compat_r; [lra|]. assert (0 < 7 / mu). { apply Rdiv_lt_0_compat; [lra|]. assert (0 < powerRZ 2 (-40)) by (rewrite pz; apply bpow_gt_0). lra. } apply Rmax_lub; lra. }
  replace ((7 * k + 2400 + 15 / mu) * unit * q) with (2 * q * ((7 * k + 2400 + 15 / mu) / 2 * unit)) by lra. apply Rmult_le_compat_l; [lra|].
  assert (ku : 0 <= k * unit) by (apply Rmult_le_pos; lra). replace (15 / mu) with (15 / 7 * (7 / mu)) by (unfold Rdiv; lra). set (z := 7 / mu) in *. nra.
Qed.

(** ** the matrices *)
Lemma layup_plies np k mu q l : 0 <= k <= 1000000 -> powerRZ 2 (-40) <= mu -> powerRZ 2 (-200) <= q <= powerRZ 2 190 ->
  Forall (fun p => numpy_near np k (fst p) /\ usual_angle (fst p) /\ good_ply mu (snd p) /\ stiff_below q (snd p)) l ->
  all_readable (exact_layup l) /\ exists Qs, Q_layup_f np l = Ok Qs /\ arrays_within (ply_units k mu * unit * q) Qs (Qs_of (exact_layup l)) /\ entries_below (3 * q) Qs.
Proof.
  intros Hk Hm Hq. induction 1 as [|[th m] l (N & U & G & S) H (IR & Qs & IE & IW & IB)].
  - split; [constructor|]. exists []. split; [reflexivity|]. split; constructor.
  - cbn [fst snd] in *. assert (Rd : readable (exact_mat m)) by (destruct S as (X & E & _); exists X; exact E).
    split; [constructor; assumption|]. destruct (t_C88_ply np k mu q th m U N Hk G Hm S Hq) as (Q & Y & EQ & EY & B).
    rewrite (Q_ply_ok _ _ (proj1 (readable_ok _) Rd)) in EY. apply Ok_inj in EY. subst Y.
    exists (Q :: Qs). split; [unfold Q_layup_f in *; cbn [mapM fst snd]; rewrite EQ; cbn [bind]; rewrite IE; reflexivity|].
    split; constructor; try assumption; intros i j Hi Hj; destruct (B i j Hi Hj) as (B1 & B2 & B3); [exact B2|split; assumption].
Qed.
Lemma matrix_same np p l Qs : (1 <= p <= 3)%nat -> Q_layup_f np l = Ok Qs -> matrix_f np p l = matrix (np_pow np) p (map (fun x => f_thickness (snd x)) l) Qs.
Proof. intros P E. destruct p as [|[|[|[|p]]]]; try lia; unfold matrix_f, A_f, B_f, D_f, layup_matrix; rewrite E; reflexivity. Qed.
(*@ C88: so A, B and D of a layup, computed in binary64 from the plies, are within matrix_off of the exact A, B and D. @*)
Lemma t_C88_matrices : forall np k mu q p l, (1 <= p <= 3)%nat -> good_layup np k mu q l -> 0 <= k <= 1000000 -> powerRZ 2 (-40) <= mu -> powerRZ 2 (-200) <= q <= powerRZ 2 190 ->
  exists (M : farr) (X : mat3), matrix_f np p l = Ok M /\ attribute p (exact_layup l) = Ok X /\ forall i j, (i < 3)%nat -> (j < 3)%nat ->
    is_finite (M i j) = true /\ Rabs (B2R (M i j) - as_arr X i j) <= matrix_off k mu q p l.
Proof.
  intros np k mu q p l P (F & U) Hk Hm Hq. destruct (layup_plies np k mu q l Hk Hm Hq F) as (Rd & Qs & EQ & AW & EB).
  assert (NE : l <> []) by (destruct U as (_ & U & _); rewrite map_length in U; destruct l; [cbn in U; lia|discriminate]).
  assert (HP : pow_near (np_pow np)) by (destruct F as [|x l0 (N & _) _]; [congruence|apply (nn_pow _ _ _ N)]).
  assert (TH : thicknesses (map (fun x => f_thickness (snd x)) l) (exact_layup l)).
  { unfold thicknesses, exact_layup. rewrite !map_map. apply map_ext. intros [th [m|m]]; reflexivity. }
  assert (q0 : bp (-200) <= q <= bp 190) by (rewrite !pz in Hq; exact Hq). assert (Q4 : 4 * bp 190 = bp 192) by (change 192%Z with (2 + 190)%Z; rewrite bpow_plus; cbn; lra).
  assert (L2 : bp 192 <= bp 200) by (apply bpow_le; lia). assert (P0 : 0 < bp (-200)) by apply bpow_gt_0.
  destruct (t_C78_laminate (np_pow np) p (exact_layup l) (Qs_of (exact_layup l)) (Lsum (T_LamRound.weight p) (exact_layup l)) _ Qs (3 * q) (ply_units k mu * unit * q) HP P U TH (Q_layup_of_eq _ Rd) (attribute_eq p _ P Rd) AW EB
    ltac:(rewrite !pz; lra)) as (M & EM & B).
  exists M, (Lsum (T_LamRound.weight p) (exact_layup l)). split; [rewrite (matrix_same np p l Qs P EQ); exact EM|]. split; [apply attribute_eq; assumption|].
  intros i j Hi Hj. destruct (B i j Hi Hj) as [B1 B2]. split; [exact B1|]. eapply Rle_trans; [exact B2|]. rewrite map_length. unfold matrix_off, total. right. ring.
Qed.

(** ** the buckling load *)
(*@ C88: the stiffness matrices of the plate are assembled from the numbers of D on and below the diagonal only: that the computed D is not exactly symmetric does not
    enter, in any arithmetic. @*)
Lemma t_C88_lower : forall A (t : @tables A) (D : @arr A) (a b Nxx Nyy Nxy : num A) c m n, calc_K_KG_D t D a b Nxx Nyy Nxy c m n = calc_K_KG_D t (lower D) a b Nxx Nyy Nxy c m n.
Proof. reflexivity. Qed.
Lemma lower_within d (M : farr) X : symmetric X -> (forall i j, (i < 3)%nat -> (j < 3)%nat -> Rabs (B2R (M i j) - as_arr X i j) <= d) ->
  symmetric (numbers (lower M)) /\ S_Sens.entries_within d X (numbers (lower M)).
Proof.
  intros Sy H. split; [reflexivity|]. destruct X as [x11 x12 x13 x21 x22 x23 x31 x32 x33]. assert (S1 := f_equal a12 Sy). assert (S2 := f_equal a13 Sy). assert (S3 := f_equal a23 Sy). cbn [mtrans a11 a12 a13 a21 a22 a23 a31 a32 a33] in S1, S2, S3. subst x12 x13 x23.
  unfold S_Sens.entries_within, numbers, lower. cbn [Nat.leb a11 a12 a13 a21 a22 a23 a31 a32 a33].
  assert (H00 := H 0%nat 0%nat ltac:(lia) ltac:(lia)). assert (H10 := H 1%nat 0%nat ltac:(lia) ltac:(lia)). assert (H11 := H 1%nat 1%nat ltac:(lia) ltac:(lia)).
  assert (H20 := H 2%nat 0%nat ltac:(lia) ltac:(lia)). assert (H21 := H 2%nat 1%nat ltac:(lia) ltac:(lia)). assert (H22 := H 2%nat 2%nat ltac:(lia) ltac:(lia)). cbn [as_arr a11 a12 a13 a21 a22 a23 a31 a32 a33] in *.
  repeat split; assumption.
Qed.
(*@ C88: so if every curvature e stores at least nu |e|^2 and nu is above three times the error bound, the computed D stands for a positive definite plate, and its
    critical factor is within that share of the critical factor of the exact laminate: either exists when the other does. @*)
Lemma t_C88_factor : forall np k mu q nu l (X : mat3) a b Nxx Nyy Nxy c c0 ca d0 db m n, good_layup np k mu q l -> 0 <= k <= 1000000 -> powerRZ 2 (-40) <= mu ->
  powerRZ 2 (-200) <= q <= powerRZ 2 190 -> attribute 3 (exact_layup l) = Ok X -> plate_any X a b c c0 ca d0 db -> (forall e, nu * dot e e <= quad X e) -> 3 * matrix_off k mu q 3 l < nu ->
  exists M : farr, D_f np l = Ok M /\ symmetric (numbers (lower M)) /\ pos_def (numbers (lower M)) /\
    (forall f, critical X a b Nxx Nyy Nxy c m n f -> exists f', critical (numbers (lower M)) a b Nxx Nyy Nxy c m n f' /\ Rabs (f' - f) <= 3 * matrix_off k mu q 3 l / nu * f) /\
    (forall f', critical (numbers (lower M)) a b Nxx Nyy Nxy c m n f' -> exists f, critical X a b Nxx Nyy Nxy c m n f /\ Rabs (f' - f) <= 3 * matrix_off k mu q 3 l / nu * f).
Proof.
  intros np k mu q nu l X a b Nxx Nyy Nxy c c0 ca d0 db m n G Hk Hm Hq EX P Hn Hs.
  destruct (t_C88_matrices np k mu q 3 l ltac:(lia) G Hk Hm Hq) as (M & X' & EM & EX' & B). rewrite EX in EX'. apply Ok_inj in EX'. subst X'.
  destruct (lower_within (matrix_off k mu q 3 l) M X (any_sym _ _ _ _ _ _ _ _ P) (fun i j Hi Hj => proj2 (B i j Hi Hj))) as [Sy W].
  exists M. split; [exact EM|]. split; [exact Sy|]. set (d := matrix_off k mu q 3 l) in *.
  assert (d0' : 0 <= d) by (destruct W as (W & _); eapply Rle_trans; [apply Rabs_pos|exact W]). assert (n0 : 0 < nu) by lra.
  split; [|apply (t_C86_entries d nu X (numbers (lower M)) a b Nxx Nyy Nxy c c0 ca d0 db m n P Sy Hn W Hs)].
  intros v Nv. assert (E := entry_between d nu X _ n0 Hn W v). assert (Pv := any_def _ _ _ _ _ _ _ _ P v Nv).
  assert (3 * d / nu < 1). { apply Rmult_lt_reg_r with nu; [exact n0|]. replace (3 * d / nu * nu) with (3 * d) by (field; lra). lra. }
  assert (0 < (1 - 3 * d / nu) * quad X v) by (apply Rmult_lt_0_compat; lra). lra.
Qed.
Lemma usual_lower pow dec (M : farr) a b Nxx Nyy Nxy : usual_inputs pow dec M a b Nxx Nyy Nxy -> usual_inputs pow dec (lower M) a b Nxx Nyy Nxy.
Proof. intros []. constructor; try assumption. intros i j Hi Hj. unfold lower. destruct (Nat.leb j i); auto. Qed.
(*@ C88, from the plies to the buckling load: with D computed in binary64 from the plies, K and KG assembled in binary64 from the stored tables, and the critical factor l'
    of those matrices, 1/l' differs from 1/l of the exact laminate and the exact tables by at most (e + d (1 + e)) / l' + (1 + d) g, where d is the share lost in D and
    e, g are those lost in the assembly. @*)
Lemma t_C88_end : forall np k mu q nu l (X : mat3) (M : farr) pow dec a b Nxx Nyy Nxy c c0 ca d0 db m n N u (K KG : list (list R)) f l',
  good_layup np k mu q l -> 0 <= k <= 1000000 -> powerRZ 2 (-40) <= mu -> powerRZ 2 (-200) <= q <= powerRZ 2 190 ->
  attribute 3 (exact_layup l) = Ok X -> plate_ok X (B2R a) (B2R b) c c0 ca d0 db m n -> (forall e, nu * dot e e <= quad X e) -> 3 * matrix_off k mu q 3 l < nu ->
  D_f np l = Ok M -> usual_inputs pow dec M a b Nxx Nyy Nxy -> (N <= 30)%nat -> (m + taken c0 + taken ca <= N)%nat -> (n + taken d0 + taken db <= N)%nat ->
  calc_K_KG_D exact_tables (as_arr X) (B2R a) (B2R b) (B2R Nxx) (B2R Nyy) (B2R Nxy) c m n = Ok (K, KG) -> at_least u K ->
  let d := 3 * matrix_off k mu q 3 l / nu in
  let e := INR (m * n) * k_off (tolerance N + 16 * unit) (numbers (lower M)) (B2R a) (B2R b) / ((1 - d) * u) in
  let g := INR (m * n) * kG_off (tolerance N + 16 * unit) (B2R Nxx) (B2R Nyy) (B2R Nxy) (B2R a) (B2R b) / ((1 - d) * u) in
  INR (m * n) * k_off (tolerance N + 16 * unit) (numbers (lower M)) (B2R a) (B2R b) < (1 - d) * u ->
  critical X (B2R a) (B2R b) (B2R Nxx) (B2R Nyy) (B2R Nxy) c m n f ->
  (g * (1 + d) * f < 1 -> exists l', critical_float pow dec M a b Nxx Nyy Nxy c m n l') /\
  (critical_float pow dec M a b Nxx Nyy Nxy c m n l' -> Rabs (1 / f - 1 / l') <= (e + d * (1 + e)) / l' + (1 + d) * g).
Proof.
  intros np k mu q nu l X M pow dec a b Nxx Nyy Nxy c c0 ca d0 db m n N u K KG f l' G Hk Hm Hq EX P Hn Hs EM UI HN Hmm Hnn HK HU d e g He C.
  destruct (t_C88_factor np k mu q nu l X (B2R a) (B2R b) (B2R Nxx) (B2R Nyy) (B2R Nxy) c c0 ca d0 db m n G Hk Hm Hq EX (ok_any _ _ _ _ _ _ _ _ _ _ P) Hn Hs) as (M' & EM' & Sy & Pd & Fw & _).
  rewrite EM in EM'. apply Ok_inj in EM'. subst M'. set (D := numbers (lower M)) in *. fold d in Fw.
  destruct (t_C88_matrices np k mu q 3 l ltac:(lia) G Hk Hm Hq) as (M' & X' & EM' & EX' & B). change (matrix_f np 3 l) with (D_f np l) in EM'. rewrite EX in EX'. apply Ok_inj in EX'. subst X'. rewrite EM in EM'. apply Ok_inj in EM'. subst M'.
  destruct (lower_within (matrix_off k mu q 3 l) M X (ok_sym _ _ _ _ _ _ _ _ _ _ P) (fun i j Hi Hj => proj2 (B i j Hi Hj))) as [_ W]. fold D in W.
  assert (o0 : 0 <= matrix_off k mu q 3 l) by (destruct W as (W & _); eapply Rle_trans; [apply Rabs_pos|exact W]). assert (n0 : 0 < nu) by lra.
  assert (D0 : 0 <= d < 1). { unfold d. split; [apply Rmult_le_pos; [lra|left; apply Rinv_0_lt_compat, n0]|]. apply Rmult_lt_reg_r with nu; [exact n0|]. replace (3 * matrix_off k mu q 3 l / nu * nu) with (3 * matrix_off k mu q 3 l) by (field; lra). lra. }
  assert (Bt := entry_between _ nu X D n0 Hn W). fold d in Bt.
  assert (P' : plate_ok D (B2R a) (B2R b) c c0 ca d0 db m n) by (destruct P; constructor; assumption).
  destruct (look_any X (B2R a) (B2R b) (B2R Nxx) (B2R Nyy) (B2R Nxy) c c0 ca d0 db m n (ok_any _ _ _ _ _ _ _ _ _ _ P)) as (idx & K1 & KG1 & V). destruct (look_any D (B2R a) (B2R b) (B2R Nxx) (B2R Nyy) (B2R Nxy) c c0 ca d0 db m n (ok_any _ _ _ _ _ _ _ _ _ _ P')) as (idx' & K2 & KG2 & V').
  assert (E := same_calc _ _ _ (v_idx _ _ _ _ _ _ _ _ _ _ _ _ V) (v_idx _ _ _ _ _ _ _ _ _ _ _ _ V')). subst idx'.
  assert (E := same_calc _ _ _ HK (v_calc _ _ _ _ _ _ _ _ _ _ _ _ V)). assert (E1 : K = K1) by congruence. subst K1. clear E.
  assert (U' : at_least ((1 - d) * u) K2).
  { intros cw L. rewrite (v_len _ _ _ _ _ _ _ _ _ _ _ _ V') in L. rewrite (v_K _ _ _ _ _ _ _ _ _ _ _ _ V' cw). specialize (HU cw ltac:(rewrite (v_len _ _ _ _ _ _ _ _ _ _ _ _ V); exact L)). rewrite (v_K _ _ _ _ _ _ _ _ _ _ _ _ V cw) in HU.
    set (w := combine_shapes (B2R a) (B2R b) (sw_idx idx) cw) in *. assert (Wn : nice (B2R a) (B2R b) w) by apply nice_combine.
    assert (Y := between_bending _ _ X D (B2R a) (B2R b) w (ok_a _ _ _ _ _ _ _ _ _ _ P) (ok_b _ _ _ _ _ _ _ _ _ _ P) Wn Bt). rewrite Rmult_assoc. eapply Rle_trans; [|apply Y]. apply Rmult_le_compat_l; [lra|exact HU]. }
  destruct (Fw f C) as (f' & C' & Ff). assert (CE := v_calc _ _ _ _ _ _ _ _ _ _ _ _ V').
  assert (f0 : 0 < f) by (destruct C as (? & ? & _ & (? & _)); assumption). assert (f0' : 0 < f') by (destruct C' as (? & ? & _ & (? & _)); assumption).
  split.
  - intros Hg. destruct (t_C77_exists pow dec (lower M) a b Nxx Nyy Nxy c c0 ca d0 db m n N _ K2 KG2 (usual_lower _ _ _ _ _ _ _ _ UI) P' HN Hmm Hnn CE U' He) as (_ & Ex & _).
    destruct (Ex f' C') as (x & Hx); [|exists x; exact Hx]. change (g < 1 / f'). apply Rmult_lt_reg_r with f'; [exact f0'|]. replace (1 / f' * f') with 1 by (field; lra).
    apply Rabs_le_between in Ff. assert (f' <= (1 + d) * f) by lra. destruct (Rle_dec g 0) as [Z|Z]; [|nra]. assert (0 <= - g * f') by (apply Rmult_le_pos; lra). lra.
  - intros Cf. assert (H := t_C77_close pow dec (lower M) a b Nxx Nyy Nxy c c0 ca d0 db m n N _ K2 KG2 f' l' (usual_lower _ _ _ _ _ _ _ _ UI) P' HN Hmm Hnn CE U' He C' Cf). cbv zeta in H. fold D in H. fold e g in H.
    assert (l0 : 0 < l') by (destruct Cf as (? & ? & _ & (? & _)); assumption).
    assert (Z : Rabs (1 / f - 1 / f') <= d * (1 / f')).
    { replace (1 / f - 1 / f') with ((f' - f) * / (f * f')) by (field; lra). rewrite Rabs_mult, (Rabs_pos_eq (/ (f * f'))) by (left; apply Rinv_0_lt_compat, Rmult_lt_0_compat; assumption).
      apply Rle_trans with (d * f * / (f * f')); [apply Rmult_le_compat_r; [left; apply Rinv_0_lt_compat, Rmult_lt_0_compat; assumption|exact Ff]|]. right. field. lra. }
    assert (T : 1 / f' <= (1 + e) / l' + g). { apply Rabs_le_between in H. unfold Rdiv in *. lra. }
    replace (1 / f - 1 / l') with ((1 / f - 1 / f') + (1 / f' - 1 / l')) by ring. eapply Rle_trans; [apply Rabs_triang|].
    assert (d * (1 / f') <= d * ((1 + e) / l' + g)) by (apply Rmult_le_compat_l; lra). unfold Rdiv in *. lra.
Qed.

(** ** a plain matrix product *)
(*@ C88: the assumption on @ is met by the plain product that adds three products from left to right. @*)
Lemma t_C88_loop : mm_near (fun X Y i j => fadd (fadd (fmul (X i 0%nat) (Y 0%nat j)) (fmul (X i 1%nat) (Y 1%nat j))) (fmul (X i 2%nat) (Y 2%nat j))).
Proof.
  intros X Y FX FY HM i j Hi Hj. specialize (HM i j Hi Hj). assert (u := unit_val). unfold magnitudes, products in *. rewrite pz in *.
  assert (E9 : bp 900 * 8 = bp 903) by (replace 8 with (bp 3) by (cbn; lra); rewrite <- bpow_plus; reflexivity). assert (E23 : bp 903 <= bp 1023) by (apply bpow_le; lia).
  assert (P9 : 1 <= bp 900) by (change 1 with (bp 0); apply bpow_le; lia).
  assert (T : 0 < bp (-1075) /\ 8 * bp (-1075) <= bp (-900)) by (split; [apply bpow_gt_0|]; replace 8 with (bp 3) by (cbn; lra); rewrite <- bpow_plus; apply bpow_le; lia).
  assert (T9 : bp (-900) <= 1) by (change 1 with (bp 0); apply bpow_le; lia).
  set (x0 := B2R (X i 0%nat) * B2R (Y 0%nat j)) in *. set (x1 := B2R (X i 1%nat) * B2R (Y 1%nat j)) in *. set (x2 := B2R (X i 2%nat) * B2R (Y 2%nat j)) in *.
  assert (A0 := Rabs_pos x0). assert (A1 := Rabs_pos x1). assert (A2 := Rabs_pos x2).
  destruct (mul_err (X i 0%nat) (Y 0%nat j) (FX i 0%nat Hi ltac:(lia)) (FY 0%nat j ltac:(lia) Hj)) as [F0 E0]; [fold x0; lra|]. fold x0 in E0.
  destruct (mul_err (X i 1%nat) (Y 1%nat j) (FX i 1%nat Hi ltac:(lia)) (FY 1%nat j ltac:(lia) Hj)) as [F1 E1]; [fold x1; lra|]. fold x1 in E1.
  destruct (mul_err (X i 2%nat) (Y 2%nat j) (FX i 2%nat Hi ltac:(lia)) (FY 2%nat j ltac:(lia) Hj)) as [F2 E2]; [fold x2; lra|]. fold x2 in E2.
  set (y0 := fmul (X i 0%nat) (Y 0%nat j)) in *. set (y1 := fmul (X i 1%nat) (Y 1%nat j)) in *. set (y2 := fmul (X i 2%nat) (Y 2%nat j)) in *.
  assert (G : forall z x, Rabs (z - x) <= unit * Rabs x + bp (-1075) -> Rabs z <= 1001 / 1000 * Rabs x + bp (-1075)).
  { intros z x H. replace z with (z - x + x) by ring. eapply Rle_trans; [apply Rabs_triang|]. assert (unit * Rabs x <= / 1000 * Rabs x) by (apply Rmult_le_compat_r; [apply Rabs_pos|lra]). lra. }
  assert (B0 := G _ _ E0). assert (B1 := G _ _ E1). assert (B2 := G _ _ E2).
  assert (S1 := Rabs_triang (B2R y0) (B2R y1)).
  destruct (add_err y0 y1 F0 F1) as [Fa Ea]; [lra|]. set (a := fadd y0 y1) in *.
  assert (Ba : Rabs (B2R a) <= 1001 / 1000 * (Rabs (B2R y0) + Rabs (B2R y1))).
  { replace (B2R a) with ((B2R a - (B2R y0 + B2R y1)) + (B2R y0 + B2R y1)) by ring. eapply Rle_trans; [apply Rabs_triang|].
    assert (unit * Rabs (B2R y0 + B2R y1) <= / 1000 * Rabs (B2R y0 + B2R y1)) by (apply Rmult_le_compat_r; [apply Rabs_pos|lra]). lra. }
  assert (S2 := Rabs_triang (B2R a) (B2R y2)).
  destruct (add_err a y2 Fa F2) as [Fb Eb]; [lra|]. split; [exact Fb|]. set (bb := fadd a y2) in *.
  replace (B2R bb - (x0 + x1 + x2)) with ((B2R bb - (B2R a + B2R y2)) + (B2R a - (B2R y0 + B2R y1)) + ((B2R y0 - x0) + (B2R y1 - x1) + (B2R y2 - x2))) by ring.
  assert (Z1 := Rabs_triang (B2R bb - (B2R a + B2R y2) + (B2R a - (B2R y0 + B2R y1))) ((B2R y0 - x0) + (B2R y1 - x1) + (B2R y2 - x2))). assert (Z2 := Rabs_triang (B2R bb - (B2R a + B2R y2)) (B2R a - (B2R y0 + B2R y1))).
  assert (Z3 := abs3 _ _ _ _ _ _ E0 E1 E2).
  assert (M1 : unit * Rabs (B2R a + B2R y2) <= unit * (1003 / 1000 * (Rabs x0 + Rabs x1 + Rabs x2) + 4 * bp (-1075))) by (apply Rmult_le_compat_l; lra).
  assert (M2 : unit * Rabs (B2R y0 + B2R y1) <= unit * (1003 / 1000 * (Rabs x0 + Rabs x1 + Rabs x2) + 4 * bp (-1075))) by (apply Rmult_le_compat_l; lra).
  assert (M3 : unit * bp (-1075) <= / 1000 * bp (-1075)) by (apply Rmult_le_compat_r; lra).
  assert (M4 : 0 <= unit * (Rabs x0 + Rabs x1 + Rabs x2)) by (apply Rmult_le_pos; lra). lra.
Qed.

(** ** a right angle *)
Lemma half_pi_near : 2 / 100000000000000000 <= PI / 2 - 884279719003555 / 562949953421312 <= 7 / 100000000000000000.
Proof. assert (P := pi_near). lra. Qed.
Lemma radians_90 : fin (radians (f_of_Z 90)) /\ B2R (radians (f_of_Z 90)) = 884279719003555 / 562949953421312.
Proof.
  assert (E : feq (radians (f_of_Z 90)) (f_of_Z_exp 884279719003555 (-49)) = true) by (vm_compute; reflexivity).
  assert (F : fin (radians (f_of_Z 90))) by (vm_compute; reflexivity). split; [exact F|].
  destruct (f_of_Z_exp_denotes 884279719003555 (-49) ltac:(lia) ltac:(lia)) as [F' V]. apply (proj1 (feq_fin _ _ F F')) in E. rewrite E, V. cbn. lra.
Qed.
Lemma cos_half : 1 / 100000000000000000 <= cos (884279719003555 / 562949953421312) <= 7 / 100000000000000000 /\ 1 / 2 <= sin (884279719003555 / 562949953421312) <= 1 /\
  Rabs (sin (884279719003555 / 562949953421312) - 1) <= 7 / 100000000000000000.
Proof.
  assert (H := half_pi_near). set (x := 884279719003555 / 562949953421312) in *. set (d := PI / 2 - x) in *.
  assert (L : Rabs (sin x - 1) <= 7 / 100000000000000000). { rewrite <- sin_PI2. eapply Rle_trans; [apply sin_lip|]. rewrite Rabs_minus_sym. fold d. rewrite Rabs_right by lra. lra. }
  assert (C : cos x = sin d) by (unfold d; rewrite sin_shift; reflexivity). rewrite C.
  destruct (MVT_cor2 sin cos 0 d ltac:(lra)) as (z & E & Z); [intros; apply derivable_pt_lim_sin|]. rewrite sin_0, !Rminus_0_r in E.
  assert (Cz : 1 / 2 <= cos z <= 1). { split; [|apply COS_bound]. assert (Q := cos_lip z 0). rewrite cos_0, Rminus_0_r, (Rabs_right z) in Q by lra. apply Rabs_le_between in Q. lra. }
  rewrite E. split; [|split; [|exact L]].
  - split; [apply Rle_trans with (1 / 2 * (2 / 100000000000000000)); [lra|apply Rmult_le_compat; lra]|apply Rle_trans with (1 * (7 / 100000000000000000)); [apply Rmult_le_compat; lra|lra]].
  - split; [apply Rabs_le_between in L; lra|apply SIN_bound].
Qed.
(*@ C88, exactness at right angles is refuted: np.pi is below pi, so with a cosine and sine of even modest relative accuracy the transformation of a ply at 90 degrees
    has a number where the exact one has 0. @*)
Lemma t_C88_right_angle_refuted : forall np, pow_near (np_pow np) -> let x := radians (f_of_Z 90) in
  is_finite (np_cos np x) = true -> Rabs (B2R (np_cos np x) - cos (B2R x)) <= cos (B2R x) / 2 ->
  is_finite (np_sin np x) = true -> Rabs (B2R (np_sin np x) - sin (B2R x)) <= sin (B2R x) / 2 ->
  exists Tr Te, T_ply_f np (f_of_Z 90) = Ok (Tr, Te) /\ feq (Tr 0 2)%nat fzero = false /\ feq (Te 2 0)%nat fzero = false /\
    (as_arr (T_real (cdeg 90) (sdeg 90)) 0%nat 2%nat : R) = 0 /\ (as_arr (T_engineering (cdeg 90) (sdeg 90)) 2%nat 0%nat : R) = 0.
Proof.
  intros np P x Fc Ec Fs Es. destruct radians_90 as [_ V]. fold x in V. rewrite V in Ec, Es. destruct cos_half as ((C1 & C2) & (S1 & S2) & _).
  set (cx := cos (884279719003555 / 562949953421312)) in *. set (sx := sin (884279719003555 / 562949953421312)) in *. unfold T_ply_f, T_real_f, T_engineering_f. fold x. set (c := np_cos np x) in *. set (s := np_sin np x) in *.
  apply Rabs_le_between in Ec, Es. assert (Bc : 1 / 200000000000000000 <= B2R c <= 1) by lra. assert (Bs : 1 / 4 <= B2R s <= 2) by lra.
  assert (b1 : 2 <= bp 90). { apply Rle_trans with (bp 1); [cbn; lra|apply bpow_le; lia]. }
  destruct (P c 2%nat Fc ltac:(rewrite pz, Rabs_right; lra) ltac:(left; reflexivity)) as (c2 & Ec2 & _). destruct (P s 2%nat Fs ltac:(rewrite pz, Rabs_right; lra) ltac:(left; reflexivity)) as (s2 & Es2 & _).
  rewrite Ec2, Es2. cbn [bind]. eexists _, _. split; [reflexivity|]. cbn [array9].
  assert (NZ : forall z, z = 2%Z \/ z = (-2)%Z -> feq (fmul (fmul (f_of_Z z) c) s) fzero = false).
  { intros z Hz. destruct (f_of_Z_exp_denotes z 0 ltac:(destruct Hz; subst; reflexivity) ltac:(lia)) as [F2 V2]. change (f_of_Z_exp z 0) with (f_of_Z z) in *. cbn [bpow] in V2. rewrite Rmult_1_r in V2.
    assert (Az : Rabs (IZR z) = 2) by (destruct Hz; subst z; [rewrite Rabs_right; lra|rewrite Rabs_left; lra]).
    assert (e1 : bp (-60) <= 1 / 200000000000000000) by (cbn; lra). assert (e2 : bp (-2) = / 4) by (cbn; lra). assert (e3 : bp 2 = 4) by (cbn; lra). assert (e4 : 4 <= bp 60) by (rewrite <- e3; apply bpow_le; lia).
    assert (X1 : numk 0 2 (f_of_Z z) (IZR z)). { split; [rewrite <- V2; apply relk_self, F2|]. right. rewrite Az. change (- (2))%Z with (-2)%Z. lra. }
    assert (X2 : numk 0 60 c (B2R c)). { split; [apply relk_self, Fc|]. right. rewrite Rabs_right by lra. change (- (60))%Z with (-60)%Z. lra. }
    assert (X3 : numk 0 2 s (B2R s)). { split; [apply relk_self, Fs|]. right. rewrite Rabs_right by lra. change (- (2))%Z with (-2)%Z. lra. }
    destruct (mul_numk _ _ _ _ _ _ _ _ (mul_numk _ _ _ _ _ _ _ _ X1 X2 ltac:(lra) ltac:(lra) ltac:(lia)) X3 ltac:(lra) ltac:(lra) ltac:(lia)) as [[F E] _].
    apply feq_zero; [exact F|]. intros Z. rewrite Z in E. assert (u := unit_val). rewrite Rminus_0_l, Rabs_Ropp in E. set (w := Rabs (IZR z * B2R c * B2R s)) in *.
    assert (0 < w). { unfold w. rewrite !Rabs_mult, Az, !Rabs_right by lra. apply Rmult_lt_0_compat; [apply Rmult_lt_0_compat|]; lra. }
    assert ((0 + 0 + 1 + 3 / 100 + 0 + 1 + 3 / 100) * unit * w <= / 2 * w) by (apply Rmult_le_compat_r; lra). lra. }
  split; [apply NZ; left; reflexivity|]. split; [apply NZ; right; reflexivity|].
  unfold cdeg, sdeg. replace (90 * PI / 180) with (PI / 2) by field. rewrite cos_PI2, sin_PI2. unfold T_real, T_engineering. cbn [as_arr a13 a31]. split; match goal with |- @eq _ ?a ?b => change (@eq R a b) end; ring.
Qed.

(** ** an example *)
Definition ex_np : numpy := Numpy (fun x => if feq x fzero then fone else fzero) (fun x => if feq x fzero then fzero else fone) square_cube (fun T => Ok T)
  (fun X Y i j => fadd (fadd (fmul (X i 0%nat) (Y 0%nat j)) (fmul (X i 1%nat) (Y 1%nat j))) (fmul (X i 2%nat) (Y 2%nat j))).
Definition ex_ply : fmaterial := FOrtho (made (f_of_Z 4) (f_of_Z 2) (f_of_Z_exp 1 (-2)) (f_of_Z 1) (f_of_Z_exp 1 (-3))).
Lemma value x z : fin x -> (Z.abs z < 2 ^ 53)%Z -> feq x (f_of_Z z) = true -> B2R x = IZR z.
Proof.
  intros F H E. destruct (f_of_Z_exp_denotes z 0 H ltac:(lia)) as [F' V]. change (f_of_Z_exp z 0) with (f_of_Z z) in *. cbn [bpow] in V. rewrite Rmult_1_r in V.
  apply (proj1 (feq_fin _ _ F F')) in E. rewrite E, V. reflexivity.
Qed.
Definition ex_T (theta : f64) : farr := match T_ply_f ex_np theta with Ok p => fst p | Err _ => fid end.
Lemma ex_inv theta (v : nat -> nat -> Z) : (forall i j, (i < 3)%nat -> (j < 3)%nat -> fin (ex_T theta i j) /\ B2R (ex_T theta i j) = IZR (v i j)) ->
  (forall i j, (i < 3)%nat -> (j < 3)%nat -> (v i 0%nat * v 0%nat j + v i 1%nat * v 1%nat j + v i 2%nat * v 2%nat j = if Nat.eqb i j then 1 else 0)%Z) ->
  forall Tr Te, T_ply_f ex_np theta = Ok (Tr, Te) -> inv_near ex_np 0 Tr.
Proof.
  intros H Hv Tr Te E. assert (ET : Tr = ex_T theta) by (unfold ex_T; rewrite E; reflexivity). subst Tr. exists (ex_T theta). split; [reflexivity|].
  split; [intros i j Hi Hj; apply H; assumption|]. intros i j Hi Hj. unfold products.
  rewrite (proj2 (H i 0%nat Hi ltac:(lia))), (proj2 (H i 1%nat Hi ltac:(lia))), (proj2 (H i 2%nat Hi ltac:(lia))), (proj2 (H 0%nat j ltac:(lia) Hj)), (proj2 (H 1%nat j ltac:(lia) Hj)), (proj2 (H 2%nat j ltac:(lia) Hj)).
  rewrite <- !mult_IZR, <- !plus_IZR, (Hv i j Hi Hj). destruct (Nat.eqb i j); rewrite Rminus_diag_eq, Rabs_R0 by reflexivity; lra.
Qed.
Ltac entries := let i := fresh in let j := fresh in intros i j Hi Hj; destruct i as [|[|[|i]]]; try lia; (destruct j as [|[|[|j]]]; try lia); (split; [vm_compute; reflexivity|]); apply value; vm_compute; reflexivity.
Lemma ex_near0 : numpy_near ex_np 0 fzero.
Proof.
  constructor; [exact square_cube_near|exact t_C88_loop| |].
  - assert (E : radians fzero = fzero) by (vm_compute; reflexivity). rewrite E. unfold trig_near, ex_np. cbn [np_cos np_sin]. replace (feq fzero fzero) with true by (vm_compute; reflexivity).
    destruct fone_val as [F1 V1]. rewrite V1. change (B2R fzero) with 0. rewrite cos_0, sin_0, !Rminus_diag_eq, Rabs_R0 by reflexivity. assert (u := unit_val). repeat split; try assumption; lra.
  - apply (ex_inv fzero (fun i j => if Nat.eqb i j then 1 else 0)%Z); [entries|]. intros i j Hi Hj. destruct i as [|[|[|i]]]; try lia; (destruct j as [|[|[|j]]]; try lia); reflexivity.
Qed.
Lemma ex_near90 : numpy_near ex_np 0 (f_of_Z 90).
Proof.
  constructor; [exact square_cube_near|exact t_C88_loop| |].
  - destruct radians_90 as [F V]. unfold trig_near, ex_np. cbn [np_cos np_sin]. replace (feq (radians (f_of_Z 90)) fzero) with false by (vm_compute; reflexivity).
    destruct fone_val as [F1 V1]. rewrite V1, V. change (B2R fzero) with 0. destruct cos_half as (C & _ & S). assert (U : 2 * unit >= 7 / 100000000000000000) by (unfold unit; lra).
    split; [reflexivity|]. split; [apply Rabs_le; lra|]. split; [exact F1|]. rewrite Rabs_minus_sym. lra.
  - apply (ex_inv (f_of_Z 90) (fun i j => match i, j with 0%nat, 1%nat | 1%nat, 0%nat => 1 | 2%nat, 2%nat => -1 | _, _ => 0 end)%Z); [entries|]. intros i j Hi Hj. destruct i as [|[|[|i]]]; try lia; (destruct j as [|[|[|j]]]; try lia); reflexivity.
Qed.
Lemma ex_exact : exact_mat ex_ply = Ortho (OMat 4 2 (1 / 4) 1 (1 / 8) 0 0 0 0 0).
Proof.
  unfold ex_ply, exact_mat, exact_ply, made. cbn [fo_e1 fo_e2 fo_v12 fo_g12 fo_thickness fo_t1 fo_c1 fo_t2 fo_c2 fo_s].
  assert (I : forall z, (Z.abs z < 2 ^ 53)%Z -> B2R (f_of_Z z) = IZR z). { intros z H. destruct (f_of_Z_exp_denotes z 0 H ltac:(lia)) as [_ V]. change (f_of_Z_exp z 0) with (f_of_Z z) in V. rewrite V. cbn. ring. }
  rewrite !I by lia. rewrite !val by lia. do 2 f_equal; cbn; lra.
Qed.
Definition ex_lay : list (f64 * fmaterial) := [(fzero, ex_ply); (f_of_Z 90, ex_ply)].
Lemma ex_Q0 : Q_0 (exact_mat ex_ply) = Ok (M3 (128 / 31) (16 / 31) 0 (16 / 31) (64 / 31) 0 0 0 1).
Proof.
  rewrite ex_exact. unfold Q_0, o_Q0, pydiv, o_v21. cbn [o_e1 o_e2 o_v12 o_g12]. destruct (Req_EM_T _ 0) as [Z|_]; [exfalso; lra|]. cbn [bind]. f_equal. f_equal; field.
Qed.
Lemma ex_good : good_layup ex_np 0 (1 / 2) 8 ex_lay.
Proof.
  assert (St : stiff_below 8 ex_ply). { eexists. split; [apply ex_Q0|]. unfold size. cbn [a11 a12 a22 a33]. rewrite !Rabs_right by lra. lra. }
  assert (I : forall z, (Z.abs z < 2 ^ 53)%Z -> fin (f_of_Z z) /\ B2R (f_of_Z z) = IZR z). { intros z H. destruct (f_of_Z_exp_denotes z 0 H ltac:(lia)) as [F V]. change (f_of_Z_exp z 0) with (f_of_Z z) in *. split; [exact F|]. rewrite V. cbn. ring. }
  assert (P : forall x r, fin x -> B2R x = r -> / 8 <= r <= 131072 -> usual0 x).
  { intros x r F E B. split; [exact F|right]. rewrite E, Rabs_right by lra. rewrite !pz. split; [apply Rle_trans with (bp (-3)); [apply bpow_le; lia|cbn; lra]|apply Rle_trans with (bp 17); [cbn; lra|apply bpow_le; lia]]. }
  assert (V3 : B2R (f_of_Z_exp 1 (-2)) = / 4) by (rewrite val by lia; cbn; lra).
  assert (Gp : good_ply (1 / 2) ex_ply).
  { split; [|split].
    - exists (fun _ => None). eexists. apply make. vm_compute. reflexivity.
    - destruct (I 4%Z ltac:(lia)) as [F4 V4]. destruct (I 2%Z ltac:(lia)) as [F2 V2]. destruct (I 1%Z ltac:(lia)) as [F1 V1].
      constructor; cbn [made fo_e1 fo_e2 fo_v12 fo_g12]; [split; [apply (P _ _ F4 V4)|]; lra|split; [apply (P _ _ F2 V2)|]; lra|split; [apply (P _ _ F1 V1)|]; lra|].
      eapply P; [|exact V3|]; [vm_compute; reflexivity|lra].
    - unfold margin. cbn [made fo_e1 fo_e2 fo_v12]. rewrite (proj2 (I 4%Z ltac:(lia))), (proj2 (I 2%Z ltac:(lia))), V3. lra. }
  split.
  - constructor; [|constructor; [|constructor]]; cbn [fst snd].
    + split; [exact ex_near0|]. split; [|split; assumption]. split; [split; [reflexivity|left; reflexivity]|]. change (B2R fzero) with 0. rewrite Rabs_R0. lra.
    + split; [exact ex_near90|]. split; [|split; assumption]. destruct (I 90%Z ltac:(lia)) as [F V]. split; [apply (P _ _ F V); lra|]. rewrite V, Rabs_right; lra.
  - split; [|cbn [length map INR ex_lay]; split; [lia|lra]]. assert (usual (f_of_Z_exp 1 (-3))) by (apply usual_of; lia). apply Forall_cons; [assumption|]. apply Forall_cons; [assumption|apply Forall_nil].
Qed.
Lemma ex_D : attribute 3 (exact_layup ex_lay) = Ok (M3 (1 / 248) (1 / 1488) 0 (1 / 1488) (1 / 248) 0 0 0 (1 / 768)).
Proof.
  assert (Rd : all_readable (exact_layup ex_lay)). { constructor; [|constructor; [|constructor]]; cbn [snd]; eexists; apply ex_Q0. }
  rewrite (attribute_eq 3 _ ltac:(lia) Rd). f_equal.
  assert (Q : Q0p (exact_mat ex_ply) = M3 (128 / 31) (16 / 31) 0 (16 / 31) (64 / 31) 0 0 0 1). { unfold Q0p. rewrite ex_Q0. reflexivity. }
  assert (V9 : B2R (f_of_Z 90) = 90). { destruct (f_of_Z_exp_denotes 90 0 ltac:(lia) ltac:(lia)) as [_ V]. change (f_of_Z_exp 90 0) with (f_of_Z 90) in V. rewrite V. cbn. ring. }
  assert (Q0 : Qbar 0 (exact_mat ex_ply) = M3 (128 / 31) (16 / 31) 0 (16 / 31) (64 / 31) 0 0 0 1).
  { unfold Qbar. rewrite Q. unfold cdeg, sdeg. replace (0 * PI / 180) with 0 by field. rewrite cos_0, sin_0. unfold rot, T_real_inv, T_engineering, mmul. cbn [a11 a12 a13 a21 a22 a23 a31 a32 a33]. apply mat3_ext; cbn [a11 a12 a13 a21 a22 a23 a31 a32 a33]; field. }
  assert (Q9 : Qbar 90 (exact_mat ex_ply) = M3 (64 / 31) (16 / 31) 0 (16 / 31) (128 / 31) 0 0 0 1).
  { unfold Qbar. rewrite Q. unfold cdeg, sdeg. replace (90 * PI / 180) with (PI / 2) by field. rewrite cos_PI2, sin_PI2. unfold rot, T_real_inv, T_engineering, mmul. cbn [a11 a12 a13 a21 a22 a23 a31 a32 a33]. apply mat3_ext; cbn [a11 a12 a13 a21 a22 a23 a31 a32 a33]; field. }
  assert (Th : thickness (exact_mat ex_ply) = 1 / 8) by (rewrite ex_exact; reflexivity).
  unfold Lsum, exact_layup, ex_lay, pairs. cbn [map fst snd]. rewrite V9. change (B2R fzero) with 0. rewrite Q0, Q9, Th. unfold z_bottom, hsum. cbn [map fst rsum lsum T_LamRound.weight]. unfold wD, madd, mscale, mzero.
  apply mat3_ext; cbn [a11 a12 a13 a21 a22 a23 a31 a32 a33]; field.
Qed.
Lemma usual_bool x : fin x -> (feq x fzero || (flt (f_of_Z_exp 1 (-20)) x && flt x (f_of_Z_exp 1 20)))%bool = true -> usual0 x.
Proof.
  intros F H. split; [exact F|]. apply orb_prop in H. destruct H as [H|H]; [left; apply (proj1 (feq_fin x fzero F eq_refl)) in H; exact H|right].
  apply andb_prop in H. destruct H as [H1 H2]. destruct (f_of_Z_exp_denotes 1 (-20) ltac:(lia) ltac:(lia)) as [Fa Va]. destruct (f_of_Z_exp_denotes 1 20 ltac:(lia) ltac:(lia)) as [Fb Vb].
  apply (proj1 (flt_fin _ _ Fa F)) in H1. apply (proj1 (flt_fin _ _ F Fb)) in H2. rewrite Va in H1. rewrite Vb in H2. assert (P := bpow_gt_0 radix2 (-20)). rewrite !pz, Rabs_right by lra.
  assert (bp (-200) <= bp (-20)) by (apply bpow_le; lia). assert (bp 20 <= bp 200) by (apply bpow_le; lia). lra.
Qed.
(*@ C88: the hypotheses are met: for a numpy that is exact at these angles, by two plies at 0 and 90 degrees (e1 = 4, e2 = 2, v12 = 1/4, g12 = 1, thickness 1/8), whose
    computed D has numbers of usual size, on a pinned plate. The share lost in D is then below 2^-30. @*)
Example t_C88_ex : exists np l (X : mat3) (M : farr), good_layup np 0 (1 / 2) 8 l /\ map (fun p => B2R (fst p)) l = [0; 90] /\ attribute 3 (exact_layup l) = Ok X /\ a11 X = 1 / 248 /\
  plate_ok X 2 2 (CStr "PINNED") Pinned Pinned Pinned Pinned 5 5 /\ (forall e, / 1000 * dot e e <= quad X e) /\ 3 * matrix_off 0 (1 / 2) 8 3 l < / 1000 /\
  3 * matrix_off 0 (1 / 2) 8 3 l / / 1000 < powerRZ 2 (-30) /\ D_f np l = Ok M /\ forall i j, (i < 3)%nat -> (j < 3)%nat -> usual0 (M i j).
Proof.
  exists ex_np, ex_lay, (M3 (1 / 248) (1 / 1488) 0 (1 / 1488) (1 / 248) 0 0 0 (1 / 768)). assert (Qd : forall e, / 1000 * dot e e <= quad (M3 (1 / 248) (1 / 1488) 0 (1 / 1488) (1 / 248) 0 0 0 (1 / 768)) e).
  { intros [x y z]. unfold quad, dot, mvec. cbn [vx vy vz a11 a12 a13 a21 a22 a23 a31 a32 a33]. assert (A := pow2_ge_0 (x + y)). assert (B := pow2_ge_0 x). assert (C := pow2_ge_0 y). assert (D := pow2_ge_0 z). lra. }
  assert (V9 : B2R (f_of_Z 90) = 90). { destruct (f_of_Z_exp_denotes 90 0 ltac:(lia) ltac:(lia)) as [_ V]. change (f_of_Z_exp 90 0) with (f_of_Z 90) in V. rewrite V. cbn. ring. }
  assert (Tt : total ex_lay = 1 / 4). { unfold total, height, ex_lay, ex_ply. cbn [map snd f_thickness made fo_thickness rsum]. rewrite val by lia. cbn. lra. }
  assert (Mo : matrix_off 0 (1 / 2) 8 3 ex_lay = 2460 * unit / 8). { unfold matrix_off, ply_units. rewrite Tt. cbn [length ex_lay INR]. field. }
  assert (EM : exists M, D_f ex_np ex_lay = Ok M). { destruct (t_C88_matrices ex_np 0 (1 / 2) 8 3 ex_lay ltac:(lia) ex_good ltac:(lra)) as (M & X & E & _); [rewrite pz; cbn; lra|rewrite !pz; split; [apply Rle_trans with (bp 0); [apply bpow_le; lia|cbn; lra]|apply Rle_trans with (bp 3); [cbn; lra|apply bpow_le; lia]]|]. exists M. exact E. }
  destruct EM as (M & EM). exists M.
  split; [exact ex_good|]. split; [unfold ex_lay; cbn [map fst]; rewrite V9; reflexivity|]. split; [exact ex_D|]. split; [reflexivity|]. split; [|split; [exact Qd|]].
  - constructor; try lra; try reflexivity.
    + intros e Ne. assert (P : 0 < dot e e).
      { destruct e as [x y z]. unfold dot. cbn [vx vy vz]. assert (A := pow2_ge_0 x). assert (B := pow2_ge_0 y). assert (C := pow2_ge_0 z). destruct (Req_dec (x * x + y * y + z * z) 0) as [E|E]; [|lra].
        exfalso. apply Ne. unfold vzero. f_equal; nra. }
      specialize (Qd e). lra.
    + constructor.
    + unfold restrained. cbn. do 4 right. lia.
    + cbn. lia.
    + cbn. lia.
  - rewrite Mo. split; [unfold unit; lra|]. split; [rewrite pz; unfold unit; cbn; lra|]. split; [exact EM|].
    assert (G : forall i j, (i < 3)%nat -> (j < 3)%nat -> match D_f ex_np ex_lay with Ok N => is_finite (N i j) && (feq (N i j) fzero || (flt (f_of_Z_exp 1 (-20)) (N i j) && flt (N i j) (f_of_Z_exp 1 20))) | Err _ => false end = true).
    { intros i j Hi Hj. destruct i as [|[|[|i]]]; try lia; (destruct j as [|[|[|j]]]; try lia); vm_compute; reflexivity. }
    intros i j Hi Hj. specialize (G i j Hi Hj). rewrite EM in G. apply andb_prop in G. destruct G as [G1 G2]. apply usual_bool; assumption.
Qed.
