(** Proofs of the theorems on leaving out the coupling of bending and stretching. *)
From Coq Require Import QArith Qreals Reals ZArith Lra Lia String Classical FunctionalExtensionality.
From Coquelicot Require Import Coquelicot.
From Coq Require Import List.
From Verif Require Import M_Py M_Material M_Laminate M_Plate M_K M_Expr M_RealArith S_Mat S_Material S_Laminate S_Plate S_Bardell S_Energy S_K S_Ritz S_Eigen S_Compare S_Limit S_Sens S_Coupled L_Mat L_Lam L_LamAlg L_LamSums L_LamEnergy L_Poly L_Shape L_TabV L_KR L_Energy L_Ritz L_Approx L_Limit T_Laminate T_Shape T_K T_ABD T_Energy T_Compare T_Outer T_Convex T_Limit T_Bounds T_Sens.
Import ListNotations.
Open Scope R_scope.

(** ** matrices *)
Definition form (A B D : mat3) (e k : vec3) : R := dot e (mvec A e) + dot e (mvec B k) + dot k (mvec (mtrans B) e) + dot k (mvec D k).
Lemma square A B D D' P e k : symmetric A -> mmul A P = B -> D' = madd D (mneg (mmul (mtrans P) B)) -> form A B D e k = quad A (vadd e (mvec P k)) + quad D' k.
Proof.
  intros Sy <- ->. unfold form, quad. rewrite !mvec_vadd, !dot_vadd_l, !dot_vadd_r, !mvec_madd. unfold mneg. rewrite mvec_mscale, dot_vadd_r, dot_vscale_r.
  rewrite !mvec_mmul, mtrans_mmul, mvec_mmul, Sy.
  assert (E : forall u, dot k (mvec (mtrans P) u) = dot (mvec P k) u) by (intros u; rewrite dot_mtrans, mtrans_invol; reflexivity). rewrite !E. ring.
Qed.
Lemma det_pos A : symmetric A -> pos_def A -> det3 A <> 0.
Proof.
  intros Sy PD E. assert (Z : forall v, mvec A v = vzero -> v = vzero).
  { intros v Hv. destruct (vec3_eq_dec v vzero) as [|N]; [assumption|]. assert (X := PD v N). unfold quad in X. rewrite Hv in X. unfold dot, vzero in X. cbn in X. lra. }
  assert (R1 : mmul A (adj3 A) = mzero) by (rewrite adj3_r, E; apply mscale_0).
  assert (C : forall v, mvec (adj3 A) v = vzero) by (intros v; apply Z; rewrite <- mvec_mmul, R1; apply mvec_mzero).
  assert (X := PD (V3 1 0 0) ltac:(intros H; apply (f_equal vx) in H; cbn in H; lra)). unfold quad, dot, mvec in X. cbn in X.
  assert (S1 : a21 A = a12 A) by exact (f_equal a12 Sy). assert (S2 : a31 A = a13 A) by exact (f_equal a13 Sy). assert (S3 : a32 A = a23 A) by exact (f_equal a23 Sy).
  assert (C3 := f_equal vz (C (V3 0 0 1))). unfold mvec, adj3, vzero in C3. cbn in C3. rewrite S1 in C3.
  assert (Y := PD (V3 (a12 A) (- a11 A) 0) ltac:(intros H; apply (f_equal vy) in H; cbn in H; lra)). unfold quad, dot, mvec in Y. cbn in Y. rewrite S1 in Y. nra.
Qed.
Lemma solve A B : symmetric A -> pos_def A -> exists P, mmul A P = B.
Proof.
  intros Sy PD. assert (N := det_pos A Sy PD). exists (mscale (/ det3 A) (mmul (adj3 A) B)). rewrite mmul_mscale_r, mmul_assoc, adj3_r, mmul_mscale_l, mmul_mid_l, mscale_mscale, Rinv_l by exact N. apply mscale_1.
Qed.
Lemma solve_one A B P P' : symmetric A -> pos_def A -> mmul A P = B -> mmul A P' = B -> P = P'.
Proof.
  intros Sy PD E E'. assert (N := det_pos A Sy PD). assert (H : mscale (det3 A) P = mscale (det3 A) P').
  { transitivity (mmul (mmul (adj3 A) A) P); [rewrite adj3_l, mmul_mscale_l, mmul_mid_l; reflexivity|]. rewrite <- mmul_assoc, E, <- E', mmul_assoc, adj3_l, mmul_mscale_l, mmul_mid_l. reflexivity. }
  apply (f_equal (mscale (/ det3 A))) in H. rewrite !mscale_mscale, Rinv_l, !mscale_1 in H by exact N. exact H.
Qed.
Lemma red_sym A B D D' : symmetric A -> symmetric D -> reduced A B D D' -> symmetric D'.
Proof.
  intros SA SD (P & E & ->). apply sym_madd; [exact SD|]. apply sym_mscale. unfold symmetric. rewrite <- E, !mtrans_mmul, mtrans_invol, SA, mmul_assoc. reflexivity.
Qed.
Lemma red_less A B D D' : symmetric A -> pos_semidef A -> reduced A B D D' -> no_stiffer D' D.
Proof.
  intros SA PA (P & E & EQ) k. assert (X := square A B D D' P vzero k SA E EQ). unfold form in X. rewrite vadd_0_l in X. assert (Y := PA (mvec P k)).
  replace (quad D k) with (dot k (mvec D k)) by reflexivity. replace (dot vzero (mvec A vzero)) with 0 in X by (unfold dot, vzero; cbn; ring). replace (dot vzero (mvec B k)) with 0 in X by (unfold dot, vzero; cbn; ring).
  replace (dot k (mvec (mtrans B) vzero)) with 0 in X by (unfold dot, mvec, vzero; cbn; ring). lra.
Qed.
Lemma red_pos A B D D' : symmetric A -> reduced A B D D' -> pos_def6 (M6 A B (mtrans B) D) -> pos_def D'.
Proof.
  intros SA (P & E & EQ) H k N. assert (X := square A B D D' P (vscale (-1) (mvec P k)) k SA E EQ).
  assert (Z : vadd (vscale (-1) (mvec P k)) (mvec P k) = vzero) by (unfold vadd, vscale, vzero; cbn; f_equal; ring). rewrite Z, L_Mat.quad_vzero in X.
  assert (Y := H (vscale (-1) (mvec P k), k) ltac:(intros Q; apply N; exact (f_equal snd Q))). unfold dot6, mvec6 in Y. cbn [fst snd blkA blkB blkC blkD] in Y. rewrite !dot_vadd_r in Y. unfold form in X. lra.
Qed.

(** ** the energies *)
Section Energies.
Variables (A B D D' : mat3) (a b : R) (u v w : field) (W : nat -> nat -> field) (ux uy vx' vy' : field).
Hypotheses (Ha : 0 < a) (Hb : 0 < b) (SA : symmetric A) (PA : pos_semidef A) (Rd : reduced A B D D') (Dw : derivatives w W).
Hypotheses (U1 : forall x y : R, is_derive (fun t => u t y) x (ux x y)) (U2 : forall x y : R, is_derive (fun t => u x t) y (uy x y)) (Cu1 : cont2 ux) (Cu2 : cont2 uy).
Hypotheses (V1 : forall x y : R, is_derive (fun t => v t y) x (vx' x y)) (V2 : forall x y : R, is_derive (fun t => v x t) y (vy' x y)) (Cv1 : cont2 vx') (Cv2 : cont2 vy').
Definition mem_at (x y : R) : vec3 := V3 (ux x y) (vy' x y) (uy x y + vx' x y).
Definition cur_at (x y : R) : vec3 := V3 (- W 2%nat 0%nat x y) (- W 0%nat 2%nat x y) (-2 * W 1%nat 1%nat x y).
Lemma mem_eq x y : membrane u v x y = mem_at x y.
Proof. unfold membrane, mem_at, dx, dy. f_equal; [apply is_derive_unique, U1|apply is_derive_unique, V2|]. f_equal; [apply is_derive_unique, U2|apply is_derive_unique, V1]. Qed.
Lemma cur_eq x y : curvature w x y = cur_at x y.
Proof. unfold curvature, cur_at. rewrite (d_xx w W Dw), (d_yy w W Dw), (d_xy w W Dw). reflexivity. Qed.
Definition all_at : field := fun x y => form A B D (mem_at x y) (cur_at x y).
Lemma coupled_at : coupled A B D a b (Disp u v w) (Disp u v w) = over a b all_at.
Proof. unfold coupled. apply over_ext. intros x y. cbv zeta. cbn [du dv dw]. rewrite mem_eq, cur_eq. reflexivity. Qed.
Lemma cont2_ext f g : (forall x y, f x y = g x y) -> cont2 f -> cont2 g.
Proof. intros E C x y. apply (continuity_2d_pt_ext f); [intros s t; apply E|apply C]. Qed.
Lemma all_cont : cont2 all_at.
Proof.
  assert (C1 := W_cont w W Dw 2 0 ltac:(lia) ltac:(lia)). assert (C2 := W_cont w W Dw 0 2 ltac:(lia) ltac:(lia)). assert (C3 := W_cont w W Dw 1 1 ltac:(lia) ltac:(lia)).
  unfold all_at, form, mem_at, cur_at, dot, mvec, mtrans. cbn [vx vy vz a11 a12 a13 a21 a22 a23 a31 a32 a33].
  assert (N1 : cont2 (fun x y => - W 2%nat 0%nat x y)) by (apply (cont2_ext (fun x y => -1 * W 2%nat 0%nat x y)); [intros; ring|apply (cont2_mul (fun _ _ => _)); [apply cont2_const|exact C1]]).
  assert (N2 : cont2 (fun x y => - W 0%nat 2%nat x y)) by (apply (cont2_ext (fun x y => -1 * W 0%nat 2%nat x y)); [intros; ring|apply (cont2_mul (fun _ _ => _)); [apply cont2_const|exact C2]]).
  repeat first [assumption|apply cont2_const|apply (cont2_add (fun x y => _) (fun x y => _))|apply (cont2_mul (fun x y => _) (fun x y => _))].
Qed.
Lemma above : bending D' a b w w <= coupled A B D a b (Disp u v w) (Disp u v w).
Proof.
  rewrite coupled_at, (bending_W w W Dw). destruct Rd as (P & E & EQ).
  eapply Rle_trans; [apply (over_le_e a b (bend_at W D') all_at 0 Ha Hb (bend_cont w W Dw D') all_cont)|lra].
  intros x y _ _. unfold all_at. rewrite (square A B D D' P _ _ SA E EQ). assert (Y := PA (vadd (mem_at x y) (mvec P (cur_at x y)))). change (bend_at W D' x y) with (quad D' (cur_at x y)). lra.
Qed.
End Energies.
Lemma at_rest A B D a b w : coupled A B D a b (Disp still still w) (Disp still still w) = bending D a b w w.
Proof.
  unfold coupled, bending. apply over_ext. intros x y. cbv zeta. cbn [du dv dw]. unfold membrane, still, dx, dy. rewrite !Derive_const. unfold dot, mvec, mtrans. cbn. ring.
Qed.
Lemma still_diff : differentiable still.
Proof.
  exists (fun _ _ => 0), (fun _ _ => 0). unfold still. split; [|split; [|split]]; intros x y; [apply (is_derive_const (V := R_NormedModule))|apply (is_derive_const (V := R_NormedModule))|apply continuity_2d_pt_const|apply continuity_2d_pt_const].
Qed.
Lemma above_any A B D D' a b c0 ca d0 db V u v w : 0 < a -> 0 < b -> symmetric A -> pos_semidef A -> reduced A B D D' -> edges_admit V -> V u v -> deflection a b c0 ca d0 db w ->
  bending D' a b w w <= coupled A B D a b (Disp u v w) (Disp u v w).
Proof.
  intros Ha Hb SA PA Rd EV Huv [[W Dw] _]. destruct (adm_smooth V EV u v Huv) as [(ux & uy & U1 & U2 & Cu1 & Cu2) (vx' & vy' & V1 & V2 & Cv1 & Cv2)].
  apply (above A B D D' a b u v w W ux uy vx' vy'); assumption.
Qed.

Lemma semi_bend D a b c0 ca d0 db w : 0 < a -> 0 < b -> pos_semidef D -> deflection a b c0 ca d0 db w -> 0 <= bending D a b w w.
Proof. intros Ha Hb PD [[W Dw] _]. rewrite (bending_W w W Dw). apply over_pos; [exact Ha|exact Hb|apply (bend_cont w W Dw)|]. intros x y _ _. apply PD. Qed.

(** ** the theorems *)
(*@ C89: for every layup of admissible plies the attributes A, B and D leave a reduced bending stiffness D - B A^-1 B, only one; it is symmetric,
    positive definite and no stiffer than D, and it is D itself when B is zero. @*)
Lemma t_C89_reduced : forall l A B D, l <> [] -> all_admissible l -> A_of l = Ok A -> B_of l = Ok B -> D_of l = Ok D ->
  exists D', reduced A B D D' /\ (forall D2, reduced A B D D2 -> D2 = D') /\ symmetric D' /\ pos_def D' /\ no_stiffer D' D /\ (B = mzero -> D' = D).
Proof.
  intros l A B D N HA EA EB ED. assert (Rl := admissible_readable l HA). rewrite (A_of_eq l Rl) in EA. rewrite (B_of_eq l Rl) in EB. rewrite (D_of_eq l Rl) in ED. apply Ok_inj in EA, EB, ED.
  assert (P6 := ABD_pos_def l N HA). rewrite EA, EB, ED in P6.
  assert (SA : symmetric A) by (rewrite <- EA; apply Lsum_sym, Rl). assert (SB : symmetric B) by (rewrite <- EB; apply Lsum_sym, Rl). assert (SD : symmetric D) by (rewrite <- ED; apply Lsum_sym, Rl).
  assert (PA : pos_def A).
  { intros e Ne. assert (X := P6 (e, vzero) ltac:(intros Q; apply Ne; exact (f_equal fst Q))). unfold dot6, mvec6 in X. cbn [fst snd blkA blkB blkC blkD] in X. rewrite !dot_vadd_r in X.
    replace (dot e (mvec B vzero)) with 0 in X by (unfold dot, mvec, vzero; cbn; ring). unfold quad. unfold vzero in X. unfold dot in X at 2 3. cbn in X. unfold quad. lra. }
  destruct (solve A B SA PA) as (P & EP). exists (madd D (mneg (mmul (mtrans P) B))). assert (Rd : reduced A B D (madd D (mneg (mmul (mtrans P) B)))) by (exists P; split; [exact EP|reflexivity]).
  split; [exact Rd|]. split; [|split; [|split; [|split]]].
  - intros D2 (P2 & E2 & ->). rewrite (solve_one A B P2 P SA PA E2 EP). reflexivity.
  - apply (red_sym A B D _ SA SD Rd).
  - apply (red_pos A B D _ SA Rd). rewrite SB. exact P6.
  - apply (red_less A B D _ SA (pos_def_semi A PA) Rd).
  - intros ->. rewrite mmul_mzero_r. unfold mneg. rewrite mscale_mzero. apply madd_0_r.
Qed.
(*@ C89: however the edges hold the points of the plate along its plane, the load that the plate with coupling carries lies between the limits of
    two plates without coupling: one with the reduced stiffness and one with D, the matrix buckling_analysis works with. @*)
Lemma t_C89_between : forall (A B D D' : mat3) a b Nxx Nyy Nxy c0 ca d0 db V L L', 0 < a -> 0 < b -> symmetric A -> pos_semidef A -> reduced A B D D' -> pos_semidef D' -> edges_admit V ->
  stability_limit D a b Nxx Nyy Nxy c0 ca d0 db L -> stability_limit D' a b Nxx Nyy Nxy c0 ca d0 db L' ->
  exists C, coupled_limit A B D a b Nxx Nyy Nxy c0 ca d0 db V C /\ L' <= C <= L /\ (forall C2, coupled_limit A B D a b Nxx Nyy Nxy c0 ca d0 db V C2 -> C2 = C) /\
    (forall s, 0 <= s -> (coupled_stable A B D a b Nxx Nyy Nxy c0 ca d0 db V s <-> s <= C)).
Proof.
  intros A B D D' a b Nxx Nyy Nxy c0 ca d0 db V L L' Ha Hb SA PA Rd PD' EV (HL & SL & UL) (HL' & SL' & UL').
  set (st := coupled_stable A B D a b Nxx Nyy Nxy c0 ca d0 db V). assert (St : st L').
  { intros u v w Huv Hw. assert (X := above_any A B D D' a b c0 ca d0 db V u v w Ha Hb SA PA Rd EV Huv Hw). assert (Y := SL' w Hw). cbv zeta in Y. lra. }
  assert (Up : forall s, st s -> s <= L).
  { intros s Hs. apply Rnot_lt_le. intros Lt. destruct (UL s Lt) as (w & Dw & Neg). assert (X := Hs still still w (adm_still V EV) Dw). rewrite at_rest in X. lra. }
  assert (Nn : forall u v w, V u v -> deflection a b c0 ca d0 db w -> 0 <= coupled A B D a b (Disp u v w) (Disp u v w)).
  { intros u v w Huv Hw. assert (X := above_any A B D D' a b c0 ca d0 db V u v w Ha Hb SA PA Rd EV Huv Hw). assert (Y := semi_bend D' a b _ _ _ _ w Ha Hb PD' Hw). lra. }
  destruct (completeness st) as (C & Ub & Lb); [exists L; intros s Hs; apply Up, Hs|exists L'; exact St|].
  assert (C1 : L' <= C) by (apply Ub, St). assert (C2 : C <= L) by (apply Lb; intros s Hs; apply Up, Hs).
  assert (SC : st C).
  { intros u v w Huv Hw. apply Rnot_lt_le. intros Neg. set (cp := coupled A B D a b (Disp u v w) (Disp u v w)) in *. set (g := load_work Nxx Nyy Nxy a b w w) in *.
    assert (H0 := St u v w Huv Hw). fold cp g in H0. assert (g < 0) by nra.
    assert (C <= cp / - g). { apply Lb. intros s Hs. assert (X := Hs u v w Huv Hw). fold cp g in X. apply Rmult_le_reg_r with (- g); [lra|]. unfold Rdiv. rewrite Rmult_assoc, Rinv_l by lra. lra. }
    apply (Rmult_le_compat_r (- g)) in H1; [|lra]. unfold Rdiv in H1. rewrite Rmult_assoc, Rinv_l in H1 by lra. lra. }
  assert (SB : forall s, 0 <= s <= C -> st s).
  { intros s Hs u v w Huv Hw. assert (X := SC u v w Huv Hw). assert (Y := St u v w Huv Hw).
    assert (Z := Nn u v w Huv Hw). destruct (Rle_dec 0 (load_work Nxx Nyy Nxy a b w w)) as [P|P]; nra. }
  assert (Un : forall s, C < s -> ~ st s) by (intros s Lt Hs; assert (X := Ub s Hs); lra).
  exists C. split; [split; [lra|split; [exact SC|exact Un]]|]. split; [lra|]. split.
  - intros C3 (H3 & S3 & U3). assert (X := Ub C3 S3). destruct (Rle_lt_or_eq_dec C3 C X) as [Lt|E]; [destruct (U3 C Lt SC)|exact E].
  - intros s Hs. split; [apply Ub|intros Le; apply SB; lra].
Qed.
(*@ C89: so buckling_analysis, which assembles its matrices from D alone, is never on the safe side: with exact integrals the plate with coupling
    buckles at or below the factor of every plate it is compared with, whatever the edges and the numbers of functions. @*)
Lemma t_C89_unsafe : forall (A B D : mat3) a b Nxx Nyy Nxy c c0 ca d0 db V C m n l, plate_any D a b c c0 ca d0 db -> edges_admit V ->
  coupled_limit A B D a b Nxx Nyy Nxy c0 ca d0 db V C -> critical D a b Nxx Nyy Nxy c m n l -> C <= l.
Proof.
  intros A B D a b Nxx Nyy Nxy c c0 ca d0 db V C m n l Pk EV (HC & SC & _) Cr. destruct (critical_mode D a b Nxx Nyy Nxy c c0 ca d0 db m n l Pk Cr) as (w & Dw & Hl & Pb & Z).
  assert (X := SC still still w (adm_still V EV) Dw). rewrite at_rest in X. nra.
Qed.

(** ** layups whose coupling only moves the neutral surface *)
Lemma dx_smooth w W : derivatives w W -> forall k, differentiable (fun x y => k * dx w x y).
Proof.
  intros Dw k. exists (fun x y => k * W 2%nat 0%nat x y), (fun x y => k * W 1%nat 1%nat x y). rewrite (d_x w W Dw). split; [|split; [|split]]; intros x y.
  - apply (is_derive_scal (fun t => W 1%nat 0%nat t y)). apply (dv_x _ _ Dw); lia.
  - apply (is_derive_scal (fun t => W 1%nat 0%nat x t)). apply (dv_y _ _ Dw); lia.
  - apply (cont2_mul (fun _ _ => k)); [apply cont2_const|apply (W_cont w W Dw); lia].
  - apply (cont2_mul (fun _ _ => k)); [apply cont2_const|apply (W_cont w W Dw); lia].
Qed.
Lemma dy_smooth w W : derivatives w W -> forall k, differentiable (fun x y => k * dy w x y).
Proof.
  intros Dw k. exists (fun x y => k * W 1%nat 1%nat x y), (fun x y => k * W 0%nat 2%nat x y). rewrite (d_y w W Dw). split; [|split; [|split]]; intros x y.
  - apply (is_derive_scal (fun t => W 0%nat 1%nat t y)). apply (dv_x _ _ Dw); lia.
  - apply (is_derive_scal (fun t => W 0%nat 1%nat x t)). apply (dv_y _ _ Dw); lia.
  - apply (cont2_mul (fun _ _ => k)); [apply cont2_const|apply (W_cont w W Dw); lia].
  - apply (cont2_mul (fun _ _ => k)); [apply cont2_const|apply (W_cont w W Dw); lia].
Qed.
Lemma dragged w W k x y : derivatives w W -> membrane (fun x y => k * dx w x y) (fun x y => k * dy w x y) x y = vscale (- k) (curvature w x y).
Proof.
  intros Dw. unfold curvature. rewrite (d_xx w W Dw), (d_yy w W Dw), (d_xy w W Dw), (d_x w W Dw), (d_y w W Dw).
  assert (E1 : dx (fun x y => k * W 1%nat 0%nat x y) x y = k * W 2%nat 0%nat x y) by (apply is_derive_unique, (is_derive_scal (fun t => W 1%nat 0%nat t y)), (dv_x _ _ Dw); lia).
  assert (E2 : dy (fun x y => k * W 1%nat 0%nat x y) x y = k * W 1%nat 1%nat x y) by (apply is_derive_unique, (is_derive_scal (fun t => W 1%nat 0%nat x t)), (dv_y _ _ Dw); lia).
  assert (E3 : dx (fun x y => k * W 0%nat 1%nat x y) x y = k * W 1%nat 1%nat x y) by (apply is_derive_unique, (is_derive_scal (fun t => W 0%nat 1%nat t y)), (dv_x _ _ Dw); lia).
  assert (E4 : dy (fun x y => k * W 0%nat 1%nat x y) x y = k * W 0%nat 2%nat x y) by (apply is_derive_unique, (is_derive_scal (fun t => W 0%nat 1%nat x t)), (dv_y _ _ Dw); lia).
  unfold membrane. rewrite E1, E2, E3, E4. unfold vscale. cbn [vx vy vz]. f_equal; ring.
Qed.
Definition lowered (k : R) (A D : mat3) : mat3 := madd D (mneg (mscale (k ^ 2) A)).
Lemma neutral_reduced k A D : symmetric A -> reduced A (mscale k A) D (lowered k A D).
Proof.
  intros SA. exists (mscale k mid). split; [rewrite mmul_mscale_r, mmul_mid_r; reflexivity|]. unfold lowered. f_equal. f_equal. unfold mmul, mtrans, mscale, mid. cbn. f_equal; ring.
Qed.
Lemma dragged_energy k A D a b c0 ca d0 db w : symmetric A -> deflection a b c0 ca d0 db w -> let d := Disp (fun x y => k * dx w x y) (fun x y => k * dy w x y) w in
  coupled A (mscale k A) D a b d d = bending (lowered k A D) a b w w.
Proof.
  intros SA [[W Dw] _] d. unfold coupled, bending. apply over_ext. intros x y. cbv zeta. cbn [du dv dw d]. rewrite (dragged w W k x y Dw). set (z := curvature w x y).
  rewrite mtrans_mscale, SA. unfold lowered, mneg. rewrite mvec_madd, !mvec_mscale, !mvec_vscale, !dot_vadd_r, !dot_vscale_r, !dot_vscale_l. ring.
Qed.
Lemma neutral k A D a b Nxx Nyy Nxy c0 ca d0 db V L : 0 < a -> 0 < b -> symmetric A -> pos_semidef A -> edges_admit V ->
  (forall w, deflection a b c0 ca d0 db w -> V (fun x y => k * dx w x y) (fun x y => k * dy w x y)) -> stability_limit (lowered k A D) a b Nxx Nyy Nxy c0 ca d0 db L ->
  coupled_limit A (mscale k A) D a b Nxx Nyy Nxy c0 ca d0 db V L.
Proof.
  intros Ha Hb SA PA EV Dr (HL & SL & UL). split; [exact HL|]. split.
  - intros u v w Huv Hw. assert (X := above_any A _ D _ a b c0 ca d0 db V u v w Ha Hb SA PA (neutral_reduced k A D SA) EV Huv Hw). assert (Y := SL w Hw). cbv zeta in Y. lra.
  - intros L' Lt St. destruct (UL L' Lt) as (w & Dw & Neg). assert (X := St _ _ w (Dr w Dw) Dw). rewrite (dragged_energy k A D a b _ _ _ _ w SA Dw) in X. lra.
Qed.
(*@ C89: when B is a multiple of A, as for layers of proportional stiffness, the lower of the two limits is exact if the edges may move along the
    plate, whatever holds the deflection ... @*)
Lemma t_C89_movable : forall k (A D : mat3) a b Nxx Nyy Nxy c0 ca d0 db L, 0 < a -> 0 < b -> symmetric A -> pos_semidef A ->
  stability_limit (madd D (mneg (mscale (k ^ 2) A))) a b Nxx Nyy Nxy c0 ca d0 db L ->
  edges_admit movable /\ coupled_limit A (mscale k A) D a b Nxx Nyy Nxy c0 ca d0 db movable L.
Proof.
  intros k A D a b Nxx Nyy Nxy c0 ca d0 db L Ha Hb SA PA SL. assert (EV : edges_admit movable) by (constructor; [split; apply still_diff|intros u v H; exact H]).
  split; [exact EV|]. apply neutral; try assumption. intros w [[W Dw] _]. split; [apply (dx_smooth w W Dw)|apply (dy_smooth w W Dw)].
Qed.
Lemma clamped_dragged a b k w : 0 < a -> 0 < b -> deflection a b Clamped Clamped Clamped Clamped w -> immovable a b (fun x y => k * dx w x y) (fun x y => k * dy w x y).
Proof.
  intros Ha Hb [[W Dw] [K0 Ka K1 Kb]]. split; [apply (dx_smooth w W Dw)|]. split; [apply (dy_smooth w W Dw)|].
  assert (Ex : forall x0, (forall y, 0 <= y <= b -> w x0 y = 0) -> forall y, 0 <= y <= b -> dy w x0 y = 0).
  { intros x0 Z y Hy. rewrite (d_y w W Dw). apply (edge_derivs w W x0 b 0 Hb Dw ltac:(lia)); [|lia|exact Hy]. intros t Ht. rewrite (dv_zero _ _ Dw). apply Z, Ht. }
  assert (Ey : forall y0, (forall x, 0 <= x <= a -> w x y0 = 0) -> forall x, 0 <= x <= a -> dx w x y0 = 0).
  { intros y0 Z x Hx. rewrite (d_x w W Dw). apply (edge_derivs _ _ y0 a 0 Ha (flip_derivs w W Dw) ltac:(lia)) with (q := 1%nat); [|lia|exact Hx]. intros t Ht. unfold flipped. rewrite (dv_zero _ _ Dw). apply Z, Ht. }
  split.
  - intros y Hy. destruct (K0 y Hy) as [V0 S0]. destruct (Ka y Hy) as [Va Sa]. rewrite (S0 eq_refl), (Sa eq_refl), (Ex 0) by (exact Hy || (intros; apply K0; [assumption|reflexivity])).
    rewrite (Ex a) by (exact Hy || (intros; apply Ka; [assumption|reflexivity])). lra.
  - intros x Hx. destruct (K1 x Hx) as [V0 S0]. destruct (Kb x Hx) as [Va Sa]. rewrite (S0 eq_refl), (Sa eq_refl), (Ey 0) by (exact Hx || (intros; apply K1; [assumption|reflexivity])).
    rewrite (Ey b) by (exact Hx || (intros; apply Kb; [assumption|reflexivity])). lra.
Qed.
(*@ C89: ... and for a plate clamped all round, whatever its edges do along the plate: they may be free, immovable or anything between. @*)
Lemma t_C89_clamped : forall k (A D : mat3) a b Nxx Nyy Nxy V L, 0 < a -> 0 < b -> symmetric A -> pos_semidef A ->
  edges_admit V -> (forall u v, immovable a b u v -> V u v) -> stability_limit (madd D (mneg (mscale (k ^ 2) A))) a b Nxx Nyy Nxy Clamped Clamped Clamped Clamped L ->
  coupled_limit A (mscale k A) D a b Nxx Nyy Nxy Clamped Clamped Clamped Clamped V L.
Proof.
  intros k A D a b Nxx Nyy Nxy V L Ha Hb SA PA EV Im SL. apply neutral; try assumption. intros w Dw. apply Im, clamped_dragged; assumption.
Qed.

(** ** two layers *)
Lemma Qbar_twin s th m m2 : 0 < s -> readable m -> same_stiffness m2 (scaled s m) -> Qbar th m2 = mscale s (Qbar th m).
Proof.
  intros Hs [q E] Sm. assert (E' := Q0_scaled s m q Hs E). unfold same_stiffness in Sm. rewrite E' in Sm. unfold Qbar, Q0p. rewrite E, Sm. unfold rot. rewrite mmul_mscale_r, mmul_mscale_l. reflexivity.
Qed.
Lemma two_sums s th m m2 f : 0 < s -> readable m -> same_stiffness m2 (scaled s m) -> let h := thickness m in let t := thickness m2 in
  Lsum f [(th, m); (th, m2)] = mscale (f ((h - t) / 2) (- (h + t) / 2) + s * f ((h + t) / 2) ((h - t) / 2)) (Qbar th m).
Proof.
  intros Hs Rm Sm h t. unfold Lsum, z_bottom, pairs, hsum. cbn [map fst snd lsum rsum]. rewrite (Qbar_twin s th m m2 Hs Rm Sm). fold h t.
  replace (- (h + (t + 0)) / 2) with (- (h + t) / 2) by lra. replace (- (h + t) / 2 + h) with ((h - t) / 2) by field. replace ((h - t) / 2 + t) with ((h + t) / 2) by field. rewrite mscale_mscale, madd_0_r, <- mscale_plus. f_equal. ring.
Qed.
Lemma limit_scaled r D a b Nxx Nyy Nxy c0 ca d0 db L : 0 < r -> 0 < a -> 0 < b -> stability_limit D a b Nxx Nyy Nxy c0 ca d0 db L -> stability_limit (mscale r D) a b Nxx Nyy Nxy c0 ca d0 db (r * L).
Proof.
  intros Hr Ha Hb (HL & SL & UL). assert (E : forall w, deflection a b c0 ca d0 db w -> bending (mscale r D) a b w w = r * bending D a b w w).
  { intros w [[W Dw] _]. rewrite !(bending_W w W Dw), <- (over2_scal a b r _ Hb (bend_cont w W Dw D)). apply over_ext. intros x y. unfold bend_at. rewrite mvec_mscale, dot_vscale_r. reflexivity. }
  split; [apply Rmult_lt_0_compat; assumption|]. split.
  - intros w Hw. cbv zeta. rewrite (E w Hw). assert (X := SL w Hw). cbv zeta in X. nra.
  - intros L' Lt. assert (Q : L < L' / r) by (apply Rmult_lt_reg_r with r; [exact Hr|]; unfold Rdiv; rewrite Rmult_assoc, Rinv_l by lra; lra). destruct (UL _ Q) as (w & Dw & Neg). exists w. split; [exact Dw|]. cbv zeta in Neg |- *. rewrite (E w Dw).
    replace (L' * load_work Nxx Nyy Nxy a b w w) with (r * (L' / r * load_work Nxx Nyy Nxy a b w w)) by (field; lra). nra.
Qed.
(** the share of the bending stiffness that is left about the neutral surface *)
Definition left_over (h t s : R) : R := share h t s.
Lemma den_pos h t s : 0 < h -> 0 < t -> 0 < s -> 0 < h ^ 3 + 3 * h * t ^ 2 + s * (t ^ 3 + 3 * t * h ^ 2).
Proof.
  intros Hh Ht Hs. assert (0 < h ^ 3) by (apply pow_lt, Hh). assert (0 < t ^ 3) by (apply pow_lt, Ht). assert (0 < t ^ 2) by (apply pow_lt, Ht). assert (0 < h ^ 2) by (apply pow_lt, Hh).
  assert (0 < h * t ^ 2) by (apply Rmult_lt_0_compat; assumption). assert (0 < t * h ^ 2) by (apply Rmult_lt_0_compat; assumption). assert (0 < s * (t ^ 3 + 3 * t * h ^ 2)) by (apply Rmult_lt_0_compat; lra). lra.
Qed.
Lemma left_pos h t s : 0 < h -> 0 < t -> 0 < s -> 0 < left_over h t s.
Proof.
  intros Hh Ht Hs. unfold left_over, share. assert (X := den_pos h t s Hh Ht Hs). apply Rdiv_lt_0_compat; [|exact X]. assert (0 < h ^ 3) by (apply pow_lt, Hh). assert (0 < s * t ^ 3) by (apply Rmult_lt_0_compat; [exact Hs|apply pow_lt, Ht]).
  assert (0 < s * t) by (apply Rmult_lt_0_compat; assumption). assert (0 < h * (s * t)) by (apply Rmult_lt_0_compat; assumption). assert (0 < h * (s * t) / (h + s * t)) by (apply Rdiv_lt_0_compat; lra). assert (0 <= (h + t) ^ 2) by apply pow2_ge_0. nra.
Qed.
Lemma two_layers s th m m2 : 0 < s -> S_Laminate.admissible m -> 0 < thickness m2 -> same_stiffness m2 (scaled s m) -> exists k A B D, let l := [(th, m); (th, m2)] in all_admissible l /\ A_of l = Ok A /\ B_of l = Ok B /\ D_of l = Ok D /\
  symmetric A /\ pos_def A /\ symmetric D /\ pos_def D /\ B = mscale k A /\ madd D (mneg (mscale (k ^ 2) A)) = mscale (left_over (thickness m) (thickness m2) s) D.
Proof.
  intros Hs Am Ht Sm. assert (Rm : readable m) by (destruct Am as [[q [E _]] _]; exists q; exact E). set (h := thickness m). set (t := thickness m2) in *. assert (Hh : 0 < h) by apply Am.
  assert (As : S_Laminate.admissible m2).
  { destruct Am as [[q [E P]] _]. split; [|exact Ht]. exists (mscale s q). split; [unfold same_stiffness in Sm; rewrite Sm; apply Q0_scaled; assumption|]. intros v Nv. rewrite quad_mscale. apply Rmult_lt_0_compat; [exact Hs|apply P, Nv]. }
  set (l := [(th, m); (th, m2)]). assert (Al : all_admissible l) by (constructor; [exact Am|constructor; [exact As|constructor]]). assert (Rl := admissible_readable l Al).
  assert (Nl : l <> []) by discriminate. destruct (D_pos l Nl Al) as [Sy Pd].
  assert (P6 := ABD_pos_def l Nl Al). assert (SA := Lsum_sym wA l Rl).
  assert (PA : pos_def (Lsum wA l)).
  { intros e Ne. assert (X := P6 (e, vzero) ltac:(intros Q; apply Ne; exact (f_equal fst Q))). unfold dot6, mvec6 in X. cbn [fst snd blkA blkB blkC blkD] in X. rewrite !dot_vadd_r in X.
    replace (dot e (mvec (Lsum wB l) vzero)) with 0 in X by (unfold dot, mvec, vzero; cbn [vx vy vz]; ring). unfold vzero in X. unfold dot in X at 2 3. cbn [vx vy vz] in X. unfold quad. lra. }
  exists (h * t * (s - 1) / (2 * (h + s * t))), (Lsum wA l), (Lsum wB l), (Lsum wD l). cbv zeta.
  split; [exact Al|]. split; [apply A_of_eq, Rl|]. split; [apply B_of_eq, Rl|]. split; [apply D_of_eq, Rl|]. split; [exact SA|]. split; [exact PA|]. split; [exact Sy|]. split; [exact Pd|].
  assert (Hst : 0 < h + s * t) by (assert (0 < s * t) by (apply Rmult_lt_0_compat; assumption); lra). assert (Dn := den_pos h t s Hh Ht Hs).
  unfold l. rewrite !(two_sums s th m m2 _ Hs Rm Sm). fold h t. unfold mneg. rewrite !mscale_mscale, <- mscale_plus. unfold wA, wB, wD, left_over, share. split; f_equal; field; lra.
Qed.
(*@ C89: a layer of thickness h with a second one of thickness t and s times its stiffness, clamped all round, buckles at a share of the limit of the
    plate with the same D and no coupling, however its edges are held along the plate: the share the stiffness about the neutral surface has
    of the stiffness about the middle. @*)
Lemma t_C89_two_layers : forall s th m m2 A B D a b Nxx Nyy Nxy V L, 0 < s -> S_Laminate.admissible m -> 0 < thickness m2 -> same_stiffness m2 (scaled s m) -> let l := [(th, m); (th, m2)] in
  A_of l = Ok A -> B_of l = Ok B -> D_of l = Ok D -> 0 < a -> 0 < b -> edges_admit V -> (forall u v, immovable a b u v -> V u v) ->
  stability_limit D a b Nxx Nyy Nxy Clamped Clamped Clamped Clamped L ->
  coupled_limit A B D a b Nxx Nyy Nxy Clamped Clamped Clamped Clamped V (share (thickness m) (thickness m2) s * L).
Proof.
  intros s th m m2 A B D a b Nxx Nyy Nxy V L Hs Am Ht Sm l EA EB ED Ha Hb EV Im SL. destruct (two_layers s th m m2 Hs Am Ht Sm) as (k & A' & B' & D' & H). cbv zeta in H. fold l in H.
  destruct H as (Al & EA' & EB' & ED' & SA & PA & SD & PD & HB & HD). rewrite EA in EA'. rewrite EB in EB'. rewrite ED in ED'. apply Ok_inj in EA', EB', ED'. subst A' B' D'. subst B. assert (Hh : 0 < thickness m) by apply Am.
  apply t_C89_clamped; try assumption; [apply pos_def_semi, PA|]. rewrite HD. apply (limit_scaled (left_over (thickness m) (thickness m2) s)); try assumption. apply left_pos; assumption.
Qed.
Lemma immovable_admit a b : edges_admit (immovable a b).
Proof.
  constructor; [|intros u v H; split; apply H]. split; [apply still_diff|]. split; [apply still_diff|]. unfold still. split; intros; repeat split.
Qed.
Lemma plate_two D : symmetric D -> pos_def D -> plate_any D 2 1 (CStr "CLAMPED") Clamped Clamped Clamped Clamped /\
  exists L, stability_limit D 2 1 (-1) 0 0 Clamped Clamped Clamped Clamped L /\ exists m n f, critical D 2 1 (-1) 0 0 (CStr "CLAMPED") m n f.
Proof.
  intros SD PD.
  assert (Pk : plate_any D 2 1 (CStr "CLAMPED") Clamped Clamped Clamped Clamped).
  { constructor; try lra; try assumption; [constructor|]. unfold restrained. cbn. do 4 right. lia. }
  assert (Cr : exists m n f, critical D 2 1 (-1) 0 0 (CStr "CLAMPED") m n f).
  { exists 1%nat, 1%nat. eexists. eexists. eexists. split; [apply one_matrix, SD|]. apply one_factor; [|lra]. destruct (T_Bounds.diag_pos D PD) as (P1 & P2 & P3).
    assert (X := PD (V3 1 4 0) ltac:(intros Q; apply (f_equal vx) in Q; cbn in Q; lra)). unfold quad, dot, mvec in X. cbn [vx vy vz] in X. assert (S1 : a21 D = a12 D) by exact (f_equal a12 SD). rewrite S1 in X. lra. }
  destruct Cr as (m1 & n1 & f1 & C1).
  assert (SL : exists L, stability_limit D 2 1 (-1) 0 0 Clamped Clamped Clamped Clamped L).
  { assert (Pk' := Pk). destruct Pk'. apply (t_C84_exists D 2 1 (-1) 0 0 Clamped Clamped Clamped Clamped); try assumption. destruct (critical_mode D 2 1 (-1) 0 0 _ Clamped Clamped Clamped Clamped m1 n1 f1 Pk C1) as (w & Dw & Hl & Pb & Z).
    exists w. split; [exact Dw|]. nra. }
  destruct SL as (L & SL). split; [exact Pk|]. exists L. split; [exact SL|]. exists m1, n1, f1. exact C1.
Qed.
Definition sheet (s t : R) : material := scaled s (Ortho (OMat 1 1 (1/2) 1 t 1 1 1 1 1)).
Lemma sheet_thick s t : thickness (sheet s t) = t. Proof. reflexivity. Qed.
Lemma sheet_same s t : same_stiffness (sheet s t) (scaled s (Ortho soft)). Proof. reflexivity. Qed.
(*@ C89: buckling_analysis can be any number of times too high: for every k there is a clamped plate of two layers, a thin stiff one on a soft one,
    whose factor from D, whatever the numbers of functions, is at least k times the load at which it buckles. @*)
Lemma t_C89_safe_refuted : forall k, exists m s m2 A B D C, let l := [(0, m); (0, m2)] in S_Laminate.admissible m /\ 0 < s /\ 0 < thickness m2 /\ same_stiffness m2 (scaled s m) /\
  A_of l = Ok A /\ B_of l = Ok B /\ D_of l = Ok D /\
  coupled_limit A B D 2 1 (-1) 0 0 Clamped Clamped Clamped Clamped (immovable 2 1) C /\
  (exists m n f, critical D 2 1 (-1) 0 0 (CStr "CLAMPED") m n f) /\ (forall m n f, critical D 2 1 (-1) 0 0 (CStr "CLAMPED") m n f -> k * C <= f).
Proof.
  intros k. assert (Hs : exists t s, 0 < t /\ 0 < s /\ k * left_over 1 t s <= 1).
  { set (j := Rmax k 1). assert (J1 := Rmax_l k 1). assert (J2 := Rmax_r k 1). fold j in J1, J2. set (t := / (5 * j)). assert (Ht : 0 < t) by (apply Rinv_0_lt_compat; lra).
    assert (T1 : t * (5 * j) = 1) by (apply Rinv_l; lra). assert (T2 : t <= 1) by nra. set (s := / t ^ 2). assert (Hs : 0 < s) by (apply Rinv_0_lt_compat, pow_lt, Ht).
    exists t, s. split; [exact Ht|]. split; [exact Hs|]. assert (Lp := left_pos 1 t s ltac:(lra) Ht Hs). apply Rle_trans with (j * left_over 1 t s); [nra|].
    assert (Es : s * t ^ 2 = 1) by (apply Rinv_l, pow_nonzero; lra). assert (E : left_over 1 t s = t * (1 + t + 3 * (1 + t)) / (t + 3 * t ^ 3 + t ^ 2 + 3)).
    { unfold left_over, share, s. field. assert (0 < t ^ 2) by (apply pow_lt, Ht). assert (0 < t ^ 3) by (apply pow_lt, Ht). repeat split; nra. }
    rewrite E. assert (P2 : 0 < t ^ 2) by (apply pow_lt, Ht). assert (P3 : 0 < t ^ 3) by (apply pow_lt, Ht). apply Rmult_le_reg_r with (t + 3 * t ^ 3 + t ^ 2 + 3); [lra|].
    replace (j * (t * (1 + t + 3 * (1 + t)) / (t + 3 * t ^ 3 + t ^ 2 + 3)) * (t + 3 * t ^ 3 + t ^ 2 + 3)) with (j * t * (4 + 4 * t)) by (field; lra). assert (j * t = / 5) by lra. nra. }
  destruct Hs as (t & s & Ht & Hs & Ks). assert (Am := phys_admissible soft soft_phys ltac:(cbn; lra)).
  destruct (two_layers s 0 (Ortho soft) (sheet s t) Hs Am Ht (sheet_same s t)) as (k0 & A & B & D & H). cbv zeta in H. destruct H as (Al & EA & EB & ED & SA & PA & SD & PD & HB & HD).
  destruct (plate_two D SD PD) as (Pk & L & SL & m1 & n1 & f1 & C1).
  assert (CL := t_C89_two_layers s 0 (Ortho soft) (sheet s t) A B D 2 1 (-1) 0 0 (immovable 2 1) L Hs Am Ht (sheet_same s t) EA EB ED ltac:(lra) ltac:(lra) (immovable_admit 2 1) (fun u v H => H) SL).
  exists (Ortho soft), s, (sheet s t), A, B, D. eexists. cbv zeta. split; [exact Am|]. split; [exact Hs|]. split; [exact Ht|]. split; [apply sheet_same|]. split; [exact EA|]. split; [exact EB|]. split; [exact ED|]. split; [exact CL|]. split; [exists m1, n1, f1; exact C1|].
  intros m n f Cf. change (share (thickness (Ortho soft)) (thickness (sheet s t)) s) with (left_over 1 t s). assert (X := t_C84_above D 2 1 (-1) 0 0 _ Clamped Clamped Clamped Clamped L m n f Pk SL Cf). assert (HL : 0 < L) by apply SL. nra.
Qed.
(*@ C89: for any layup of admissible plies: once a plate has a factor at all, the load it carries with its coupling exists, is the same whatever the
    numbers of functions, and no factor from D lies below it. @*)
Lemma t_C89_layup : forall l A B D a b Nxx Nyy Nxy c c0 ca d0 db V m n f, l <> [] -> all_admissible l -> A_of l = Ok A -> B_of l = Ok B -> D_of l = Ok D ->
  0 < a -> 0 < b -> specifies c c0 ca d0 db -> restrained c0 ca d0 db -> edges_admit V -> critical D a b Nxx Nyy Nxy c m n f ->
  exists C, coupled_limit A B D a b Nxx Nyy Nxy c0 ca d0 db V C /\ (forall s, 0 <= s -> (coupled_stable A B D a b Nxx Nyy Nxy c0 ca d0 db V s <-> s <= C)) /\
    (forall m' n' f', critical D a b Nxx Nyy Nxy c m' n' f' -> C <= f') /\
    (B = mzero -> forall eps, 0 < eps -> exists M, forall m' n', (M <= m')%nat -> (M <= n')%nat -> exists f', critical D a b Nxx Nyy Nxy c m' n' f' /\ C <= f' < C + eps).
Proof.
  intros l A B D a b Nxx Nyy Nxy c c0 ca d0 db V m n f N HA EA EB ED Ha Hb Sp Rs EV Cr. destruct (t_C89_reduced l A B D N HA EA EB ED) as (D' & Rd & _ & SD' & PD' & Ns & BZ).
  assert (Rl := admissible_readable l HA). assert (EA' := EA). assert (ED' := ED). rewrite (A_of_eq l Rl) in EA'. rewrite (D_of_eq l Rl) in ED'. apply Ok_inj in EA', ED'.
  destruct (D_pos l N HA) as [SD PD]. rewrite ED' in SD, PD. assert (SA : symmetric A) by (rewrite <- EA'; apply Lsum_sym, Rl).
  assert (PA : pos_semidef A).
  { intros e. destruct (vec3_eq_dec e vzero) as [->|Ne]; [rewrite L_Mat.quad_vzero; lra|]. assert (P6 := ABD_pos_def l N HA). assert (X := P6 (e, vzero) ltac:(intros Q; apply Ne; exact (f_equal fst Q))). unfold dot6, mvec6 in X. cbn [fst snd blkA blkB blkC blkD] in X. rewrite !dot_vadd_r in X.
    replace (dot e (mvec (Lsum wB l) vzero)) with 0 in X by (unfold dot, mvec, vzero; cbn [vx vy vz]; ring). unfold vzero in X. unfold dot in X at 2 3. cbn [vx vy vz] in X. unfold quad. rewrite <- EA'. lra. }
  assert (Pk : plate_any D a b c c0 ca d0 db) by (constructor; assumption).
  destruct (critical_mode D a b Nxx Nyy Nxy c c0 ca d0 db m n f Pk Cr) as (w & Dw & Hf & Pb & Z). assert (Nw : exists w, deflection a b c0 ca d0 db w /\ load_work Nxx Nyy Nxy a b w w < 0) by (exists w; split; [exact Dw|nra]).
  destruct (proj2 (proj1 (t_C84_exists D a b Nxx Nyy Nxy c0 ca d0 db Ha Hb SD PD Rs)) Nw) as (L & SL). destruct (proj2 (proj1 (t_C84_exists D' a b Nxx Nyy Nxy c0 ca d0 db Ha Hb SD' PD' Rs)) Nw) as (L' & SL').
  destruct (t_C89_between A B D D' a b Nxx Nyy Nxy c0 ca d0 db V L L' Ha Hb SA PA Rd (pos_def_semi D' PD') EV SL SL') as (C & CL & Bt & _ & St).
  exists C. split; [exact CL|]. split; [exact St|]. split.
  - intros m' n' f' Cf. apply (t_C89_unsafe A B D a b Nxx Nyy Nxy c c0 ca d0 db V C m' n' f' Pk EV CL Cf).
  - intros Bz eps He. rewrite (BZ Bz) in SL'. assert (E := proj2 (t_C84_exists D a b Nxx Nyy Nxy c0 ca d0 db Ha Hb SD PD Rs) L L' SL SL'). assert (EC : C = L) by lra. rewrite EC. apply (t_C84_converges D a b Nxx Nyy Nxy c c0 ca d0 db L eps Pk SL He).
Qed.
(*@ C89 example: a clamped plate of 2 by 1, of two layers of equal thickness, one three times as stiff as the other. It carries 13/16 of the limit
    computed from D. @*)
Example t_C89_ex : exists m m2 A B D L, let l := [(0, m); (0, m2)] in S_Laminate.admissible m /\ thickness m2 = thickness m /\ same_stiffness m2 (scaled 3 m) /\
  A_of l = Ok A /\ B_of l = Ok B /\ D_of l = Ok D /\ B <> mzero /\
  plate_any D 2 1 (CStr "CLAMPED") Clamped Clamped Clamped Clamped /\ stability_limit D 2 1 (-1) 0 0 Clamped Clamped Clamped Clamped L /\ edges_admit (immovable 2 1) /\
  coupled_limit A B D 2 1 (-1) 0 0 Clamped Clamped Clamped Clamped (immovable 2 1) (13 / 16 * L).
Proof.
  assert (Am := phys_admissible soft soft_phys ltac:(cbn; lra)). assert (Hs : 0 < 3) by lra. assert (Ht : 0 < 1) by lra. destruct (two_layers 3 0 (Ortho soft) (sheet 3 1) Hs Am Ht (sheet_same 3 1)) as (k0 & A & B & D & H). cbv zeta in H. destruct H as (Al & EA & EB & ED & SA & PA & SD & PD & HB & HD).
  destruct (plate_two D SD PD) as (Pk & L & SL & _).
  assert (CL := t_C89_two_layers 3 0 (Ortho soft) (sheet 3 1) A B D 2 1 (-1) 0 0 (immovable 2 1) L Hs Am Ht (sheet_same 3 1) EA EB ED ltac:(lra) ltac:(lra) (immovable_admit 2 1) (fun u v H => H) SL).
  assert (E13 : left_over 1 1 3 = 13 / 16) by (unfold left_over, share; field). change (share (thickness (Ortho soft)) (thickness (sheet 3 1)) 3) with (left_over 1 1 3) in CL. change (left_over (thickness (Ortho soft)) (thickness (sheet 3 1)) 3) with (left_over 1 1 3) in HD. rewrite E13 in *.
  exists (Ortho soft), (sheet 3 1), A, B, D, L. cbv zeta. split; [exact Am|]. split; [reflexivity|]. split; [apply sheet_same|]. split; [exact EA|]. split; [exact EB|]. split; [exact ED|]. split.
  - intros Z. assert (E : quad D (V3 1 0 0) = quad (mscale (13 / 16) D) (V3 1 0 0)).
    { rewrite <- HD, quad_madd. unfold mneg. rewrite !quad_mscale. assert (Q : quad (mscale k0 A) (V3 1 0 0) = 0) by (rewrite <- HB, Z; unfold quad, dot, mvec; cbn; ring). rewrite quad_mscale in Q. replace (k0 ^ 2 * quad A (V3 1 0 0)) with (k0 * (k0 * quad A (V3 1 0 0))) by ring. rewrite Q. ring. }
    rewrite quad_mscale in E. assert (X := PD (V3 1 0 0) ltac:(intros Q; apply (f_equal vx) in Q; cbn in Q; lra)). lra.
  - split; [exact Pk|]. split; [exact SL|]. split; [apply immovable_admit|]. exact CL.
Qed.
