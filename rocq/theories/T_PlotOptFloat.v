(** Proofs of the theorems on the contour plot in double precision *)
From Coq Require Import Reals ZArith Lra Lia Bool String.
From Flocq Require Import Core.Core IEEE754.BinarySingleNaN.
From Coq Require Import List.
From Verif Require Import M_Py M_Plate M_K M_Expr M_Float M_FloatArith M_Validate M_MatFloat M_LayupFloat M_LpFloat M_OptFloat M_BucklingFloat M_NcrFloat M_PlotFloat M_PlotOptFloat S_Plate S_K S_Validate S_Round S_LpFloat S_OptFloat S_PlotFloat S_PlotOptFloat L_K L_Float L_Round L_RoundTab L_LamRound L_MatFloat L_PlotFloat T_Shape T_Laminate T_Round T_LamRound T_LayupFloat T_LpFloat T_OptFloat T_NcrFloat T_PlotFloat.
Import ListNotations.
Open Scope R_scope.

Lemma int_sqrt_square p : (Z.of_nat p <= 1000000)%Z -> int_sqrt (p * p) = p.
Proof.
  intros H. unfold int_sqrt. set (z := Z.of_nat p) in *. assert (Hz : (0 <= z)%Z) by (unfold z; lia). rewrite Nat2Z.inj_mul. fold z.
  destruct (int_val (z * z)) as [F V]; [rewrite Z.abs_eq by nia; apply Z.le_lt_trans with (1000000 * 1000000)%Z; [nia|reflexivity]|].
  destruct (int_val z) as [F' V']; [rewrite Z.abs_eq by lia; apply Z.le_lt_trans with 1000000%Z; [lia|reflexivity]|].
  destruct (Bsqrt_correct 53 1024 f64_prec f64_emax mode_NE (f_of_Z (z * z))) as (E & _).
  rewrite V, mult_IZR, sqrt_square in E by (apply IZR_le; exact Hz).
  assert (G : generic_format radix2 (SpecFloat.fexp 53 1024) (IZR z)) by (rewrite <- V'; apply generic_format_B2R).
  rewrite round_generic in E by (apply valid_rnd_round_mode || exact G).
  assert (Q := Btrunc_correct 53 1024 f64_emax (@Bsqrt 53 1024 f64_prec f64_emax mode_NE (f_of_Z (z * z)))). rewrite E in Q.
  rewrite round_generic in Q; [|apply valid_rnd_ZR|].
  - apply eq_IZR in Q. etransitivity; [exact (f_equal Z.to_nat Q)|]. unfold z. apply Nat2Z.id.
  - apply generic_format_FIX. exists (Float radix2 z 0); [unfold F2R; cbn; ring|reflexivity].
Qed.

Section Plot.
Variables (parse : string -> option f64) (eigsh : fsolver) (pow : f64 -> nat -> res f64) (dec : Z -> Z -> f64).
Variables (a b T : f64) (m n : nat) (E1 E2 v12 G12 Nxx Nyy Nxy : f64) (c : constraints) (p : nat) (penalty : bool).
Hypothesis HB : (Z.of_nat p <= 1000000)%Z.
Let value x y := Ncr_from_lp_f parse eigsh pow dec a b T m n x y E1 E2 v12 G12 Nxx Nyy Nxy c.
Let f (q : f64 * f64) : res (f64 * f64 * f64) := ok <- mask_f pow (fst q) (snd q) penalty ;; if (ok : bool) then v <- value (fst q) (snd q) ;; Ok (q, v) else Ok (q, fnan).
Let g (q : f64 * f64) : f64 * f64 * f64 := match f q with Ok r => r | Err _ => (q, fnan) end.
Let plot := plot_optimization_f parse eigsh pow dec a b T m n E1 E2 v12 G12 Nxx Nyy Nxy c p penalty.
Lemma g_fst q : fst (g q) = q.
Proof. unfold g, f. destruct (mask_f _ _ _ _) as [[]|]; try reflexivity. cbn [bind]. destruct (value (fst q) (snd q)); reflexivity. Qed.
Lemma fplot_ok : (forall q, In q (list_prod (flinspace p) (flinspace p)) -> exists r, f q = Ok r) ->
  plot = Ok (map (fun x => map (fun y => x) (flinspace p)) (flinspace p), map (fun x => map (fun y => y) (flinspace p)) (flinspace p),
      map (fun x => map (fun y => snd (g (x, y))) (flinspace p)) (flinspace p)).
Proof.
  intros H. unfold plot, plot_optimization_f. change (mapM _ (list_prod (flinspace p) (flinspace p))) with (mapM f (list_prod (flinspace p) (flinspace p))).
  rewrite (L_K.mapM_ok f g) by (intros q Hq; destruct (H q Hq) as (r & E); unfold g; rewrite E; reflexivity). cbn [bind].
  rewrite map_length, prod_length, !map_map.
  assert (L := fl_length p). rewrite L, (int_sqrt_square p HB). 
  assert (R : forall Y (h : f64 * f64 -> Y), reshape p p (map h (list_prod (flinspace p) (flinspace p))) = Ok (map (fun x => map (fun y => h (x, y)) (flinspace p)) (flinspace p))).
  { intros Y h. assert (Q := reshape_prod h (flinspace p) (flinspace p)). rewrite L in Q. exact Q. }
  rewrite (R _ (fun q => snd (g q))). cbn [bind].
  rewrite (map_ext (fun x => fst (fst (g x))) fst) by (intros; rewrite g_fst; reflexivity). rewrite (map_ext (fun x => snd (fst (g x))) snd) by (intros; rewrite g_fst; reflexivity).
  rewrite (R _ fst), (R _ snd). reflexivity.
Qed.
Lemma fplot_all r : plot = Ok r -> forall q, In q (list_prod (flinspace p) (flinspace p)) -> exists r, f q = Ok r.
Proof.
  intros H q Iq. unfold plot, plot_optimization_f in H. change (mapM _ (list_prod (flinspace p) (flinspace p))) with (mapM f (list_prod (flinspace p) (flinspace p))) in H.
  destruct (mapM f (list_prod (flinspace p) (flinspace p))) as [rs|] eqn:Em; [|discriminate H]. clear H. apply L_K.mapM_inv in Em.
  clear -Em Iq. induction Em as [|x r l rs E Em IH]; [destruct Iq|]. destruct Iq as [->|I]; [exists r; exact E|apply IH, I].
Qed.
Lemma fplot_err e : plot = Err e -> exists x y, In x (flinspace p) /\ In y (flinspace p) /\ f (x, y) = Err e.
Proof.
  intros H. assert (Q : forall l e', mapM f l = Err e' -> exists q, In q l /\ f q = Err e').
  { clear. induction l as [|q l IH]; intros e' E; [discriminate|]. cbn [mapM] in E. destruct (f q) as [r|e0] eqn:Eq.
    - cbn [bind] in E. destruct (mapM f l) as [rs|e1]; [discriminate|]. cbn [bind] in E. destruct (IH e1 eq_refl) as (q' & I & F). exists q'. split; [right; exact I|]. congruence.
    - cbn [bind] in E. exists q. split; [left; reflexivity|]. congruence. }
  destruct (mapM f (list_prod (flinspace p) (flinspace p))) as [rs|e0] eqn:Em.
  - exfalso. rewrite fplot_ok in H; [discriminate H|]. intros q Iq. apply L_K.mapM_inv in Em. clear -Em Iq. induction Em as [|x r l rs E Em IH]; [destruct Iq|]. destruct Iq as [->|I]; [exists r; exact E|apply IH, I].
  - destruct (Q _ _ Em) as ([x y] & I & F). apply in_prod_iff in I. exists x, y. split; [apply I|]. split; [apply I|]. rewrite F. f_equal.
    unfold plot, plot_optimization_f in H. change (mapM _ (list_prod (flinspace p) (flinspace p))) with (mapM f (list_prod (flinspace p) (flinspace p))) in H. rewrite Em in H. cbn [bind] in H. congruence.
Qed.
Lemma fplot_entries X1 X3 Nx : plot = Ok (X1, X3, Nx) -> square p X1 /\ square p X3 /\ square p Nx /\
  forall i j x y, nth_error (flinspace p) i = Some x -> nth_error (flinspace p) j = Some y -> entry X1 i j = Some x /\ entry X3 i j = Some y /\
    ((mask_f pow x y penalty = Ok false /\ entry Nx i j = Some fnan) \/ (mask_f pow x y penalty = Ok true /\ exists v, value x y = Ok v /\ entry Nx i j = Some v)).
Proof.
  intros H. assert (Al := fplot_all _ H). rewrite (fplot_ok Al) in H.
  assert (Q := f_equal (fun r => match r with Ok p => p | Err _ => ([], [], []) end) H). cbn beta iota in Q.
  assert (Q1 := f_equal (fun r => fst (fst r)) Q). assert (Q2 := f_equal (fun r => snd (fst r)) Q). assert (Q3 := f_equal snd Q). cbn [fst snd] in Q1, Q2, Q3. clear Q H.
  assert (Sq : forall Y (h : f64 -> f64 -> Y), square p (map (fun x => map (h x) (flinspace p)) (flinspace p))).
  { intros Y h. split; [rewrite map_length; apply fl_length|]. apply Forall_map, Forall_forall. intros x _. rewrite map_length. apply fl_length. }
  split; [rewrite <- Q1; apply (Sq _ (fun x _ => x))|]. split; [rewrite <- Q2; apply (Sq _ (fun _ y => y))|]. split; [rewrite <- Q3; apply (Sq _ (fun x y => snd (g (x, y))))|].
  intros i j x y Ex Ey.
  assert (Et : forall Y (h : f64 -> f64 -> Y), entry (map (fun x => map (h x) (flinspace p)) (flinspace p)) i j = Some (h x y)).
  { intros Y h. unfold entry. rewrite nth_error_map, Ex. cbn [option_map]. rewrite nth_error_map, Ey. reflexivity. }
  split; [rewrite <- Q1; apply (Et _ (fun x _ => x))|]. split; [rewrite <- Q2; apply (Et _ (fun _ y => y))|].
  assert (Ev : entry Nx i j = Some (snd (g (x, y)))) by (rewrite <- Q3; apply (Et _ (fun x y => snd (g (x, y))))).
  destruct (Al (x, y)) as (r & Er); [apply in_prod; eapply nth_error_In; eassumption|]. rewrite Ev. unfold g. rewrite Er. unfold f in Er. cbn [fst snd] in Er.
  destruct (mask_f pow x y penalty) as [[]|]; [right|left|discriminate Er]; (split; [reflexivity|]); cbn [bind] in Er.
  - destruct (value x y) as [v|]; [|discriminate Er]. cbn [bind] in Er. apply Ok_inj in Er. subst r. exists v. split; reflexivity.
  - apply Ok_inj in Er. subst r. reflexivity.
Qed.
End Plot.
Lemma mask_above pow x y penalty : square_close 3 pow -> is_finite x = true -> is_finite y = true -> Rabs (B2R x) <= 1 -> Rabs (B2R y) <= 1 ->
  exists r, mask_f pow x y penalty = Ok r /\ (r = true -> - (8 * unit) <= above penalty (B2R x) (B2R y)) /\ (6 * unit <= above penalty (B2R x) (B2R y) -> r = true) /\
    (penalty = true -> (r = true <-> - unit <= above penalty (B2R x) (B2R y))).
Proof.
  intros HS Fx Fy Hx Hy. assert (u0 : 0 < unit) by (unfold unit; lra). assert (Bg : 1 <= powerRZ 2 1000) by (rewrite pz; apply (bpow_le radix2 0 1000); lia). destruct penalty; unfold above.
  - destruct (HS x Fx Hx) as (s & Es & _). destruct (t_C93_triangle pow x y s Es Fx Fy) as (r & E & I & _); [lra|lra|]. exists r. split; [exact E|]. split; [intros R; apply I in R; lra|]. split; [intros R; apply I; lra|].
    intros _. rewrite I. split; lra.
  - destruct (t_C93_parabola pow x y HS Fx Fy Hx Hy) as (r & E & A & B). exists r. split; [exact E|]. split; [intros R; apply A in R; lra|]. split; [|intros Q; discriminate Q].
    intros R. apply B. assert (B2R x ^ 2 <= 1) by (rewrite <- (pow2_abs (B2R x)); assert (0 <= Rabs (B2R x)) by apply Rabs_pos; nra). nra.
Qed.
(*@ C102: the arrays of the contour plot. They are p x p; row i belongs to a double x near -1 + 2 i/(p-1), column j to a double y near -1 + 2 j/(p-1). A value is drawn where (x, y)
    is at least 6 units above the boundary and a gap left where it is more than 8 units below; with the two lines a value is drawn exactly where the point is at most one unit below. The
    value is the first factor computed for x and y. @*)
Lemma t_C102_plot : forall parse eigsh pow dec a b T m n E1 E2 v12 G12 Nxx Nyy Nxy c p penalty X1 X3 Nx, square_close 3 pow -> (2 <= p)%nat -> (Z.of_nat p <= 1000000)%Z ->
  plot_optimization_f parse eigsh pow dec a b T m n E1 E2 v12 G12 Nxx Nyy Nxy c p penalty = Ok (X1, X3, Nx) ->
  square p X1 /\ square p X3 /\ square p Nx /\
  forall i j, (i < p)%nat -> (j < p)%nat -> exists x y : f64, entry X1 i j = Some x /\ entry X3 i j = Some y /\
    is_finite x = true /\ Rabs (B2R x) <= 1 /\ Rabs (B2R x - equal_point p i) <= 6 * unit /\ is_finite y = true /\ Rabs (B2R y) <= 1 /\ Rabs (B2R y - equal_point p j) <= 6 * unit /\
    exists drawn : bool, (drawn = true -> - (8 * unit) <= above penalty (B2R x) (B2R y)) /\ (6 * unit <= above penalty (B2R x) (B2R y) -> drawn = true) /\
      (penalty = true -> (drawn = true <-> - unit <= above penalty (B2R x) (B2R y))) /\
      if drawn then exists v, Ncr_from_lp_f parse eigsh pow dec a b T m n x y E1 E2 v12 G12 Nxx Nyy Nxy c = Ok v /\ entry Nx i j = Some v else entry Nx i j = Some fnan.
Proof.
  intros parse eigsh pow dec a b T m n E1 E2 v12 G12 Nxx Nyy Nxy c p penalty X1 X3 Nx HS Hp HB H.
  destruct (fplot_entries _ _ _ _ _ _ _ _ _ _ _ _ _ _ _ _ _ _ _ HB _ _ _ H) as (S1 & S3 & SN & En). split; [exact S1|]. split; [exact S3|]. split; [exact SN|]. intros i j Hi Hj.
  destruct (grid_point p i Hp HB Hi) as (x & Ex & Fx & Bx & Dx & _). destruct (grid_point p j Hp HB Hj) as (y & Ey & Fy & By & Dy & _).
  destruct (En i j x y Ex Ey) as (I1 & I3 & V). exists x, y. do 8 (split; [assumption|]).
  destruct (mask_above pow x y penalty HS Fx Fy Bx By) as (r & Er & A & B & C). exists r. split; [exact A|]. split; [exact B|]. split; [exact C|].
  destruct V as [[Q V]|[Q V]]; rewrite Er in Q; apply Ok_inj in Q; subst r; exact V.
Qed.
(*@ C102: in terms of the equidistant points themselves: 40 units above the boundary a value is drawn, 40 units below a gap is left. @*)
Lemma t_C102_region : forall parse eigsh pow dec a b T m n E1 E2 v12 G12 Nxx Nyy Nxy c p penalty X1 X3 Nx i j, square_close 3 pow -> (2 <= p)%nat -> (Z.of_nat p <= 1000000)%Z ->
  plot_optimization_f parse eigsh pow dec a b T m n E1 E2 v12 G12 Nxx Nyy Nxy c p penalty = Ok (X1, X3, Nx) -> (i < p)%nat -> (j < p)%nat ->
  (40 * unit <= above penalty (equal_point p i) (equal_point p j) -> exists x y v, entry X1 i j = Some x /\ entry X3 i j = Some y /\
     Ncr_from_lp_f parse eigsh pow dec a b T m n x y E1 E2 v12 G12 Nxx Nyy Nxy c = Ok v /\ entry Nx i j = Some v) /\
  (above penalty (equal_point p i) (equal_point p j) <= - (40 * unit) -> entry Nx i j = Some fnan).
Proof.
  intros parse eigsh pow dec a b T m n E1 E2 v12 G12 Nxx Nyy Nxy c p penalty X1 X3 Nx i j HS Hp HB H Hi Hj.
  destruct (t_C102_plot _ _ _ _ _ _ _ _ _ _ _ _ _ _ _ _ _ _ _ _ _ _ HS Hp HB H) as (_ & _ & _ & Q). destruct (Q i j Hi Hj) as (x & y & Ix & Iy & _ & Bx & Dx & _ & By & Dy & r & A & B & _ & V). clear Q H.
  assert (N1 : 1 <= INR p - 1). { assert (Q : INR 2 <= INR p) by (apply le_INR; lia). cbn in Q. lra. }
  assert (EB : forall k, (k < p)%nat -> Rabs (equal_point p k) <= 1).
  { intros k Hk. assert (Q : INR (S k) <= INR p) by (apply le_INR; lia). rewrite S_INR in Q. assert (k0 := pos_INR k). unfold equal_point.
    assert (0 <= INR k / (INR p - 1) <= 1). { split; [apply Rmult_le_pos; [lra|left; apply Rinv_0_lt_compat; lra]|]. apply (Rmult_le_reg_r (INR p - 1)); [lra|]. unfold Rdiv. rewrite Rmult_assoc, Rinv_l by lra. lra. }
    replace (2 * INR k / (INR p - 1)) with (2 * (INR k / (INR p - 1))) by (unfold Rdiv; ring). apply Rabs_le. lra. }
  assert (BX := EB i Hi). assert (BY := EB j Hj). set (X := equal_point p i) in *. set (Y := equal_point p j) in *. clearbody X Y. assert (u0 : 0 < unit) by (unfold unit; lra).
  assert (D : Rabs (above penalty (B2R x) (B2R y) - above penalty X Y) <= 30 * unit).
  { unfold above. apply Rabs_le_inv in Dy. destruct penalty.
    - assert (W := Rabs_triang_inv2 (B2R x) X). apply Rabs_le. assert (W' : Rabs (Rabs (B2R x) - Rabs X) <= 6 * unit) by lra. apply Rabs_le_inv in W'. lra.
    - assert (W : Rabs (B2R x ^ 2 - X ^ 2) <= 12 * unit). { replace (B2R x ^ 2 - X ^ 2) with ((B2R x - X) * (B2R x + X)) by ring. rewrite Rabs_mult. replace (12 * unit) with (6 * unit * 2) by ring.
        apply Rmult_le_compat; try apply Rabs_pos; [exact Dx|]. eapply Rle_trans; [apply Rabs_triang|]. lra. }
      apply Rabs_le_inv in W. apply Rabs_le. lra. }
  apply Rabs_le_inv in D. split; intros G.
  - rewrite B in V by lra. destruct V as (v & E & V). exists x, y, v. repeat (split; [assumption|]). assumption.
  - destruct r; [|exact V]. specialize (A eq_refl). lra.
Qed.
(*@ C102: the only way for the plot to fail is an exception of the analysis at a point that would be drawn, and any such exception, one of the solver included, ends it. @*)
Lemma t_C102_errors : forall parse eigsh pow dec a b T m n E1 E2 v12 G12 Nxx Nyy Nxy c p penalty, square_close 3 pow -> (2 <= p)%nat -> (Z.of_nat p <= 1000000)%Z ->
  (forall e, plot_optimization_f parse eigsh pow dec a b T m n E1 E2 v12 G12 Nxx Nyy Nxy c p penalty = Err e -> exists i j (x y : f64), (i < p)%nat /\ (j < p)%nat /\
     Rabs (B2R x - equal_point p i) <= 6 * unit /\ Rabs (B2R y - equal_point p j) <= 6 * unit /\ - (8 * unit) <= above penalty (B2R x) (B2R y) /\
     Ncr_from_lp_f parse eigsh pow dec a b T m n x y E1 E2 v12 G12 Nxx Nyy Nxy c = Err e) /\
  (forall i j, (i < p)%nat -> (j < p)%nat -> 40 * unit <= above penalty (equal_point p i) (equal_point p j) ->
     (forall x y v, Rabs (B2R x - equal_point p i) <= 6 * unit -> Rabs (B2R y - equal_point p j) <= 6 * unit -> Ncr_from_lp_f parse eigsh pow dec a b T m n x y E1 E2 v12 G12 Nxx Nyy Nxy c <> Ok v) ->
     exists e, plot_optimization_f parse eigsh pow dec a b T m n E1 E2 v12 G12 Nxx Nyy Nxy c p penalty = Err e).
Proof.
  intros parse eigsh pow dec a b T m n E1 E2 v12 G12 Nxx Nyy Nxy c p penalty HS Hp HB. split.
  - intros e H. destruct (fplot_err _ _ _ _ _ _ _ _ _ _ _ _ _ _ _ _ _ _ _ HB _ H) as (x & y & Ix & Iy & F).
    apply In_nth_error in Ix, Iy. destruct Ix as (i & Ei), Iy as (j & Ej).
    assert (Hi : (i < p)%nat) by (rewrite <- (fl_length p); apply nth_error_Some; congruence).
    assert (Hj : (j < p)%nat) by (rewrite <- (fl_length p); apply nth_error_Some; congruence).
    destruct (grid_point p i Hp HB Hi) as (x' & Ex & Fx & Bx & Dx & _). destruct (grid_point p j Hp HB Hj) as (y' & Ey & Fy & By & Dy & _).
    rewrite Ex in Ei. rewrite Ey in Ej. injection Ei as Ei. injection Ej as Ej. subst x' y'.
    destruct (mask_above pow x y penalty HS Fx Fy Bx By) as (r & Er & A & _). cbn [fst snd] in F. rewrite Er in F. cbn [bind] in F. destruct r; [|discriminate F].
    exists i, j, x, y. split; [exact Hi|]. split; [exact Hj|]. split; [exact Dx|]. split; [exact Dy|]. split; [apply A; reflexivity|].
    destruct (Ncr_from_lp_f _ _ _ _ _ _ _ _ _ _ _ _ _ _ _ _ _ _ _); [discriminate F|]. cbn [bind] in F. congruence.
  - intros i j Hi Hj In N. destruct (plot_optimization_f _ _ _ _ _ _ _ _ _ _ _ _ _ _ _ _ _ _ _) as [[[X1 X3] Nx]|e] eqn:P; [|exists e; reflexivity]. exfalso.
    destruct (t_C102_region _ _ _ _ _ _ _ _ _ _ _ _ _ _ _ _ _ _ _ _ _ _ i j HS Hp HB P Hi Hj) as (G & _). destruct (G In) as (x & y & v & E1x & E3y & V & _).
    destruct (t_C102_plot _ _ _ _ _ _ _ _ _ _ _ _ _ _ _ _ _ _ _ _ _ _ HS Hp HB P) as (_ & _ & _ & Q). destruct (Q i j Hi Hj) as (x' & y' & Ix & Iy & _ & _ & Dx & _ & _ & Dy & _).
    rewrite E1x in Ix. rewrite E3y in Iy. injection Ix as Ix. injection Iy as Iy. subst x' y'. exact (N x y v Dx Dy V).
Qed.
(*@ C102: a point of the equidistant grid on the boundary itself can be missing, and its mirror image present: with p = 6 the points (1/5, -3/5) and (-1/5, -3/5) both lie on the lines; in
    every plot with the two lines the first is a gap and the second has a value. @*)
Lemma t_C102_boundary_refuted : equal_point 6 3 = 1 / 5 /\ equal_point 6 2 = - (1 / 5) /\ equal_point 6 1 = - (3 / 5) /\ above true (1 / 5) (- (3 / 5)) = 0 /\ above true (- (1 / 5)) (- (3 / 5)) = 0 /\
  forall parse eigsh pow dec a b T m n E1 E2 v12 G12 Nxx Nyy Nxy c X1 X3 Nx,
  plot_optimization_f parse eigsh pow dec a b T m n E1 E2 v12 G12 Nxx Nyy Nxy c 6 true = Ok (X1, X3, Nx) -> entry Nx 3 1 = Some fnan /\
  exists x y v, entry X1 2 1 = Some x /\ entry X3 2 1 = Some y /\ Ncr_from_lp_f parse eigsh pow dec a b T m n x y E1 E2 v12 G12 Nxx Nyy Nxy c = Ok v /\ entry Nx 2 1 = Some v.
Proof.
  split; [unfold equal_point; cbn; field|]. split; [unfold equal_point; cbn; field|]. split; [unfold equal_point; cbn; field|].
  split; [unfold above; rewrite Rabs_pos_eq by lra; field|]. split; [unfold above; rewrite Rabs_left by lra; field|].
  intros parse eigsh pow dec a b T m n E1 E2 v12 G12 Nxx Nyy Nxy c X1 X3 Nx H.
  destruct (fplot_entries _ _ _ _ _ _ _ _ _ _ _ _ _ _ _ _ _ 6 _ ltac:(lia) _ _ _ H) as (_ & _ & _ & En).
  assert (C : forall k, (k < 6)%nat -> exists t, nth_error (flinspace 6) k = Some t) by (intros k Hk; destruct (nth_error (flinspace 6) k) as [t|] eqn:E; [exists t; reflexivity|]; apply nth_error_None in E; rewrite fl_length in E; lia).
  destruct (C 3%nat ltac:(lia)) as (x3 & E3). destruct (C 2%nat ltac:(lia)) as (x2 & E2'). destruct (C 1%nat ltac:(lia)) as (x1 & E1').
  assert (K : match nth_error (flinspace 6) 3, nth_error (flinspace 6) 2, nth_error (flinspace 6) 1 with Some u, Some v, Some w =>
    negb (flt u fzero) && flt (g2_f u w) fzero && flt v fzero && negb (flt (g1_f v w) fzero) | _, _, _ => false end = true) by (vm_compute; reflexivity).
  rewrite E3, E2', E1' in K. apply andb_prop in K. destruct K as [K K4]. apply andb_prop in K. destruct K as [K K3]. apply andb_prop in K. destruct K as [K1 K2]. apply negb_true_iff in K1, K4.
  split.
  - destruct (En 3%nat 1%nat x3 x1 E3 E1') as (_ & _ & [[_ V]|[Q _]]); [exact V|]. exfalso. unfold mask_f in Q. destruct (gn_f pow x3 x1); [|discriminate Q]. cbn [bind negb] in Q. rewrite K1, K2 in Q. discriminate Q.
  - destruct (En 2%nat 1%nat x2 x1 E2' E1') as (I1 & I3 & [[Q _]|[_ (v & V & W)]]); [|exists x2, x1, v; repeat (split; [assumption|]); assumption].
    exfalso. unfold mask_f in Q. destruct (gn_f pow x2 x1); [|discriminate Q]. cbn [bind negb] in Q. rewrite K3, K4 in Q. discriminate Q.
Qed.

(** ** the boundary curves *)
Lemma curve_inner z n i : (z = -1 \/ z = 0)%Z -> (2 <= n)%nat -> (Z.of_nat n <= 1000000)%Z -> (S i < n)%nat -> forall t, t = fadd (fmul (f_of_Z (Z.of_nat i)) (fdiv (f_of_Z 1) (f_of_Z (Z.of_nat n - 1)))) (f_of_Z z) ->
  fin t /\ IZR z <= B2R t <= IZR z + 1 /\ Rabs (B2R t - (IZR z + INR i / (INR n - 1))) <= 4 * unit.
Proof.
  intros Hz Hn Hm Hi t Et0. assert (u : 0 < unit <= / 1000000000000) by (unfold unit; lra). assert (NN : INR n - 1 = INR (n - 1)) by (rewrite minus_INR by lia; reflexivity). rewrite NN.
  replace (Z.of_nat n - 1)%Z with (Z.of_nat (n - 1)) in Et0 by lia. set (N := (n - 1)%nat) in *.
  destruct (nat_exact i ltac:(lia)) as [Fi Ei]. destruct (nat_exact N ltac:(lia)) as [FN EN]. destruct (f_small 1 eq_refl) as [F2 E2]. destruct (f_small z) as [F1 E1]; [destruct Hz; subst z; reflexivity|].
  assert (N1 : INR i + 1 <= INR N <= 1000000). { rewrite <- S_INR. split; [apply le_INR; lia|]. rewrite INR_IZR_INZ. apply IZR_le. lia. }
  assert (i0 := pos_INR i). assert (IN : IZR (Z.of_nat N) = INR N) by (rewrite INR_IZR_INZ; reflexivity).
  assert (Inv : / 1000000 <= / INR N) by (apply Rinv_le; lra). assert (Inv1 : / INR N <= 1) by (rewrite <- Rinv_1; apply Rinv_le; lra).
  assert (R2 : rangeM (1 / IZR (Z.of_nat N))) by (rewrite IN; apply range_by; unfold Rdiv; lra).
  destruct (near_div 1 0 (f_of_Z 1) 1 (Z.of_nat N) (near_exact 1 _ 1 F2 E2 ltac:(rewrite Rabs_right; lra)) ltac:(lra)) as [S0 _]; [unfold small; apply andb_true_intro; split; [apply Z.leb_le|apply Z.ltb_lt]; lia|lia|exact R2|].
  set (step := fdiv (f_of_Z 1) (f_of_Z (Z.of_nat N))) in *. rewrite IN in *.
  assert (Y : fin (fmul (f_of_Z (Z.of_nat i)) step) /\ Rabs (B2R (fmul (f_of_Z (Z.of_nat i)) step) - INR i * (1 / INR N)) <= 21 / 10 * unit * (INR i * (1 / INR N))).
  { destruct (Nat.eq_dec i 0) as [Z|Z].
    - destruct (mul_rnd (f_of_Z (Z.of_nat i)) step Fi (proj1 S0)) as [F E]. { rewrite Ei, Z. cbn [INR]. rewrite Rmult_0_l, Rabs_R0. apply bpow_ge_0. }
      assert (Ei0 : B2R (f_of_Z (Z.of_nat i)) = 0) by (rewrite Ei, Z; reflexivity). rewrite Ei0, Rmult_0_l, round_0 in E by apply valid_rnd_round_mode. split; [exact F|]. rewrite E. replace (INR i) with 0 by (rewrite Z; reflexivity). rewrite Rmult_0_l, Rminus_0_r, Rabs_R0. lra.
    - assert (i1 : 1 <= INR i) by (apply (le_INR 1); lia). assert (P2 : 0 < 1 / INR N) by (apply rangeM_pos, R2).
      assert (M1 := near_mul (INR i) (1 / INR N) 0 (0 + 102 / 100) _ _ _ _ (near_exact (INR i) _ _ Fi Ei ltac:(rewrite Rabs_right; lra)) S0 ltac:(lra) ltac:(lra) ltac:(lra) ltac:(lra)).
      destruct M1 as (F & _ & E).
      + apply range_by. unfold Rdiv. split; [apply Rle_trans with (1 * (1 * / 1000000)); [lra|apply Rmult_le_compat; lra]|]. apply Rle_trans with (INR N * (1 * / INR N)); [apply Rmult_le_compat_r; lra|]. replace (INR N * (1 * / INR N)) with 1 by (field; lra). lra.
      + split; [exact F|]. eapply Rle_trans; [exact E|]. apply Rmult_le_compat_r; [apply Rmult_le_pos; lra|]. lra. }
  set (y := fmul (f_of_Z (Z.of_nat i)) step) in *. destruct Y as (Fy & Ey).
  replace (INR i / INR N) with (INR i * (1 / INR N)) by (field; lra). set (q := INR i * (1 / INR N)) in *.
  assert (q0 : 0 <= q <= 1 - / 1000000). { unfold q, Rdiv. split; [apply Rmult_le_pos; lra|]. apply Rle_trans with ((INR N - 1) * (1 * / INR N)); [apply Rmult_le_compat_r; lra|]. replace ((INR N - 1) * (1 * / INR N)) with (1 - / INR N) by (field; lra). lra. }
  assert (uq : 21 / 10 * unit * q <= 21 / 10 * unit) by (assert (21 / 10 * unit * q <= 21 / 10 * unit * 1) by (apply Rmult_le_compat_l; lra); lra).
  assert (Ey' := Ey). apply Rabs_le_inv in Ey. assert (y0 : 0 <= B2R y). { assert (21 / 10 * unit * q <= 1 * q) by (apply Rmult_le_compat_r; lra). lra. }
  assert (y2 : B2R y <= 1) by lra. assert (z01 : -1 <= IZR z <= 0) by (destruct Hz; subst z; cbn; lra).
  assert (Bm : Rabs (B2R y + B2R (f_of_Z z)) <= 1) by (rewrite E1; apply Rabs_le; lra).
  assert (Bb : Rabs (B2R y + B2R (f_of_Z z)) <= bp 1023). { eapply Rle_trans; [exact Bm|]. change 1 with (bp 0). apply bpow_le. lia. }
  destruct (add_rnd y (f_of_Z z) Fy F1 Bb) as [Ft Et]. destruct (add_err y (f_of_Z z) Fy F1 Bb) as [_ Dt]. rewrite <- Et0 in Ft, Et, Dt.
  assert (G : forall w, (w = -1 \/ w = 0 \/ w = 1)%Z -> generic_format radix2 (SpecFloat.fexp 53 1024) (IZR w)).
  { intros w Hw. destruct (f_small w) as [_ Ew]; [destruct Hw as [W|[W|W]]; subst w; reflexivity|]. rewrite <- Ew. apply generic_format_B2R. }
  split; [exact Ft|]. split; [|].
  - rewrite Et, E1. split.
    + apply round_ge_generic; [apply (fexp_correct 53 1024 eq_refl)|apply valid_rnd_round_mode|apply G; lia|lra].
    + apply round_le_generic; [apply (fexp_correct 53 1024 eq_refl)|apply valid_rnd_round_mode|rewrite <- plus_IZR; apply G; lia|lra].
  - rewrite E1 in *. replace (B2R t - (IZR z + q)) with ((B2R t - (B2R y + IZR z)) + (B2R y - q)) by ring. eapply Rle_trans; [apply Rabs_triang|].
    assert (unit * Rabs (B2R y + IZR z) <= unit * 1) by (apply Rmult_le_compat_l; lra). lra.
Qed.
Lemma fl1_length z n : List.length (flinspace1 z n) = n.
Proof. unfold flinspace1. rewrite map_length. apply seq_length. Qed.
Lemma curve_point z n i : (z = -1 \/ z = 0)%Z -> (2 <= n)%nat -> (Z.of_nat n <= 1000000)%Z -> (i < n)%nat -> exists t, nth_error (flinspace1 z n) i = Some t /\
  fin t /\ IZR z <= B2R t <= IZR z + 1 /\ Rabs (B2R t - (IZR z + INR i / (INR n - 1))) <= 4 * unit.
Proof.
  intros Hz Hn Hm Hi. assert (u : 0 < unit) by (unfold unit; lra). unfold flinspace1. rewrite (proj2 (Nat.eqb_neq n 1)) by lia. rewrite (proj2 (Nat.ltb_lt 1 n)) by lia. cbn [andb].
  eexists. split; [exact (seq_map_nth (fun i0 => if Nat.eqb (S i0) n then f_of_Z (z + 1) else fadd (fmul (f_of_Z (Z.of_nat i0)) (fdiv (f_of_Z 1) (f_of_Z (Z.of_nat n - 1)))) (f_of_Z z)) n i Hi)|]. cbn beta.
  destruct (Nat.eqb_spec (S i) n) as [E|E].
  - destruct (f_small (z + 1)) as [F V]; [destruct Hz; subst z; reflexivity|]. rewrite V, plus_IZR. split; [exact F|]. split; [lra|].
    rewrite <- E, S_INR. replace (INR i + 1 - 1) with (INR i) by ring. assert (1 <= INR i) by (apply (le_INR 1); lia).
    replace (IZR z + 1 - (IZR z + INR i / INR i)) with 0 by (field; lra). rewrite Rabs_R0. lra.
  - exact (curve_inner z n i Hz Hn Hm ltac:(lia) _ eq_refl).
Qed.
Lemma minus_one d v : fin d -> B2R d = v -> 0 <= v <= 3 -> fin (fsub d fone) /\ Rabs (B2R (fsub d fone) - (v - 1)) <= 2 * unit.
Proof.
  intros F V B. assert (u : 0 < unit) by (unfold unit; lra). destruct (f_small 1 eq_refl) as [F1 E1]. change (f_of_Z 1) with fone in *.
  destruct (L_MatFloat.sub_err d fone F F1) as [Fs D]; [rewrite V, E1; apply Rle_trans with (bp 2); [apply Rabs_le; cbn; lra|apply bpow_le; lia]|].
  split; [exact Fs|]. rewrite V, E1 in D. eapply Rle_trans; [exact D|]. rewrite Rmult_comm. apply Rmult_le_compat_r; [lra|]. apply Rabs_le. lra.
Qed.
Lemma parab_near pow x : square_close 3 pow -> fin x -> Rabs (B2R x) <= 1 -> exists y, (s <- pow x 2%nat ;; Ok (fsub (fmul (f_of_Z 2) s) fone)) = Ok y /\ fin y /\ Rabs (above false (B2R x) (B2R y)) <= 9 * unit.
Proof.
  intros HS F B. destruct (HS x F B) as (s & Es & _). destruct (sq_small pow 3 x s HS ltac:(lra) F B Es) as (Fs & Bs & A & R). rewrite Es. cbn [bind]. eexists. split; [reflexivity|].
  destruct (double s Fs Bs) as (Fd & Vd & _). assert (u : 0 < unit <= / 1000000000) by (unfold unit; lra).
  assert (T : powerRZ 2 (-1074) <= unit / 4). { rewrite pz. replace (unit / 4) with (bp (-55)) by (unfold unit; cbn; lra). apply bpow_le. lia. }
  assert (A' : Rabs (B2R s - B2R x ^ 2) <= 13 / 4 * unit) by (eapply Rle_trans; [exact A|]; assert (3 * unit * B2R x ^ 2 <= 3 * unit * 1) by (apply Rmult_le_compat_l; lra); lra).
  assert (s0 : B2R s >= 0 \/ B2R s < 0) by lra. apply Rabs_le_inv in A'.
  destruct (f_small 1 eq_refl) as [F1 E1]. change (f_of_Z 1) with fone in *.
  assert (Bd : Rabs (2 * B2R s - 1) <= 2) by (apply Rabs_le; lra).
  destruct (L_MatFloat.sub_err (fmul (f_of_Z 2) s) fone Fd F1) as [Fy D]; [rewrite Vd, E1; apply Rle_trans with (1 := Bd); change 2 with (bp 1); apply bpow_le; lia|].
  split; [exact Fy|]. rewrite Vd, E1 in D. assert (unit * Rabs (2 * B2R s - 1) <= unit * 2) by (apply Rmult_le_compat_l; lra). unfold above.
  assert (D' : Rabs (B2R (fsub (fmul (f_of_Z 2) s) fone) - (2 * B2R s - 1)) <= unit * 2) by lra. apply Rabs_le_inv in D'. apply Rabs_le. lra.
Qed.
(*@ C102: the boundary curves drawn: p points on each side with abscissae in [-1, 0] and [0, 1], within 4 units of equal distances, and ordinates within 9 units of the two lines or the parabola. @*)
Lemma t_C102_curves : forall pow p penalty, square_close 3 pow -> (2 <= p)%nat -> (Z.of_nat p <= 1000000)%Z -> exists x1 y1 x2 y2 : list f64, boundary_f pow p penalty = Ok (x1, y1, x2, y2) /\
  List.length x1 = p /\ List.length y1 = p /\ List.length x2 = p /\ List.length y2 = p /\
  forall i, (i < p)%nat -> exists a b c d : f64, nth_error x1 i = Some a /\ nth_error y1 i = Some b /\ nth_error x2 i = Some c /\ nth_error y2 i = Some d /\
    is_finite a = true /\ is_finite b = true /\ is_finite c = true /\ is_finite d = true /\
    -1 <= B2R a <= 0 /\ Rabs (B2R a - (-1 + INR i / (INR p - 1))) <= 4 * unit /\ Rabs (above penalty (B2R a) (B2R b)) <= 9 * unit /\
    0 <= B2R c <= 1 /\ Rabs (B2R c - INR i / (INR p - 1)) <= 4 * unit /\ Rabs (above penalty (B2R c) (B2R d)) <= 9 * unit.
Proof.
  intros pow p penalty HS Hp HB. assert (u : 0 < unit) by (unfold unit; lra).
  assert (C1 := fun i => curve_point (-1) p i ltac:(lia) Hp HB). assert (C2 := fun i => curve_point 0 p i ltac:(lia) Hp HB).
  assert (One : 1 <= bp 1000) by (apply (bpow_le radix2 0 1000); lia).
  destruct penalty.
  - unfold boundary_f. cbn [bind]. do 4 eexists. split; [reflexivity|]. rewrite !map_length, !fl1_length. do 4 (split; [reflexivity|]).
    intros i Hi. destruct (C1 i Hi) as (a & Ea & Fa & Ba & Da). destruct (C2 i Hi) as (c & Ec & Fc & Bc & Dc). rewrite !nth_error_map, Ea, Ec. cbn [option_map].
    replace (IZR 0 + INR i / (INR p - 1)) with (INR i / (INR p - 1)) in Dc by ring.
    destruct (double c Fc) as (Fd & Vd & _); [apply Rle_trans with (2 := One), Rabs_le; lra|].
    assert (M : fin (fmul (f_of_Z (-2)) a) /\ B2R (fmul (f_of_Z (-2)) a) = -2 * B2R a).
    { destruct (f_small (-2) eq_refl) as [F2 E2]. destruct (mul_rnd (f_of_Z (-2)) a F2 Fa) as [Fm Em]; [rewrite E2; apply Rle_trans with (bp 1); [apply Rabs_le; cbn; lra|apply bpow_le; lia]|].
      split; [exact Fm|]. rewrite Em, E2. apply round_generic; [apply valid_rnd_round_mode|]. destruct (double a Fa) as (_ & Va & _); [apply Rle_trans with (2 := One), Rabs_le; lra|].
      replace (-2 * B2R a) with (- (2 * B2R a)) by ring. apply generic_format_opp. rewrite <- Va. apply generic_format_B2R. }
    destruct (minus_one _ _ (proj1 M) (proj2 M) ltac:(lra)) as [Fb Db]. destruct (minus_one _ _ Fd Vd ltac:(lra)) as [Fe De].
    do 4 eexists. do 4 (split; [reflexivity|]). do 4 (split; [assumption|]). split; [lra|]. split; [exact Da|]. split; [|split; [lra|split; [exact Dc|]]]; unfold above.
    + rewrite (Rabs_left1 (B2R a)) by lra. apply Rabs_le_inv in Db. apply Rabs_le. lra.
    + rewrite (Rabs_pos_eq (B2R c)) by lra. apply Rabs_le_inv in De. apply Rabs_le. lra.
  - set (h x := s <- pow x 2%nat ;; Ok (fsub (fmul (f_of_Z 2) s) fone)).
    assert (Q : forall z, (z = -1 \/ z = 0)%Z -> exists ys : list f64, mapM h (flinspace1 z p) = Ok ys /\ List.length ys = p /\ forall i x, nth_error (flinspace1 z p) i = Some x -> exists y, nth_error ys i = Some y /\ h x = Ok y).
    { intros z Hz. assert (L := fl1_length z p). destruct (mapM h (flinspace1 z p)) as [ys|e] eqn:E.
      - exists ys. split; [reflexivity|]. apply L_K.mapM_inv in E. split; [rewrite <- L; clear -E; induction E as [|x0 y0 l0 r0 _ _ IH0]; [reflexivity|exact (f_equal S IH0)]|]. clear -E. induction E as [|x y l r Hy E IH]; intros [|i] x0 Hx; try discriminate Hx.
        + injection Hx as <-. exists y. split; [reflexivity|exact Hy].
        + apply IH, Hx.
      - exfalso. assert (Al : forall x, In x (flinspace1 z p) -> exists y, h x = Ok y).
        { intros x I. apply In_nth_error in I. destruct I as (k & Ek). assert (Hk : (k < p)%nat) by (rewrite <- L; apply nth_error_Some; congruence).
          destruct (curve_point z p k Hz Hp HB Hk) as (t & Et & Ft & Bt & _). rewrite Ek in Et. injection Et as <-. destruct (parab_near pow x HS Ft) as (y & Ey & _); [|exists y; exact Ey].
          apply Rabs_le. destruct Hz; subst z; lra. }
        clear -E Al. revert e E. induction (flinspace1 z p) as [|x l IH]; intros e E; [discriminate E|]. cbn [mapM] in E. destruct (Al x (or_introl eq_refl)) as (y & Ey). rewrite Ey in E. cbn [bind] in E.
        destruct (mapM h l) as [r|e'] eqn:El; [discriminate E|]. exact (IH (fun x I => Al x (or_intror I)) e' eq_refl). }
    destruct (Q (-1)%Z ltac:(lia)) as (y1 & E1 & L1 & N1). destruct (Q 0%Z ltac:(lia)) as (y2 & E2 & L2 & N2).
    exists (flinspace1 (-1) p), y1, (flinspace1 0 p), y2. split; [unfold boundary_f; fold h; rewrite E1; cbn [bind]; rewrite E2; reflexivity|]. rewrite !fl1_length, L1, L2. do 4 (split; [reflexivity|]).
    intros i Hi. destruct (C1 i Hi) as (a & Ea & Fa & Ba & Da). destruct (C2 i Hi) as (c & Ec & Fc & Bc & Dc).
    replace (IZR 0 + INR i / (INR p - 1)) with (INR i / (INR p - 1)) in Dc by ring.
    destruct (N1 i a Ea) as (b & Eb & Hb). destruct (N2 i c Ec) as (d & Ed & Hd).
    destruct (parab_near pow a HS Fa) as (b' & Eb' & Fb & Bb); [apply Rabs_le; lra|]. destruct (parab_near pow c HS Fc) as (d' & Ed' & Fd & Bd); [apply Rabs_le; lra|].
    unfold h in Hb, Hd. rewrite Hb in Eb'. rewrite Hd in Ed'. apply Ok_inj in Eb', Ed'. subst b' d'.
    exists a, b, c, d. do 8 (split; [assumption|]). split; [lra|]. split; [exact Da|]. split; [exact Bb|]. split; [lra|]. split; [exact Dc|exact Bd].
Qed.

(** ** a plot *)
Definition const_solver : fsolver := fun _ _ _ => Ok ([f_of_Z (-1)], [[f_of_Z 1]]).
Section Ex.
Variables (parse : string -> option f64) (dec : Z -> Z -> f64).
Hypothesis HD : dec_close dec.
Definition f0 : f64 := fadd (fmul (f_of_Z 0) (fdiv (f_of_Z 2) (f_of_Z 1))) (f_of_Z (-1)).
Lemma drawn_ex s : s = f_of_Z 1 \/ s = f0 -> Ncr_from_lp_f parse const_solver pow_mul dec (f_of_Z 2) (f_of_Z 2) (f_of_Z_exp 1 0) 2 2 s (f_of_Z 1) (f_of_Z 4) (f_of_Z 2) (f_of_Z_exp 1 (-2)) (f_of_Z 1)
  (f_of_Z (-1)) (f_of_Z (-1)) fzero (CStr "PINNED") = Ok (fneg_recip (f_of_Z (-1))).
Proof.
  intros Hs. unfold Ncr_from_lp_f. rewrite (made98 parse dec HD). cbn [bind].
  assert (Q : exists M, D_lp_f pow_mul (ply98 (dec 1%Z (-1)%Z)) [s; fzero; f_of_Z 1; fzero] (f_of_Z_exp 1 0) = Ok M /\ usual_inputs pow_mul dec M (f_of_Z 2) (f_of_Z 2) (f_of_Z (-1)) (f_of_Z (-1)) fzero).
  { assert (G : forall th i j, (i < 3)%nat -> (j < 3)%nat -> match D_lp_f pow_mul (ply98 th) [s; fzero; f_of_Z 1; fzero] (f_of_Z_exp 1 0) with Ok N => is_finite (N i j) && (feq (N i j) fzero || (flt (f_of_Z_exp 1 (-20)) (N i j) && flt (N i j) (f_of_Z_exp 1 20))) | Err _ => false end = true).
    { intros th i j Hi Hj. destruct Hs; subst s; (destruct i as [|[|[|i]]]; try lia; (destruct j as [|[|[|j]]]; try lia); vm_compute; reflexivity). }
    destruct (D_lp_f pow_mul (ply98 (dec 1%Z (-1)%Z)) [s; fzero; f_of_Z 1; fzero] (f_of_Z_exp 1 0)) as [M|e] eqn:EM.
    - exists M. split; [reflexivity|]. assert (T2 : usual (f_of_Z 2)) by (apply (usual_of 2 0); lia).
      constructor; [exact pow_mul_close|exact HD| |exact T2|exact T2|apply int_usual0; [reflexivity|lia]|apply int_usual0; [reflexivity|lia]|split; [reflexivity|left; reflexivity]].
      intros i j Hi Hj. specialize (G (dec 1%Z (-1)%Z) i j Hi Hj). rewrite EM in G. apply andb_prop in G. destruct G as [G1 G2]. apply usual_bool; assumption.
    - specialize (G (dec 1%Z (-1)%Z) 0%nat 0%nat ltac:(lia) ltac:(lia)). rewrite EM in G. discriminate G. }
  destruct Q as (M & EM & UI).
  assert (Ep : plate_init parse true (PFloat (f_of_Z 2)) (PFloat (f_of_Z 2)) (PFloat (f_of_Z (-1))) (PFloat (f_of_Z (-1))) (PFloat fzero) (PInt (Z.of_nat 2)) (PInt (Z.of_nat 2)) = Ok (FPlate (f_of_Z 2) (f_of_Z 2) (f_of_Z (-1)) (f_of_Z (-1)) fzero 2 2)) by reflexivity.
  rewrite Ep. cbn [bind fp_a fp_b fp_Nxx fp_Nyy fp_Nxy fp_m fp_n]. change (Z.to_nat 2) with 2%nat. rewrite EM. cbn [bind]. unfold buckling_float.
  destruct (t_C77_rounding pow_mul dec M (f_of_Z 2) (f_of_Z 2) (f_of_Z (-1)) (f_of_Z (-1)) fzero (CStr "PINNED") Pinned Pinned Pinned Pinned 2 2 UI Sp_pinned ltac:(cbn; lia) ltac:(cbn; lia)) as (K & KG & K' & KG' & EK & _).
  rewrite EK. reflexivity.
Qed.
End Ex.
Lemma square_pow_mul : square_close 3 pow_mul. Proof. exact (proj1 t_C93_ex). Qed.
(*@ C102 example: a plate, a power operator and a solver with which a plot of 2 x 2 points is drawn, whatever the reading of literals. @*)
Example t_C102_ex : exists pow eigsh, square_close 3 pow /\ forall parse dec, dec_close dec -> exists r,
  plot_optimization_f parse eigsh pow dec (f_of_Z 2) (f_of_Z 2) (f_of_Z_exp 1 0) 2 2 (f_of_Z 4) (f_of_Z 2) (f_of_Z_exp 1 (-2)) (f_of_Z 1) (f_of_Z (-1)) (f_of_Z (-1)) fzero (CStr "PINNED") 2 true = Ok r.
Proof.
  exists pow_mul, const_solver. split; [exact square_pow_mul|]. intros parse dec HD.
  destruct (plot_optimization_f _ _ _ _ _ _ _ _ _ _ _ _ _ _ _ _ _ _ _) as [r|e] eqn:P; [exists r; reflexivity|exfalso].
  destruct (fplot_err _ _ _ _ _ _ _ _ _ _ _ _ _ _ _ _ _ 2 _ ltac:(lia) _ P) as (x & y & Ix & Iy & F). cbn [fst snd] in F.
  assert (L : flinspace 2 = [f0; f_of_Z 1]) by reflexivity. rewrite L in Ix, Iy.
  assert (Hx : x = f_of_Z 1 \/ x = f0) by (destruct Ix as [<-|[<-|[]]]; auto).
  destruct Iy as [<-|[<-|[]]].
  - assert (Mk : mask_f pow_mul x f0 true = Ok false) by (destruct Hx; subst x; vm_compute; reflexivity). rewrite Mk in F. discriminate F.
  - rewrite (drawn_ex parse dec HD x Hx) in F. destruct (mask_f pow_mul x (f_of_Z 1) true) as [[]|e'] eqn:Mk; [discriminate F|discriminate F|]. destruct Hx; subst x; vm_compute in Mk; discriminate Mk.
Qed.
