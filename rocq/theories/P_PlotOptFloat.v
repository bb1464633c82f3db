(** The theorems on the contour plot in double precision
    Statements only: every proof is [exact] a lemma of T_PlotOptFloat.v with the same statement.
    Below each theorem, Print Assumptions lists the axioms it uses. *)
From Coq Require Import Reals ZArith Lra Lia Bool String.
From Flocq Require Import Core.Core IEEE754.BinarySingleNaN.
From Coq Require Import List.
From Verif Require Import M_Py M_Plate M_K M_Expr M_Float M_FloatArith M_Validate M_MatFloat M_LayupFloat M_LpFloat M_OptFloat M_BucklingFloat M_NcrFloat M_PlotFloat M_PlotOptFloat S_Plate S_K S_Validate S_Round S_LpFloat S_OptFloat S_PlotFloat S_PlotOptFloat.
Import ListNotations.
Open Scope R_scope.
From Verif Require T_PlotOptFloat.

(** C102: the arrays of the contour plot. They are p x p; row i belongs to a double x near -1 + 2 i/(p-1), column j to a double y near -1 + 2 j/(p-1). A value is drawn where (x, y)
    is at least 6 units above the boundary and a gap left where it is more than 8 units below; with the two lines a value is drawn exactly where the point is at most one unit below. The
    value is the first factor computed for x and y. *)
Theorem C102_plot : forall parse eigsh pow dec a b T m n E1 E2 v12 G12 Nxx Nyy Nxy c p penalty X1 X3 Nx, square_close 3 pow -> (2 <= p)%nat -> (Z.of_nat p <= 1000000)%Z ->
  plot_optimization_f parse eigsh pow dec a b T m n E1 E2 v12 G12 Nxx Nyy Nxy c p penalty = Ok (X1, X3, Nx) ->
  square p X1 /\ square p X3 /\ square p Nx /\
  forall i j, (i < p)%nat -> (j < p)%nat -> exists x y : f64, entry X1 i j = Some x /\ entry X3 i j = Some y /\
    is_finite x = true /\ Rabs (B2R x) <= 1 /\ Rabs (B2R x - equal_point p i) <= 6 * unit /\ is_finite y = true /\ Rabs (B2R y) <= 1 /\ Rabs (B2R y - equal_point p j) <= 6 * unit /\
    exists drawn : bool, (drawn = true -> - (8 * unit) <= above penalty (B2R x) (B2R y)) /\ (6 * unit <= above penalty (B2R x) (B2R y) -> drawn = true) /\
      (penalty = true -> (drawn = true <-> - unit <= above penalty (B2R x) (B2R y))) /\
      if drawn then exists v, Ncr_from_lp_f parse eigsh pow dec a b T m n x y E1 E2 v12 G12 Nxx Nyy Nxy c = Ok v /\ entry Nx i j = Some v else entry Nx i j = Some fnan.
Proof. exact T_PlotOptFloat.t_C102_plot. Qed.
Print Assumptions C102_plot.

(** C102: in terms of the equidistant points themselves: 40 units above the boundary a value is drawn, 40 units below a gap is left. *)
Theorem C102_region : forall parse eigsh pow dec a b T m n E1 E2 v12 G12 Nxx Nyy Nxy c p penalty X1 X3 Nx i j, square_close 3 pow -> (2 <= p)%nat -> (Z.of_nat p <= 1000000)%Z ->
  plot_optimization_f parse eigsh pow dec a b T m n E1 E2 v12 G12 Nxx Nyy Nxy c p penalty = Ok (X1, X3, Nx) -> (i < p)%nat -> (j < p)%nat ->
  (40 * unit <= above penalty (equal_point p i) (equal_point p j) -> exists x y v, entry X1 i j = Some x /\ entry X3 i j = Some y /\
     Ncr_from_lp_f parse eigsh pow dec a b T m n x y E1 E2 v12 G12 Nxx Nyy Nxy c = Ok v /\ entry Nx i j = Some v) /\
  (above penalty (equal_point p i) (equal_point p j) <= - (40 * unit) -> entry Nx i j = Some fnan).
Proof. exact T_PlotOptFloat.t_C102_region. Qed.
Print Assumptions C102_region.

(** C102: the only way for the plot to fail is an exception of the analysis at a point that would be drawn, and any such exception, one of the solver included, ends it. *)
Theorem C102_errors : forall parse eigsh pow dec a b T m n E1 E2 v12 G12 Nxx Nyy Nxy c p penalty, square_close 3 pow -> (2 <= p)%nat -> (Z.of_nat p <= 1000000)%Z ->
  (forall e, plot_optimization_f parse eigsh pow dec a b T m n E1 E2 v12 G12 Nxx Nyy Nxy c p penalty = Err e -> exists i j (x y : f64), (i < p)%nat /\ (j < p)%nat /\
     Rabs (B2R x - equal_point p i) <= 6 * unit /\ Rabs (B2R y - equal_point p j) <= 6 * unit /\ - (8 * unit) <= above penalty (B2R x) (B2R y) /\
     Ncr_from_lp_f parse eigsh pow dec a b T m n x y E1 E2 v12 G12 Nxx Nyy Nxy c = Err e) /\
  (forall i j, (i < p)%nat -> (j < p)%nat -> 40 * unit <= above penalty (equal_point p i) (equal_point p j) ->
     (forall x y v, Rabs (B2R x - equal_point p i) <= 6 * unit -> Rabs (B2R y - equal_point p j) <= 6 * unit -> Ncr_from_lp_f parse eigsh pow dec a b T m n x y E1 E2 v12 G12 Nxx Nyy Nxy c <> Ok v) ->
     exists e, plot_optimization_f parse eigsh pow dec a b T m n E1 E2 v12 G12 Nxx Nyy Nxy c p penalty = Err e).
Proof. exact T_PlotOptFloat.t_C102_errors. Qed.
Print Assumptions C102_errors.

(** C102: a point of the equidistant grid on the boundary itself can be missing, and its mirror image present: with p = 6 the points (1/5, -3/5) and (-1/5, -3/5) both lie on the lines; in
    every plot with the two lines the first is a gap and the second has a value. *)
Theorem C102_boundary_refuted : equal_point 6 3 = 1 / 5 /\ equal_point 6 2 = - (1 / 5) /\ equal_point 6 1 = - (3 / 5) /\ above true (1 / 5) (- (3 / 5)) = 0 /\ above true (- (1 / 5)) (- (3 / 5)) = 0 /\
  forall parse eigsh pow dec a b T m n E1 E2 v12 G12 Nxx Nyy Nxy c X1 X3 Nx,
  plot_optimization_f parse eigsh pow dec a b T m n E1 E2 v12 G12 Nxx Nyy Nxy c 6 true = Ok (X1, X3, Nx) -> entry Nx 3 1 = Some fnan /\
  exists x y v, entry X1 2 1 = Some x /\ entry X3 2 1 = Some y /\ Ncr_from_lp_f parse eigsh pow dec a b T m n x y E1 E2 v12 G12 Nxx Nyy Nxy c = Ok v /\ entry Nx 2 1 = Some v.
Proof. exact T_PlotOptFloat.t_C102_boundary_refuted. Qed.
Print Assumptions C102_boundary_refuted.

(** C102: the boundary curves drawn: p points on each side with abscissae in [-1, 0] and [0, 1], within 4 units of equal distances, and ordinates within 9 units of the two lines or the parabola. *)
Theorem C102_curves : forall pow p penalty, square_close 3 pow -> (2 <= p)%nat -> (Z.of_nat p <= 1000000)%Z -> exists x1 y1 x2 y2 : list f64, boundary_f pow p penalty = Ok (x1, y1, x2, y2) /\
  List.length x1 = p /\ List.length y1 = p /\ List.length x2 = p /\ List.length y2 = p /\
  forall i, (i < p)%nat -> exists a b c d : f64, nth_error x1 i = Some a /\ nth_error y1 i = Some b /\ nth_error x2 i = Some c /\ nth_error y2 i = Some d /\
    is_finite a = true /\ is_finite b = true /\ is_finite c = true /\ is_finite d = true /\
    -1 <= B2R a <= 0 /\ Rabs (B2R a - (-1 + INR i / (INR p - 1))) <= 4 * unit /\ Rabs (above penalty (B2R a) (B2R b)) <= 9 * unit /\
    0 <= B2R c <= 1 /\ Rabs (B2R c - INR i / (INR p - 1)) <= 4 * unit /\ Rabs (above penalty (B2R c) (B2R d)) <= 9 * unit.
Proof. exact T_PlotOptFloat.t_C102_curves. Qed.
Print Assumptions C102_curves.

(** C102 example: a plate, a power operator and a solver with which a plot of 2 x 2 points is drawn, whatever the reading of literals. *)
Example C102_ex : exists pow eigsh, square_close 3 pow /\ forall parse dec, dec_close dec -> exists r,
  plot_optimization_f parse eigsh pow dec (f_of_Z 2) (f_of_Z 2) (f_of_Z_exp 1 0) 2 2 (f_of_Z 4) (f_of_Z 2) (f_of_Z_exp 1 (-2)) (f_of_Z 1) (f_of_Z (-1)) (f_of_Z (-1)) fzero (CStr "PINNED") 2 true = Ok r.
Proof. exact T_PlotOptFloat.t_C102_ex. Qed.
