(** Vocabulary for the contour plot in binary64. *)
From Coq Require Import Reals.
Open Scope R_scope.

(** how far the point (x, y) lies above the two lines y = 2 |x| - 1, or above the parabola y = 2 x^2 - 1; negative below *)
Definition above (penalty : bool) (x y : R) : R := if penalty then y - (2 * Rabs x - 1) else y - (2 * x ^ 2 - 1).
