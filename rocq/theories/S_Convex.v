(** Vocabulary for the shape of the two optimisation problems. *)
From Coq Require Import Reals.
From Coq Require Import List.
From Verif Require Import M_Py M_Plate M_K M_RealArith M_Buckling M_Material M_Laminate M_Optimize S_Plate S_Mat S_K S_Ritz S_Eigen S_Compare S_Optimize.
Import ListNotations.
Open Scope R_scope.

(** the point that divides the segment from y to x in the ratio s : 1 - s *)
Definition between (s x y : R) : R := s * x + (1 - s) * y.
(** l is the smallest positive factor of the panel with lamination parameters (xi1, xi3) and thickness T *)
Definition crit_lp (a b T E1 E2 v12 G12 xi1 xi3 Nxx Nyy Nxy : R) (c : constraints) (m n : nat) (l : R) : Prop :=
  exists D, D_lp 1 E1 E2 v12 G12 T xi1 xi3 = Ok D /\ critical D a b Nxx Nyy Nxy c m n l.
(** a panel within the scope of C51_carries *)
Record panel_ok (a b E1 E2 v12 G12 : R) (c : constraints) (c0 ca d0 db : condition) (m n : nat) : Prop := {
  pk_a : 0 < a; pk_b : 0 < b; pk_mat : 0 < E2 <= E1 /\ E1 <= 1000 * E2 /\ E1 <= 1000 * G12 /\ -1/2 <= v12 <= 1/2;
  pk_edges : specifies c c0 ca d0 db; pk_held : restrained c0 ca d0 db;
  pk_m : (m + taken c0 + taken ca <= 30)%nat; pk_n : (n + taken d0 + taken db <= 30)%nat }.
(** the points of the triangle (penalty) or of the parabola *)
Definition inside (penalty : bool) (xi1 xi3 : R) : Prop := constraint_mask xi1 xi3 penalty = true /\ xi3 <= 1.
