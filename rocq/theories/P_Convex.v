(** The theorems on the shape of the optimisation problems.
    Statements only: every proof is [exact] a lemma of T_Convex.v with the same statement.
    Below each theorem, Print Assumptions lists the axioms it uses. *)
From Coq Require Import Reals ZArith Lra Lia Bool String Sorting.Sorted Classical.
From Coquelicot Require Import Coquelicot.
From Coq Require Import List.
From Verif Require Import M_Py M_Plate M_K M_RealArith M_Plot M_Buckling M_Material M_Laminate M_Optimize S_Plate S_Mat S_Bardell S_Energy S_K S_Ritz S_Eigen S_Compare S_Optimize S_Convex.
Import ListNotations.
Open Scope R_scope.
From Verif Require T_Convex.

(** C73: for given loads the critical factor is superadditive and homogeneous, so concave, in the bending stiffness: a combination of two
    stiffnesses with weights p, q carries at least the combination of the two critical factors. *)
Theorem C73_stiffness : forall (D D' : mat3) a b Nxx Nyy Nxy c c0 ca d0 db m n p q l1 l2,
  plate_any D a b c c0 ca d0 db -> plate_any D' a b c c0 ca d0 db -> 0 <= p -> 0 <= q -> 0 < p + q ->
  critical D a b Nxx Nyy Nxy c m n l1 -> critical D' a b Nxx Nyy Nxy c m n l2 ->
  exists l, critical (madd (mscale p D) (mscale q D')) a b Nxx Nyy Nxy c m n l /\ p * l1 + q * l2 <= l.
Proof. exact T_Convex.t_C73_stiffness. Qed.
Print Assumptions C73_stiffness.

(** C73: the triangle and the parabola are convex. *)
Theorem C73_region : forall penalty xi1 xi3 yi1 yi3 s, 0 <= s <= 1 -> inside penalty xi1 xi3 -> inside penalty yi1 yi3 ->
  inside penalty (between s xi1 yi1) (between s xi3 yi3).
Proof. exact T_Convex.t_C73_region. Qed.
Print Assumptions C73_region.

(** C73: the critical factor is a concave function of the lamination parameters. *)
Theorem C73_concave : forall a b T E1 E2 v12 G12 xi1 xi3 yi1 yi3 Nxx Nyy Nxy c c0 ca d0 db m n s l1 l2, 0 < a -> 0 < b -> 0 < T -> elastic E1 E2 v12 G12 ->
  specifies c c0 ca d0 db -> restrained c0 ca d0 db -> (m + taken c0 + taken ca <= 30)%nat -> (n + taken d0 + taken db <= 30)%nat ->
  inside false xi1 xi3 -> inside false yi1 yi3 -> 0 <= s <= 1 ->
  crit_lp a b T E1 E2 v12 G12 xi1 xi3 Nxx Nyy Nxy c m n l1 -> crit_lp a b T E1 E2 v12 G12 yi1 yi3 Nxx Nyy Nxy c m n l2 ->
  exists l, crit_lp a b T E1 E2 v12 G12 (between s xi1 yi1) (between s xi3 yi3) Nxx Nyy Nxy c m n l /\ between s l1 l2 <= l.
Proof. exact T_Convex.t_C73_concave. Qed.
Print Assumptions C73_concave.

(** C73: so a panel whose critical factor is not exceeded by any panel with nearby lamination parameters is not exceeded by any panel
    of the region: a local optimum of the maximisation is a global one. *)
Theorem C73_local : forall penalty a b T E1 E2 v12 G12 xi1 xi3 Nxx Nyy Nxy c c0 ca d0 db m n l0 eps, 0 < a -> 0 < b -> 0 < T -> elastic E1 E2 v12 G12 ->
  specifies c c0 ca d0 db -> restrained c0 ca d0 db -> (m + taken c0 + taken ca <= 30)%nat -> (n + taken d0 + taken db <= 30)%nat ->
  inside penalty xi1 xi3 -> crit_lp a b T E1 E2 v12 G12 xi1 xi3 Nxx Nyy Nxy c m n l0 -> 0 < eps ->
  (forall yi1 yi3 l, inside penalty yi1 yi3 -> Rabs (yi1 - xi1) < eps -> Rabs (yi3 - xi3) < eps ->
     crit_lp a b T E1 E2 v12 G12 yi1 yi3 Nxx Nyy Nxy c m n l -> l <= l0) ->
  forall yi1 yi3 l, inside penalty yi1 yi3 -> crit_lp a b T E1 E2 v12 G12 yi1 yi3 Nxx Nyy Nxy c m n l -> l <= l0.
Proof. exact T_Convex.t_C73_local. Qed.
Print Assumptions C73_local.

(** C73: the maximisation problem is convex where the critical factors are at least 1: the feasible points (with the tolerance granted)
    form a convex set, and if the solver answers at a point of a segment between feasible points, the objective there lies on or
    below the chord. *)
Theorem C73_maximise : forall eigsh a b T E1 E2 v12 G12 Nxx Nyy Nxy c c0 ca d0 db m n penalty w p xi1 xi3 yi1 yi3 s, documented eigsh -> panel_ok a b E1 E2 v12 G12 c c0 ca d0 db m n -> 0 < T ->
  maximize_buckling_load eigsh exact_tables a b T E1 E2 v12 G12 Nxx Nyy Nxy m n c penalty = (w, Ok p) ->
  feasible p [xi1; xi3] -> feasible p [yi1; yi3] -> 0 <= s <= 1 ->
  feasible p [between s xi1 yi1; between s xi3 yi3] /\
  forall Nx Ny Nz M l1 l2 u v r, normalize_critical_load Nxx Nyy Nxy = Ok (Nx, Ny, Nz, M) ->
    crit_lp a b T E1 E2 v12 G12 xi1 xi3 Nx Ny Nz c m n l1 -> crit_lp a b T E1 E2 v12 G12 yi1 yi3 Nx Ny Nz c m n l2 -> 1 <= l1 -> 1 <= l2 ->
    objective p [xi1; xi3] = Ok (Fin u) -> objective p [yi1; yi3] = Ok (Fin v) ->
    Ncr_from_lp eigsh exact_tables a b T m n (between s xi1 yi1) (between s xi3 yi3) E1 E2 v12 G12 Nx Ny Nz c = Ok r ->
    exists z, objective p [between s xi1 yi1; between s xi3 yi3] = Ok (Fin z) /\ z <= between s u v.
Proof. exact T_Convex.t_C73_maximise. Qed.
Print Assumptions C73_maximise.

(** C73: the weight problem is convex in the same sense: with critical factors of at least 1 at two feasible points, every point between them
    at which the solver answers is feasible, and the objective T^3 there lies on or below the chord. *)
Theorem C73_minimise : forall eigsh a b E1 E2 v12 G12 Nxx Nyy Nxy c c0 ca d0 db m n start w p T xi1 xi3 T' yi1 yi3 s Nx Ny Nz M l1 l2 r, documented eigsh -> panel_ok a b E1 E2 v12 G12 c c0 ca d0 db m n ->
  minimize_panel_weight eigsh exact_tables a b E1 E2 v12 G12 Nxx Nyy Nxy m n start c = (w, Ok p) -> normalize_critical_load Nxx Nyy Nxy = Ok (Nx, Ny, Nz, M) ->
  feasible p [T; xi1; xi3] -> feasible p [T'; yi1; yi3] -> 0 <= s <= 1 ->
  crit_lp a b T E1 E2 v12 G12 xi1 xi3 Nx Ny Nz c m n l1 -> crit_lp a b T' E1 E2 v12 G12 yi1 yi3 Nx Ny Nz c m n l2 -> 1 <= l1 -> 1 <= l2 ->
  Ncr_from_lp eigsh exact_tables a b (between s T T') m n (between s xi1 yi1) (between s xi3 yi3) E1 E2 v12 G12 Nx Ny Nz c = Ok r ->
  feasible p [between s T T'; between s xi1 yi1; between s xi3 yi3] /\
  exists q q1 q2, objective p [between s T T'; between s xi1 yi1; between s xi3 yi3] = Ok (Fin q) /\
    objective p [T; xi1; xi3] = Ok (Fin q1) /\ objective p [T'; yi1; yi3] = Ok (Fin q2) /\ q <= between s q1 q2.
Proof. exact T_Convex.t_C73_minimise. Qed.
Print Assumptions C73_minimise.

(** C73 example: a panel, a documented solver and two feasible points of its maximisation problem that meet the hypotheses of C73_maximise
    (and, with T = 1, of C73_concave) at s = 1/3. *)
Theorem C73_ex_maximise : exists k eigsh w p l1 l2 u v r, documented eigsh /\ panel_ok 2 1 (15 * k) k (3/10) (k / 2) (CStr "PINNED") Pinned Pinned Pinned Pinned 3 3 /\
  maximize_buckling_load eigsh exact_tables 2 1 1 (15 * k) k (3/10) (k / 2) (-1) 0 0 3 3 (CStr "PINNED") true = (w, Ok p) /\ feasible p [0; 0] /\ feasible p [1/4; 1/2] /\
  normalize_critical_load (-1) 0 0 = Ok (-1, 0, 0, 1) /\ 1 <= l1 /\ 1 <= l2 /\
  crit_lp 2 1 1 (15 * k) k (3/10) (k / 2) 0 0 (-1) 0 0 (CStr "PINNED") 3 3 l1 /\ crit_lp 2 1 1 (15 * k) k (3/10) (k / 2) (1/4) (1/2) (-1) 0 0 (CStr "PINNED") 3 3 l2 /\
  objective p [0; 0] = Ok (Fin u) /\ objective p [1/4; 1/2] = Ok (Fin v) /\
  Ncr_from_lp eigsh exact_tables 2 1 1 3 3 (between (1/3) 0 (1/4)) (between (1/3) 0 (1/2)) (15 * k) k (3/10) (k / 2) (-1) 0 0 (CStr "PINNED") = Ok r.
Proof. exact T_Convex.t_C73_ex_maximise. Qed.
Print Assumptions C73_ex_maximise.

(** C73 example: the same for C73_minimise, with thicknesses 1 and 2. *)
Theorem C73_ex_minimise : exists k eigsh w p l1 l2 r, documented eigsh /\ panel_ok 2 1 (15 * k) k (3/10) (k / 2) (CStr "PINNED") Pinned Pinned Pinned Pinned 3 3 /\
  minimize_panel_weight eigsh exact_tables 2 1 (15 * k) k (3/10) (k / 2) (-1) 0 0 3 3 [1; 0; 0] (CStr "PINNED") = (w, Ok p) /\ normalize_critical_load (-1) 0 0 = Ok (-1, 0, 0, 1) /\
  feasible p [1; 0; 0] /\ feasible p [2; 1/4; 1/2] /\
  crit_lp 2 1 1 (15 * k) k (3/10) (k / 2) 0 0 (-1) 0 0 (CStr "PINNED") 3 3 l1 /\ crit_lp 2 1 2 (15 * k) k (3/10) (k / 2) (1/4) (1/2) (-1) 0 0 (CStr "PINNED") 3 3 l2 /\ 1 <= l1 /\ 1 <= l2 /\
  Ncr_from_lp eigsh exact_tables 2 1 (between (1/3) 1 2) 3 3 (between (1/3) 0 (1/4)) (between (1/3) 0 (1/2)) (15 * k) k (3/10) (k / 2) (-1) 0 0 (CStr "PINNED") = Ok r.
Proof. exact T_Convex.t_C73_ex_minimise. Qed.
Print Assumptions C73_ex_minimise.
