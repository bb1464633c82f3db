(** The theorems on the optimisation problems.
    Statements only: every proof is [exact] a lemma of T_Optimize.v with the same statement.
    Below each theorem, Print Assumptions lists the axioms it uses. *)
From Coq Require Import Reals ZArith QArith Qreals Lra Lia Psatz Bool String Sorting.Sorted Classical.
From Coquelicot Require Import Coquelicot.
From Coq Require Import List.
From Verif Require Import M_Py M_Plate M_K M_Tables M_Expr M_RealArith M_Plot M_Buckling M_Material M_Laminate M_Optimize S_Plate S_Mat S_Bardell S_Energy S_K S_Ritz S_Eigen S_Laminate S_Optimize.
Import ListNotations.
Open Scope R_scope.
From Verif Require T_Optimize.

(** C47: normalised loads lie in [-1, 1], one of them has absolute value 1, and multiplied by the returned maximum, which is positive
    and is the largest absolute load, they give back the inputs. *)
Theorem C47_normalised : forall Nxx Nyy Nxy x y z M, normalize_critical_load Nxx Nyy Nxy = Ok (x, y, z, M) ->
  0 < M /\ (M = Rabs Nxx \/ M = Rabs Nyy \/ M = Rabs Nxy) /\ Rabs x <= 1 /\ Rabs y <= 1 /\ Rabs z <= 1 /\
  (Rabs x = 1 \/ Rabs y = 1 \/ Rabs z = 1) /\ M * x = Nxx /\ M * y = Nyy /\ M * z = Nxy.
Proof. exact T_Optimize.t_C47_normalised. Qed.
Print Assumptions C47_normalised.

(** C47: normalisation fails exactly when all loads are zero, with ZeroDivisionError. *)
Theorem C47_error : forall Nxx Nyy Nxy e,
  normalize_critical_load Nxx Nyy Nxy = Err e <-> e = ZeroDivisionError /\ Nxx = 0 /\ Nyy = 0 /\ Nxy = 0.
Proof. exact T_Optimize.t_C47_error. Qed.
Print Assumptions C47_error.

(** C47: which loads are warned about; both warnings are issued at most once, and normalised loads never get the second. All-zero
    loads only get the first. *)
Theorem C47_warnings : forall Nxx Nyy Nxy,
  (In NoCompression (check_loads Nxx Nyy Nxy) <-> 0 <= Nxx /\ 0 <= Nyy /\ Nxy = 0) /\
  (In NotNormalised (check_loads Nxx Nyy Nxy) <-> 1 < Rabs Nxx \/ 1 < Rabs Nyy \/ 1 < Rabs Nxy) /\
  NoDup (check_loads Nxx Nyy Nxy) /\
  (forall x y z M, normalize_critical_load Nxx Nyy Nxy = Ok (x, y, z, M) -> ~ In NotNormalised (check_loads x y z)).
Proof. exact T_Optimize.t_C47_warnings. Qed.
Print Assumptions C47_warnings.

(** C47 example. *)
Example C47_ex : normalize_critical_load (-4) 1 2 = Ok (-4 / 4, 1 / 4, 2 / 4, 4) /\ normalize_critical_load 0 0 0 = Err ZeroDivisionError /\
  check_loads 0 0 0 = [NoCompression] /\ check_loads (-4) 1 2 = [NotNormalised].
Proof. exact T_Optimize.t_C47_ex. Qed.

(** C48: the penalty functions are non-negative together exactly on the triangle xi3 >= 2|xi1| - 1 and the mask used for plots is that
    triangle; without penalty the mask is the parabola. *)
Theorem C48_triangle : forall xi1 xi3, exists g1 g2 g,
  penalty_g1 [xi1; xi3] = Ok g1 /\ penalty_g2 [xi1; xi3] = Ok g2 /\ natural_constraint_g [xi1; xi3] = Ok g /\
  (0 <= g1 /\ 0 <= g2 <-> 2 * Rabs xi1 - 1 <= xi3) /\ (0 <= g <-> 2 * xi1 ^ 2 - 1 <= xi3) /\
  (constraint_mask xi1 xi3 true = true <-> 2 * Rabs xi1 - 1 <= xi3) /\ (constraint_mask xi1 xi3 false = true <-> 2 * xi1 ^ 2 - 1 <= xi3).
Proof. exact T_Optimize.t_C48_triangle. Qed.
Print Assumptions C48_triangle.

(** C48: for |xi1| <= 1 the triangle lies inside the parabola; both touch at the points of 0, 45 and 90 degree plies. *)
Theorem C48_inside : forall xi1 xi3, Rabs xi1 <= 1 -> (constraint_mask xi1 xi3 true = true -> constraint_mask xi1 xi3 false = true) /\
  (2 * xi1 ^ 2 - 1 = 2 * Rabs xi1 - 1 <-> xi1 = 0 \/ xi1 = 1 \/ xi1 = -1).
Proof. exact T_Optimize.t_C48_inside. Qed.
Print Assumptions C48_inside.

(** C48: the three functions take (xi1, xi3) and (T, xi1, xi3) alike and raise UnboundLocalError for every other length. *)
Theorem C48_lengths : forall f, In f [penalty_g1; penalty_g2; natural_constraint_g] ->
  (forall T xi1 xi3, f [T; xi1; xi3] = f [xi1; xi3]) /\
  (forall y, List.length y <> 2%nat -> List.length y <> 3%nat -> f y = Err UnboundLocalError).
Proof. exact T_Optimize.t_C48_lengths. Qed.
Print Assumptions C48_lengths.

(** C48: with xi3 <= 1 the triangle is the set of lamination parameters of laminates mixing 0, 90 and 45 degree plies in any
    proportions p, q, r. *)
Theorem C48_mixtures : forall xi1 xi3,
  (constraint_mask xi1 xi3 true = true /\ xi3 <= 1 <->
   exists p q r, 0 <= p /\ 0 <= q /\ 0 <= r /\ p + q + r = 1 /\
     xi1 = p * cos (2 * 0) + q * cos (2 * (PI / 2)) + r * cos (2 * (PI / 4)) /\
     xi3 = p * cos (4 * 0) + q * cos (4 * (PI / 2)) + r * cos (4 * (PI / 4))).
Proof. exact T_Optimize.t_C48_mixtures. Qed.
Print Assumptions C48_mixtures.

(** C48: with xi3 <= 1 the parabola is the set of lamination parameters of laminates mixing plies of some angle with 0 and 90 degree
    plies. *)
Theorem C48_natural : forall xi1 xi3,
  (constraint_mask xi1 xi3 false = true /\ xi3 <= 1 <->
   exists th p q r, 0 <= p /\ 0 <= q /\ 0 <= r /\ p + q + r = 1 /\
     xi1 = p * cos (2 * 0) + q * cos (2 * (PI / 2)) + r * cos (2 * th) /\
     xi3 = p * cos (4 * 0) + q * cos (4 * (PI / 2)) + r * cos (4 * th)).
Proof. exact T_Optimize.t_C48_natural. Qed.
Print Assumptions C48_natural.

(** C48 example. *)
Example C48_ex : constraint_mask (1/2) 0 true = true /\ constraint_mask (1/2) (-1/4) true = false /\ constraint_mask (1/2) (-1/4) false = true.
Proof. exact T_Optimize.t_C48_ex. Qed.

(** C49: the natural constraint with xi3 <= 1 is exactly the region where D is positive definite for every admissible material and
    thickness. *)
Theorem C49_region : forall xi1 xi3,
  (constraint_mask xi1 xi3 false = true /\ xi3 <= 1 <->
   forall h E1 E2 v12 G12 T, 0 <= h -> elastic E1 E2 v12 G12 -> 0 < T ->
     exists D, D_lp h E1 E2 v12 G12 T xi1 xi3 = Ok D /\ symmetric D /\ pos_def D).
Proof. exact T_Optimize.t_C49_region. Qed.
Print Assumptions C49_region.

(** C49: every point feasible for one of the optimisation problems, with the tolerance 0.0001 they grant, has a positive definite D when
    neither E1/E2 nor E1/G12 exceeds 1000. *)
Theorem C49_feasible : forall eigsh t a b E1 E2 v12 G12 Nxx Nyy Nxy m n c h, 0 < E2 <= E1 /\ E1 <= 1000 * E2 /\ E1 <= 1000 * G12 /\ -1/2 <= v12 <= 1/2 -> 0 <= h ->
  (forall T penalty w p xi1 xi3, 0 < T -> maximize_buckling_load eigsh t a b T E1 E2 v12 G12 Nxx Nyy Nxy m n c penalty = (w, Ok p) -> feasible p [xi1; xi3] ->
     exists D, D_lp h E1 E2 v12 G12 T xi1 xi3 = Ok D /\ symmetric D /\ pos_def D) /\
  (forall start w p T xi1 xi3, minimize_panel_weight eigsh t a b E1 E2 v12 G12 Nxx Nyy Nxy m n start c = (w, Ok p) -> feasible p [T; xi1; xi3] ->
     exists D, D_lp h E1 E2 v12 G12 T xi1 xi3 = Ok D /\ symmetric D /\ pos_def D).
Proof. exact T_Optimize.t_C49_feasible. Qed.
Print Assumptions C49_feasible.

(** C49: without such a bound the tolerance is too large: E1 = 10^6, E2 = G12 = 1 is an admissible material and (xi1, xi3) = (1, 0.9999) is
    feasible for both maximisation problems, but D is not positive definite. *)
Theorem C49_tolerance_refuted : elastic 1000000 1 0 1 /\ forall eigsh t a b m n c penalty h, 0 <= h ->
  exists w p D, maximize_buckling_load eigsh t a b 1 1000000 1 0 1 (-1) 0 0 m n c penalty = (w, Ok p) /\ feasible p [1; 9999/10000] /\
    D_lp h 1000000 1 0 1 1 1 (9999/10000) = Ok D /\ ~ pos_def D.
Proof. exact T_Optimize.t_C49_tolerance_refuted. Qed.
Print Assumptions C49_tolerance_refuted.

(** C49 example: a carbon-epoxy material and the quasi-isotropic point. *)
Example C49_ex : elastic 150 10 (3/10) 5 /\ constraint_mask 0 0 true = true /\ constraint_mask 0 0 false = true /\
  exists w p, maximize_buckling_load (fun _ _ _ => Err ArpackError) exact_tables 1 1 1 150 10 (3/10) 5 (-1) 0 0 7 7 (CStr "PINNED") true = (w, Ok p) /\ feasible p [0; 0].
Proof. exact T_Optimize.t_C49_ex. Qed.

(** C50: D is T^3 times the D for T = 1, and the ply thickness given to the material does not matter. *)
Theorem C50_D : forall h h' E1 E2 v12 G12 T xi1 xi3 D, D_lp h E1 E2 v12 G12 T xi1 xi3 = Ok D -> 0 <= h' ->
  exists D1, D_lp h' E1 E2 v12 G12 1 xi1 xi3 = Ok D1 /\ D = mscale (T ^ 3) D1 /\ D_lp h' E1 E2 v12 G12 T xi1 xi3 = Ok D.
Proof. exact T_Optimize.t_C50_D. Qed.
Print Assumptions C50_D.

(** C50: multiplying T by s multiplies K by s^3, leaves KG, and multiplies the smallest positive factor by s^3; stored tables or exact
    integrals. *)
Theorem C50_factors : forall (t : tables RA) h E1 E2 v12 G12 T s xi1 xi3 D D' a b Nxx Nyy Nxy c m n (K KG : list (list R)) l,
  t = stored_R \/ t = exact_tables -> a <> 0 -> b <> 0 -> 0 < s ->
  D_lp h E1 E2 v12 G12 T xi1 xi3 = Ok D -> D_lp h E1 E2 v12 G12 (s * T) xi1 xi3 = Ok D' ->
  calc_K_KG_D t (as_arr D) a b Nxx Nyy Nxy c m n = Ok (K, KG) ->
  exists K', calc_K_KG_D t (as_arr D') a b Nxx Nyy Nxy c m n = Ok (K', KG) /\ K' = scale_rows (s ^ 3) K /\
    (smallest_factor K' KG (s ^ 3 * l) <-> smallest_factor K KG l).
Proof. exact T_Optimize.t_C50_factors. Qed.
Print Assumptions C50_factors.

(** C50: minimising the objective T^3 is minimising T. *)
Theorem C50_objective : forall y y' T T', y <> [] -> y' <> [] -> nth_error y 0 = Some T -> nth_error y' 0 = Some T' ->
  exists w w', objective_function y = Ok (Fin w) /\ objective_function y' = Ok (Fin w') /\ (w <= w' <-> T <= T').
Proof. exact T_Optimize.t_C50_objective. Qed.
Print Assumptions C50_objective.

(** C51: what the two problems make of the first factor: the maximisation minimises minus the factor, and an ArpackError counts as the
    value 1; the weight problem requires the factor to be at least the largest load, and an ArpackError counts as factor -1;
    any other exception is raised. *)
Theorem C51_objective : forall eigsh t a b T E1 E2 v12 G12 Nxx Nyy Nxy m n c penalty w p, maximize_buckling_load eigsh t a b T E1 E2 v12 G12 Nxx Nyy Nxy m n c penalty = (w, Ok p) ->
  exists Nx Ny Nz M, normalize_critical_load Nxx Nyy Nxy = Ok (Nx, Ny, Nz, M) /\
  forall xi1 xi3, match Ncr_from_lp eigsh t a b T m n xi1 xi3 E1 E2 v12 G12 Nx Ny Nz c with
    | Ok (Fin x) => objective p [xi1; xi3] = Ok (Fin (- x))
    | Ok Infinite => objective p [xi1; xi3] = Ok Infinite
    | Err ArpackError => objective p [xi1; xi3] = Ok (Fin 1)
    | Err e => objective p [xi1; xi3] = Err e
    end.
Proof. exact T_Optimize.t_C51_objective. Qed.
Print Assumptions C51_objective.

(** C51: a point of the weight problem at which the solver fails is never feasible, so at a feasible point the first factor was
    computed and is at least the largest load. *)
Theorem C51_weight : forall eigsh t a b E1 E2 v12 G12 Nxx Nyy Nxy m n start c w p T xi1 xi3,
  minimize_panel_weight eigsh t a b E1 E2 v12 G12 Nxx Nyy Nxy m n start c = (w, Ok p) -> feasible p [T; xi1; xi3] ->
  exists Nx Ny Nz M x, normalize_critical_load Nxx Nyy Nxy = Ok (Nx, Ny, Nz, M) /\ 0 < M /\
    Ncr_from_lp eigsh t a b T m n xi1 xi3 E1 E2 v12 G12 Nx Ny Nz c = Ok (Fin x) /\ M <= x.
Proof. exact T_Optimize.t_C51_weight. Qed.
Print Assumptions C51_weight.

(** C51: for a documented solver and exact integrals, the value used by both problems is a factor of the plate; if l is the smallest
    positive factor the value is l, unless l < 1, when the value may be any factor in (l, 1/l]. *)
Theorem C51_value : forall eigsh a b T E1 E2 v12 G12 Nxx Nyy Nxy c c0 ca d0 db m n xi1 xi3 v, documented eigsh -> 0 < a -> 0 < b -> 0 < T -> elastic E1 E2 v12 G12 ->
  constraint_mask xi1 xi3 false = true -> xi3 <= 1 ->
  specifies c c0 ca d0 db -> restrained c0 ca d0 db -> (m + taken c0 + taken ca <= 30)%nat -> (n + taken d0 + taken db <= 30)%nat ->
  Ncr_from_lp eigsh exact_tables a b T m n xi1 xi3 E1 E2 v12 G12 Nxx Nyy Nxy c = Ok v ->
  exists D (K KG : list (list R)), D_lp 1 E1 E2 v12 G12 T xi1 xi3 = Ok D /\ calc_K_KG_D exact_tables (as_arr D) a b Nxx Nyy Nxy c m n = Ok (K, KG) /\ pencil K KG /\
    (forall x, v = Fin x -> factor K KG x) /\
    (forall l, smallest_factor K KG l -> v = Fin l \/ l < 1 /\ exists x, v = Fin x /\ l < x <= 1 / l).
Proof. exact T_Optimize.t_C51_value. Qed.
Print Assumptions C51_value.

(** C51: so a feasible point of the weight problem carries the given loads (its smallest factor under the normalised loads is at least
    the largest load), or else that factor is below 1; the loads are the normalised ones times the largest. *)
Theorem C51_carries : forall eigsh a b E1 E2 v12 G12 Nxx Nyy Nxy c c0 ca d0 db m n start w p T xi1 xi3, documented eigsh -> 0 < a -> 0 < b ->
  0 < E2 <= E1 /\ E1 <= 1000 * E2 /\ E1 <= 1000 * G12 /\ -1/2 <= v12 <= 1/2 ->
  specifies c c0 ca d0 db -> restrained c0 ca d0 db -> (m + taken c0 + taken ca <= 30)%nat -> (n + taken d0 + taken db <= 30)%nat ->
  minimize_panel_weight eigsh exact_tables a b E1 E2 v12 G12 Nxx Nyy Nxy m n start c = (w, Ok p) -> feasible p [T; xi1; xi3] ->
  exists D Nx Ny Nz M (K KG : list (list R)), D_lp 1 E1 E2 v12 G12 T xi1 xi3 = Ok D /\ normalize_critical_load Nxx Nyy Nxy = Ok (Nx, Ny, Nz, M) /\
    Nxx = M * Nx /\ Nyy = M * Ny /\ Nxy = M * Nz /\
    calc_K_KG_D exact_tables (as_arr D) a b Nx Ny Nz c m n = Ok (K, KG) /\ pencil K KG /\
    calc_K_KG_D exact_tables (as_arr D) a b Nxx Nyy Nxy c m n = Ok (K, scale_rows M KG) /\
    forall l, smallest_factor K KG l -> smallest_factor K (scale_rows M KG) (l / M) /\ (1 <= l / M \/ l < 1 /\ l * M <= 1).
Proof. exact T_Optimize.t_C51_carries. Qed.
Print Assumptions C51_carries.

(** C50: "the first factor scales with T^3" is false of the code: for this clamped plate every documented solver gives at T = 1/6 more
    than twice (1/6)^3 times what it gives at T = 1. *)
Theorem C50_refuted : exists E xi1 xi3, elastic E E 0 E /\ constraint_mask xi1 xi3 true = true /\ xi3 <= 1 /\
  forall eigsh v v', documented eigsh ->
    Ncr_from_lp eigsh exact_tables 1 1 (1/6) 3 1 xi1 xi3 E E 0 E (-1) 0 0 (CStr "CLAMPED") = Ok v ->
    Ncr_from_lp eigsh exact_tables 1 1 1 3 1 xi1 xi3 E E 0 E (-1) 0 0 (CStr "CLAMPED") = Ok v' ->
    exists z x, v = Fin z /\ v' = Fin x /\ 2 * ((1/6) ^ 3 * x) < z.
Proof. exact T_Optimize.t_C50_refuted. Qed.
Print Assumptions C50_refuted.

(** C51: "a feasible point of the weight problem carries the loads" is false of the code: for this clamped plate, load and point, every
    documented solver that answers makes the point feasible, although the plate buckles at less than half of the given load. *)
Theorem C51_unsafe_refuted : exists E T xi1 xi3 Nxx, elastic E E 0 E /\ forall eigsh start v, documented eigsh ->
  Ncr_from_lp eigsh exact_tables 1 1 T 3 1 xi1 xi3 E E 0 E (-1) 0 0 (CStr "CLAMPED") = Ok v ->
  exists w p D (K KG : list (list R)) l, minimize_panel_weight eigsh exact_tables 1 1 E E 0 E Nxx 0 0 3 1 start (CStr "CLAMPED") = (w, Ok p) /\
    feasible p [T; xi1; xi3] /\ D_lp 1 E E 0 E T xi1 xi3 = Ok D /\
    calc_K_KG_D exact_tables (as_arr D) 1 1 Nxx 0 0 (CStr "CLAMPED") 3 1 = Ok (K, KG) /\ smallest_factor K KG l /\ l < 1/2.
Proof. exact T_Optimize.t_C51_unsafe_refuted. Qed.
Print Assumptions C51_unsafe_refuted.

(** C50, C51 example: a documented solver that answers at both thicknesses of the plate used in the two refutations. *)
Example C50_ex : exists eigsh v v', documented eigsh /\
  Ncr_from_lp eigsh exact_tables 1 1 (1/6) 3 1 0 1 (324/25) (324/25) 0 (324/25) (-1) 0 0 (CStr "CLAMPED") = Ok v /\
  Ncr_from_lp eigsh exact_tables 1 1 1 3 1 0 1 (324/25) (324/25) 0 (324/25) (-1) 0 0 (CStr "CLAMPED") = Ok v'.
Proof. exact T_Optimize.t_C50_ex. Qed.

(** C51 example: a feasible point of a weight problem whose plate carries the load, with a documented solver. *)
Example C51_ex : exists eigsh w p T xi1 xi3, documented eigsh /\
  minimize_panel_weight eigsh exact_tables 1 1 (324/25) (324/25) 0 (324/25) (-100) 0 0 3 1 [1; 0; 0] (CStr "CLAMPED") = (w, Ok p) /\ feasible p [T; xi1; xi3].
Proof. exact T_Optimize.t_C51_ex. Qed.

(** C64: the contour plot of the maximisation: p x p arrays over the points -1 + 2 i/(p-1); a value is drawn exactly at the points
    inside the triangle or parabola, and it is the first factor there; elsewhere nan. *)
Theorem C64_plot : forall eigsh t a b T m n E1 E2 v12 G12 Nxx Nyy Nxy c p penalty X1 X3 Nx, (2 <= p)%nat ->
  plot_optimization eigsh t a b T m n E1 E2 v12 G12 Nxx Nyy Nxy c p penalty = Ok (X1, X3, Nx) ->
  square p X1 /\ square p X3 /\ square p Nx /\
  forall i j, (i < p)%nat -> (j < p)%nat -> let x := -1 + 2 * INR i / INR (p - 1) in let y := -1 + 2 * INR j / INR (p - 1) in
    entry X1 i j = Some x /\ entry X3 i j = Some y /\
    ((if penalty then 2 * Rabs x - 1 <= y else 2 * x ^ 2 - 1 <= y) ->
       exists v, Ncr_from_lp eigsh t a b T m n x y E1 E2 v12 G12 Nxx Nyy Nxy c = Ok v /\ entry Nx i j = Some (Some v)) /\
    (~ (if penalty then 2 * Rabs x - 1 <= y else 2 * x ^ 2 - 1 <= y) -> entry Nx i j = Some None).
Proof. exact T_Optimize.t_C64_plot. Qed.
Print Assumptions C64_plot.

(** C64: an exception of any drawn point, including one of the solver, ends the plot; there is no other way for it to fail. *)
Theorem C64_errors : forall eigsh t a b T m n E1 E2 v12 G12 Nxx Nyy Nxy c p penalty e, (2 <= p)%nat ->
  (plot_optimization eigsh t a b T m n E1 E2 v12 G12 Nxx Nyy Nxy c p penalty = Err e -> exists i j, (i < p)%nat /\ (j < p)%nat /\
     let x := -1 + 2 * INR i / INR (p - 1) in let y := -1 + 2 * INR j / INR (p - 1) in
     constraint_mask x y penalty = true /\ Ncr_from_lp eigsh t a b T m n x y E1 E2 v12 G12 Nxx Nyy Nxy c = Err e) /\
  (forall i j, (i < p)%nat -> (j < p)%nat -> let x := -1 + 2 * INR i / INR (p - 1) in let y := -1 + 2 * INR j / INR (p - 1) in
     constraint_mask x y penalty = true -> Ncr_from_lp eigsh t a b T m n x y E1 E2 v12 G12 Nxx Nyy Nxy c = Err e ->
     exists e', plot_optimization eigsh t a b T m n E1 E2 v12 G12 Nxx Nyy Nxy c p penalty = Err e').
Proof. exact T_Optimize.t_C64_errors. Qed.
Print Assumptions C64_errors.

(** C64: the plot uses the loads as given, the optimisation the normalised ones: with M the largest load, a smallest factor l under the
    normalised loads is l/M under the given ones, so where both analyses find their smallest factor (l >= 1 and l >= M) the
    contour shows l/M while the optimisation minimises -l; the plate carries the loads exactly when the contour is at least 1. *)
Theorem C64_loads : forall eigsh a b T E1 E2 v12 G12 Nxx Nyy Nxy Nx Ny Nz M c c0 ca d0 db m n xi1 xi3 v v' D (K KG : list (list R)) l, documented eigsh -> 0 < a -> 0 < b -> 0 < T ->
  elastic E1 E2 v12 G12 -> constraint_mask xi1 xi3 false = true -> xi3 <= 1 ->
  specifies c c0 ca d0 db -> restrained c0 ca d0 db -> (m + taken c0 + taken ca <= 30)%nat -> (n + taken d0 + taken db <= 30)%nat ->
  normalize_critical_load Nxx Nyy Nxy = Ok (Nx, Ny, Nz, M) ->
  D_lp 1 E1 E2 v12 G12 T xi1 xi3 = Ok D -> calc_K_KG_D exact_tables (as_arr D) a b Nx Ny Nz c m n = Ok (K, KG) -> smallest_factor K KG l -> 1 <= l -> M <= l ->
  Ncr_from_lp eigsh exact_tables a b T m n xi1 xi3 E1 E2 v12 G12 Nx Ny Nz c = Ok v ->
  Ncr_from_lp eigsh exact_tables a b T m n xi1 xi3 E1 E2 v12 G12 Nxx Nyy Nxy c = Ok v' ->
  v = Fin l /\ v' = Fin (l / M).
Proof. exact T_Optimize.t_C64_loads. Qed.
Print Assumptions C64_loads.

(** C64 example: a plot that is drawn, with two values and two gaps. *)
Example C64_ex : exists eigsh r, documented eigsh /\
  plot_optimization eigsh exact_tables 1 1 1 3 1 (324/25) (324/25) 0 (324/25) (-1) 0 0 (CStr "CLAMPED") 2 true = Ok r.
Proof. exact T_Optimize.t_C64_ex. Qed.

(** C50: the value used by the optimisations scales with the cube of T as long as the smallest factor is at least 1 at both thicknesses. *)
Theorem C50_value : forall eigsh a b T s E1 E2 v12 G12 Nxx Nyy Nxy c c0 ca d0 db m n xi1 xi3 v v' D (K KG : list (list R)) l, documented eigsh -> 0 < a -> 0 < b -> 0 < T -> 0 < s ->
  elastic E1 E2 v12 G12 -> constraint_mask xi1 xi3 false = true -> xi3 <= 1 ->
  specifies c c0 ca d0 db -> restrained c0 ca d0 db -> (m + taken c0 + taken ca <= 30)%nat -> (n + taken d0 + taken db <= 30)%nat ->
  D_lp 1 E1 E2 v12 G12 T xi1 xi3 = Ok D -> calc_K_KG_D exact_tables (as_arr D) a b Nxx Nyy Nxy c m n = Ok (K, KG) -> smallest_factor K KG l -> 1 <= l -> 1 <= s ^ 3 * l ->
  Ncr_from_lp eigsh exact_tables a b T m n xi1 xi3 E1 E2 v12 G12 Nxx Nyy Nxy c = Ok v ->
  Ncr_from_lp eigsh exact_tables a b (s * T) m n xi1 xi3 E1 E2 v12 G12 Nxx Nyy Nxy c = Ok v' ->
  v = Fin l /\ v' = Fin (s ^ 3 * l).
Proof. exact T_Optimize.t_C50_value. Qed.
Print Assumptions C50_value.
