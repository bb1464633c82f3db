(** The theorems on the answers a documented eigenvalue solver can give.
    Statements only: every proof is [exact] a lemma of T_Solver.v with the same statement.
    Below each theorem, Print Assumptions lists the axioms it uses. *)
From Coq Require Import Reals ZArith Lra Lia Bool String Sorting.Sorted Sorting.Permutation Classical.
From Coq Require Import List.
From Verif Require Import M_Py M_Plate M_K M_RealArith M_Plot M_Buckling M_Material M_Laminate M_Optimize S_Plate S_Mat S_Energy S_K S_Ritz S_Eigen S_Compare S_Optimize S_Convex.
Import ListNotations.
Open Scope R_scope.
From Verif Require T_Solver.

(** C74: every symmetric pencil with a positive definite matrix and no eigenvalue at the shift has an answer as documented, for every number of
    eigenvalues up to its size. *)
Theorem C74_exists : forall (A M : list (list R)) k, pencil M A -> (k <= List.length M)%nat -> (forall v, ~ gen_pair A M 1 v) ->
  exists vals vecs, eigsh_result A M k vals vecs.
Proof. exact T_Solver.t_C74_exists. Qed.
Print Assumptions C74_exists.

(** C74: the eigenvalues of a documented answer are determined by the matrices, unless two different eigenvalues are reciprocal. *)
Theorem C74_unique : forall (A M : list (list R)) k vals vecs vals' vecs', pencil M A -> eigsh_result A M k vals vecs -> eigsh_result A M k vals' vecs' ->
  (forall mu nu v w, gen_pair A M mu v -> gen_pair A M nu w -> mu * nu = 1 -> mu = nu) -> vals = vals'.
Proof. exact T_Solver.t_C74_unique. Qed.
Print Assumptions C74_unique.

(** C74: finitely many such questions are all answered by one documented solver. *)
Theorem C74_solver : forall qs : list (list (list R) * list (list R) * Z),
  Forall (fun q => let '(A, M, k) := q in pencil M A /\ (0 < k <= Z.of_nat (List.length M))%Z /\ forall v, ~ gen_pair A M 1 v) qs ->
  exists eigsh, documented eigsh /\ Forall (fun q => let '(A, M, k) := q in exists r, eigsh A M k = Ok r) qs.
Proof. exact T_Solver.t_C74_solver. Qed.
Print Assumptions C74_solver.

(** C74: two documented solvers report the same factors for the same plate, unless two different factors of the plate are reciprocal. *)
Theorem C74_same : forall eigsh eigsh' (t : tables RA) (D : @arr RA) a b Nxx Nyy Nxy c m n num (K KG : list (list R)) out vecs out' vecs',
  documented eigsh -> documented eigsh' -> calc_K_KG_D t D a b Nxx Nyy Nxy c m n = Ok (K, KG) -> pencil K KG ->
  buckling_analysis eigsh t D a b Nxx Nyy Nxy c m n num = Ok (out, vecs) -> buckling_analysis eigsh' t D a b Nxx Nyy Nxy c m n num = Ok (out', vecs') ->
  (forall l l', factor K KG l -> factor K KG l' -> l * l' = 1 -> l = l') -> out = out'.
Proof. exact T_Solver.t_C74_same. Qed.
Print Assumptions C74_same.

(** C74: for every plate whose loads stretch no direction, with at least three unknowns, and every positive number of eigenvalues asked for,
    there is a documented solver that answers the analysis; so "the solver answers" is never an empty case. *)
Theorem C74_analysis : forall (D : mat3) a b Nxx Nyy Nxy c c0 ca d0 db m n num, plate_ok D a b c c0 ca d0 db m n -> (3 <= m * n)%nat -> (0 < num)%Z ->
  no_compression (- Nxx) (- Nyy) (- Nxy) ->
  exists eigsh out vecs, documented eigsh /\ buckling_analysis eigsh exact_tables (as_arr D) a b Nxx Nyy Nxy c m n num = Ok (out, vecs) /\
    List.length out = Z.to_nat (Z.min num (Z.of_nat (m * n) - 2)).
Proof. exact T_Solver.t_C74_analysis. Qed.
Print Assumptions C74_analysis.

(** C74: for a panel under loads that stretch no direction, finitely many points of the optimisation problems are all answered by one
    documented solver. *)
Theorem C74_panels : forall a b E1 E2 v12 G12 Nxx Nyy Nxy c c0 ca d0 db m n (points : list (R * R * R)), panel_ok a b E1 E2 v12 G12 c c0 ca d0 db m n ->
  (1 <= m)%nat -> (1 <= n)%nat -> (3 <= m * n)%nat -> no_compression (- Nxx) (- Nyy) (- Nxy) ->
  Forall (fun q => let '(T, xi1, xi3) := q in 0 < T /\ -1 <= xi1 <= 1 /\ 2 * xi1 ^ 2 - 1 <= xi3 <= 1) points ->
  exists eigsh, documented eigsh /\
    Forall (fun q => let '(T, xi1, xi3) := q in exists v, Ncr_from_lp eigsh exact_tables a b T m n xi1 xi3 E1 E2 v12 G12 Nxx Nyy Nxy c = Ok v) points.
Proof. exact T_Solver.t_C74_panels. Qed.
Print Assumptions C74_panels.

(** C74: without the proviso the answer is not determined: for this clamped plate two solvers, both as documented, report different factors
    for the same analysis (one below 1, the other above), as the two factors are reciprocal. *)
Theorem C74_tie_refuted : exists P eigsh eigsh' x y vecs vecs', documented eigsh /\ documented eigsh' /\
  buckling_analysis eigsh exact_tables (as_arr mid) 1 1 (- P) 0 0 (CStr "CLAMPED") 3 1 5 = Ok ([Fin x], vecs) /\
  buckling_analysis eigsh' exact_tables (as_arr mid) 1 1 (- P) 0 0 (CStr "CLAMPED") 3 1 5 = Ok ([Fin y], vecs') /\ 0 < x < 1 /\ 1 < y.
Proof. exact T_Solver.t_C74_tie_refuted. Qed.
Print Assumptions C74_tie_refuted.

(** C74 example: a plate to which C74_same applies: its matrices form a pencil, no two different factors are reciprocal, and a documented
    solver answers. *)
Theorem C74_ex_same : exists eigsh (K KG : list (list R)) out vecs, documented eigsh /\ calc_K_KG_D exact_tables (as_arr mid) 1 1 (-200) 0 0 (CStr "CLAMPED") 3 1 = Ok (K, KG) /\ pencil K KG /\
  buckling_analysis eigsh exact_tables (as_arr mid) 1 1 (-200) 0 0 (CStr "CLAMPED") 3 1 5 = Ok (out, vecs) /\
  (forall l l', factor K KG l -> factor K KG l' -> l * l' = 1 -> l = l').
Proof. exact T_Solver.t_C74_ex_same. Qed.
Print Assumptions C74_ex_same.

(** C74 example: a plate to which C74_analysis applies. *)
Theorem C74_ex_analysis : plate_ok mid 2 1 (CStr "PINNED") Pinned Pinned Pinned Pinned 5 4 /\ no_compression (- (-2)) (- (-1)) (- 1) /\
  exists eigsh out vecs, documented eigsh /\ buckling_analysis eigsh exact_tables (as_arr mid) 2 1 (-2) (-1) 1 (CStr "PINNED") 5 4 7 = Ok (out, vecs) /\ List.length out = 7%nat.
Proof. exact T_Solver.t_C74_ex_analysis. Qed.
Print Assumptions C74_ex_analysis.
