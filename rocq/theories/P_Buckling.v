(** The theorems on the buckling analysis.
    Statements only: every proof is [exact] a lemma of T_Buckling.v with the same statement.
    Below each theorem, Print Assumptions lists the axioms it uses. *)
From Coq Require Import Reals ZArith QArith Qreals Lra Lia Bool String Sorting.Sorted Classical.
From Coquelicot Require Import Coquelicot.
From Coq Require Import List.
From Verif Require Import M_Py M_Plate M_K M_Tables M_Expr M_RealArith M_Plot M_Buckling S_Plate S_Mat S_Bardell S_Energy S_K S_Ritz S_Eigen.
Import ListNotations.
Open Scope R_scope.
From Verif Require T_Buckling.

(** C59: a documented solver is asked for min(num_eigvalues, m*n - 2) eigenvalues; the analysis returns that many factors, and
    raises ValueError whenever that number is not positive, in particular for every plate with m*n <= 2. *)
Theorem C59_count : forall eigsh (t : tables RA) (D : @arr RA) a b Nxx Nyy Nxy c m n num (K KG : list (list R)), documented eigsh ->
  calc_K_KG_D t D a b Nxx Nyy Nxy c m n = Ok (K, KG) ->
  let k := Z.min num (Z.of_nat (m * n) - 2) in
  ((k <= 0)%Z -> buckling_analysis eigsh t D a b Nxx Nyy Nxy c m n num = Err ValueError) /\
  (forall ls vecs, pencil K KG -> buckling_analysis eigsh t D a b Nxx Nyy Nxy c m n num = Ok (ls, vecs) -> (0 < k)%Z /\ List.length ls = Z.to_nat k).
Proof. exact T_Buckling.t_C59_count. Qed.
Print Assumptions C59_count.

(** C59: an error of the assembly is passed on, whatever the solver. *)
Theorem C59_assembly_error : forall eigsh (t : tables RA) (D : @arr RA) a b Nxx Nyy Nxy c m n num e,
  calc_K_KG_D t D a b Nxx Nyy Nxy c m n = Err e -> buckling_analysis eigsh t D a b Nxx Nyy Nxy c m n num = Err e.
Proof. exact T_Buckling.t_C59_assembly_error. Qed.
Print Assumptions C59_assembly_error.

(** C42: every returned pair solves (K + l KG) v = 0 with v non-zero; an infinite factor comes with KG v = 0. *)
Theorem C42_pairs : forall eigsh (t : tables RA) (D : @arr RA) a b Nxx Nyy Nxy c m n num (K KG : list (list R)) ls vecs, documented eigsh ->
  calc_K_KG_D t D a b Nxx Nyy Nxy c m n = Ok (K, KG) -> pencil K KG ->
  buckling_analysis eigsh t D a b Nxx Nyy Nxy c m n num = Ok (ls, vecs) ->
  forall j l, nth_error ls j = Some l -> exists v, column vecs j = Ok v /\
    match l with Fin x => buckles K KG x v | Infinite => nonzero v /\ mat_vec KG v = repeat 0 (m * n) end.
Proof. exact T_Buckling.t_C42_pairs. Qed.
Print Assumptions C42_pairs.

(** C42: if l is the smallest positive factor then the first returned factor is l, unless l < 1 and every returned factor lies
    in (l, 1/l]. *)
Theorem C42_first : forall eigsh (t : tables RA) (D : @arr RA) a b Nxx Nyy Nxy c m n num (K KG : list (list R)) ls vecs l, documented eigsh ->
  calc_K_KG_D t D a b Nxx Nyy Nxy c m n = Ok (K, KG) -> pencil K KG -> smallest_factor K KG l ->
  buckling_analysis eigsh t D a b Nxx Nyy Nxy c m n num = Ok (ls, vecs) ->
  exists x rest, ls = Fin x :: rest /\
    (x = l \/ l < 1 /\ forall y, In y ls -> exists z, y = Fin z /\ l < z <= 1 / l).
Proof. exact T_Buckling.t_C42_first. Qed.
Print Assumptions C42_first.

(** C42: so the first returned factor is the smallest positive one whenever that one is not below 1. *)
Theorem C42_first_above_one : forall eigsh (t : tables RA) (D : @arr RA) a b Nxx Nyy Nxy c m n num (K KG : list (list R)) ls vecs l, documented eigsh ->
  calc_K_KG_D t D a b Nxx Nyy Nxy c m n = Ok (K, KG) -> pencil K KG -> smallest_factor K KG l -> 1 <= l ->
  buckling_analysis eigsh t D a b Nxx Nyy Nxy c m n num = Ok (ls, vecs) -> exists rest, ls = Fin l :: rest.
Proof. exact T_Buckling.t_C42_first_above_one. Qed.
Print Assumptions C42_first_above_one.

(** C42: increasing the loads makes the analysis lose the critical factor. Let l be the smallest positive factor under loads N and
    let fs be k further factors not above F, where k is the number of eigenvalues requested. Under the loads s*N with
    s^2 > l*F the smallest factor is l/s, and every factor returned is greater than l/s. *)
Theorem C42_overload : forall eigsh (t : tables RA) (D : @arr RA) a b Nxx Nyy Nxy c m n num (K KG : list (list R)) out vecs l fs F s,
  documented eigsh -> t = stored_R \/ t = exact_tables -> a <> 0 -> b <> 0 ->
  calc_K_KG_D t D a b Nxx Nyy Nxy c m n = Ok (K, KG) -> pencil K KG -> smallest_factor K KG l ->
  NoDup fs -> List.length fs = Z.to_nat (Z.min num (Z.of_nat (m * n) - 2)) ->
  (forall f, In f fs -> factor K KG f /\ l < f <= F) -> 0 < s -> l * F < s ^ 2 ->
  buckling_analysis eigsh t D a b (s * Nxx) (s * Nyy) (s * Nxy) c m n num = Ok (out, vecs) ->
  smallest_factor K (scale_rows s KG) (l / s) /\ forall y, In y out -> exists z, y = Fin z /\ l / s < z.
Proof. exact T_Buckling.t_C42_overload. Qed.
Print Assumptions C42_overload.

(** C42: the buckling factors decide stability: the energy under t times the loads is positive for all deflections and all t in
    [0, s] exactly when no positive factor is at or below s. *)
Theorem C42_stable_iff : forall (K KG : list (list R)) s, pencil K KG -> 0 < s ->
  ((forall t c, 0 <= t <= s -> List.length c = List.length K -> nonzero c -> 0 < quad_rows K c + t * quad_rows KG c) <->
   forall l, 0 < l <= s -> ~ factor K KG l).
Proof. exact T_Buckling.t_C42_stable_iff. Qed.
Print Assumptions C42_stable_iff.

(** C42: there is a smallest positive factor as soon as some multiple of the loads makes the energy of some deflection non-positive. *)
Theorem C42_smallest_exists : forall (K KG : list (list R)) s c, pencil K KG -> 0 < s -> List.length c = List.length K -> nonzero c ->
  quad_rows K c + s * quad_rows KG c <= 0 -> exists l, l <= s /\ smallest_factor K KG l.
Proof. exact T_Buckling.t_C42_smallest_exists. Qed.
Print Assumptions C42_smallest_exists.

(** C42: with exact integrals, positive lengths and a symmetric positive definite D, every named plate with one clamped or two held
    edges gives a symmetric pencil with positive definite K, whatever the loads. *)
Theorem C42_pencil : forall (D : mat3) a b Nxx Nyy Nxy c c0 ca d0 db m n (K KG : list (list R)), 0 < a -> 0 < b -> symmetric D -> pos_def D ->
  specifies c c0 ca d0 db -> restrained c0 ca d0 db ->
  calc_K_KG_D exact_tables (as_arr D) a b Nxx Nyy Nxy c m n = Ok (K, KG) -> pencil K KG.
Proof. exact T_Buckling.t_C42_pencil. Qed.
Print Assumptions C42_pencil.

(** C42: for such a plate the smallest positive factor l is the load multiplier at which the plate stops being stable: below l every
    non-zero deflection has positive bending energy plus load work, and at l some non-zero deflection has none. If l >= 1 it is
    the first factor returned. *)
Theorem C42_critical : forall eigsh (D : mat3) a b Nxx Nyy Nxy c c0 ca d0 db m n num idx (K KG : list (list R)) out vecs l, documented eigsh ->
  0 < a -> 0 < b -> symmetric D -> pos_def D ->
  specifies c c0 ca d0 db -> restrained c0 ca d0 db ->
  compute_constraints c m n = Ok idx ->
  calc_K_KG_D exact_tables (as_arr D) a b Nxx Nyy Nxy c m n = Ok (K, KG) -> smallest_factor K KG l ->
  buckling_analysis eigsh exact_tables (as_arr D) a b Nxx Nyy Nxy c m n num = Ok (out, vecs) ->
  let energy t cw := let w := combine_shapes a b (sw_idx idx) cw in bending D a b w w + t * load_work Nxx Nyy Nxy a b w w in
  (forall t cw, 0 <= t < l -> List.length cw = (m * n)%nat -> nonzero cw -> 0 < energy t cw) /\
  (exists cw, List.length cw = (m * n)%nat /\ nonzero cw /\ energy l cw = 0) /\
  (1 <= l -> exists rest, out = Fin l :: rest).
Proof. exact T_Buckling.t_C42_critical. Qed.
Print Assumptions C42_critical.

(** C42: "the first factor is the critical one" is false of the code even as to whether the plate is safe. For the clamped plate with D
    the identity, a = b = 1, Nxx = -200 and m = 3, n = 1, every documented solver makes the analysis return one factor above
    1.3, whatever num_eigvalues, while the smallest positive factor of the same K and KG is below 0.62. *)
Theorem C42_unsafe_refuted : forall eigsh num out vecs, documented eigsh ->
  buckling_analysis eigsh exact_tables (as_arr mid) 1 1 (-200) 0 0 (CStr "CLAMPED") 3 1 num = Ok (out, vecs) ->
  exists (K KG : list (list R)) l z, calc_K_KG_D exact_tables (as_arr mid) 1 1 (-200) 0 0 (CStr "CLAMPED") 3 1 = Ok (K, KG) /\
    smallest_factor K KG l /\ l < 62 / 100 /\ out = [Fin z] /\ 13 / 10 < z.
Proof. exact T_Buckling.t_C42_unsafe_refuted. Qed.
Print Assumptions C42_unsafe_refuted.

(** C42 example: a documented solver that answers for this plate, so that the statements above are about something. *)
Theorem C42_ex_solver : exists eigsh out vecs, documented eigsh /\
  buckling_analysis eigsh exact_tables (as_arr mid) 1 1 (-200) 0 0 (CStr "CLAMPED") 3 1 5 = Ok (out, vecs).
Proof. exact T_Buckling.t_C42_ex_solver. Qed.
Print Assumptions C42_ex_solver.

(** C42 example: the same plate under half the load, where the smallest factor is above 1, a solver answers, and there is a second
    factor for which C42_overload applies with s = 2. *)
Theorem C42_ex_below : exists eigsh out vecs (K KG : list (list R)) l, documented eigsh /\
  calc_K_KG_D exact_tables (as_arr mid) 1 1 (-100) 0 0 (CStr "CLAMPED") 3 1 = Ok (K, KG) /\ pencil K KG /\ smallest_factor K KG l /\ 1 <= l /\
  factor K KG (411 / 275) /\ l < 411 / 275 /\ l * (411 / 275) < 2 ^ 2 /\
  buckling_analysis eigsh exact_tables (as_arr mid) 1 1 (-100) 0 0 (CStr "CLAMPED") 3 1 5 = Ok (out, vecs).
Proof. exact T_Buckling.t_C42_ex_below. Qed.
Print Assumptions C42_ex_below.

(** C59 example: the assembly succeeds for a plate with m*n = 2, so its analysis raises ValueError. *)
Theorem C59_ex : forall eigsh, documented eigsh ->
  buckling_analysis eigsh exact_tables (as_arr mid) 1 1 (-1) 0 0 (CStr "CLAMPED") 2 1 5 = Err ValueError.
Proof. exact T_Buckling.t_C59_ex. Qed.
Print Assumptions C59_ex.
