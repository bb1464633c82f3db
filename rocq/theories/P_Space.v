(** The theorems about the space of deflections a plate uses.
    Statements only: every proof is [exact] a lemma of T_Space.v with the same statement.
    Below each theorem, Print Assumptions lists the axioms it uses. *)
From Coq Require Import Reals ZArith Lra Lia Bool String Sorting.Sorted FunctionalExtensionality.
From Coquelicot Require Import Coquelicot.
From Coq Require Import List.
From Verif Require Import M_Py M_Plate M_K M_RealArith M_Plot M_Buckling S_Plate S_Mat S_Bardell S_Shape S_Energy S_K S_Ritz S_Eigen S_Compare S_Space.
Import ListNotations.
Open Scope R_scope.
From Verif Require T_Space.

(** C72: in one variable, the first m functions admissible between two edges are a basis of the polynomials of degree below m plus the
    number of conditions that meet the conditions of both edges. *)
Theorem C72_functions : forall c0 c1 m l f, first_k (admissible c0 c1) m l -> (4 <= m + taken c0 + taken c1)%nat ->
  (((exists p, (List.length p <= m + taken c0 + taken c1)%nat /\ forall x, f x = poly p x) /\ meets c0 c1 f) <->
   exists c : nat -> R, forall x, f x = rsum (map (fun i => c i * bardell i x) l)).
Proof. exact T_Space.t_C72_functions. Qed.
Print Assumptions C72_functions.

(** C72: for the documented edge names the deflections plot_eigenvalue can draw are exactly the polynomials in (xi, eta) that meet all
    edge conditions and have, in each variable, degree below the number of functions plus the number of conditions on the two edges; each
    of them is drawn from one coefficient vector only. *)
Theorem C72_space : forall c c0 ca d0 db m n idx, specifies c c0 ca d0 db -> compute_constraints c m n = Ok idx ->
  (4 <= m + taken c0 + taken ca <= 50)%nat -> (4 <= n + taken d0 + taken db <= 50)%nat ->
  (forall w, (exists cw, List.length cw = (m * n)%nat /\ forall xi eta, plot_point (sw_idx idx) cw xi eta = Ok (w xi eta)) <->
     bipoly (m + taken c0 + taken ca) (n + taken d0 + taken db) w /\
     respects c0 w (-1) /\ respects ca w 1 /\ respects d0 (fun eta xi => w xi eta) (-1) /\ respects db (fun eta xi => w xi eta) 1) /\
  (forall cw cw', List.length cw = (m * n)%nat -> List.length cw' = (m * n)%nat ->
     (forall xi eta, plot_point (sw_idx idx) cw xi eta = plot_point (sw_idx idx) cw' xi eta) -> cw = cw').
Proof. exact T_Space.t_C72_space. Qed.
Print Assumptions C72_space.

(** C72: the Ritz principle in full. For a restrained plate with positive definite D and exact integrals, l is the critical factor of the
    assembled matrices exactly when l > 0, no polynomial deflection of the plate meeting the edge conditions (of degree below the number
    of functions plus the number of conditions) has negative energy under l times the loads, and some non-zero one has none. There is no
    upper limit on the numbers of functions. *)
Theorem C72_ritz : forall (D : mat3) a b Nxx Nyy Nxy c c0 ca d0 db m n l, plate_any D a b c c0 ca d0 db ->
  (4 <= m + taken c0 + taken ca)%nat -> (4 <= n + taken d0 + taken db)%nat ->
  let trial w := bipoly (m + taken c0 + taken ca) (n + taken d0 + taken db) w /\ fits a b c0 ca d0 db w in
  let energy w := bending D a b w w + l * load_work Nxx Nyy Nxy a b w w in
  (critical D a b Nxx Nyy Nxy c m n l <->
   0 < l /\ (forall w, trial w -> 0 <= energy w) /\ (exists w, trial w /\ (exists x y, w x y <> 0) /\ energy w = 0)).
Proof. exact T_Space.t_C72_ritz. Qed.
Print Assumptions C72_ritz.

(** C72: the bound on the sizes is needed: on a free strip with one function, the constant 1 has degree below one and meets the (empty)
    conditions, but is no multiple of the first function. *)
Theorem C72_small_refuted : first_k (admissible Free Free) 1 [0%nat] /\ meets Free Free (poly [1]) /\
  ~ exists c : nat -> R, forall x, poly [1] x = rsum (map (fun i => c i * bardell i x) [0%nat]).
Proof. exact T_Space.t_C72_small_refuted. Qed.
Print Assumptions C72_small_refuted.

(** C72 example: the function (xi^2-1)^2 (eta^2-1)^2 on a clamped plate with m = 3 and n = 2. *)
Theorem C72_ex : specifies (CStr "CLAMPED") Clamped Clamped Clamped Clamped /\ (4 <= 3 + taken Clamped + taken Clamped <= 50)%nat /\
  let w := fun xi eta => (xi ^ 2 - 1) ^ 2 * (eta ^ 2 - 1) ^ 2 in
  bipoly 7 6 w /\ w 0 0 = 1 /\ respects Clamped w (-1) /\ respects Clamped w 1 /\
  respects Clamped (fun eta xi => w xi eta) (-1) /\ respects Clamped (fun eta xi => w xi eta) 1.
Proof. exact T_Space.t_C72_ex. Qed.
Print Assumptions C72_ex.

(** C72 example: a clamped plate in compression has a critical factor, so the Ritz principle speaks about one. *)
Theorem C72_ex_ritz : plate_any mid 2 1 (CStr "CLAMPED") Clamped Clamped Clamped Clamped /\ (4 <= 3 + taken Clamped + taken Clamped)%nat /\
  (4 <= 2 + taken Clamped + taken Clamped)%nat /\ exists l, critical mid 2 1 (-1) 0 0 (CStr "CLAMPED") 3 2 l.
Proof. exact T_Space.t_C72_ex_ritz. Qed.
Print Assumptions C72_ex_ritz.
