(** The material stiffness properties C03, C04, C05 (exact arithmetic).
    Statements only: every proof is [exact] a lemma of T_Stiffness.v with the same statement.
    Below each theorem, Print Assumptions lists the axioms it uses. *)
From Coq Require Import Reals List Lra Psatz Lia Permutation String.
From Verif Require Import M_Py S_Mat M_Material M_Laminate S_Laminate S_Material.
Import ListNotations.
Open Scope R_scope.
From Verif Require T_Stiffness.

(** C03: Q_0 is symmetric and is the two-sided inverse of the plane-stress compliance matrix; reciprocity holds. *)
Theorem C03_inverse_of_compliance : forall m q, o_e1 m <> 0 -> o_e2 m <> 0 -> o_g12 m <> 0 -> Q_0 (Ortho m) = Ok q ->
  symmetric q /\ mmul q (compliance m) = mid /\ mmul (compliance m) q = mid /\ o_v21 m / o_e2 m = o_v12 m / o_e1 m.
Proof. exact T_Stiffness.t_C03_inverse_of_compliance. Qed.
Print Assumptions C03_inverse_of_compliance.

(** C03: reading Q_0 of a constructed orthotropic material raises exactly when v12^2 e2 = e1. *)
Theorem C03_readable_iff : forall m, o_e1 m <> 0 ->
  (o_v12 m ^ 2 * o_e2 m = o_e1 m -> Q_0 (Ortho m) = Err ZeroDivisionError) /\
  (o_v12 m ^ 2 * o_e2 m <> o_e1 m -> exists q, Q_0 (Ortho m) = Ok q).
Proof. exact T_Stiffness.t_C03_readable_iff. Qed.
Print Assumptions C03_readable_iff.

(** C03: the isotropic Q_0 is the orthotropic one with equal moduli. *)
Theorem C03_isotropic : forall e v g h t c s, e <> 0 ->
  Q_0 (Iso (IMat e v g h t c s)) = Q_0 (Ortho (OMat e e v g h t c t c s)).
Proof. exact T_Stiffness.t_C03_isotropic. Qed.
Print Assumptions C03_isotropic.

(** C03, concrete instance. *)
Example C03_ex : exists q, Q_0 (Ortho (OMat 4 2 (1/4) 1 1 0 0 0 0 0)) = Ok q.
Proof. exact T_Stiffness.t_C03_ex. Qed.

(** C04: exactly which materials have a positive definite Q_0. The hypotheses are what the constructor guarantees
    (non-negative moduli, e1 not zero). *)
Theorem C04_pos_def_iff : forall m, 0 < o_e1 m -> 0 <= o_e2 m -> 0 <= o_g12 m -> -1/2 <= o_v12 m <= 1/2 ->
  ((exists q, Q_0 (Ortho m) = Ok q /\ pos_def q) <->
   0 < o_e2 m /\ 0 < o_g12 m /\ o_v12 m ^ 2 * o_e2 m < o_e1 m).
Proof. exact T_Stiffness.t_C04_pos_def_iff. Qed.
Print Assumptions C04_pos_def_iff.

(** C04: the constructor's ranges do not imply it: e1 = 1, e2 = 8, v12 = 1/2, g12 = 1 has an indefinite Q_0,
    e1 = 1, e2 = 4, v12 = 1/2 has none at all. *)
Theorem C04_not_enforced_refuted :
  (exists q v, Q_0 (Ortho (OMat 1 8 (1/2) 1 1 0 0 0 0 0)) = Ok q /\ quad q v < 0) /\
  Q_0 (Ortho (OMat 1 4 (1/2) 1 1 0 0 0 0 0)) = Err ZeroDivisionError.
Proof. exact T_Stiffness.t_C04_not_enforced_refuted. Qed.
Print Assumptions C04_not_enforced_refuted.

(** C04, concrete instance: both sides hold for e1 = 4, e2 = 2, v12 = 1/4, g12 = 1. *)
Example C04_ex : exists q, Q_0 (Ortho (OMat 4 2 (1/4) 1 1 0 0 0 0 0)) = Ok q /\ pos_def q.
Proof. exact T_Stiffness.t_C04_ex. Qed.

(** C05: an isotropic ply has a direction-independent stiffness exactly when g = e/(2(1+v)). *)
Theorem C05_iff : forall e v g h t c s, 0 < e -> -1 < v < 1 ->
  let m := Iso (IMat e v g h t c s) in
  (forall th, Q_entry [(th, m)] 0 = Q_0 m) <-> g = e / (2 * (1 + v)).
Proof. exact T_Stiffness.t_C05_iff. Qed.
Print Assumptions C05_iff.

(** C05: in that case A, B and D do not depend on the angles. *)
Theorem C05_angles_irrelevant : forall l l',
  map snd l = map snd l' ->
  Forall (fun m => exists e v h t c s, -1 < v < 1 /\ m = Iso (IMat e v (e / (2*(1+v))) h t c s)) (map snd l) ->
  A_of l = A_of l' /\ B_of l = B_of l' /\ D_of l = D_of l'.
Proof. exact T_Stiffness.t_C05_angles_irrelevant. Qed.
Print Assumptions C05_angles_irrelevant.

(** C05, concrete instance: e = 2, v = 0, g = 1 satisfies the relation, g = 2 does not. *)
Example C05_ex : 1 = 2 / (2*(1+0)) /\ 2 <> 2 / (2*(1+0)).
Proof. exact T_Stiffness.t_C05_ex. Qed.
