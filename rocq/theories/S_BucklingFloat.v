(** Vocabulary for the buckling analysis with an eigen-solver of limited accuracy. *)
From Coq Require Import Reals ZArith.
From Flocq Require Import IEEE754.BinarySingleNaN.
From Coq Require Import List.
From Verif Require Import M_Py M_Plate M_K M_Float M_FloatArith M_RealArith M_Plot M_BucklingFloat S_Mat S_K S_Ritz S_Eigen S_Stored S_Round.
Open Scope R_scope.

(** the matrices K', KG' differ from K, KG, as quadratic forms, by at most E and G times the form of K *)
Record near (E G : R) (K KG K' KG' : list (list R)) : Prop := {
  nr_len : length K' = length K;
  nr_K : forall v, length v = length K -> Rabs (quad_rows K' v - quad_rows K v) <= E * quad_rows K v;
  nr_KG : forall v, length v = length K -> Rabs (quad_rows KG' v - quad_rows KG v) <= G * quad_rows K v }.
(** an eigen-solver of limited accuracy: k <= 0 raises ValueError; a result on a symmetric pencil of finite doubles with positive definite M has
    finite eigenvalues, and they are those documented for some symmetric pencil that is near A, M up to [gam] and [eps] *)
Definition accurate_to (eps gam : R) (eigsh : fsolver) : Prop := forall A M k,
  ((k <= 0)%Z -> eigsh A M k = Err ValueError) /\
  (forall vals vecs, all_finite A -> all_finite M -> pencil (reals M) (reals A) -> eigsh A M k = Ok (vals, vecs) ->
    Forall (fun x => is_finite x = true) vals /\
    exists (A' M' ws : list (list R)), pencil M' A' /\ near eps gam (reals M) (reals A) M' A' /\ eigsh_result A' M' (Z.to_nat k) (map (@B2R 53 1024) vals) ws).
(** A v - x M v *)
Definition residual (A M : list (list R)) (x : R) (v : list R) : list R := map2 (fun p q => p - x * q) (mat_vec A v) (mat_vec M v).
