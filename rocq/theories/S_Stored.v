(** Vocabulary for what the stored tables do to the matrices and to the critical factor. *)
From Coq Require Import Reals.
From Coq Require Import List.
From Verif Require Import M_Py M_Plate M_K M_RealArith S_Mat S_K S_Ritz S_Eigen.
Import ListNotations.
Open Scope R_scope.

(** how far a stored integral may be from the exact one when all indices are below [M] *)
Definition tolerance (M : nat) : R :=
  if Nat.leb M 10 then 1 / 1000000000000000 else if Nat.leb M 20 then 2 / 1000000000000 else 1 / 100000000.
(** how far the entries of K and KG may be from the energies then *)
Definition k_off (e : R) (D : mat3) (a b : R) : R :=
  33 / 10 * e * (4 * b / a ^ 3 * Rabs (a11 D) + 8 / (a * b) * Rabs (a21 D) + 4 * a / b ^ 3 * Rabs (a22 D)
                 + 16 / a ^ 2 * Rabs (a31 D) + 16 / b ^ 2 * Rabs (a32 D) + 16 / (a * b) * Rabs (a33 D)).
Definition kG_off (e Nxx Nyy Nxy a b : R) : R := 33 / 10 * e * (b / a * Rabs Nxx + a / b * Rabs Nyy + 2 * Rabs Nxy).

Definition sum_sq (c : list R) : R := rsum (map (fun x => x * x) c).
(** every coefficient vector has at least [u] times its squared length of energy *)
Definition at_least (u : R) (K : list (list R)) : Prop := forall c, List.length c = List.length K -> u * sum_sq c <= quad_rows K c.
(** the smallest positive factor of the matrices assembled with the tables [t] *)
Definition critical_with (t : tables RA) (D : mat3) (a b Nxx Nyy Nxy : R) (c : constraints) (m n : nat) (l : R) : Prop :=
  exists K KG : list (list R), calc_K_KG_D t (as_arr D) a b Nxx Nyy Nxy c m n = Ok (K, KG) /\ smallest_factor K KG l.
