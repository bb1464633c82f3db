(** The theorems on the limit of the critical factors.
    Statements only: every proof is [exact] a lemma of T_Limit.v with the same statement.
    Below each theorem, Print Assumptions lists the axioms it uses. *)
From Coq Require Import QArith Qreals Reals ZArith Lra Lia Bool String Classical FunctionalExtensionality.
From Coquelicot Require Import Coquelicot.
From Coq Require Import List.
From Verif Require Import M_Py M_Plate M_K M_RealArith S_Plate S_Mat S_Bardell S_Energy S_K S_Ritz S_Eigen S_Compare S_Space S_Bounds S_Limit.
Import ListNotations.
Open Scope R_scope.
From Verif Require T_Limit.

(** C84: the critical factor is never on the unsafe side of the continuous plate: whatever the numbers of functions, it is at least the
    multiplier up to which the continuous plate, with all its smooth deflections, is stable. *)
Theorem C84_above : forall (D : mat3) a b Nxx Nyy Nxy c c0 ca d0 db L m n l, plate_any D a b c c0 ca d0 db ->
  stability_limit D a b Nxx Nyy Nxy c0 ca d0 db L -> critical D a b Nxx Nyy Nxy c m n l -> L <= l.
Proof. exact T_Limit.t_C84_above. Qed.
Print Assumptions C84_above.

(** C84: convergence: with enough functions in both directions the critical factor exists and is as close to that limit as wanted. *)
Theorem C84_converges : forall (D : mat3) a b Nxx Nyy Nxy c c0 ca d0 db L eps, plate_any D a b c c0 ca d0 db ->
  stability_limit D a b Nxx Nyy Nxy c0 ca d0 db L -> 0 < eps ->
  exists M, forall m n, (M <= m)%nat -> (M <= n)%nat -> exists l, critical D a b Nxx Nyy Nxy c m n l /\ L <= l < L + eps.
Proof. exact T_Limit.t_C84_converges. Qed.
Print Assumptions C84_converges.

(** C84: there is such a limit exactly when some smooth deflection lets the loads do work, and only one. *)
Theorem C84_exists : forall (D : mat3) a b Nxx Nyy Nxy c0 ca d0 db, 0 < a -> 0 < b -> symmetric D -> pos_def D -> restrained c0 ca d0 db ->
  ((exists L, stability_limit D a b Nxx Nyy Nxy c0 ca d0 db L) <-> (exists w, deflection a b c0 ca d0 db w /\ load_work Nxx Nyy Nxy a b w w < 0)) /\
  (forall L L', stability_limit D a b Nxx Nyy Nxy c0 ca d0 db L -> stability_limit D a b Nxx Nyy Nxy c0 ca d0 db L' -> L = L').
Proof. exact T_Limit.t_C84_exists. Qed.
Print Assumptions C84_exists.

(** C84: and when no smooth deflection lets the loads do work, the matrices have no critical factor, whatever the numbers of functions. *)
Theorem C84_none : forall (D : mat3) a b Nxx Nyy Nxy c c0 ca d0 db, plate_any D a b c c0 ca d0 db ->
  ((forall w, deflection a b c0 ca d0 db w -> 0 <= load_work Nxx Nyy Nxy a b w w) <-> (forall m n l, ~ critical D a b Nxx Nyy Nxy c m n l)).
Proof. exact T_Limit.t_C84_none. Qed.
Print Assumptions C84_none.

(** C84: the limit of a simply supported plate without coupling of bending and twisting, loaded along x, is Navier's value for one half
    wave in each direction when a^4 D22 <= 4 b^4 D11 ... *)
Theorem C84_one_wave : forall (D : mat3) a b N, 0 < a -> 0 < b -> symmetric D -> pos_def D -> 0 < N -> orthotropic D -> 0 <= mixed_stiffness D ->
  a22 D * a ^ 4 <= 4 * (a11 D * b ^ 4) -> stability_limit D a b (- N) 0 0 Pinned Pinned Pinned Pinned (one_wave D a b / N).
Proof. exact T_Limit.t_C84_one_wave. Qed.
Print Assumptions C84_one_wave.

(** C84: ... and the value of the infinitely long plate when the length fits a whole number p of its half waves, a^4 D22 = p^4 b^4 D11. *)
Theorem C84_long_plate : forall (D : mat3) a b N p, 0 < a -> 0 < b -> symmetric D -> pos_def D -> 0 < N -> orthotropic D -> 0 <= mixed_stiffness D ->
  (1 <= p)%nat -> a22 D * a ^ 4 = a11 D * (INR p * b) ^ 4 -> stability_limit D a b (- N) 0 0 Pinned Pinned Pinned Pinned (long_plate D b / N).
Proof. exact T_Limit.t_C84_long_plate. Qed.
Print Assumptions C84_long_plate.

(** C84: with loads along both directions, s is the limit when each load is balanced by its own direction and its share of the mixed stiffness. *)
Theorem C84_biaxial : forall (D : mat3) a b P Q t s, 0 < a -> 0 < b -> symmetric D -> pos_def D -> orthotropic D -> 0 <= mixed_stiffness D -> 0 < s ->
  0 <= t <= 1 -> s * P = a11 D * (PI / a) ^ 2 + 2 * mixed_stiffness D * t * (PI / b) ^ 2 -> s * Q = a22 D * (PI / b) ^ 2 + 2 * mixed_stiffness D * (1 - t) * (PI / a) ^ 2 ->
  stability_limit D a b (- P) (- Q) 0 Pinned Pinned Pinned Pinned s.
Proof. exact T_Limit.t_C84_biaxial. Qed.
Print Assumptions C84_biaxial.

(** C84: so for such a plate the critical load the code computes with exact integrals converges, from above, to Navier's value. *)
Theorem C84_navier : forall (D : mat3) a b N c eps, plate_any D a b c Pinned Pinned Pinned Pinned -> 0 < N -> orthotropic D -> 0 <= mixed_stiffness D ->
  a22 D * a ^ 4 <= 4 * (a11 D * b ^ 4) -> 0 < eps ->
  exists M, forall m n, (M <= m)%nat -> (M <= n)%nat -> exists l, critical D a b (- N) 0 0 c m n l /\ one_wave D a b <= l * N < one_wave D a b + eps.
Proof. exact T_Limit.t_C84_navier. Qed.
Print Assumptions C84_navier.

(** Plates within the scope of C84: one half wave (11 pi^2, cf. C79_ex), two half waves of a long plate, loads along both directions, and a
    plate in tension, which has no limit. *)
Example C84_ex : plate_any (M3 4 1 0 1 1 0 0 0 1) 2 1 (CStr "PINNED") Pinned Pinned Pinned Pinned /\
  stability_limit (M3 4 1 0 1 1 0 0 0 1) 2 1 (- (1)) 0 0 Pinned Pinned Pinned Pinned (11 * PI ^ 2) /\
  stability_limit (M3 16 0 0 0 1 0 0 0 (1 / 2)) 4 1 (- (1)) 0 0 Pinned Pinned Pinned Pinned (10 * PI ^ 2) /\
  stability_limit (M3 1 0 0 0 1 0 0 0 (1 / 2)) 1 1 (- (1)) (- (1)) 0 Pinned Pinned Pinned Pinned (2 * PI ^ 2) /\
  (forall w, deflection 2 1 Pinned Pinned Pinned Pinned w -> 0 <= load_work 1 0 0 2 1 w w).
Proof. exact T_Limit.t_C84_ex. Qed.
