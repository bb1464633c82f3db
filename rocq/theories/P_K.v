(** The theorems on the assembled stiffness matrices: sizes, symmetry and scaling.
    Statements only: every proof is [exact] a lemma of T_K.v with the same statement.
    Below each theorem, Print Assumptions lists the axioms it uses. *)
From Coq Require Import Reals ZArith Lra Lia Bool String.
From Flocq Require Import IEEE754.BinarySingleNaN.
From Coq Require Import List.
From Verif Require Import M_Py M_Plate M_K M_Tables M_Expr M_RealArith M_Float M_FloatArith S_Plate S_K S_Mat S_Bardell S_Energy.
Import ListNotations.
Open Scope R_scope.
From Verif Require T_K.

(** C37: with named edges and non-zero lengths, calc_K_KG_D returns two square matrices of m*n rows if m plus the functions
    taken by the x edges is at most 30 and the same for n; otherwise it raises KeyError. *)
Theorem C37_sizes : forall c c0 ca d0 db m n (D : @arr RA) a b Nxx Nyy Nxy, specifies c c0 ca d0 db ->
  (1 <= m)%nat -> (1 <= n)%nat -> a <> 0 -> b <> 0 ->
  ((m + taken c0 + taken ca <= 30)%nat /\ (n + taken d0 + taken db <= 30)%nat ->
     exists K KG, calc_K_KG_D stored_R D a b Nxx Nyy Nxy c m n = Ok (K, KG) /\ square (m * n) K /\ square (m * n) KG) /\
  ((30 < m + taken c0 + taken ca)%nat \/ (30 < n + taken d0 + taken db)%nat ->
     calc_K_KG_D stored_R D a b Nxx Nyy Nxy c m n = Err KeyError).
Proof. exact T_K.t_C37_sizes. Qed.
Print Assumptions C37_sizes.

(** C37: free plates work up to 30 functions in each direction, pinned ones up to 28, clamped ones up to 26. *)
Theorem C37_limits : forall (D : @arr RA) a b Nxx Nyy Nxy m n s, (1 <= m)%nat -> (1 <= n)%nat -> a <> 0 -> b <> 0 -> lower s = "free"%string ->
  let works c := exists KK, calc_K_KG_D stored_R D a b Nxx Nyy Nxy c m n = Ok KK in
  (works (CDict (Some (EStr s)) (Some (EStr s)) (Some (EStr s)) (Some (EStr s))) <-> (m <= 30)%nat /\ (n <= 30)%nat) /\
  (works (CStr "PINNED") <-> (m <= 28)%nat /\ (n <= 28)%nat) /\ (works (CStr "CLAMPED") <-> (m <= 26)%nat /\ (n <= 26)%nat).
Proof. exact T_K.t_C37_limits. Qed.
Print Assumptions C37_limits.

(** C37: in any arithmetic (binary64 included) no larger size returns matrices. *)
Theorem C37_never : forall (A : arith) (dec : Z -> Z -> num A) c c0 ca d0 db m n (D : @arr A) a b Nxx Nyy Nxy KK,
  specifies c c0 ca d0 db -> (1 <= m)%nat -> (1 <= n)%nat ->
  (30 < m + taken c0 + taken ca)%nat \/ (30 < n + taken d0 + taken db)%nat ->
  calc_K_KG_D (stored A dec) D a b Nxx Nyy Nxy c m n <> Ok KK.
Proof. exact T_K.t_C37_never. Qed.
Print Assumptions C37_never.

(** C37: a plate with a zero length, which the constructor accepts, raises ZeroDivisionError. *)
Theorem C37_zero : forall c c0 ca d0 db m n (D : @arr RA) a b Nxx Nyy Nxy, specifies c c0 ca d0 db ->
  (1 <= m)%nat -> (1 <= n)%nat -> a = 0 \/ b = 0 -> calc_K_KG_D stored_R D a b Nxx Nyy Nxy c m n = Err ZeroDivisionError.
Proof. exact T_K.t_C37_zero. Qed.
Print Assumptions C37_zero.

(** C37: sizes on both sides of the limit. *)
Example C37_ex : specifies (CStr "PINNED") Pinned Pinned Pinned Pinned /\ (28 + taken Pinned + taken Pinned <= 30)%nat /\
  (30 < 29 + taken Pinned + taken Pinned)%nat.
Proof. exact T_K.t_C37_ex. Qed.

(** C39: in every arithmetic with commutative addition the matrices returned by calc_K_KG_D are exactly symmetric, for all
    constraints, sizes and property matrices (even unsymmetric ones). *)
Theorem C39_symmetric : forall (A : arith) (dec : Z -> Z -> num A), add_comm A ->
  forall (D : @arr A) a b Nxx Nyy Nxy c m n K KG, calc_K_KG_D (stored A dec) D a b Nxx Nyy Nxy c m n = Ok (K, KG) ->
  sym_rows K /\ sym_rows KG.
Proof. exact T_K.t_C39_symmetric. Qed.
Print Assumptions C39_symmetric.

(** C39: binary64 addition and real addition are commutative, so the symmetry is bit-exact in the code's arithmetic, whatever
    the C library's power function and the decimal conversion return. *)
Theorem C39_arithmetics : (forall pow, add_comm (FA pow)) /\ add_comm RA.
Proof. exact T_K.t_C39_arithmetics. Qed.
Print Assumptions C39_arithmetics.

(** C39: a 2 by 1 clamped plate with exact reals meets the hypotheses. *)
Example C39_ex : exists K KG, calc_K_KG_D stored_R (fun i j => if Nat.eqb i j then 1 else 0) 1 2 1 0 0 (CStr "CLAMPED") 2 1 = Ok (K, KG) /\ square 2 K.
Proof. exact T_K.t_C39_ex. Qed.

(** C41: K is linear in D, for all constraints and sizes; KG does not depend on it. *)
Theorem C41_linear_D : forall c m n (D D' : @arr RA) a b Nxx Nyy Nxy K K' KG KG' s, a <> 0 -> b <> 0 ->
  calc_K_KG_D stored_R D a b Nxx Nyy Nxy c m n = Ok (K, KG) -> calc_K_KG_D stored_R D' a b Nxx Nyy Nxy c m n = Ok (K', KG') ->
  KG' = KG /\ calc_K_KG_D stored_R (fun i j => s * D i j + D' i j) a b Nxx Nyy Nxy c m n = Ok (add_rows (scale_rows s K) K', KG).
Proof. exact T_K.t_C41_linear_D. Qed.
Print Assumptions C41_linear_D.

(** C41: KG is linear in the loads; K does not depend on them. *)
Theorem C41_linear_N : forall c m n (D : @arr RA) a b Nxx Nyy Nxy Nxx' Nyy' Nxy' K K' KG KG' s, a <> 0 -> b <> 0 ->
  calc_K_KG_D stored_R D a b Nxx Nyy Nxy c m n = Ok (K, KG) -> calc_K_KG_D stored_R D a b Nxx' Nyy' Nxy' c m n = Ok (K', KG') ->
  K' = K /\ calc_K_KG_D stored_R D a b (s * Nxx + Nxx') (s * Nyy + Nyy') (s * Nxy + Nxy') c m n = Ok (K, add_rows (scale_rows s KG) KG').
Proof. exact T_K.t_C41_linear_N. Qed.
Print Assumptions C41_linear_N.

(** C41: multiplying both lengths by s divides K by s^2 and leaves KG unchanged. *)
Theorem C41_lengths : forall c m n (D : @arr RA) a b Nxx Nyy Nxy K KG s, a <> 0 -> b <> 0 -> s <> 0 ->
  calc_K_KG_D stored_R D a b Nxx Nyy Nxy c m n = Ok (K, KG) ->
  calc_K_KG_D stored_R D (s * a) (s * b) Nxx Nyy Nxy c m n = Ok (scale_rows (/ s ^ 2) K, KG).
Proof. exact T_K.t_C41_lengths. Qed.
Print Assumptions C41_lengths.

(** C41: exchanging the two directions (lengths, D11 with D22, D16 with D26, Nxx with Nyy, edges, m with n) permutes rows and
    columns: row j*m+i of the new matrices is row i*n+j of the old ones, and the same for columns. *)
Theorem C41_swap : forall c c' c0 ca d0 db m n (D D' : @arr RA) a b Nxx Nyy Nxy K KG, a <> 0 -> b <> 0 ->
  specifies c c0 ca d0 db -> specifies c' d0 db c0 ca ->
  D' 0%nat 0%nat = D 1%nat 1%nat -> D' 1%nat 0%nat = D 1%nat 0%nat -> D' 1%nat 1%nat = D 0%nat 0%nat ->
  D' 2%nat 0%nat = D 2%nat 1%nat -> D' 2%nat 1%nat = D 2%nat 0%nat -> D' 2%nat 2%nat = D 2%nat 2%nat ->
  calc_K_KG_D stored_R D a b Nxx Nyy Nxy c m n = Ok (K, KG) ->
  exists K' KG', calc_K_KG_D stored_R D' b a Nyy Nxx Nxy c' n m = Ok (K', KG') /\
    forall i j k l, (i < m)%nat -> (j < n)%nat -> (k < m)%nat -> (l < n)%nat ->
      entry K' (j * m + i) (l * m + k) = entry K (i * n + j) (k * n + l) /\
      entry KG' (j * m + i) (l * m + k) = entry KG (i * n + j) (k * n + l).
Proof. exact T_K.t_C41_swap. Qed.
Print Assumptions C41_swap.

(** Example: C41's premises hold for pinned plates with m = n = 5 (all its calls succeed). *)
Example C41_ex : exists K KG, calc_K_KG_D stored_R (fun i j => INR (i + j + 1)) 2 3 1 (-1) 1 (CStr "PINNED") 5 5 = Ok (K, KG)
  /\ specifies (CStr "PINNED") Pinned Pinned Pinned Pinned.
Proof. exact T_K.t_C41_ex. Qed.
