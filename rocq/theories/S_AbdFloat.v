(** Vocabulary for the matrices of the coupled problem as assembled in binary64. *)
From Coq Require Import Reals ZArith.
From Flocq Require Import IEEE754.BinarySingleNaN.
From Verif Require Import M_Py M_Float S_Mat S_Stored S_Round.
Open Scope R_scope.

(** accurate powers and literals, lengths, laminate stiffnesses (6x6) and loads of usual size *)
Record usual_inputs6 (pow : f64 -> nat -> res f64) (dec : Z -> Z -> f64) (M : nat -> nat -> f64) (a b Nxx Nyy Nxy : f64) : Prop := {
  u6_pow : pow_close pow; u6_dec : dec_close dec; u6_M : forall i j, (i < 6)%nat -> (j < 6)%nat -> usual0 (M i j);
  u6_a : usual a; u6_b : usual b; u6_xx : usual0 Nxx; u6_yy : usual0 Nyy; u6_xy : usual0 Nxy }.
(** the numbers a 6x6 array holds *)
Definition numbers6 (M : nat -> nat -> f64) (i j : nat) : R := B2R (M i j).
(** the sum of the magnitudes of the lower triangle of the 3x3 block that starts at row i, column j *)
Definition lower_sum (M : nat -> nat -> f64) (i j : nat) : R :=
  Rabs (B2R (M i j)) + Rabs (B2R (M (i + 1) j)%nat) + Rabs (B2R (M (i + 2) j)%nat)
  + Rabs (B2R (M (i + 1) (j + 1))%nat) + Rabs (B2R (M (i + 2) (j + 1))%nat) + Rabs (B2R (M (i + 2) (j + 2))%nat).
(** the 3x3 block that starts at row i, column j *)
Definition block_at (M : nat -> nat -> f64) (i j : nat) : mat3 := numbers (fun r s => M (r + i) (s + j))%nat.
(** what an error of [e] in the integrals can do to an entry: stretching, coupling and bending *)
Definition abd_off (e : R) (M : nat -> nat -> f64) (a b : R) : R :=
  33 / 10 * e * ((b / a + a / b + 2) * lower_sum M 0 0)
  + 33 / 10 * e * ((2 * b / a + 6 / a + 6 / b + 2 * b / a ^ 2 + 2 * a / b ^ 2 + 2 / b ^ 2) * lower_sum M 3 0)
  + k_off e (block_at M 3 3) a b.
