(** Vocabulary for normalised loads in binary64. *)
From Coq Require Import Reals.
From Flocq Require Import IEEE754.BinarySingleNaN.
From Verif Require Import M_Float M_K S_Round S_Stored.
Open Scope R_scope.

(** how much the rounding of the normalised loads can change the reciprocal of a factor, per unit of the largest load; [u] is the margin of K *)
Definition load_off (m n : nat) (a b u : R) : R := INR (m * n) * kG_off (2 * unit) 1 1 1 a b / u.
