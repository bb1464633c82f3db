(** Independent vocabulary for the validation and comparison properties: what a double *denotes*. *)
From Coq Require Import Reals ZArith List.
From Flocq Require Import IEEE754.BinarySingleNaN.
From Verif Require Import M_Float.
Import ListNotations.
Open Scope R_scope.

(** A double is NaN, an infinity, or denotes a real number. *)
Definition denotes (x : f64) (r : R) : Prop := is_finite x = true /\ B2R x = r.

(** "not below zero": NaN, +inf or a real >= 0 (both zeros). *)
Definition not_below_zero (x : f64) : Prop := x = fnan \/ x = finf \/ exists r, denotes x r /\ 0 <= r.
(** "not outside [-1/2,1/2]": NaN or a real in the interval. *)
Definition not_outside_half (x : f64) : Prop := x = fnan \/ exists r, denotes x r /\ - (1/2) <= r <= 1/2.
(** +0.0 or -0.0 *)
Definition is_zero (x : f64) : Prop := denotes x 0.

(** IEEE equality: two reals that are the same number, or the same infinity. *)
Definition same_number (x y : f64) : Prop :=
  (exists r, denotes x r /\ denotes y r) \/ (x = finf /\ y = finf) \/ (x = fninf /\ y = fninf).
(** IEEE strict order *)
Definition less (x y : f64) : Prop :=
  (exists r s, denotes x r /\ denotes y s /\ r < s)
  \/ (x = fninf /\ (y = finf \/ exists s, denotes y s))
  \/ (y = finf /\ exists r, denotes x r).
