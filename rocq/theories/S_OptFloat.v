(** Vocabulary for the optimisation helpers in binary64. *)
From Coq Require Import Reals ZArith.
From Flocq Require Import IEEE754.BinarySingleNaN.
From Coq Require Import List.
From Verif Require Import M_Py M_Float S_Round.
Import ListNotations.
Open Scope R_scope.

(** the largest of three absolute values *)
Definition largest (x y z : R) : R := Rmax (Rabs x) (Rmax (Rabs y) (Rabs z)).
(** [v] is a double nearest to the real [r] : no double is closer *)
Definition nearest (v : f64) (r : R) : Prop := is_finite v = true /\ forall w : f64, is_finite w = true -> Rabs (B2R v - r) <= Rabs (B2R w - r).
(** squares of numbers in [-1, 1] are accurate to [k] units, or to the smallest double when tiny *)
Definition square_close (k : R) (pow : f64 -> nat -> res f64) : Prop := forall x, is_finite x = true -> Rabs (B2R x) <= 1 ->
  exists y, pow x 2%nat = Ok y /\ is_finite y = true /\ Rabs (B2R y - B2R x ^ 2) <= k * unit * B2R x ^ 2 + powerRZ 2 (-1074).
(** squares of numbers in [-1, 1] are correctly rounded *)
Definition square_nearest (pow : f64 -> nat -> res f64) : Prop := forall x, is_finite x = true -> Rabs (B2R x) <= 1 ->
  exists y, pow x 2%nat = Ok y /\ nearest y (B2R x ^ 2).
