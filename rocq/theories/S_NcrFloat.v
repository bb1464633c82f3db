(** Vocabulary for the buckling load in binary64. *)
From Coq Require Import Reals.
From Flocq Require Import IEEE754.BinarySingleNaN.
From Verif Require Import M_Float.
Open Scope R_scope.

(** the double x stands for the factor l, up to E and G *)
Definition reports (E G l : R) (x : f64) : Prop := is_finite x = true /\ 0 < B2R x /\ Rabs (1 / l - 1 / B2R x) <= E * (1 / B2R x) + G.
