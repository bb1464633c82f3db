(** End conditions of the shape functions and of the deflection. *)
From Coq Require Import Reals Bool.
From Coquelicot Require Import Coquelicot.
From Coq Require Import List.
From Verif Require Import S_Plate.
Import ListNotations.
Open Scope R_scope.

(** value and slope at -1, value and slope at 1 *)
Definition ends (f : R -> R) : R * R * R * R := (f (-1), Derive f (-1), f 1, Derive f 1).
Definition expected_ends (i : nat) : R * R * R * R :=
  match i with
  | 0%nat => (1, 0, 0, 0)
  | 1%nat => (0, 1/2, 0, 0)
  | 2%nat => (0, 0, 1, 0)
  | 3%nat => (0, 0, 0, 1/2)
  | _ => (0, 0, 0, 0)
  end.

(** [w] respects a condition on the edge where the first coordinate is [t] *)
Definition respects (c : condition) (w : R -> R -> R) (t : R) : Prop :=
  (holds_value c = true -> forall s, w t s = 0) /\ (holds_slope c = true -> forall s, Derive (fun u => w u s) t = 0).

(** [x] is within [e] of [y] *)
Definition within (e x y : R) : Prop := Rabs (x - y) <= e.
