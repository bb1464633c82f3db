(** Polynomial deflections. *)
From Coq Require Import Reals.
From Coquelicot Require Import Coquelicot.
From Coq Require Import List.
From Verif Require Import S_Plate S_Energy.
Import ListNotations.
Open Scope R_scope.

(** the polynomial with the listed coefficients, constant term first *)
Fixpoint poly (p : list R) (x : R) : R := match p with [] => 0 | c :: p' => c + x * poly p' x end.
(** a polynomial in two variables of degree below [k] in the first and below [l] in the second *)
Definition bipoly (k l : nat) (w : R -> R -> R) : Prop :=
  exists P : list (list R), (List.length P <= k)%nat /\ Forall (fun q => (List.length q <= l)%nat) P /\
    forall x y, w x y = poly (map (fun q => poly q y) P) x.

(** conditions at the ends of the interval [-1,1] *)
Definition meets (c0 c1 : condition) (f : R -> R) : Prop :=
  (holds_value c0 = true -> f (-1) = 0) /\ (holds_slope c0 = true -> Derive f (-1) = 0) /\
  (holds_value c1 = true -> f 1 = 0) /\ (holds_slope c1 = true -> Derive f 1 = 0).

(** a deflection of the plate [0,a] x [0,b] with the given edge conditions *)
Record fits (a b : R) (c0 ca d0 db : condition) (w : R -> R -> R) : Prop := {
  fit_x0 : (holds_value c0 = true -> forall y, w 0 y = 0) /\ (holds_slope c0 = true -> forall y, dx w 0 y = 0);
  fit_xa : (holds_value ca = true -> forall y, w a y = 0) /\ (holds_slope ca = true -> forall y, dx w a y = 0);
  fit_y0 : (holds_value d0 = true -> forall x, w x 0 = 0) /\ (holds_slope d0 = true -> forall x, dy w x 0 = 0);
  fit_yb : (holds_value db = true -> forall x, w x b = 0) /\ (holds_slope db = true -> forall x, dy w x b = 0) }.
