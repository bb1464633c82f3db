(** The buckling problem of the continuous plate: all smooth deflections instead of the polynomials of bounded degree. *)
From Coq Require Import Reals.
From Coquelicot Require Import Coquelicot.
From Verif Require Import S_Plate S_Mat S_Energy.
Open Scope R_scope.

(** [W p q] is w differentiated p times along x and q times along y, continuous for p and q up to two *)
Record derivatives (w : field) (W : nat -> nat -> field) : Prop := {
  dv_zero : forall x y, W 0%nat 0%nat x y = w x y;
  dv_x : forall p q (x y : R), (p < 2)%nat -> (q <= 2)%nat -> is_derive (fun t => W p q t y) x (W (S p) q x y);
  dv_y : forall p q (x y : R), (p <= 2)%nat -> (q < 2)%nat -> is_derive (fun t => W p q x t) y (W p (S q) x y);
  dv_cont : forall p q (x y : R), (p <= 2)%nat -> (q <= 2)%nat -> continuity_2d_pt (W p q) x y }.
(** the conditions along the edges of the plate [0,a] x [0,b] *)
Record kept (a b : R) (c0 ca d0 db : condition) (w : field) : Prop := {
  kept_x0 : forall y, 0 <= y <= b -> (holds_value c0 = true -> w 0 y = 0) /\ (holds_slope c0 = true -> dx w 0 y = 0);
  kept_xa : forall y, 0 <= y <= b -> (holds_value ca = true -> w a y = 0) /\ (holds_slope ca = true -> dx w a y = 0);
  kept_y0 : forall x, 0 <= x <= a -> (holds_value d0 = true -> w x 0 = 0) /\ (holds_slope d0 = true -> dy w x 0 = 0);
  kept_yb : forall x, 0 <= x <= a -> (holds_value db = true -> w x b = 0) /\ (holds_slope db = true -> dy w x b = 0) }.
(** a smooth deflection of the plate *)
Definition deflection (a b : R) (c0 ca d0 db : condition) (w : field) : Prop :=
  (exists W, derivatives w W) /\ kept a b c0 ca d0 db w.

(** L is the load multiplier up to which the continuous plate is stable: no smooth deflection has negative energy under L times the
    loads, and under any larger multiple some has *)
Definition stability_limit (D : mat3) (a b Nxx Nyy Nxy : R) (c0 ca d0 db : condition) (L : R) : Prop :=
  let energy l w := bending D a b w w + l * load_work Nxx Nyy Nxy a b w w in
  0 < L /\ (forall w, deflection a b c0 ca d0 db w -> 0 <= energy L w) /\
  (forall L', L < L' -> exists w, deflection a b c0 ca d0 db w /\ energy L' w < 0).
