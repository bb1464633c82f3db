(** Classical formulas for the buckling of plates and columns. *)
From Coq Require Import Reals List.
From Verif Require Import S_Plate S_Mat.
Open Scope R_scope.

(** Euler's columns: the buckling length divided by the length, for the conditions at the two ends *)
Inductive euler_column : condition -> condition -> R -> Prop :=
| Col_hinged c0 ca : holds_value c0 = true -> holds_value ca = true -> euler_column c0 ca 1
| Col_fixed : euler_column Clamped Clamped (1 / 2)
| Col_left ca : euler_column Clamped ca 2
| Col_right c0 : euler_column c0 Clamped 2.
(** bending stiffness along x of a strip that is free to bend and twist in the other directions *)
Definition strip_stiffness (D : mat3) : R := det3 D / (a22 D * a33 D - a23 D * a32 D).

(** no coupling of bending and twisting *)
Definition orthotropic (D : mat3) : Prop := a13 D = 0 /\ a23 D = 0.
(** stiffness of the mixed terms, D12 + 2 D66 *)
Definition mixed_stiffness (D : mat3) : R := a12 D + 2 * a33 D.
(** every edge holds the deflection *)
Definition supported (c0 ca d0 db : condition) : Prop :=
  holds_value c0 = true /\ holds_value ca = true /\ holds_value d0 = true /\ holds_value db = true.
(** load per unit length along x that buckles a long simply supported plate of width b *)
Definition long_plate (D : mat3) (b : R) : R := 2 * (PI / b) ^ 2 * (sqrt (a11 D * a22 D) + mixed_stiffness D).
(** load along x that buckles a simply supported plate into one half wave in each direction *)
Definition one_wave (D : mat3) (a b : R) : R := PI ^ 2 * (a11 D / a ^ 2 + 2 * mixed_stiffness D / b ^ 2 + a22 D * a ^ 2 / b ^ 4).
