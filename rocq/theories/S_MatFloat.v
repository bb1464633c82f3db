(** Vocabulary for the stiffness of a ply as computed in binary64. *)
From Coq Require Import Reals ZArith List.
From Flocq Require Import IEEE754.BinarySingleNaN.
From Verif Require Import M_Py M_Float M_Validate M_Material M_K M_RealArith S_Mat S_Ritz S_Round.
Import ListNotations.
Open Scope R_scope.

(** the material with the numbers a material of doubles holds *)
Definition exact_ply (m : fomat) : omat :=
  OMat (B2R (fo_e1 m)) (B2R (fo_e2 m)) (B2R (fo_v12 m)) (B2R (fo_g12 m)) (B2R (fo_thickness m))
       (B2R (fo_t1 m)) (B2R (fo_c1 m)) (B2R (fo_t2 m)) (B2R (fo_c2 m)) (B2R (fo_s m)).
Definition exact_iso (m : fimat) : imat :=
  IMat (B2R (fi_e m)) (B2R (fi_v m)) (B2R (fi_g m)) (B2R (fi_thickness m)) (B2R (fi_t m)) (B2R (fi_c m)) (B2R (fi_s m)).
(** moduli between 2^-200 and 2^200, v12 zero or at least 2^-200 in magnitude *)
Record usual_ply (m : fomat) : Prop := {
  up_e1 : usual0 (fo_e1 m) /\ 0 < B2R (fo_e1 m); up_e2 : usual0 (fo_e2 m) /\ 0 < B2R (fo_e2 m);
  up_g12 : usual0 (fo_g12 m) /\ 0 < B2R (fo_g12 m); up_v12 : usual0 (fo_v12 m) }.
Record usual_iso (m : fimat) : Prop := {
  uo_e : usual0 (fi_e m) /\ 0 < B2R (fi_e m); uo_g : usual0 (fi_g m) /\ 0 < B2R (fi_g m); uo_v : usual0 (fi_v m) }.
(** how far the ply is from being singular: 1 - v12 v21 in exact numbers *)
Definition margin (m : fomat) : R := 1 - B2R (fo_v12 m) ^ 2 * B2R (fo_e2 m) / B2R (fo_e1 m).
(** every number of the array is finite and has a relative error of at most k units *)
Definition array_close (k : R) (Q : nat -> nat -> f64) (X : mat3) : Prop := forall i j, (i < 3)%nat -> (j < 3)%nat ->
  is_finite (Q i j) = true /\ Rabs (B2R (Q i j) - as_arr X i j) <= k * unit * Rabs (as_arr X i j).
(** the sum of the magnitudes of the four numbers of Q_0 *)
Definition size (X : mat3) : R := Rabs (a11 X) + Rabs (a12 X) + Rabs (a22 X) + Rabs (a33 X).
