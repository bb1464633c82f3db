(** The theorems on the optimisation helpers in binary64.
    Statements only: every proof is [exact] a lemma of T_OptFloat.v with the same statement.
    Below each theorem, Print Assumptions lists the axioms it uses. *)
From Coq Require Import Reals ZArith Lra Lia Bool.
From Flocq Require Import Core.Core IEEE754.BinarySingleNaN.
From Coq Require Import List.
From Verif Require Import M_Py M_Float M_Validate M_Optimize M_OptFloat S_Validate S_Round S_OptFloat.
From Flocq Require Import Mult_error.
Import ListNotations.
Open Scope R_scope.
From Verif Require T_OptFloat.

(** C93: the loads normalised in binary64. Unless all are zero nothing is raised; the fourth result is exactly the largest absolute load;
    every other result is a double nearest to the exact quotient, lies in [-1, 1], does not have the opposite sign, and the largest load
    becomes exactly 1 or -1. *)
Theorem C93_normalised : forall Nxx Nyy Nxy : f64, is_finite Nxx = true -> is_finite Nyy = true -> is_finite Nxy = true ->
  ~ (B2R Nxx = 0 /\ B2R Nyy = 0 /\ B2R Nxy = 0) ->
  exists x y z mx, normalize_f Nxx Nyy Nxy = Ok (x, y, z, mx) /\ is_finite mx = true /\ B2R mx = largest (B2R Nxx) (B2R Nyy) (B2R Nxy) /\ 0 < B2R mx /\
    (forall N v, In (N, v) [(Nxx, x); (Nyy, y); (Nxy, z)] ->
       nearest v (B2R N / B2R mx) /\ Rabs (B2R v) <= 1 /\ 0 <= B2R v * B2R N /\
       Rabs (B2R v - B2R N / B2R mx) <= unit * Rabs (B2R N / B2R mx) + powerRZ 2 (-1075) /\
       (Rabs (B2R N) = B2R mx -> Rabs (B2R v) = 1)) /\
    (Rabs (B2R x) = 1 \/ Rabs (B2R y) = 1 \/ Rabs (B2R z) = 1).
Proof. exact T_OptFloat.t_C93_normalised. Qed.
Print Assumptions C93_normalised.

(** C93: for finite loads ZeroDivisionError is raised exactly when all are zero, and nothing else is. *)
Theorem C93_error : forall (Nxx Nyy Nxy : f64) e, is_finite Nxx = true -> is_finite Nyy = true -> is_finite Nxy = true ->
  (normalize_f Nxx Nyy Nxy = Err e <-> e = ZeroDivisionError /\ B2R Nxx = 0 /\ B2R Nyy = 0 /\ B2R Nxy = 0).
Proof. exact T_OptFloat.t_C93_error. Qed.
Print Assumptions C93_error.

(** C93: with an infinite load and no NaN the maximum is infinite, the infinite loads become NaN and all others zero. *)
Theorem C93_infinite : forall Nxx Nyy Nxy : f64, Nxx <> fnan -> Nyy <> fnan -> Nxy <> fnan ->
  is_finite Nxx = false \/ is_finite Nyy = false \/ is_finite Nxy = false ->
  exists x y z, normalize_f Nxx Nyy Nxy = Ok (x, y, z, finf) /\
    forall N v, In (N, v) [(Nxx, x); (Nyy, y); (Nxy, z)] ->
      (is_finite N = true -> is_finite v = true /\ B2R v = 0) /\ (is_finite N = false -> v = fnan).
Proof. exact T_OptFloat.t_C93_infinite. Qed.
Print Assumptions C93_infinite.

(** C93: a NaN load. In the third place it makes everything NaN; in the second place the loads are divided by the third load, whatever
    the first is, so that ZeroDivisionError is raised when the third is zero; in the first place they are divided by the larger of the two
    others. *)
Theorem C93_nan :
  (forall Nxx Nyy : f64, normalize_f Nxx Nyy fnan = Ok (fnan, fnan, fnan, fnan)) /\
  (forall Nxx Nxy : f64, is_finite Nxy = true -> B2R Nxy = 0 -> normalize_f Nxx fnan Nxy = Err ZeroDivisionError) /\
  (forall Nxx Nxy : f64, is_finite Nxx = true -> is_finite Nxy = true -> B2R Nxy <> 0 -> Rabs (B2R Nxx / B2R Nxy) <= powerRZ 2 1023 ->
     exists x z mx, normalize_f Nxx fnan Nxy = Ok (x, fnan, z, mx) /\ B2R mx = Rabs (B2R Nxy) /\ nearest x (B2R Nxx / Rabs (B2R Nxy)) /\ Rabs (B2R z) = 1) /\
  (forall Nyy Nxy : f64, is_finite Nyy = true -> is_finite Nxy = true -> ~ (B2R Nyy = 0 /\ B2R Nxy = 0) ->
     exists y z mx, normalize_f fnan Nyy Nxy = Ok (fnan, y, z, mx) /\ B2R mx = Rmax (Rabs (B2R Nyy)) (Rabs (B2R Nxy)) /\
       nearest y (B2R Nyy / B2R mx) /\ nearest z (B2R Nxy / B2R mx) /\ Rabs (B2R y) <= 1 /\ Rabs (B2R z) <= 1).
Proof. exact T_OptFloat.t_C93_nan. Qed.
Print Assumptions C93_nan.

(** C93: so with a NaN load "normalised" finite loads can lie outside [-1, 1]. *)
Theorem C93_bounded_refuted : exists Nxx Nyy Nxy x y z mx : f64, normalize_f Nxx Nyy Nxy = Ok (x, y, z, mx) /\ is_finite x = true /\ B2R x = 2.
Proof. exact T_OptFloat.t_C93_bounded_refuted. Qed.
Print Assumptions C93_bounded_refuted.

(** C93: the warnings for finite loads are those of the exact loads; the normalised loads are never warned about as not normalised. *)
Theorem C93_warnings : forall Nxx Nyy Nxy : f64, is_finite Nxx = true -> is_finite Nyy = true -> is_finite Nxy = true ->
  check_loads_f Nxx Nyy Nxy = check_loads (B2R Nxx) (B2R Nyy) (B2R Nxy) /\
  forall x y z mx, normalize_f Nxx Nyy Nxy = Ok (x, y, z, mx) -> ~ In NotNormalised (check_loads_f x y z).
Proof. exact T_OptFloat.t_C93_warnings. Qed.
Print Assumptions C93_warnings.

(** C93: with the penalty a point is accepted exactly when it violates the triangle by at most half a unit, so every point of the
    triangle is accepted. *)
Theorem C93_triangle : forall pow (xi1 xi3 s : f64), pow xi1 2%nat = Ok s -> is_finite xi1 = true -> is_finite xi3 = true ->
  Rabs (B2R xi1) <= powerRZ 2 1000 -> Rabs (B2R xi3) <= powerRZ 2 1000 ->
  exists r, mask_f pow xi1 xi3 true = Ok r /\ (r = true <-> 2 * Rabs (B2R xi1) - 1 - unit <= B2R xi3) /\
    (constraint_mask (B2R xi1) (B2R xi3) true = true -> r = true).
Proof. exact T_OptFloat.t_C93_triangle. Qed.
Print Assumptions C93_triangle.

(** C93: without the penalty and with squares accurate to three units, every accepted point violates the parabola by at most eight
    units, and every point inside it by six units times xi1^2 is accepted. *)
Theorem C93_parabola : forall pow (xi1 xi3 : f64), square_close 3 pow -> is_finite xi1 = true -> is_finite xi3 = true ->
  Rabs (B2R xi1) <= 1 -> Rabs (B2R xi3) <= 1 ->
  exists r, mask_f pow xi1 xi3 false = Ok r /\
    (r = true -> - (8 * unit) <= B2R xi3 - 2 * B2R xi1 ^ 2 + 1) /\
    (6 * unit * B2R xi1 ^ 2 <= B2R xi3 - 2 * B2R xi1 ^ 2 + 1 -> r = true).
Proof. exact T_OptFloat.t_C93_parabola. Qed.
Print Assumptions C93_parabola.

(** C93: when squares are correctly rounded every point of the parabola is accepted, and an accepted point violates it by at most two
    units. *)
Theorem C93_parabola_exact : forall pow (xi1 xi3 : f64), square_nearest pow -> is_finite xi1 = true -> is_finite xi3 = true ->
  Rabs (B2R xi1) <= 1 -> Rabs (B2R xi3) <= 1 ->
  exists r, mask_f pow xi1 xi3 false = Ok r /\ (constraint_mask (B2R xi1) (B2R xi3) false = true -> r = true) /\
    (r = true -> - (2 * unit) <= B2R xi3 - 2 * B2R xi1 ^ 2 + 1).
Proof. exact T_OptFloat.t_C93_parabola_exact. Qed.
Print Assumptions C93_parabola_exact.

(** C93: an OverflowError of xi1**2 leaves the mask of the plots, even where it uses the two lines only, and the constraint of the parabola; the lines themselves
    use no power. *)
Theorem C93_overflow : forall pow (xi1 xi3 t : f64) penalty e, pow xi1 2%nat = Err e ->
  mask_f pow xi1 xi3 penalty = Err e /\ natural_constraint_g_f pow [xi1; xi3] = Err e /\ natural_constraint_g_f pow [t; xi1; xi3] = Err e /\
  (exists g1 g2, penalty_g1_f [xi1; xi3] = Ok g1 /\ penalty_g1_f [t; xi1; xi3] = Ok g1 /\ penalty_g2_f [xi1; xi3] = Ok g2 /\ penalty_g2_f [t; xi1; xi3] = Ok g2).
Proof. exact T_OptFloat.t_C93_overflow. Qed.
Print Assumptions C93_overflow.

(** C93: a point with NaN as xi3 is accepted, with the penalty and without it, although it lies in neither region. *)
Theorem C93_nan_accepted : forall pow (xi1 s : f64) penalty, pow xi1 2%nat = Ok s -> mask_f pow xi1 fnan penalty = Ok true.
Proof. exact T_OptFloat.t_C93_nan_accepted. Qed.
Print Assumptions C93_nan_accepted.

(** C93: for points with coordinates in [-1, 1] the three constraint functions give finite values, the penalties within 8 units of the exact
    values and the parabola within 15, for both lengths of argument, and raise UnboundLocalError for any other. *)
Theorem C93_values : forall pow (T xi1 xi3 : f64) y0, square_close 3 pow -> is_finite xi1 = true -> is_finite xi3 = true ->
  Rabs (B2R xi1) <= 1 -> Rabs (B2R xi3) <= 1 -> y0 = [xi1; xi3] \/ y0 = [T; xi1; xi3] ->
  exists g1 g2 g, penalty_g1_f y0 = Ok g1 /\ penalty_g2_f y0 = Ok g2 /\ natural_constraint_g_f pow y0 = Ok g /\
    is_finite g1 = true /\ Rabs (B2R g1 - (B2R xi3 + 2 * B2R xi1 + 1)) <= 8 * unit /\
    is_finite g2 = true /\ Rabs (B2R g2 - (B2R xi3 - 2 * B2R xi1 + 1)) <= 8 * unit /\
    is_finite g = true /\ Rabs (B2R g - (B2R xi3 - 2 * B2R xi1 ^ 2 + 1)) <= 15 * unit.
Proof. exact T_OptFloat.t_C93_values. Qed.
Print Assumptions C93_values.

(** C93 example: squaring by multiplication meets both conditions on powers; loads (-4, 1, 3) and a point of the triangle's edge. *)
Example C93_ex : square_close 3 (fun x _ => Ok (fmul x x)) /\ square_nearest (fun x _ => Ok (fmul x x)) /\
  (exists x y z mx, normalize_f (f_of_Z (-4)) (f_of_Z 1) (f_of_Z 3) = Ok (x, y, z, mx) /\ B2R mx = 4 /\ B2R x = -1 /\ B2R y = 1 / 4 /\ B2R z = 3 / 4) /\
  check_loads_f (f_of_Z (-4)) (f_of_Z 1) (f_of_Z 3) = [NotNormalised] /\
  mask_f (fun x _ => Ok (fmul x x)) fhalf fzero true = Ok true /\ mask_f (fun x _ => Ok (fmul x x)) fhalf (f_of_Z_exp (-1) (-2)) true = Ok false /\
  mask_f (fun x _ => Ok (fmul x x)) fhalf (f_of_Z_exp (-1) (-2)) false = Ok true.
Proof. exact T_OptFloat.t_C93_ex. Qed.
