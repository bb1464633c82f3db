(** Vocabulary for the laminate in binary64: what is assumed of numpy, and the exact laminate the doubles stand for. *)
From Coq Require Import Reals ZArith.
From Flocq Require Import IEEE754.BinarySingleNaN.
From Coq Require Import List.
From Verif Require Import M_Py M_Float M_Validate M_Material M_MatFloat M_LayupFloat M_K S_Mat S_Ritz S_Round S_LamRound S_MatFloat.
Import ListNotations.
Open Scope R_scope.

Definition finite3 (X : farr) : Prop := forall i j, (i < 3)%nat -> (j < 3)%nat -> is_finite (X i j) = true.
(** the sums of the products a matrix product consists of, and of their magnitudes *)
Definition products (X Y : farr) (i j : nat) : R := B2R (X i 0%nat) * B2R (Y 0%nat j) + B2R (X i 1%nat) * B2R (Y 1%nat j) + B2R (X i 2%nat) * B2R (Y 2%nat j).
Definition magnitudes (X Y : farr) (i j : nat) : R :=
  Rabs (B2R (X i 0%nat) * B2R (Y 0%nat j)) + Rabs (B2R (X i 1%nat) * B2R (Y 1%nat j)) + Rabs (B2R (X i 2%nat) * B2R (Y 2%nat j)).
(** @ on 3x3 arrays: four units of the magnitudes, whatever the order of the summation and whether or not multiplications and additions are fused *)
Definition mm_near (mm : farr -> farr -> farr) : Prop := forall X Y, finite3 X -> finite3 Y ->
  (forall i j, (i < 3)%nat -> (j < 3)%nat -> magnitudes X Y i j <= powerRZ 2 900) ->
  forall i j, (i < 3)%nat -> (j < 3)%nat -> is_finite (mm X Y i j) = true /\ Rabs (B2R (mm X Y i j) - products X Y i j) <= 4 * unit * magnitudes X Y i j + powerRZ 2 (-900).
(** cos and sin at one double: two units *)
Definition trig_near (np : numpy) (x : f64) : Prop :=
  is_finite (np_cos np x) = true /\ Rabs (B2R (np_cos np x) - cos (B2R x)) <= 2 * unit /\
  is_finite (np_sin np x) = true /\ Rabs (B2R (np_sin np x) - sin (B2R x)) <= 2 * unit.
(** linalg.inv at one array: T Y - 1 has entries of at most k units *)
Definition inv_near (np : numpy) (k : R) (T : farr) : Prop := exists Y, np_inv np T = Ok Y /\ finite3 Y /\
  forall i j, (i < 3)%nat -> (j < 3)%nat -> Rabs (products T Y i j - (if Nat.eqb i j then 1 else 0)) <= k * unit.
(** what is assumed of numpy for one angle: accurate cosine and sine of it, squares, products, and an inverse of its transformation with residual k *)
Record numpy_near (np : numpy) (k : R) (theta : f64) : Prop := {
  nn_pow : pow_near (np_pow np); nn_mm : mm_near (np_mm np); nn_trig : trig_near np (radians theta);
  nn_inv : forall Tr Te, T_ply_f np theta = Ok (Tr, Te) -> inv_near np k Tr }.
(** angles that are zero or at least 2^-200 in magnitude, up to 360 degrees *)
Definition usual_angle (theta : f64) : Prop := usual0 theta /\ Rabs (B2R theta) <= 360.

(** the material and the layup in exact numbers *)
Definition exact_mat (m : fmaterial) : material := match m with FOrtho o => Ortho (exact_ply o) | FIso i => Iso (exact_iso i) end.
Definition exact_layup (l : list (f64 * fmaterial)) : list (R * material) := map (fun p => (B2R (fst p), exact_mat (snd p))) l.
(** built by the constructor, with moduli of usual size and 1 - v12 v21 at least mu *)
Definition good_ply (mu : R) (m : fmaterial) : Prop :=
  match m with
  | FOrtho f => (exists parse a, ortho_init parse a = Ok f) /\ usual_ply f /\ mu <= margin f
  | FIso f => (exists parse a, iso_init parse a = Ok f) /\ usual_iso f
  end.
(** the numbers of Q_0 together are at most q *)
Definition stiff_below (q : R) (m : fmaterial) : Prop := exists X, Q_0 (exact_mat m) = Ok X /\ size X <= q.
(** relative error of a ply's stiffness, in units of its largest entries *)
Definition ply_units (k mu : R) : R := 7 * k + 2400 + 15 / mu.
(** the array with the numbers below the diagonal repeated above it *)
Definition lower {X} (D : nat -> nat -> X) (i j : nat) : X := if Nat.leb j i then D i j else D j i.
(** a layup with such plies at such angles, up to a million plies of usual thickness *)
Definition good_layup (np : numpy) (k mu q : R) (l : list (f64 * fmaterial)) : Prop :=
  Forall (fun p => numpy_near np k (fst p) /\ usual_angle (fst p) /\ good_ply mu (snd p) /\ stiff_below q (snd p)) l /\ usual_plies (map (fun p => f_thickness (snd p)) l).
(** A (p = 1), B (p = 2) and D (p = 3) as computed *)
Definition matrix_f (np : numpy) (p : nat) : list (f64 * fmaterial) -> res farr := match p with 1%nat => A_f np | 2%nat => B_f np | _ => D_f np end.
Definition total (l : list (f64 * fmaterial)) : R := height (map (fun p => f_thickness (snd p)) l).
(** error bound for their entries *)
Definition matrix_off (k mu q : R) (p : nat) (l : list (f64 * fmaterial)) : R := (9 * INR (length l) + 12 + ply_units k mu) * unit * q * total l ^ p.
