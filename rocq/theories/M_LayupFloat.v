(** composipy/core/property.py: T_layup, Q_layup and the matrices of an angle layup in binary64, from the materials of M_MatFloat.v on.
    The operations of numpy whose rounding is not fixed (cos, sin, **, linalg.inv, @) are arguments. *)
From Coq Require Import ZArith List.
From Verif Require Import M_Py M_K M_Float M_FloatArith M_Validate M_MatFloat M_LamArith.
Import ListNotations.

(** a 3x3 array of doubles *)
Definition farr := nat -> nat -> f64.
(** numpy: np.cos, np.sin, ** on np.float64, np.linalg.inv, @ *)
Record numpy := Numpy {
  np_cos : f64 -> f64; np_sin : f64 -> f64; np_pow : f64 -> nat -> res f64;
  np_inv : farr -> res farr; np_mm : farr -> farr -> farr }.

(** an element of plies *)
Inductive fmaterial := FOrtho (m : fomat) | FIso (m : fimat).
Definition f_thickness (m : fmaterial) : f64 := match m with FOrtho o => fo_thickness o | FIso i => fi_thickness i end.
(** material.py:130-148, 278-296 *)
Definition f_Q_0 (m : fmaterial) : res farr := match m with FOrtho o => ortho_Q0 o | FIso i => iso_Q0 i end.

(** np.pi *)
Definition fpi : f64 := f_of_Z_exp 884279719003555 (-48).
(** property.py:130-131, 158-159 : theta*np.pi/180 for an angle given as a float *)
Definition radians (theta : f64) : f64 := fdiv (fmul theta fpi) (f_of_Z 180).

Definition array9 (q00 q01 q02 q10 q11 q12 q20 q21 q22 : f64) (i j : nat) : f64 :=
  match i, j with
  | 0, 0 => q00 | 0, 1 => q01 | 0, _ => q02
  | 1, 0 => q10 | 1, 1 => q11 | 1, _ => q12
  | _, 0 => q20 | _, 1 => q21 | _, _ => q22
  end.
(** property.py:133-137 and 161-165; equal subexpressions have equal values and are written once *)
Definition T_real_f (np : numpy) (c s : f64) : res farr :=
  c2 <- np_pow np c 2 ;;
  s2 <- np_pow np s 2 ;;
  Ok (array9 c2 s2 (fmul (fmul (f_of_Z 2) c) s)
             s2 c2 (fmul (fmul (f_of_Z (-2)) c) s)
             (fmul (fopp c) s) (fmul c s) (fsub c2 s2)).
(** property.py:138-142 and 167-171 *)
Definition T_engineering_f (np : numpy) (c s : f64) : res farr :=
  c2 <- np_pow np c 2 ;;
  s2 <- np_pow np s 2 ;;
  Ok (array9 c2 s2 (fmul c s)
             s2 c2 (fmul (fopp c) s)
             (fmul (fmul (f_of_Z (-2)) c) s) (fmul (fmul (f_of_Z 2) c) s) (fsub c2 s2)).
(** property.py:157-173 : one element of T_layup *)
Definition T_ply_f (np : numpy) (theta : f64) : res (farr * farr) :=
  let c := np_cos np (radians theta) in
  let s := np_sin np (radians theta) in
  Tr <- T_real_f np c s ;;
  Te <- T_engineering_f np c s ;;
  Ok (Tr, Te).
(** property.py:130-149 : one element of Q_layup *)
Definition Q_ply_f (np : numpy) (theta : f64) (ply : fmaterial) : res farr :=
  T <- T_ply_f np theta ;;
  Ti <- np_inv np (fst T) ;;
  Q <- f_Q_0 ply ;;
  Ok (np_mm np (np_mm np Ti Q) (snd T)).
(** property.py:124-150 : Q_layup of a layup read for the first time *)
Definition Q_layup_f (np : numpy) (l : list (f64 * fmaterial)) : res (list farr) := mapM (fun p => Q_ply_f np (fst p) (snd p)) l.
(** property.py:176-206, 208-229, 231-262 : A, B and D of an angle layup read for the first time *)
Definition layup_matrix (np : numpy) (weight : f64 -> f64 -> res f64) (l : list (f64 * fmaterial)) : res farr :=
  Qs <- Q_layup_f np l ;;
  @laminate_matrix (FA (np_pow np)) weight (map (fun p => f_thickness (snd p)) l) Qs.
Definition A_f (np : numpy) := layup_matrix np (@weight_A (FA (np_pow np))).
Definition B_f (np : numpy) := layup_matrix np (@weight_B (FA (np_pow np))).
Definition D_f (np : numpy) := layup_matrix np (@weight_D (FA (np_pow np))).
