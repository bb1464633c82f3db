(** composipy/core/strength.py in binary64, on an angle layup (M_LayupFloat.v): epsilon0, the tables of strains and stresses and the table of
    margins. Products of an array with a vector (@) and the inverse of the 6x6 array are arguments, because their rounding is not fixed.
    That a method writes into arrays another call has returned is modelled in M_Strength.v; here every call works on its own values. *)
From Coq Require Import ZArith String.
From Coq Require Import List.
From Verif Require Import M_Py M_K M_Float M_FloatArith M_Validate M_MatFloat M_LamArith M_LayupFloat M_XiFloat M_Margin.
Import ListNotations.
Open Scope string_scope.
Open Scope list_scope.

(** a one-dimensional array of doubles *)
Definition fvec := nat -> f64.
(** numpy: 3x3 @ 3, np.linalg.inv of a 6x6 array, 6x6 @ 6 *)
Record numpy_v := NumpyV { np_mv : farr -> fvec -> fvec; np_inv6 : farr -> res farr; np_mv6 : farr -> fvec -> fvec }.

(** property.py:264-271 : ABD, the blocks A B over B D *)
Definition blocks (A B D : farr) : farr := fun i j =>
  if Nat.ltb i 3 then (if Nat.ltb j 3 then A i j else B i (j - 3)) else (if Nat.ltb j 3 then B (i - 3) j else D (i - 3) (j - 3)).
Definition ABD_f (np : numpy) (l : list (f64 * fmaterial)) : res farr :=
  A <- A_f np l ;;
  B <- B_f np l ;;
  D <- D_f np l ;;
  Ok (blocks A B D).

(** strength.py:53-66 : epsilon0; [N] is the array of line 65 *)
Definition epsilon0_f (np : numpy) (nv : numpy_v) (l : list (f64 * fmaterial)) (N : fvec) : res fvec :=
  ABD <- ABD_f np l ;;
  abd <- np_inv6 nv ABD ;;
  Ok (np_mv6 nv abd N).

(** strength.py:92-95 : epsilon + h * kappa, element by element *)
Definition strain_f (e : fvec) (h : f64) : fvec := fun k => fadd (e k) (fmul h (e (3 + k))).
(** strength.py:69-97 : _epsilonk *)
Definition epsilonk_f (np : numpy) (nv : numpy_v) (l : list (f64 * fmaterial)) (N : fvec) : res (list (fvec * fvec)) :=
  z <- @positions (FA (np_pow np)) (thick l) ;;
  zmid <- mapM (fun i => zi <- get z i ;; zj <- get z (i + 1) ;; Ok (zi, zj)) (seq 0 (List.length l)) ;;
  e <- epsilon0_f np nv l N ;;
  Ok (map (fun h : f64 * f64 => (strain_f e (fst h), strain_f e (snd h))) zmid).
(** strength.py:100-121 : _stressk *)
Definition stressk_f (np : numpy) (nv : numpy_v) (l : list (f64 * fmaterial)) (N : fvec) : res (list (fvec * fvec)) :=
  Qk <- Q_layup_f np l ;;
  ek <- epsilonk_f np nv l N ;;
  Ok (map (fun p : farr * (fvec * fvec) => (np_mv nv (fst p) (fst (snd p)), np_mv nv (fst p) (snd (snd p)))) (combine Qk ek)).

(** strength.py:131-140, 158-168 : the transformation of a ply *)
Definition rotation_f (np : numpy) (theta : f64) : res farr := T_real_f np (np_cos np (radians theta)) (np_sin np (radians theta)).
(** strength.py:133-134 and 144-145 : x[2] /= 2 and x[2] *= 2 *)
Definition halve_f (v : fvec) : fvec := fun k => if Nat.eqb k 2 then fdiv (v k) (f_of_Z 2) else v k.
Definition double_f (v : fvec) : fvec := fun k => if Nat.eqb k 2 then fmul (v k) (f_of_Z 2) else v k.
(** strength.py:123-148 : _epsilonk_123 *)
Definition epsilonk_123_f (np : numpy) (nv : numpy_v) (l : list (f64 * fmaterial)) (N : fvec) : res (list (fvec * fvec)) :=
  ek <- epsilonk_f np nv l N ;;
  mapM (fun p : f64 * (fvec * fvec) =>
          T <- rotation_f np (fst p) ;;
          Ok (double_f (np_mv nv T (halve_f (fst (snd p)))), double_f (np_mv nv T (halve_f (snd (snd p)))))) (combine (map fst l) ek).
(** strength.py:151-176 : _stressk_123 *)
Definition stressk_123_f (np : numpy) (nv : numpy_v) (l : list (f64 * fmaterial)) (N : fvec) : res (list (fvec * fvec)) :=
  sk <- stressk_f np nv l N ;;
  mapM (fun p : f64 * (fvec * fvec) => T <- rotation_f np (fst p) ;; Ok (np_mv nv T (fst (snd p)), np_mv nv T (snd (snd p)))) (combine (map fst l) sk).

(** a row of the tables: columns ply, z, position, angle, three in plate and three in material directions *)
Record frow := FRow { fr_ply : nat; fr_z : f64; fr_position : string; fr_angle : f64; fr_xy : fvec; fr_12 : fvec }.
(** strength.py:239-264, 307-332 : the loop over the plies; [i] is the index of enumerate, cur_ply is i + 1 *)
Fixpoint row_loop_f (z : list f64) (i : nat) (l : list ((fvec * fvec) * ((fvec * fvec) * f64))) : res (list frow) :=
  match l with
  | [] => Ok []
  | ((t, b), ((t12, b12), theta)) :: rest =>
      z0 <- get z i ;;
      z1 <- get z (i + 1) ;;
      r <- row_loop_f z (i + 1) rest ;;
      Ok (FRow (i + 1) z0 "bot" theta t t12 :: FRow (i + 1) z1 "top" theta b b12 :: r)
  end.
(** strength.py:202-266 : calculate_strain *)
Definition calculate_strain_f (np : numpy) (nv : numpy_v) (l : list (f64 * fmaterial)) (N : fvec) : res (list frow) :=
  ek <- epsilonk_f np nv l N ;;
  ek123 <- epsilonk_123_f np nv l N ;;
  z <- @positions (FA (np_pow np)) (thick l) ;;
  row_loop_f z 0 (combine ek (combine ek123 (map fst l))).
(** strength.py:269-334 : calculate_stress *)
Definition calculate_stress_f (np : numpy) (nv : numpy_v) (l : list (f64 * fmaterial)) (N : fvec) : res (list frow) :=
  sk <- stressk_f np nv l N ;;
  sk123 <- stressk_123_f np nv l N ;;
  z <- @positions (FA (np_pow np)) (thick l) ;;
  row_loop_f z 0 (combine sk (combine sk123 (map fst l))).

(** strength.py:178-200 : _allowablek_123; an isotropic ply has no attribute t1 *)
Definition allowable_f (m : fmaterial) : res fallow :=
  match m with
  | FOrtho o => Ok (FAllow (fo_t1 o) (fo_c1 o) (fo_t2 o) (fo_c2 o) (fo_s o))
  | FIso _ => Err AttributeError
  end.
(** strength.py:336-389 : _calculate_maxstressallowable *)
Fixpoint allow_loop_f (i : nat) (l : list (fallow * f64)) : list (nat * string * f64 * fallow) :=
  match l with
  | [] => []
  | (al, theta) :: t => (i + 1, "top", theta, al) :: (i + 1, "bot", theta, al) :: allow_loop_f (i + 1) t
  end.
(** strength.py:391-425 : calculate_maxstressmargin; a row is ply, position, angle, the five margins and the name of the smallest *)
Record fmrow := FMRow { fm_ply : nat; fm_position : string; fm_angle : f64; fm_margins : list (string * f64); fm_critical : option string }.
Definition margin_row (a : nat * string * f64 * fallow) (r : frow) : fmrow :=
  let '(ply, position, angle, al) := a in
  let st := FStress (fr_12 r 0%nat) (fr_12 r 1%nat) (fr_12 r 2%nat) in
  FMRow ply position angle (margin_columns al st) (critical al st).
Definition calculate_maxstressmargin_f (np : numpy) (nv : numpy_v) (l : list (f64 * fmaterial)) (N : fvec) : res (list fmrow) :=
  al <- mapM (fun p => allowable_f (snd p)) l ;;
  st <- calculate_stress_f np nv l N ;;
  Ok (map (fun p => margin_row (fst p) (snd p)) (combine (allow_loop_f 0 (combine al (map fst l))) st)).
