(** The buckling load in binary64, from the plies or from lamination parameters: composipy/core/structure.py:367-408 on top of property.py, and
    composipy/optimize/utils.py:11-24 with the functions handed to scipy by the two optimisers. Number arguments are Python floats, m and n ints;
    what CPython makes of texts ([parse]), the eigen-solver, the power operator and the value of decimal literals are arguments. *)
From Coq Require Import ZArith String.
From Flocq Require Import IEEE754.BinarySingleNaN.
From Coq Require Import List.
From Verif Require Import M_Py M_Plate M_K M_Float M_FloatArith M_Validate M_MatFloat M_LayupFloat M_LpFloat M_OptFloat M_BucklingFloat.
Import ListNotations.

(** PlateStructure(LaminateProperty(angles, plies), ...).buckling_analysis(num_eigvalues=num); dproperty.D is read first (structure.py:343) *)
Definition buckling_layup_f (eigsh : fsolver) (np : numpy) (pow : f64 -> nat -> res f64) (dec : Z -> Z -> f64) (l : list (f64 * fmaterial)) (a b Nxx Nyy Nxy : f64)
  (c : constraints) (m n : nat) (num : Z) : res (list f64 * list (list f64)) :=
  D <- D_f np l ;; buckling_float eigsh pow dec D a b Nxx Nyy Nxy c m n num.

Section Lp.
Variables (parse : string -> option f64) (eigsh : fsolver) (pow : f64 -> nat -> res f64) (dec : Z -> Z -> f64).
(** utils.py:11-24 : Ncr_from_lp. The dictionary with the keys xiD and T is stored as it is (property.py:81-93); [0][0] takes the first of the
    (default five) factors *)
Definition Ncr_from_lp_f (a b T : f64) (m n : nat) (xi1 xi3 E1 E2 v12 G12 Nxx Nyy Nxy : f64) (c : constraints) : res f64 :=
  mat1 <- ortho_init parse (oargs5 (PFloat E1) (PFloat E2) (PFloat v12) (PFloat G12) (PFloat (dec 1 (-1)))) ;;
  plate1 <- plate_init parse true (PFloat a) (PFloat b) (PFloat Nxx) (PFloat Nyy) (PFloat Nxy) (PInt (Z.of_nat m)) (PInt (Z.of_nat n)) ;;
  D <- D_lp_f pow mat1 [xi1; fzero; xi3; fzero] T ;;
  r <- buckling_float eigsh pow dec D (fp_a plate1) (fp_b plate1) (fp_Nxx plate1) (fp_Nyy plate1) (fp_Nxy plate1) c (Z.to_nat (fp_m plate1)) (Z.to_nat (fp_n plate1)) 5 ;;
  match fst r with [] => Err IndexError | x :: _ => Ok x end.
(** the try statements of _maximize_buckling.py:74-78 and _minimize_panel_weight.py:75-79; the int -1 is the double *)
Definition eig_or_minus1_f (x : res f64) : res f64 := match x with Err ArpackError => Ok (f_of_Z (-1)) | _ => x end.
(** _maximize_buckling.py:69-79 : the objective handed to scipy; the loads are normalised first *)
Definition maximize_objective_f (a b T : f64) (m n : nat) (E1 E2 v12 G12 Nxx Nyy Nxy : f64) (c : constraints) : res (list f64 -> res f64) :=
  r <- normalize_f Nxx Nyy Nxy ;;
  let '(Nx, Ny, Nz, _) := r in
  Ok (fun y0 => match y0 with
    | [xi1; xi3] => eig <- eig_or_minus1_f (Ncr_from_lp_f a b T m n xi1 xi3 E1 E2 v12 G12 Nx Ny Nz c) ;; Ok (fmul (f_of_Z (-1)) eig)
    | _ => Err ValueError end).
(** _minimize_panel_weight.py:70-82 : the constraint on the buckling load handed to scipy, with its lower bound *)
Definition weight_constraint_f (a b : f64) (m n : nat) (E1 E2 v12 G12 Nxx Nyy Nxy : f64) (c : constraints) : res ((list f64 -> res f64) * f64) :=
  r <- normalize_f Nxx Nyy Nxy ;;
  let '(Nx, Ny, Nz, max_load) := r in
  Ok (fun y0 => match y0 with
    | [T; xi1; xi3] => eig_or_minus1_f (Ncr_from_lp_f a b T m n xi1 xi3 E1 E2 v12 G12 Nx Ny Nz c)
    | _ => Err ValueError end, max_load).
End Lp.
