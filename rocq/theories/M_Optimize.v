(** composipy/optimize: utils.py, _maximize_buckling.py and _minimize_panel_weight.py over exact reals, up to the call of
    scipy.optimize.minimize, which is not modelled: what is handed to it is the record [problem]. The eigen-solver is an
    argument, as in M_Buckling.v. Printing and drawing are not modelled. *)
From Coq Require Import Reals ZArith String.
From Coq Require Import List.
From Verif Require Import M_Py M_Plate M_K M_RealArith M_Buckling S_Mat M_Material M_Laminate S_Ritz.
Import ListNotations.
Open Scope R_scope.

(** [list.sort] of CPython on three elements: a run is detected (and reversed when descending), the rest inserted by bisection *)
Section Sort.
Context {X : Type} (lt : X -> X -> bool).
Definition insert_third (x y z : X) : list X :=
  if lt z y then (if lt z x then [z; x; y] else [x; z; y]) else [x; y; z].
Definition sort3 (x y z : X) : list X :=
  if lt y x then (if lt z y then [z; y; x] else insert_third y x z)
  else (if lt z y then insert_third x y z else [x; y; z]).
(** [l[-1]] of a non-empty list *)
Definition last_of (l : list X) (d : X) : X := List.last l d.
End Sort.
Definition Rltb (x y : R) : bool := if Rlt_dec x y then true else false.

(** utils.py:27-37 : normalize_critical_load; Python float division *)
Definition normalize_critical_load (Nxx Nyy Nxy : R) : res (R * R * R * R) :=
  let mx := last_of (sort3 Rltb (Rabs Nxx) (Rabs Nyy) (Rabs Nxy)) 0 in
  x <- pydiv Nxx mx ;; y <- pydiv Nyy mx ;; z <- pydiv Nxy mx ;; Ok (x, y, z, mx).

(** utils.py:43-46, 54-57, 66-69 : the unpacking shared by the three constraint functions; for other lengths the names stay
    unassigned *)
Definition xi13 (y0 : list R) : res (R * R) :=
  match y0 with [xi1; xi3] => Ok (xi1, xi3) | [_; xi1; xi3] => Ok (xi1, xi3) | _ => Err UnboundLocalError end.
(** utils.py:40-49, 52-60, 63-72 *)
Definition penalty_g1 (y0 : list R) : res R := p <- xi13 y0 ;; Ok (snd p + 2 * fst p + 1).
Definition penalty_g2 (y0 : list R) : res R := p <- xi13 y0 ;; Ok (snd p - 2 * fst p + 1).
Definition natural_constraint_g (y0 : list R) : res R := p <- xi13 y0 ;; Ok (snd p - 2 * fst p ^ 2 + 1).

(** utils.py:75-84 : check_loads; the warnings issued, in order *)
Inductive warning := NoCompression | NotNormalised.
Definition check_loads (Nxx Nyy Nxy : R) : list warning :=
  (if Rle_dec 0 Nxx then if Rle_dec 0 Nyy then if Req_EM_T Nxy 0 then [NoCompression] else [] else [] else []) ++
  (if Rlt_dec 1 (Rabs Nxx) then [NotNormalised] else if Rlt_dec 1 (Rabs Nyy) then [NotNormalised] else if Rlt_dec 1 (Rabs Nxy) then [NotNormalised] else []).

(** utils.py:87-104 : _constraint *)
Definition constraint_mask (xi1 xi3 : R) (penalty : bool) : bool :=
  let g_natural := xi3 - 2 * xi1 ^ 2 + 1 in
  let g1 := xi3 + 2 * xi1 + 1 in
  let g2 := xi3 - 2 * xi1 + 1 in
  let g := if negb penalty then g_natural else if Rlt_dec xi1 0 then g1 else g2 in
  if Rlt_dec g 0 then false else true.

(** material.py:59-85 on exact reals, with the five allowables left at 0 *)
Definition ortho_real (E1 E2 v12 G12 thickness : R) : res omat :=
  if Rlt_dec E1 0 then Err ValueError else
  if Rlt_dec E2 0 then Err ValueError else
  if Rlt_dec v12 (-1/2) then Err ValueError else if Rlt_dec (1/2) v12 then Err ValueError else
  if Rlt_dec G12 0 then Err ValueError else
  if Rlt_dec thickness 0 then Err ValueError else
  _ <- pydiv E2 E1 ;;
  Ok (OMat E1 E2 v12 G12 thickness 0 0 0 0 0).
(** structure.py:97-105 on exact reals: the checks of a, b, m, n *)
Definition plate_real (a b : R) (m n : nat) : res unit :=
  if Rlt_dec a 0 then Err ValueError else if Rlt_dec b 0 then Err ValueError else
  if Nat.ltb m 1 then Err ValueError else if Nat.ltb n 1 then Err ValueError else Ok tt.

Section Opt.
Variables (eigsh : solver) (t : tables RA).

(** utils.py:11-24 : Ncr_from_lp; [0][0] takes the first of the (default five) factors *)
Definition Ncr_from_lp (a b T : R) (m n : nat) (xi1 xi3 E1 E2 v12 G12 Nxx Nyy Nxy : R) (c : constraints) : res ext :=
  mat1 <- ortho_real E1 E2 v12 G12 (1/10) ;;
  laminate1 <- construct (SDict [("xiD", DVec [xi1; 0; xi3; 0]); ("T", DNum T)]%string) (POne (Ortho mat1)) ;;
  _ <- plate_real a b m n ;;
  D <- snd (get_D laminate1) ;;
  r <- buckling_analysis eigsh t (as_arr D) a b Nxx Nyy Nxy c m n 5 ;;
  match fst r with [] => Err IndexError | x :: _ => Ok x end.

(** [(-1) * eig] *)
Definition eneg (x : ext) : ext := match x with Fin r => Fin (-1 * r) | Infinite => Infinite end.
(** the try statements of _maximize_buckling.py:75-78 and _minimize_panel_weight.py:76-79 *)
Definition eig_or_minus1 (x : res ext) : res ext :=
  match x with Err ArpackError => Ok (Fin (-1)) | _ => x end.

(** what is handed to scipy.optimize.minimize: objective, x0, nonlinear constraints with lower and upper bound ([None] for
    np.inf), bounds of the variables *)
Record problem := Problem {
  objective : list R -> res ext; x0 : list R;
  cons : list ((list R -> res ext) * R * option R); bnds : list (R * R) }.
Definition fin1 (f : list R -> res R) (y : list R) : res ext := x <- f y ;; Ok (Fin x).

(** _maximize_buckling.py:13-97 without the plot *)
Definition maximize_buckling_load (a b T E1 E2 v12 G12 Nxx Nyy Nxy : R) (m n : nat) (c : constraints) (penalty : bool)
  : list warning * res problem :=
  (check_loads Nxx Nyy Nxy,
   r <- normalize_critical_load Nxx Nyy Nxy ;;
   let '(Nx, Ny, Nz, _) := r in
   let critical_load y0 :=
     match y0 with
     | [xi1; xi3] => eig <- eig_or_minus1 (Ncr_from_lp a b T m n xi1 xi3 E1 E2 v12 G12 Nx Ny Nz c) ;; Ok (eneg eig)
     | _ => Err ValueError
     end in
   let cs := if penalty then [(fin1 penalty_g1, -1/10000, Some 10000); (fin1 penalty_g2, -1/10000, Some 10000)]
             else [(fin1 natural_constraint_g, -1/10000, Some 10000)] in
   Ok (Problem critical_load [0; 0] cs [(-1, 1); (-1, 1)])).

(** _minimize_panel_weight.py:13-15 : _objective_function; [T, *_ = y0] *)
Definition objective_function (y0 : list R) : res ext :=
  match y0 with T :: _ => Ok (Fin (T ^ 3)) | [] => Err ValueError end.
(** _minimize_panel_weight.py:18-91 *)
Definition minimize_panel_weight (a b E1 E2 v12 G12 Nxx Nyy Nxy : R) (m n : nat) (start : list R) (c : constraints)
  : list warning * res problem :=
  (check_loads Nxx Nyy Nxy,
   r <- normalize_critical_load Nxx Nyy Nxy ;;
   let '(Nx, Ny, Nz, max_load) := r in
   let critical_load y0 :=
     match y0 with
     | [T; xi1; xi3] => eig_or_minus1 (Ncr_from_lp a b T m n xi1 xi3 E1 E2 v12 G12 Nx Ny Nz c)
     | _ => Err ValueError
     end in
   Ok (Problem objective_function start
         [(critical_load, max_load, None); (fin1 penalty_g1, -1/10000, Some 10000); (fin1 penalty_g2, -1/10000, Some 10000)]
         [(1/1000, 1000000); (-1, 1); (-1, 1)])).

(** np.linspace(-1., 1., p) *)
Definition linspace (p : nat) : list R :=
  map (fun i => match p with 1%nat => -1 | _ => -1 + INR i * (2 / INR (p - 1)) end) (seq 0 p).
(** utils.py:108-152 : the data of the contour plot: the arrays xi1_arr, xi3_arr and Nx_arr ([None] for nan). The loads are
    those given by the user (call at _maximize_buckling.py:94-95). [n_valid_points] is the integer part of the square root *)
Definition plot_optimization (a b T : R) (m n : nat) (E1 E2 v12 G12 Nxx Nyy Nxy : R) (c : constraints) (p : nat) (penalty : bool)
  : res (list (list R) * list (list R) * list (list (option ext))) :=
  let x := linspace p in
  pts <- mapM (fun q => if constraint_mask (fst q) (snd q) penalty
                        then v <- Ncr_from_lp a b T m n (fst q) (snd q) E1 E2 v12 G12 Nxx Nyy Nxy c ;; Ok (q, Some v)
                        else Ok (q, None)) (list_prod x x) ;;
  let k := Nat.sqrt (List.length pts) in
  Nx <- reshape k k (map snd pts) ;;
  X1 <- reshape k k (map (fun r => fst (fst r)) pts) ;;
  X3 <- reshape k k (map (fun r => snd (fst r)) pts) ;;
  Ok (X1, X3, Nx).
End Opt.
