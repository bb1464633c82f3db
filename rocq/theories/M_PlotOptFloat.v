(** composipy/optimize/utils.py:108-152 in binary64 : the arrays of the contour plot drawn by maximize_buckling_load(plot=True). The drawing and the point
    kept in init_args, which is never used, are not modelled. *)
From Coq Require Import ZArith String.
From Flocq Require Import IEEE754.BinarySingleNaN.
From Coq Require Import List.
From Verif Require Import M_Py M_Plate M_K M_Float M_Validate M_OptFloat M_BucklingFloat M_NcrFloat M_PlotFloat.
Import ListNotations.

(** utils.py:146 : int(np.sqrt(n)); the square root is correctly rounded, int drops the fraction *)
Definition int_sqrt (n : nat) : nat := Z.to_nat (Btrunc (@Bsqrt 53 1024 f64_prec f64_emax mode_NE (f_of_Z (Z.of_nat n)))).

(** np.linspace(start, start + 1, n): arange(0, n) * (1.0 / (n - 1)) + start, after which the last point is set *)
Definition flinspace1 (start : Z) (n : nat) : list f64 :=
  let step := if Nat.eqb n 1 then f_of_Z 1 else fdiv (f_of_Z 1) (f_of_Z (Z.of_nat n - 1)) in
  map (fun i => if (Nat.ltb 1 n && Nat.eqb (S i) n)%bool then f_of_Z (start + 1) else fadd (fmul (f_of_Z (Z.of_nat i)) step) (f_of_Z start)) (seq 0 n).
(** utils.py:134-143 : the boundary curves g1_xi1, g1_xi3, g2_xi1, g2_xi3 *)
Definition boundary_f (pow : f64 -> nat -> res f64) (points_to_plot : nat) (penalty : bool) : res (list f64 * list f64 * list f64 * list f64) :=
  let g1_xi1 := flinspace1 (-1) points_to_plot in
  let g2_xi1 := flinspace1 0 points_to_plot in
  let parabola x := s <- pow x 2 ;; Ok (fsub (fmul (f_of_Z 2) s) fone) in
  g1_xi3 <- (if penalty then Ok (map (fun x => fsub (fmul (f_of_Z (-2)) x) fone) g1_xi1) else mapM parabola g1_xi1) ;;
  g2_xi3 <- (if penalty then Ok (map (fun x => fsub (fmul (f_of_Z 2) x) fone) g2_xi1) else mapM parabola g2_xi1) ;;
  Ok (g1_xi1, g1_xi3, g2_xi1, g2_xi3).

Section Lp.
Variables (parse : string -> option f64) (eigsh : fsolver) (pow : f64 -> nat -> res f64) (dec : Z -> Z -> f64).
(** utils.py:108-152 : xi1_arr, xi3_arr and Nx_arr. The loads are those given by the user (call at _maximize_buckling.py:94-95); no exception is caught *)
Definition plot_optimization_f (a b T : f64) (m n : nat) (E1 E2 v12 G12 Nxx Nyy Nxy : f64) (c : constraints) (points_to_plot : nat) (penalty : bool)
  : res (list (list f64) * list (list f64) * list (list f64)) :=
  let x := flinspace points_to_plot in
  pts <- mapM (fun q => ok <- mask_f pow (fst q) (snd q) penalty ;;
                        if (ok : bool) then v <- Ncr_from_lp_f parse eigsh pow dec a b T m n (fst q) (snd q) E1 E2 v12 G12 Nxx Nyy Nxy c ;; Ok (q, v)
                        else Ok (q, fnan)) (list_prod x x) ;;
  let k := int_sqrt (List.length pts) in
  Nx <- reshape k k (map snd pts) ;;
  X1 <- reshape k k (map (fun r => fst (fst r)) pts) ;;
  X3 <- reshape k k (map (fun r => snd (fst r)) pts) ;;
  Ok (X1, X3, Nx).
End Lp.
