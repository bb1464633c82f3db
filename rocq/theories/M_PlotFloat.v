(** composipy/core/structure.py:410-440 in binary64 : the points and the values plotted by PlateStructure.plot_eigenvalue. pow, the reading of decimal literals
    and numpy's @ of two vectors are arguments. The drawing itself is not modelled. In the stored texts no two integers above 2^53 meet in one operation, so that
    converting each integer literal to a double is what Python does. *)
From Coq Require Import ZArith Arith List.
From Flocq Require Import IEEE754.BinarySingleNaN.
From Verif Require Import M_Py M_K M_Expr M_Float M_FloatArith M_Plot.
Import ListNotations.

(** np.linspace(-1, 1, n): arange(0, n) * (2.0 / (n - 1)) + (-1), after which the last point is set to 1; for one point arange(0, 1) * 2.0 + (-1) *)
Definition flinspace (n : nat) : list f64 :=
  let step := if Nat.eqb n 1 then f_of_Z 2 else fdiv (f_of_Z 2) (f_of_Z (Z.of_nat n - 1)) in
  map (fun i => if (Nat.ltb 1 n && Nat.eqb (S i) n)%bool then f_of_Z 1 else fadd (fmul (f_of_Z (Z.of_nat i)) step) (f_of_Z (-1))) (seq 0 n).
(** np.meshgrid(xs, ys): both arrays have len(ys) rows and len(xs) columns *)
Definition fmesh_x (xs ys : list f64) : list (list f64) := map (fun _ => xs) ys.
Definition fmesh_y (xs ys : list f64) : list (list f64) := map (fun y => map (fun _ => y) xs) ys.

(** structure.py:415-418 : c_values[len_c_values-len_w:len_c_values]; a negative start counts from the end of c_values *)
Definition last_part {X} (c : list X) (len_w : nat) : list X :=
  if Nat.leb len_w (length c) then skipn (length c - len_w) c else skipn (length c - (len_w - length c)) c.

Section Plot.
Context (pow : f64 -> nat -> res f64) (dec : Z -> Z -> f64) (dot : list f64 -> list f64 -> f64).
(** sw @ cw_values: ValueError unless the lengths agree *)
Definition fmatmul (s c : list f64) : res f64 := if Nat.eqb (length s) (length c) then Ok (dot s c) else Err ValueError.
(** structure.py:426-427 : one plotted value *)
Definition fplot_point (sw_idx : list (nat * nat)) (cw : list f64) (xi eta : f64) : res f64 :=
  s <- sxieta (A := FA pow) dec sw_idx xi eta ;; fmatmul s cw.
(** structure.py:415-428 : z, after the analysis has stored the eigenvectors and the index list *)
Definition fplot_values (eigenvector : list (list f64)) (sw_idx : list (nat * nat)) (nth ngridx ngridy : nat) : res (list (list f64)) :=
  c <- column eigenvector nth ;;
  let cw := last_part c (length sw_idx) in
  let xs := flinspace ngridx in
  let ys := flinspace ngridy in
  mapM (fun i => mapM (fun j => x <- get2 (fmesh_x xs ys) i j ;;
                                y <- get2 (fmesh_y xs ys) i j ;;
                                fplot_point sw_idx cw x y) (seq 0 ngridy)) (seq 0 ngridx).
End Plot.
(** structure.py:431 : (side / 2) * (t + 1), x_mesh entry by entry with the side a; line 432 is the same with eta and the side b *)
Definition fplace (side t : f64) : f64 := fmul (fdiv side (f_of_Z 2)) (fadd t (f_of_Z 1)).
Definition fplot_x (a : f64) (ngridx ngridy : nat) : list (list f64) := map (map (fplace a)) (fmesh_x (flinspace ngridx) (flinspace ngridy)).
Definition fplot_y (b : f64) (ngridx ngridy : nat) : list (list f64) := map (map (fplace b)) (fmesh_y (flinspace ngridx) (flinspace ngridy)).
