(** composipy/core/structure.py:410-440 : the values plotted by PlateStructure.plot_eigenvalue, over exact reals. The
    drawing itself is not modelled. *)
From Coq Require Import Reals ZArith Arith List.
From Verif Require Import M_Py M_K M_Expr M_RealArith.
Import ListNotations.
Open Scope R_scope.

(** np.linspace(-1, 1, n) *)
Definition linspace (n : nat) : list R := map (fun i => -1 + INR i * (2 / (INR n - 1))) (seq 0 n).
(** np.meshgrid(xs, ys): both arrays have len(ys) rows and len(xs) columns *)
Definition mesh_x (xs ys : list R) : list (list R) := map (fun _ => xs) ys.
Definition mesh_y (xs ys : list R) : list (list R) := map (fun y => map (fun _ => y) xs) ys.
(** m[i, j] *)
Definition get2 {X} (m : list (list X)) (i j : nat) : res X := r <- get m i ;; get r j.

(** sw @ cw_values: ValueError unless the lengths agree *)
Definition matmul (s c : list R) : res R :=
  if Nat.eqb (length s) (length c) then Ok (fold_right Rplus 0 (map (fun p => fst p * snd p) (combine s c))) else Err ValueError.

(** structure.py:426-427 : one plotted value *)
Definition plot_point (sw_idx : list (nat * nat)) (cw : list R) (xi eta : R) : res R :=
  s <- sxieta (A := RA) Rdec sw_idx xi eta ;; matmul s cw.

(** eigenvector[:, nth], the array given by rows *)
Definition column {X} (rows : list (list X)) (nth : nat) : res (list X) := mapM (fun r => get r nth) rows.

(** structure.py:415-428 : z, after the analysis has stored the eigenvectors and the index list. With fewer coefficients than functions the
    slice of line 418 has a negative start; whatever it takes is too short and ends in the same ValueError as here (C101_lengths). *)
Definition plot_values (eigenvector : list (list R)) (sw_idx : list (nat * nat)) (nth ngridx ngridy : nat)
  : res (list (list R)) :=
  c <- column eigenvector nth ;;
  let cw := skipn (length c - length sw_idx) c in
  let xs := linspace ngridx in
  let ys := linspace ngridy in
  mapM (fun i => mapM (fun j => x <- get2 (mesh_x xs ys) i j ;;
                                y <- get2 (mesh_y xs ys) i j ;;
                                plot_point sw_idx cw x y) (seq 0 ngridy)) (seq 0 ngridx).
