(** composipy/core/structure.py:367-408 : PlateStructure.buckling_analysis in binary64. The eigen-solver scipy.sparse.linalg.eigsh is an
    argument; csr_matrix (line 387) keeps the entries and is left out, as are the printed times. *)
From Coq Require Import ZArith List.
From Flocq Require Import IEEE754.BinarySingleNaN.
From Verif Require Import M_Py M_Plate M_K M_Expr M_Float M_FloatArith.
Import ListNotations.

(** eigsh(A, k, which='SM', M, tol=0, sigma=1., mode='cayley') as called at structure.py:397-398: arguments A, M, k; result the eigenvalues
    and the array holding the eigenvectors as columns, given by rows *)
Definition fsolver := list (list f64) -> list (list f64) -> Z -> res (list f64 * list (list f64)).
(** structure.py:400 : -1./x on a numpy float; division by zero gives an infinity and no exception *)
Definition fneg_recip (x : f64) : f64 := fdiv (fopp (f_of_Z 1)) x.
(** structure.py:385-408; [num] is num_eigvalues *)
Definition buckling_float (eigsh : fsolver) (pow : f64 -> nat -> res f64) (dec : Z -> Z -> f64) (D : nat -> nat -> f64) (a b Nxx Nyy Nxy : f64)
  (c : constraints) (m n : nat) (num : Z) : res (list f64 * list (list f64)) :=
  kk <- calc_K_KG_D (stored (FA pow) dec) D a b Nxx Nyy Nxy c m n ;;
  let k := Z.min num (Z.of_nat (length (snd kk)) - 2) in
  r <- eigsh (snd kk) (fst kk) k ;;
  Ok (map fneg_recip (fst r), snd r).
