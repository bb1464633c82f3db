(** composipy/core/structure.py:367-408 : PlateStructure.buckling_analysis over exact reals. The eigen-solver
    scipy.sparse.linalg.eigsh is an argument of the model; the printing of times is not modelled. *)
From Coq Require Import Reals ZArith List.
From Verif Require Import M_Py M_Plate M_K M_RealArith.
Import ListNotations.
Open Scope R_scope.

(** a numpy float that may be infinite *)
Inductive ext := Fin (x : R) | Infinite.
(** structure.py:400 : -1./mu on a numpy float; division by zero gives an infinity *)
Definition neg_recip (mu : R) : ext := if Req_EM_T mu 0 then Infinite else Fin (-1 / mu).

(** eigsh(A, k, which='SM', M, tol=0, sigma=1., mode='cayley') as called at structure.py:397-398: arguments A, M, k; result
    the eigenvalues and the array holding the eigenvectors as columns, given by rows *)
Definition solver := list (list R) -> list (list R) -> Z -> res (list R * list (list R)).

(** structure.py:385-408; [num] is num_eigvalues *)
Definition buckling_analysis (eigsh : solver) (t : tables RA) (D : @arr RA) (a b Nxx Nyy Nxy : R) (c : constraints) (m n : nat) (num : Z)
  : res (list ext * list (list R)) :=
  kk <- calc_K_KG_D t D a b Nxx Nyy Nxy c m n ;;
  let k := Z.min num (Z.of_nat (length (snd kk)) - 2) in
  r <- eigsh (snd kk) (fst kk) k ;;
  Ok (map neg_recip (fst r), snd r).
