(** Vocabulary for the buckling problem (K + l KG) v = 0, and what scipy documents about eigsh. *)
From Coq Require Import Reals ZArith Sorting.Sorted List.
From Verif Require Import M_Py M_K M_RealArith M_Plot M_Buckling S_K S_Mat S_Ritz.
Import ListNotations.
Open Scope R_scope.

Definition mat_vec (M : list (list R)) (v : list R) : list R := map (fun row => dot_list row v) M.
Definition inner (M : list (list R)) (u v : list R) : R := dot_list u (mat_vec M v).
Definition pos_def_rows (M : list (list R)) : Prop := forall c, length c = length M -> nonzero c -> 0 < quad_rows M c.
(** two symmetric matrices of the same size, the first positive definite *)
Record pencil (K KG : list (list R)) : Prop := {
  pen_K : square (length K) K; pen_KG : square (length K) KG;
  pen_symK : sym_rows K; pen_symKG : sym_rows KG; pen_def : pos_def_rows K }.

(** v buckles under l times the loads *)
Definition buckles (K KG : list (list R)) (l : R) (v : list R) : Prop :=
  length v = length K /\ nonzero v /\ map2 (fun k g => k + l * g) (mat_vec K v) (mat_vec KG v) = repeat 0 (length K).
Definition factor (K KG : list (list R)) (l : R) : Prop := exists v, buckles K KG l v.
Definition smallest_factor (K KG : list (list R)) (l : R) : Prop :=
  0 < l /\ factor K KG l /\ forall l', 0 < l' -> factor K KG l' -> l <= l'.

(** A v = mu M v *)
Definition gen_pair (A M : list (list R)) (mu : R) (v : list R) : Prop :=
  length v = length M /\ nonzero v /\ mat_vec A v = map (Rmult mu) (mat_vec M v).
(** scipy.sparse.linalg.eigsh, parameter mode='cayley': "which" refers to w' = (w + sigma) / (w - sigma); here sigma = 1 *)
Definition cayley (mu : R) : R := (mu + 1) / (mu - 1).
(** the documented result for which='SM', sigma=1, mode='cayley': k eigenpairs, M-orthogonal eigenvectors, those of smallest
    magnitude of w', eigenvalues in ascending order. An eigenvalue equal to sigma has no finite w'. *)
Record eigsh_result (A M : list (list R)) (k : nat) (vals : list R) (vecs : list (list R)) : Prop := {
  er_count : length vals = k;
  er_pairs : forall j mu, nth_error vals j = Some mu -> mu <> 1 /\ exists v, column vecs j = Ok v /\ gen_pair A M mu v;
  er_orth : forall i j u v, (i < k)%nat -> (j < k)%nat -> i <> j -> column vecs i = Ok u -> column vecs j = Ok v -> inner M u v = 0;
  er_select : forall mu v, gen_pair A M mu v -> mu <> 1 ->
    (forall j u, (j < k)%nat -> column vecs j = Ok u -> inner M u v = 0) ->
    forall mu', In mu' vals -> Rabs (cayley mu') <= Rabs (cayley mu);
  er_sorted : StronglySorted Rle vals }.
(** k <= 0 raises ValueError; a result on a symmetric pencil with positive definite M is as documented *)
Definition documented (eigsh : solver) : Prop := forall A M k,
  ((k <= 0)%Z -> eigsh A M k = Err ValueError) /\
  (forall vals vecs, pencil M A -> eigsh A M k = Ok (vals, vecs) -> eigsh_result A M (Z.to_nat k) vals vecs).
