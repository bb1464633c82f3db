(** Vocabulary for the buckling factors above the critical one. *)
From Coq Require Import Reals Sorting.Sorted List.
From Verif Require Import M_Py M_Plate M_K M_RealArith S_Plate S_Mat S_K S_Ritz S_Eigen.
Import ListNotations.
Open Scope R_scope.

(** fs are the lowest positive factors, each as often as it has independent modes: they come with modes vs that are orthogonal in K,
    and a mode with a positive factor that is orthogonal to all of vs has a factor not below any of fs *)
Definition lowest (K KG : list (list R)) (fs : list R) : Prop :=
  exists vs : list (list R), length vs = length fs /\
    (forall i l v, nth_error fs i = Some l -> nth_error vs i = Some v -> 0 < l /\ buckles K KG l v) /\
    (forall i j u v, i <> j -> nth_error vs i = Some u -> nth_error vs j = Some v -> inner K u v = 0) /\
    StronglySorted Rle fs /\
    (forall l v, 0 < l -> buckles K KG l v -> (forall u, In u vs -> inner K u v = 0) -> forall l', In l' fs -> l' <= l).
(** the same for the matrices assembled for a plate *)
Definition lowest_factors (D : mat3) (a b Nxx Nyy Nxy : R) (c : constraints) (m n : nat) (fs : list R) : Prop :=
  exists K KG : list (list R), calc_K_KG_D exact_tables (as_arr D) a b Nxx Nyy Nxy c m n = Ok (K, KG) /\ lowest K KG fs.

(** the combination of the vectors vs, of length n, with coefficients cs *)
Definition mix (n : nat) (cs : list R) (vs : list (list R)) : list R :=
  map (fun i => rsum (map2 (fun c v => c * nth i v 0) cs vs)) (seq 0 n).
(** under t times the loads the energy is not positive on a space of j dimensions: the combinations of j independent vectors *)
Definition unstable (K KG : list (list R)) (t : R) (j : nat) : Prop :=
  exists vs : list (list R), length vs = j /\ Forall (fun v => length v = length K) vs /\
    forall cs, length cs = j -> nonzero cs ->
      let x := mix (length K) cs vs in nonzero x /\ quad_rows K x + t * quad_rows KG x <= 0.

(** every direction is compressed *)
Definition compression (p q r : R) : Prop := p < 0 /\ q < 0 /\ r ^ 2 < p * q.
