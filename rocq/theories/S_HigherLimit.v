(** The buckling problem of the continuous plate above its first factor. *)
From Coq Require Import Reals.
From Coquelicot Require Import Coquelicot.
From Coq Require Import List.
From Verif Require Import S_K S_Ritz S_Plate S_Mat S_Energy S_Limit.
Import ListNotations.
Open Scope R_scope.

(** the combination of the fields ws with coefficients cs *)
Definition blend (cs : list R) (ws : list field) : field := fun x y => rsum (map2 (fun c w => c * w x y) cs ws).
(** under t times the loads the energy of the continuous plate is negative on a space of j dimensions: on all combinations, but the
    vanishing one, of j smooth deflections *)
Definition unstable_plate (D : mat3) (a b Nxx Nyy Nxy : R) (c0 ca d0 db : condition) (t : R) (j : nat) : Prop :=
  exists ws : list field, length ws = j /\ Forall (deflection a b c0 ca d0 db) ws /\
    forall cs, length cs = j -> nonzero cs ->
      let w := blend cs ws in bending D a b w w + t * load_work Nxx Nyy Nxy a b w w < 0.
(** L is the multiplier of the loads above which that happens and below which it does not *)
Definition higher_limit (D : mat3) (a b Nxx Nyy Nxy : R) (c0 ca d0 db : condition) (j : nat) (L : R) : Prop :=
  0 < L /\ (forall t, 0 <= t < L -> ~ unstable_plate D a b Nxx Nyy Nxy c0 ca d0 db t j) /\
  (forall t, L < t -> unstable_plate D a b Nxx Nyy Nxy c0 ca d0 db t j).
(** Ls are these multipliers for 1, 2, 3, ... dimensions *)
Definition higher_limits (D : mat3) (a b Nxx Nyy Nxy : R) (c0 ca d0 db : condition) (Ls : list R) : Prop :=
  forall j L, nth_error Ls j = Some L -> higher_limit D a b Nxx Nyy Nxy c0 ca d0 db (S j) L.
(** the loads do work on a space of j dimensions of smooth deflections *)
Definition driven (a b Nxx Nyy Nxy : R) (c0 ca d0 db : condition) (j : nat) : Prop :=
  exists ws : list field, length ws = j /\ Forall (deflection a b c0 ca d0 db) ws /\
    forall cs, length cs = j -> nonzero cs -> load_work Nxx Nyy Nxy a b (blend cs ws) (blend cs ws) < 0.
