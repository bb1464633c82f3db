(** The buckling problem of a plate whose bending and stretching are coupled: the deflection may drag points along the plate. *)
From Coq Require Import Reals.
From Coquelicot Require Import Coquelicot.
From Verif Require Import S_Mat S_Plate S_Energy S_Limit.
Open Scope R_scope.

(** u has continuous first derivatives *)
Definition differentiable (u : field) : Prop := exists ux uy : field,
  (forall x y : R, is_derive (fun t => u t y) x (ux x y)) /\ (forall x y : R, is_derive (fun t => u x t) y (uy x y)) /\
  (forall x y, continuity_2d_pt ux x y) /\ (forall x y, continuity_2d_pt uy x y).
(** the displacements along the plate that its edges admit; the plate may in any case stay where it is *)
Record edges_admit (V : field -> field -> Prop) : Prop := {
  adm_still : V still still;
  adm_smooth : forall u v, V u v -> differentiable u /\ differentiable v }.
(** no point of an edge moves along the plate *)
Definition immovable (a b : R) (u v : field) : Prop := differentiable u /\ differentiable v /\
  (forall y, 0 <= y <= b -> u 0 y = 0 /\ v 0 y = 0 /\ u a y = 0 /\ v a y = 0) /\ (forall x, 0 <= x <= a -> u x 0 = 0 /\ v x 0 = 0 /\ u x b = 0 /\ v x b = 0).
(** all points of the edges are free to move along the plate *)
Definition movable (u v : field) : Prop := differentiable u /\ differentiable v.

(** the energy stored in the laminate and the work of the loads, for every admitted displacement *)
Definition coupled_stable (A B D : mat3) (a b Nxx Nyy Nxy : R) (c0 ca d0 db : condition) (V : field -> field -> Prop) (s : R) : Prop :=
  forall u v w, V u v -> deflection a b c0 ca d0 db w ->
    0 <= coupled A B D a b (Disp u v w) (Disp u v w) + s * load_work Nxx Nyy Nxy a b w w.
Definition coupled_limit (A B D : mat3) (a b Nxx Nyy Nxy : R) (c0 ca d0 db : condition) (V : field -> field -> Prop) (L : R) : Prop :=
  0 < L /\ coupled_stable A B D a b Nxx Nyy Nxy c0 ca d0 db V L /\
  forall L', L < L' -> ~ coupled_stable A B D a b Nxx Nyy Nxy c0 ca d0 db V L'.

(** the bending stiffness left when the plate stretches as the moments want: D - B A^-1 B *)
Definition reduced (A B D D' : mat3) : Prop := exists P, mmul A P = B /\ D' = madd D (mneg (mmul (mtrans P) B)).
(** a layer of thickness h joined to one of thickness t and s times its stiffness: the bending stiffness about the neutral surface, own share of each
    layer and share of their distance, over that about the middle of the laminate *)
Definition share (h t s : R) : R := (h ^ 3 + s * t ^ 3 + 3 * (h * (s * t) / (h + s * t)) * (h + t) ^ 2) / (h ^ 3 + 3 * h * t ^ 2 + s * (t ^ 3 + 3 * t * h ^ 2)).
