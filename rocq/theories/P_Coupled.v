(** The theorems on leaving out the coupling of bending and stretching.
    Statements only: every proof is [exact] a lemma of T_Coupled.v with the same statement.
    Below each theorem, Print Assumptions lists the axioms it uses. *)
From Coq Require Import QArith Qreals Reals ZArith Lra Lia String Classical FunctionalExtensionality.
From Coquelicot Require Import Coquelicot.
From Coq Require Import List.
From Verif Require Import M_Py M_Material M_Laminate M_Plate M_K M_Expr M_RealArith S_Mat S_Material S_Laminate S_Plate S_Bardell S_Energy S_K S_Ritz S_Eigen S_Compare S_Limit S_Sens S_Coupled.
Import ListNotations.
Open Scope R_scope.
From Verif Require T_Coupled.

(** C89: for every layup of admissible plies the attributes A, B and D leave a reduced bending stiffness D - B A^-1 B, only one; it is symmetric,
    positive definite and no stiffer than D, and it is D itself when B is zero. *)
Theorem C89_reduced : forall l A B D, l <> [] -> all_admissible l -> A_of l = Ok A -> B_of l = Ok B -> D_of l = Ok D ->
  exists D', reduced A B D D' /\ (forall D2, reduced A B D D2 -> D2 = D') /\ symmetric D' /\ pos_def D' /\ no_stiffer D' D /\ (B = mzero -> D' = D).
Proof. exact T_Coupled.t_C89_reduced. Qed.
Print Assumptions C89_reduced.

(** C89: however the edges hold the points of the plate along its plane, the load that the plate with coupling carries lies between the limits of
    two plates without coupling: one with the reduced stiffness and one with D, the matrix buckling_analysis works with. *)
Theorem C89_between : forall (A B D D' : mat3) a b Nxx Nyy Nxy c0 ca d0 db V L L', 0 < a -> 0 < b -> symmetric A -> pos_semidef A -> reduced A B D D' -> pos_semidef D' -> edges_admit V ->
  stability_limit D a b Nxx Nyy Nxy c0 ca d0 db L -> stability_limit D' a b Nxx Nyy Nxy c0 ca d0 db L' ->
  exists C, coupled_limit A B D a b Nxx Nyy Nxy c0 ca d0 db V C /\ L' <= C <= L /\ (forall C2, coupled_limit A B D a b Nxx Nyy Nxy c0 ca d0 db V C2 -> C2 = C) /\
    (forall s, 0 <= s -> (coupled_stable A B D a b Nxx Nyy Nxy c0 ca d0 db V s <-> s <= C)).
Proof. exact T_Coupled.t_C89_between. Qed.
Print Assumptions C89_between.

(** C89: so buckling_analysis, which assembles its matrices from D alone, is never on the safe side: with exact integrals the plate with coupling
    buckles at or below the factor of every plate it is compared with, whatever the edges and the numbers of functions. *)
Theorem C89_unsafe : forall (A B D : mat3) a b Nxx Nyy Nxy c c0 ca d0 db V C m n l, plate_any D a b c c0 ca d0 db -> edges_admit V ->
  coupled_limit A B D a b Nxx Nyy Nxy c0 ca d0 db V C -> critical D a b Nxx Nyy Nxy c m n l -> C <= l.
Proof. exact T_Coupled.t_C89_unsafe. Qed.
Print Assumptions C89_unsafe.

(** C89: when B is a multiple of A, as for layers of proportional stiffness, the lower of the two limits is exact if the edges may move along the
    plate, whatever holds the deflection ... *)
Theorem C89_movable : forall k (A D : mat3) a b Nxx Nyy Nxy c0 ca d0 db L, 0 < a -> 0 < b -> symmetric A -> pos_semidef A ->
  stability_limit (madd D (mneg (mscale (k ^ 2) A))) a b Nxx Nyy Nxy c0 ca d0 db L ->
  edges_admit movable /\ coupled_limit A (mscale k A) D a b Nxx Nyy Nxy c0 ca d0 db movable L.
Proof. exact T_Coupled.t_C89_movable. Qed.
Print Assumptions C89_movable.

(** C89: ... and for a plate clamped all round, whatever its edges do along the plate: they may be free, immovable or anything between. *)
Theorem C89_clamped : forall k (A D : mat3) a b Nxx Nyy Nxy V L, 0 < a -> 0 < b -> symmetric A -> pos_semidef A ->
  edges_admit V -> (forall u v, immovable a b u v -> V u v) -> stability_limit (madd D (mneg (mscale (k ^ 2) A))) a b Nxx Nyy Nxy Clamped Clamped Clamped Clamped L ->
  coupled_limit A (mscale k A) D a b Nxx Nyy Nxy Clamped Clamped Clamped Clamped V L.
Proof. exact T_Coupled.t_C89_clamped. Qed.
Print Assumptions C89_clamped.

(** C89: a layer of thickness h with a second one of thickness t and s times its stiffness, clamped all round, buckles at a share of the limit of the
    plate with the same D and no coupling, however its edges are held along the plate: the share the stiffness about the neutral surface has
    of the stiffness about the middle. *)
Theorem C89_two_layers : forall s th m m2 A B D a b Nxx Nyy Nxy V L, 0 < s -> S_Laminate.admissible m -> 0 < thickness m2 -> same_stiffness m2 (scaled s m) -> let l := [(th, m); (th, m2)] in
  A_of l = Ok A -> B_of l = Ok B -> D_of l = Ok D -> 0 < a -> 0 < b -> edges_admit V -> (forall u v, immovable a b u v -> V u v) ->
  stability_limit D a b Nxx Nyy Nxy Clamped Clamped Clamped Clamped L ->
  coupled_limit A B D a b Nxx Nyy Nxy Clamped Clamped Clamped Clamped V (share (thickness m) (thickness m2) s * L).
Proof. exact T_Coupled.t_C89_two_layers. Qed.
Print Assumptions C89_two_layers.

(** C89: buckling_analysis can be any number of times too high: for every k there is a clamped plate of two layers, a thin stiff one on a soft one,
    whose factor from D, whatever the numbers of functions, is at least k times the load at which it buckles. *)
Theorem C89_safe_refuted : forall k, exists m s m2 A B D C, let l := [(0, m); (0, m2)] in S_Laminate.admissible m /\ 0 < s /\ 0 < thickness m2 /\ same_stiffness m2 (scaled s m) /\
  A_of l = Ok A /\ B_of l = Ok B /\ D_of l = Ok D /\
  coupled_limit A B D 2 1 (-1) 0 0 Clamped Clamped Clamped Clamped (immovable 2 1) C /\
  (exists m n f, critical D 2 1 (-1) 0 0 (CStr "CLAMPED") m n f) /\ (forall m n f, critical D 2 1 (-1) 0 0 (CStr "CLAMPED") m n f -> k * C <= f).
Proof. exact T_Coupled.t_C89_safe_refuted. Qed.
Print Assumptions C89_safe_refuted.

(** C89: for any layup of admissible plies: once a plate has a factor at all, the load it carries with its coupling exists, is the same whatever the
    numbers of functions, and no factor from D lies below it. *)
Theorem C89_layup : forall l A B D a b Nxx Nyy Nxy c c0 ca d0 db V m n f, l <> [] -> all_admissible l -> A_of l = Ok A -> B_of l = Ok B -> D_of l = Ok D ->
  0 < a -> 0 < b -> specifies c c0 ca d0 db -> restrained c0 ca d0 db -> edges_admit V -> critical D a b Nxx Nyy Nxy c m n f ->
  exists C, coupled_limit A B D a b Nxx Nyy Nxy c0 ca d0 db V C /\ (forall s, 0 <= s -> (coupled_stable A B D a b Nxx Nyy Nxy c0 ca d0 db V s <-> s <= C)) /\
    (forall m' n' f', critical D a b Nxx Nyy Nxy c m' n' f' -> C <= f') /\
    (B = mzero -> forall eps, 0 < eps -> exists M, forall m' n', (M <= m')%nat -> (M <= n')%nat -> exists f', critical D a b Nxx Nyy Nxy c m' n' f' /\ C <= f' < C + eps).
Proof. exact T_Coupled.t_C89_layup. Qed.
Print Assumptions C89_layup.

(** C89 example: a clamped plate of 2 by 1, of two layers of equal thickness, one three times as stiff as the other. It carries 13/16 of the limit
    computed from D. *)
Example C89_ex : exists m m2 A B D L, let l := [(0, m); (0, m2)] in S_Laminate.admissible m /\ thickness m2 = thickness m /\ same_stiffness m2 (scaled 3 m) /\
  A_of l = Ok A /\ B_of l = Ok B /\ D_of l = Ok D /\ B <> mzero /\
  plate_any D 2 1 (CStr "CLAMPED") Clamped Clamped Clamped Clamped /\ stability_limit D 2 1 (-1) 0 0 Clamped Clamped Clamped Clamped L /\ edges_admit (immovable 2 1) /\
  coupled_limit A B D 2 1 (-1) 0 0 Clamped Clamped Clamped Clamped (immovable 2 1) (13 / 16 * L).
Proof. exact T_Coupled.t_C89_ex. Qed.
