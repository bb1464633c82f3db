(** The mirror images of plates and of the exchange of the axes.
    Statements only: every proof is [exact] a lemma of T_Mirror.v with the same statement.
    Below each theorem, Print Assumptions lists the axioms it uses. *)
From Coq Require Import QArith Qreals Reals ZArith Lra Lia Bool String FunctionalExtensionality.
From Coquelicot Require Import Coquelicot.
From Coq Require Import List.
From Verif Require Import M_Py M_Material M_Laminate S_Laminate M_Plate M_K M_RealArith M_Plot M_Buckling M_Tables S_Plate S_Mat S_Bardell S_Energy S_K S_Ritz S_Eigen S_Compare S_Space S_Mirror.
Import ListNotations.
Open Scope R_scope.
From Verif Require T_Mirror.

(** C80: a mirror image. Reversing the x axis exchanges the conditions of the edges x = 0 and x = a, changes the sign of the shear
    couplings of D and of the shear load, and leaves the critical factor as it was (at least four functions reached in each direction). *)
Theorem C80_mirror : forall (D : mat3) a b Nxx Nyy Nxy c c' c0 ca d0 db m n l, plate_any D a b c c0 ca d0 db -> specifies c' ca c0 d0 db ->
  (4 <= m + taken c0 + taken ca)%nat -> (4 <= n + taken d0 + taken db)%nat ->
  (critical D a b Nxx Nyy Nxy c m n l <-> critical (mirrored D) a b Nxx Nyy (- Nxy) c' m n l).
Proof. exact T_Mirror.t_C80_mirror. Qed.
Print Assumptions C80_mirror.

(** C80: exchange of the axes. Exchanging the sides, the edge conditions, the normal loads, the numbers of functions and the entries
    of D that belong to x and to y leaves the critical factor as it was, for all numbers of functions. *)
Theorem C80_exchange : forall (D : mat3) a b Nxx Nyy Nxy c c' c0 ca d0 db m n l, plate_any D a b c c0 ca d0 db -> specifies c' d0 db c0 ca ->
  (critical D a b Nxx Nyy Nxy c m n l <-> critical (exchanged D) b a Nyy Nxx Nxy c' n m l).
Proof. exact T_Mirror.t_C80_exchange. Qed.
Print Assumptions C80_exchange.

(** C80: the same for the y axis. *)
Theorem C80_mirror_y : forall (D : mat3) a b Nxx Nyy Nxy c c' c0 ca d0 db m n l, plate_any D a b c c0 ca d0 db -> specifies c' c0 ca db d0 ->
  (4 <= m + taken c0 + taken ca)%nat -> (4 <= n + taken d0 + taken db)%nat ->
  (critical D a b Nxx Nyy Nxy c m n l <-> critical (mirrored D) a b Nxx Nyy (- Nxy) c' m n l).
Proof. exact T_Mirror.t_C80_mirror_y. Qed.
Print Assumptions C80_mirror_y.

(** C80: a plate turned by half a turn (both pairs of opposite edges exchanged) has the same critical factor under the same loads. *)
Theorem C80_half_turn : forall (D : mat3) a b Nxx Nyy Nxy c c' c0 ca d0 db m n l, plate_any D a b c c0 ca d0 db -> specifies c' ca c0 db d0 ->
  (4 <= m + taken c0 + taken ca)%nat -> (4 <= n + taken d0 + taken db)%nat ->
  (critical D a b Nxx Nyy Nxy c m n l <-> critical D a b Nxx Nyy Nxy c' m n l).
Proof. exact T_Mirror.t_C80_half_turn. Qed.
Print Assumptions C80_half_turn.

(** C80: a quarter turn. *)
Theorem C80_quarter_turn : forall (D : mat3) a b Nxx Nyy Nxy c c' c0 ca d0 db m n l, plate_any D a b c c0 ca d0 db -> specifies c' db d0 c0 ca ->
  (4 <= m + taken c0 + taken ca)%nat -> (4 <= n + taken d0 + taken db)%nat ->
  (critical D a b Nxx Nyy Nxy c m n l <-> critical (mirrored (exchanged D)) b a Nyy Nxx (- Nxy) c' n m l).
Proof. exact T_Mirror.t_C80_quarter_turn. Qed.
Print Assumptions C80_quarter_turn.

(** C80: without shear coupling in D, and with equal conditions on two opposite edges, the sign of the shear load does not matter. *)
Theorem C80_shear_sign : forall (D : mat3) a b Nxx Nyy Nxy c c0 ca d0 db m n l, plate_any D a b c c0 ca d0 db -> a13 D = 0 -> a23 D = 0 ->
  c0 = ca \/ d0 = db -> (4 <= m + taken c0 + taken ca)%nat -> (4 <= n + taken d0 + taken db)%nat ->
  (critical D a b Nxx Nyy Nxy c m n l <-> critical D a b Nxx Nyy (- Nxy) c m n l).
Proof. exact T_Mirror.t_C80_shear_sign. Qed.
Print Assumptions C80_shear_sign.

(** C80: changing the sign of all angles mirrors A, B and D; replacing each angle by its complement to 90 degrees exchanges the axes in them.
    Reading them raises in the same cases. *)
Theorem C80_angles : forall l, let turn (g : mat3 -> mat3) (M : res mat3) := (M <- M ;; Ok (g M)) in
  (A_of (opposite_angles l) = turn mirrored (A_of l) /\ B_of (opposite_angles l) = turn mirrored (B_of l) /\ D_of (opposite_angles l) = turn mirrored (D_of l)) /\
  (A_of (complementary_angles l) = turn exchanged (A_of l) /\ B_of (complementary_angles l) = turn exchanged (B_of l) /\ D_of (complementary_angles l) = turn exchanged (D_of l)).
Proof. exact T_Mirror.t_C80_angles. Qed.
Print Assumptions C80_angles.

(** C80: from the layup to the critical factor. *)
Theorem C80_laminate : forall l (D : mat3) a b c c0 ca d0 db m n, D_of l = Ok D -> plate_any D a b c c0 ca d0 db ->
  (4 <= m + taken c0 + taken ca)%nat -> (4 <= n + taken d0 + taken db)%nat ->
  (exists D', D_of (opposite_angles l) = Ok D' /\ forall c' Nxx Nyy Nxy f, specifies c' ca c0 d0 db ->
     (critical D a b Nxx Nyy Nxy c m n f <-> critical D' a b Nxx Nyy (- Nxy) c' m n f)) /\
  (exists D', D_of (complementary_angles l) = Ok D' /\ forall c' Nxx Nyy Nxy f, specifies c' d0 db c0 ca ->
     (critical D a b Nxx Nyy Nxy c m n f <-> critical D' b a Nyy Nxx Nxy c' n m f)).
Proof. exact T_Mirror.t_C80_laminate. Qed.
Print Assumptions C80_laminate.

(** C80: what is reported for clamped plates with the stored integrals: if the critical factor is at least one, the analysis of the plate, of its mirror image and
    of the plate with exchanged axes report it first. *)
Theorem C80_reported : forall eigsh (D : mat3) a b Nxx Nyy Nxy c m n num num1 num2 out vecs out1 vecs1 out2 vecs2 l, documented eigsh ->
  plate_ok D a b c Clamped Clamped Clamped Clamped m n -> critical D a b Nxx Nyy Nxy c m n l -> 1 <= l ->
  buckling_analysis eigsh stored_R (as_arr D) a b Nxx Nyy Nxy c m n num = Ok (out, vecs) ->
  buckling_analysis eigsh stored_R (as_arr (mirrored D)) a b Nxx Nyy (- Nxy) c m n num1 = Ok (out1, vecs1) ->
  buckling_analysis eigsh stored_R (as_arr (exchanged D)) b a Nyy Nxx Nxy c n m num2 = Ok (out2, vecs2) ->
  hd_error out = Some (Fin l) /\ hd_error out1 = Some (Fin l) /\ hd_error out2 = Some (Fin l).
Proof. exact T_Mirror.t_C80_reported. Qed.
Print Assumptions C80_reported.

(** C80, refuted for fewer than four functions: with one function in x, a square plate free on x = a and simply supported elsewhere and its mirror image
    have different critical factors. *)
Theorem C80_small_refuted : plate_ok mid 2 2 free_right Pinned Free Pinned Pinned 1 1 /\ specifies free_left Free Pinned Pinned Pinned /\
  exists l, critical mid 2 2 (-1) 0 0 free_right 1 1 l /\ ~ critical (mirrored mid) 2 2 (-1) 0 (- 0) free_left 1 1 l.
Proof. exact T_Mirror.t_C80_small_refuted. Qed.
Print Assumptions C80_small_refuted.

(** C80, concrete instance: a plate clamped on x = 0, free on x = a and simply supported on the others, with three functions in each direction; the
    layup [30, -45] and its images. *)
Example C80_ex : let c s := CDict (Some (EStr s)) (Some (EStr "free")) (Some (EStr "pinned")) (Some (EStr "pinned")) in
  let c' s := CDict (Some (EStr "free")) (Some (EStr s)) (Some (EStr "pinned")) (Some (EStr "pinned")) in
  plate_ok mid 2 1 (c "clamped"%string) Clamped Free Pinned Pinned 3 3 /\ specifies (c' "clamped"%string) Free Clamped Pinned Pinned /\
  (4 <= 3 + taken Clamped + taken Free)%nat /\ (4 <= 3 + taken Pinned + taken Pinned)%nat /\
  opposite_angles [(30, Ortho ex_mat); (-45, Ortho ex_mat)] = [(-30, Ortho ex_mat); (45, Ortho ex_mat)] /\
  complementary_angles [(30, Ortho ex_mat); (-45, Ortho ex_mat)] = [(60, Ortho ex_mat); (135, Ortho ex_mat)].
Proof. exact T_Mirror.t_C80_ex. Qed.
