(** The theorems comparing the critical factors of two plates.
    Statements only: every proof is [exact] a lemma of T_Compare.v with the same statement.
    Below each theorem, Print Assumptions lists the axioms it uses. *)
From Coq Require Import Reals ZArith Lra Lia Bool String Sorting.Sorted Classical.
From Coquelicot Require Import Coquelicot.
From Coq Require Import List.
From Verif Require Import M_Py M_Plate M_K M_RealArith M_Plot M_Buckling S_Plate S_Mat S_Bardell S_Energy S_K S_Ritz S_Eigen S_Compare.
Import ListNotations.
Open Scope R_scope.
From Verif Require T_Compare.

(** C65: a plate with more shape functions, or with the same functions and more because its edges hold less, never has a larger
    critical factor. The sizes are compared by the functions they reach: m plus the functions the x edges take away. *)
Theorem C65_refine : forall (D : mat3) a b Nxx Nyy Nxy c c0 ca d0 db m n c' c0' ca' d0' db' m' n' l,
  plate_any D a b c c0 ca d0 db -> plate_any D a b c' c0' ca' d0' db' ->
  softer c0' c0 -> softer ca' ca -> softer d0' d0 -> softer db' db ->
  (m + taken c0 + taken ca <= m' + taken c0' + taken ca')%nat -> (n + taken d0 + taken db <= n' + taken d0' + taken db')%nat ->
  critical D a b Nxx Nyy Nxy c m n l -> exists l', critical D a b Nxx Nyy Nxy c' m' n' l' /\ l' <= l.
Proof. exact T_Compare.t_C65_refine. Qed.
Print Assumptions C65_refine.

(** C65: so, with a documented solver, the factor reported first never grows under refinement, as long as the refined plate does not
    buckle below the given loads. *)
Theorem C65_reported : forall eigsh (D : mat3) a b Nxx Nyy Nxy c c0 ca d0 db m n c' c0' ca' d0' db' m' n' num num' l l' out vecs out' vecs',
  documented eigsh -> plate_any D a b c c0 ca d0 db -> plate_any D a b c' c0' ca' d0' db' ->
  softer c0' c0 -> softer ca' ca -> softer d0' d0 -> softer db' db ->
  (m + taken c0 + taken ca <= m' + taken c0' + taken ca')%nat -> (n + taken d0 + taken db <= n' + taken d0' + taken db')%nat ->
  critical D a b Nxx Nyy Nxy c m n l -> critical D a b Nxx Nyy Nxy c' m' n' l' -> 1 <= l' ->
  buckling_analysis eigsh exact_tables (as_arr D) a b Nxx Nyy Nxy c m n num = Ok (out, vecs) ->
  buckling_analysis eigsh exact_tables (as_arr D) a b Nxx Nyy Nxy c' m' n' num' = Ok (out', vecs') ->
  exists x x' rest rest', out = Fin x :: rest /\ out' = Fin x' :: rest' /\ x' <= x.
Proof. exact T_Compare.t_C65_reported. Qed.
Print Assumptions C65_reported.

(** C65: with the same edges, raising m and n never raises the critical factor. *)
Theorem C65_functions : forall (D : mat3) a b Nxx Nyy Nxy c c0 ca d0 db m n m' n' l,
  plate_any D a b c c0 ca d0 db -> (m <= m')%nat -> (n <= n')%nat ->
  critical D a b Nxx Nyy Nxy c m n l -> exists l', critical D a b Nxx Nyy Nxy c m' n' l' /\ l' <= l.
Proof. exact T_Compare.t_C65_functions. Qed.
Print Assumptions C65_functions.

(** C66: reducing the bending stiffness (in the sense that no curvature stores more energy) or adding compression (the loads change by
    a tensor with no tension in any direction) never raises the critical factor. *)
Theorem C66_monotone : forall (D D' : mat3) a b Nxx Nyy Nxy Nxx' Nyy' Nxy' c c0 ca d0 db m n l',
  plate_any D a b c c0 ca d0 db -> plate_any D' a b c c0 ca d0 db -> no_stiffer D D' ->
  no_compression (Nxx' - Nxx) (Nyy' - Nyy) (Nxy' - Nxy) ->
  critical D' a b Nxx' Nyy' Nxy' c m n l' -> exists l, critical D a b Nxx Nyy Nxy c m n l /\ l <= l'.
Proof. exact T_Compare.t_C66_monotone. Qed.
Print Assumptions C66_monotone.

(** C66: so a plate that carries its loads still carries them with a stiffer D and less compression. *)
Theorem C66_safe : forall (D D' : mat3) a b Nxx Nyy Nxy Nxx' Nyy' Nxy' c c0 ca d0 db m n,
  plate_any D a b c c0 ca d0 db -> plate_any D' a b c c0 ca d0 db -> no_stiffer D D' ->
  no_compression (Nxx' - Nxx) (Nyy' - Nyy) (Nxy' - Nxy) ->
  safe D a b Nxx Nyy Nxy c m n -> safe D' a b Nxx' Nyy' Nxy' c m n.
Proof. exact T_Compare.t_C66_safe. Qed.
Print Assumptions C66_safe.

(** C67: the reciprocal of the critical factor is subadditive in the loads (Dunkerley's rule is safe): if the critical factors of two
    load cases, where they exist, are at least l1 and l2, the one of the combined loads is at least l1 l2 / (l1 + l2). *)
Theorem C67_combined : forall (D : mat3) a b Nxx Nyy Nxy Nxx' Nyy' Nxy' c c0 ca d0 db m n l1 l2 l,
  plate_any D a b c c0 ca d0 db -> 0 < l1 -> 0 < l2 ->
  (forall x, critical D a b Nxx Nyy Nxy c m n x -> l1 <= x) -> (forall x, critical D a b Nxx' Nyy' Nxy' c m n x -> l2 <= x) ->
  critical D a b (Nxx + Nxx') (Nyy + Nyy') (Nxy + Nxy') c m n l -> l1 * l2 / (l1 + l2) <= l.
Proof. exact T_Compare.t_C67_combined. Qed.
Print Assumptions C67_combined.

(** C67: the loads under which a plate is safe form a convex set. *)
Theorem C67_convex : forall (D : mat3) a b Nxx Nyy Nxy Nxx' Nyy' Nxy' c c0 ca d0 db m n s,
  plate_any D a b c c0 ca d0 db -> 0 <= s <= 1 -> safe D a b Nxx Nyy Nxy c m n -> safe D a b Nxx' Nyy' Nxy' c m n ->
  safe D a b (s * Nxx + (1 - s) * Nxx') (s * Nyy + (1 - s) * Nyy') (s * Nxy + (1 - s) * Nxy') c m n.
Proof. exact T_Compare.t_C67_convex. Qed.
Print Assumptions C67_convex.

(** C68: under loads that compress no direction there is no positive factor, and every factor returned by a documented solver is
    negative or infinite. *)
Theorem C68_tension : forall eigsh (D : mat3) a b Nxx Nyy Nxy c c0 ca d0 db m n,
  plate_any D a b c c0 ca d0 db -> no_compression Nxx Nyy Nxy ->
  (forall l, ~ critical D a b Nxx Nyy Nxy c m n l) /\
  (forall num out vecs, documented eigsh -> buckling_analysis eigsh exact_tables (as_arr D) a b Nxx Nyy Nxy c m n num = Ok (out, vecs) ->
     Forall (fun y => match y with Fin z => z < 0 | Infinite => True end) out).
Proof. exact T_Compare.t_C68_tension. Qed.
Print Assumptions C68_tension.

(** C68: loads that stretch no direction and are not all zero always have a critical factor. *)
Theorem C68_compression : forall (D : mat3) a b Nxx Nyy Nxy c c0 ca d0 db m n,
  plate_any D a b c c0 ca d0 db -> (1 <= m)%nat -> (1 <= n)%nat -> no_compression (- Nxx) (- Nyy) (- Nxy) -> Nxx <> 0 \/ Nyy <> 0 ->
  exists l, critical D a b Nxx Nyy Nxy c m n l.
Proof. exact T_Compare.t_C68_compression. Qed.
Print Assumptions C68_compression.

(** C65 example: a clamped plate with 3 x 2 functions and the same plate with pinned edges and 5 x 4 functions, in compression. *)
Theorem C65_ex : plate_ok mid 2 1 (CStr "CLAMPED") Clamped Clamped Clamped Clamped 3 2 /\
  plate_ok mid 2 1 (CStr "PINNED") Pinned Pinned Pinned Pinned 5 4 /\ softer Pinned Clamped /\
  exists l l', critical mid 2 1 (-1) 0 0 (CStr "CLAMPED") 3 2 l /\ critical mid 2 1 (-1) 0 0 (CStr "PINNED") 5 4 l' /\ l' <= l.
Proof. exact T_Compare.t_C65_ex. Qed.
Print Assumptions C65_ex.

(** C66 example: doubling D and halving the compression. *)
Theorem C66_ex : no_stiffer mid (M3 2 0 0 0 2 0 0 0 2) /\ no_compression (-1 - -2) (0 - -1) (0 - 0) /\
  exists l l', critical mid 2 1 (-2) (-1) 0 (CStr "PINNED") 3 3 l /\ critical (M3 2 0 0 0 2 0 0 0 2) 2 1 (-1) 0 0 (CStr "PINNED") 3 3 l' /\ l <= l'.
Proof. exact T_Compare.t_C66_ex. Qed.
Print Assumptions C66_ex.

(** C67 example: compression along x combined with compression along y; all three critical factors exist and obey Dunkerley's rule. *)
Theorem C67_ex : exists l1 l2 l, critical mid 2 1 (-1) 0 0 (CStr "CLAMPED") 3 3 l1 /\ critical mid 2 1 0 (-1) 0 (CStr "CLAMPED") 3 3 l2 /\
  critical mid 2 1 (-1) (-1) 0 (CStr "CLAMPED") 3 3 l /\ / l <= / l1 + / l2.
Proof. exact T_Compare.t_C67_ex. Qed.
Print Assumptions C67_ex.

(** C67 example: a plate safe under two load cases and their mean. *)
Theorem C67_ex_convex : exists s, 0 < s /\ safe mid 2 1 (- s) 0 0 (CStr "CLAMPED") 3 3 /\ safe mid 2 1 0 (- s) 0 (CStr "CLAMPED") 3 3 /\
  safe mid 2 1 (- s / 2) (- s / 2) 0 (CStr "CLAMPED") 3 3.
Proof. exact T_Compare.t_C67_ex_convex. Qed.
Print Assumptions C67_ex_convex.

(** C68 example: tension along x with tension along y and some shear has no critical factor; the opposite loads have one. *)
Theorem C68_ex : no_compression 2 1 1 /\ (forall l, ~ critical mid 2 1 2 1 1 (CStr "PINNED") 3 3 l) /\
  exists l, critical mid 2 1 (-2) (-1) (-1) (CStr "PINNED") 3 3 l.
Proof. exact T_Compare.t_C68_ex. Qed.
Print Assumptions C68_ex.
