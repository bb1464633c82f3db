(** The theorems on the stiffness of the plies and the buckling load.
    Statements only: every proof is [exact] a lemma of T_Sens.v with the same statement.
    Below each theorem, Print Assumptions lists the axioms it uses. *)
From Coq Require Import QArith Qreals Reals ZArith Lra Lia String.
From Coquelicot Require Import Coquelicot.
From Coq Require Import List.
From Verif Require Import M_Py M_Material M_Laminate M_Plate M_K M_Expr M_RealArith S_Mat S_Material S_Laminate S_Plate S_Bardell S_Energy S_K S_Ritz S_Eigen S_Compare S_Limit S_Sens.
Import ListNotations.
Open Scope R_scope.
From Verif Require T_Sens.

(** C86: for two physical plies, "every strain stores at least t times the energy in the second" read off Q_0 is the same as "every stress
    stores at least t times as much energy in the first" read off the engineering constants. *)
Theorem C86_flexibility : forall (m m' : omat) t, physical m -> physical m' -> 0 < t ->
  exists q q', Q_0 (Ortho m) = Ok q /\ Q_0 (Ortho m') = Ok q' /\ pos_def q /\ pos_def q' /\
  ((forall e, t * quad q e <= quad q' e) <-> (forall s, t * flexibility m' s <= flexibility m s)).
Proof. exact T_Sens.t_C86_flexibility. Qed.
Print Assumptions C86_flexibility.

(** C86: so a ply is at least as stiff as another in every strain exactly when its three moduli are no smaller and the change of v12/e1 is
    small enough compared with the changes of 1/e1 and 1/e2. *)
Theorem C86_criterion : forall (m m' : omat) q q', physical m -> physical m' -> Q_0 (Ortho m) = Ok q -> Q_0 (Ortho m') = Ok q' ->
  (no_stiffer q q' <-> o_e1 m <= o_e1 m' /\ o_e2 m <= o_e2 m' /\ o_g12 m <= o_g12 m' /\
   (o_v12 m / o_e1 m - o_v12 m' / o_e1 m') ^ 2 <= (/ o_e1 m - / o_e1 m') * (/ o_e2 m - / o_e2 m')).
Proof. exact T_Sens.t_C86_criterion. Qed.
Print Assumptions C86_criterion.

(** C86: in particular a larger modulus e1 alone never makes a ply at least as stiff in every strain, unless v12 is zero. *)
Theorem C86_E1_alone : forall (m : omat) e1 q q', physical m -> o_e1 m < e1 ->
  Q_0 (Ortho m) = Ok q -> Q_0 (Ortho (with_constants m e1 (o_e2 m) (o_v12 m) (o_g12 m))) = Ok q' -> (no_stiffer q q' <-> o_v12 m = 0).
Proof. exact T_Sens.t_C86_E1_alone. Qed.
Print Assumptions C86_E1_alone.

(** C86: if the stiffness of every ply is multiplied by something between lo and hi, different for each ply and each direction, the strain
    energy of the laminate, and with it A and D, is too. *)
Theorem C86_laminate : forall lo hi l l' A A' D D' M M', all_admissible l -> all_admissible l' -> Forall2 (ply_between lo hi) l l' ->
  A_of l = Ok A -> A_of l' = Ok A' -> D_of l = Ok D -> D_of l' = Ok D' -> ABD_of l = Ok M -> ABD_of l' = Ok M' ->
  between lo hi A A' /\ between lo hi D D' /\ (forall x, lo * dot6 x (mvec6 M x) <= dot6 x (mvec6 M' x) <= hi * dot6 x (mvec6 M x)).
Proof. exact T_Sens.t_C86_laminate. Qed.
Print Assumptions C86_laminate.

(** C86: then the buckling load is multiplied by something between lo and hi as well: one plate has a critical factor when the other has,
    for every plate size, edge conditions, loads and numbers of functions. *)
Theorem C86_buckling : forall lo hi (D D' : mat3) a b Nxx Nyy Nxy c c0 ca d0 db m n, plate_any D a b c c0 ca d0 db -> plate_any D' a b c c0 ca d0 db ->
  0 < lo -> between lo hi D D' ->
  (forall f, critical D a b Nxx Nyy Nxy c m n f -> exists f', critical D' a b Nxx Nyy Nxy c m n f' /\ lo * f <= f' <= hi * f) /\
  (forall f', critical D' a b Nxx Nyy Nxy c m n f' -> exists f, critical D a b Nxx Nyy Nxy c m n f /\ lo * f <= f' <= hi * f).
Proof. exact T_Sens.t_C86_buckling. Qed.
Print Assumptions C86_buckling.

(** C86: the same for the laminates themselves. *)
Theorem C86_plies : forall lo hi l l' D D' a b Nxx Nyy Nxy c c0 ca d0 db m n, all_admissible l -> all_admissible l' -> l <> [] -> 0 < lo -> Forall2 (ply_between lo hi) l l' ->
  D_of l = Ok D -> D_of l' = Ok D' -> 0 < a -> 0 < b -> specifies c c0 ca d0 db -> restrained c0 ca d0 db ->
  (forall f, critical D a b Nxx Nyy Nxy c m n f -> exists f', critical D' a b Nxx Nyy Nxy c m n f' /\ lo * f <= f' <= hi * f) /\
  (forall f', critical D' a b Nxx Nyy Nxy c m n f' -> exists f, critical D a b Nxx Nyy Nxy c m n f /\ lo * f <= f' <= hi * f).
Proof. exact T_Sens.t_C86_plies. Qed.
Print Assumptions C86_plies.

(** C86: and for the limit the buckling load converges to with more and more functions. *)
Theorem C86_limit : forall lo hi (D D' : mat3) a b Nxx Nyy Nxy c c0 ca d0 db L, plate_any D a b c c0 ca d0 db -> plate_any D' a b c c0 ca d0 db -> 0 < lo -> between lo hi D D' ->
  stability_limit D a b Nxx Nyy Nxy c0 ca d0 db L -> exists L', stability_limit D' a b Nxx Nyy Nxy c0 ca d0 db L' /\ lo * L <= L' <= hi * L.
Proof. exact T_Sens.t_C86_limit. Qed.
Print Assumptions C86_limit.

(** C86: with all moduli of all plies s times as large, D is s times as large and so is the buckling load. *)
Theorem C86_scaled : forall s l D a b Nxx Nyy Nxy c c0 ca d0 db m n, 0 < s -> all_admissible l -> l <> [] -> D_of l = Ok D ->
  0 < a -> 0 < b -> specifies c c0 ca d0 db -> restrained c0 ca d0 db ->
  exists D', D_of (map (fun p => (fst p, scaled s (snd p))) l) = Ok D' /\ (forall f, critical D a b Nxx Nyy Nxy c m n f <-> critical D' a b Nxx Nyy Nxy c m n (s * f)).
Proof. exact T_Sens.t_C86_scaled. Qed.
Print Assumptions C86_scaled.

(** C86: an error of at most d in each entry of D changes the buckling load by at most the share 3 d / mu, where every curvature k stores at
    least mu |k|^2 in the exact D. *)
Theorem C86_entries : forall d mu (D D' : mat3) a b Nxx Nyy Nxy c c0 ca d0 db m n, plate_any D a b c c0 ca d0 db -> symmetric D' ->
  (forall e, mu * dot e e <= quad D e) -> entries_within d D D' -> 3 * d < mu ->
  (forall f, critical D a b Nxx Nyy Nxy c m n f -> exists f', critical D' a b Nxx Nyy Nxy c m n f' /\ Rabs (f' - f) <= 3 * d / mu * f) /\
  (forall f', critical D' a b Nxx Nyy Nxy c m n f' -> exists f, critical D a b Nxx Nyy Nxy c m n f /\ Rabs (f' - f) <= 3 * d / mu * f).
Proof. exact T_Sens.t_C86_entries. Qed.
Print Assumptions C86_entries.

(** C86: a stiffer fibre direction can lower the buckling load. A ply with equal moduli and v12 = 1/2 on a clamped plate of 2 by 1 carries less
    after e1 has doubled and everything else stayed the same. *)
Theorem C86_E1_refuted : exists m e1 D D' f f', physical m /\ o_e1 m < e1 /\ S_Laminate.admissible (Ortho m) /\
  S_Laminate.admissible (Ortho (with_constants m e1 (o_e2 m) (o_v12 m) (o_g12 m))) /\
  D_of [(0, Ortho m)] = Ok D /\ D_of [(0, Ortho (with_constants m e1 (o_e2 m) (o_v12 m) (o_g12 m)))] = Ok D' /\
  critical D 2 1 (-1) 0 0 (CStr "CLAMPED") 1 1 f /\ critical D' 2 1 (-1) 0 0 (CStr "CLAMPED") 1 1 f' /\ f' < f.
Proof. exact T_Sens.t_C86_E1_refuted. Qed.
Print Assumptions C86_E1_refuted.

(** C86 example: two plies at +-45 degrees, in the first of which the moduli grow by a tenth and in the second by a fifth; a glass ply that meets
    the criterion with larger e1, v12 and g12; and a matrix D with errors in its entries. *)
Theorem C86_ex : let carbon := OMat 20 2 (1/4) 1 1 1 1 1 1 1 in let glass := OMat 4 2 (1/4) 1 1 1 1 1 1 1 in
  physical carbon /\ physical glass /\ all_admissible [(45, Ortho carbon); (-45, Ortho glass)] /\
  all_admissible [(45, scaled (11/10) (Ortho carbon)); (-45, scaled (6/5) (Ortho glass))] /\
  Forall2 (ply_between (11/10) (6/5)) [(45, Ortho carbon); (-45, Ortho glass)] [(45, scaled (11/10) (Ortho carbon)); (-45, scaled (6/5) (Ortho glass))] /\
  (exists q q', Q_0 (Ortho glass) = Ok q /\ Q_0 (Ortho (with_constants glass 6 2 (3/8) 2)) = Ok q' /\ no_stiffer q q') /\
  (forall e, 1 * dot e e <= quad (M3 4 1 0 1 3 0 0 0 1) e) /\ entries_within (1/10) (M3 4 1 0 1 3 0 0 0 1) (M3 (41/10) 1 0 1 (29/10) (1/20) 0 (1/20) 1).
Proof. exact T_Sens.t_C86_ex. Qed.
Print Assumptions C86_ex.
