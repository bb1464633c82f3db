(** The failure envelope of a laminate under the maximum stress criterion, stated on the rows of the margin table. *)
From Coq Require Import Reals String List.
From Verif Require Import M_Py S_Mat M_Material M_Laminate M_Strength S_Strength.
Import ListNotations.
Open Scope R_scope.

(** the pair of allowables and stresses from which a row of calculate_maxstressmargin is computed *)
Definition table (l : list (R * material)) (N : loads) : res (list (mrow (allow * vec3))) := margin_of (fun a s => (a, s)) l N.

(** a stress state in material directions that none of the five allowables forbids *)
Definition survives (a : allow) (s : vec3) : Prop :=
  - al_c1 a <= vx s <= al_t1 a /\ - al_c2 a <= vy s <= al_t2 a /\ Rabs (vz s) <= al_s a.
(** a load that the laminate survives: the table exists and all of its rows survive *)
Definition safe (l : list (R * material)) (N : loads) : Prop :=
  exists rows, table l N = Ok rows /\ forall r, In r rows -> survives (fst (mr_margins r)) (snd (mr_margins r)).

(** the margins of a row that are numbers (the others are infinite): allowable over stress, minus one *)
Inductive row_margin (a : allow) (s : vec3) : R -> Prop :=
| rm_t1 : 0 < vx s -> row_margin a s (al_t1 a / vx s - 1)
| rm_c1 : vx s < 0 -> row_margin a s (al_c1 a / - vx s - 1)
| rm_t2 : 0 < vy s -> row_margin a s (al_t2 a / vy s - 1)
| rm_c2 : vy s < 0 -> row_margin a s (al_c2 a / - vy s - 1)
| rm_s : vz s <> 0 -> row_margin a s (al_s a / Rabs (vz s) - 1).
(** a margin of the table *)
Definition table_margin (rows : list (mrow (allow * vec3))) (m : R) : Prop :=
  exists r, In r rows /\ row_margin (fst (mr_margins r)) (snd (mr_margins r)) m.
(** the smallest margin of the table *)
Definition smallest_margin (rows : list (mrow (allow * vec3))) (m : R) : Prop :=
  table_margin rows m /\ forall m', table_margin rows m' -> m <= m'.

(** the allowables of all plies are not negative *)
Definition allowables_ok (l : list (R * material)) : Prop :=
  forall th o, In (th, Ortho o) l -> 0 <= o_t1 o /\ 0 <= o_c1 o /\ 0 <= o_t2 o /\ 0 <= o_c2 o /\ 0 <= o_s o.

(** loads with the shear terms reversed, with the axes exchanged, and referred to axes turned by phi *)
Definition reverse_shear (N : loads) : loads :=
  (V3 (vx (fst N)) (vy (fst N)) (- vz (fst N)), V3 (vx (snd N)) (vy (snd N)) (- vz (snd N))).
Definition exchange_axes (N : loads) : loads :=
  (V3 (vy (fst N)) (vx (fst N)) (vz (fst N)), V3 (vy (snd N)) (vx (snd N)) (vz (snd N))).
Definition turn_loads (c s : R) (N : loads) : loads := (S_Laminate.rotate_tensor c s (fst N), S_Laminate.rotate_tensor c s (snd N)).
(** what two margin tables have in common when only the plate axes differ: everything but the angle column *)
Definition same_but_angle {M} (f : M -> M) (rows rows' : list (mrow M)) : Prop :=
  Forall2 (fun r r' => mr_ply r' = mr_ply r /\ mr_position r' = mr_position r /\ mr_margins r' = f (mr_margins r)) rows rows'.
Definition reverse_tau (p : allow * vec3) : allow * vec3 := (fst p, V3 (vx (snd p)) (vy (snd p)) (- vz (snd p))).

(** example: one ply at zero degrees with allowables 6, 6, 3, 3 and 2 *)
Definition ex_strong : list (R * material) := [(0, Ortho (OMat 2 1 0 1 1 6 6 3 3 2))].
