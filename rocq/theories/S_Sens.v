(** Vocabulary for the dependence of the stiffness and of the buckling load on the properties of the plies. *)
From Coq Require Import Reals List.
From Verif Require Import M_Py S_Mat M_Material S_Laminate.
Import ListNotations.
Open Scope R_scope.

(** every strain stores at least lo times and at most hi times the energy *)
Definition between (lo hi : R) (Q Q' : mat3) : Prop := forall e, lo * quad Q e <= quad Q' e <= hi * quad Q e.
(** two plies with the same angle and thickness, the second with a stiffness between lo and hi times the first *)
Definition ply_between (lo hi : R) (p p' : R * material) : Prop :=
  fst p = fst p' /\ thickness (snd p) = thickness (snd p') /\
  exists q q', Q_0 (snd p) = Ok q /\ Q_0 (snd p') = Ok q' /\ between lo hi q q'.

(** the engineering constants of a physical ply *)
Definition physical (m : omat) : Prop := 0 < o_e1 m /\ 0 < o_e2 m /\ 0 < o_g12 m /\ o_v12 m ^ 2 * o_e2 m < o_e1 m.
(** twice the energy stored by the stresses s = (sigma1, sigma2, tau12), from the engineering constants *)
Definition flexibility (m : omat) (s : vec3) : R :=
  vx s ^ 2 / o_e1 m - 2 * (o_v12 m / o_e1 m) * (vx s * vy s) + vy s ^ 2 / o_e2 m + vz s ^ 2 / o_g12 m.
(** the same ply with other elastic constants *)
Definition with_constants (m : omat) (e1 e2 v12 g12 : R) : omat :=
  OMat e1 e2 v12 g12 (o_thickness m) (o_t1 m) (o_c1 m) (o_t2 m) (o_c2 m) (o_s m).
(** all three moduli s times as large *)
Definition scaled (s : R) (m : material) : material :=
  match m with
  | Ortho o => Ortho (with_constants o (s * o_e1 o) (s * o_e2 o) (o_v12 o) (s * o_g12 o))
  | Iso i => Iso (IMat (s * i_e i) (i_v i) (s * i_g i) (i_thickness i) (i_t i) (i_c i) (i_s i))
  end.

(** no entry of the matrices differs by more than d *)
Definition entries_within (d : R) (D D' : mat3) : Prop :=
  Rabs (a11 D' - a11 D) <= d /\ Rabs (a12 D' - a12 D) <= d /\ Rabs (a13 D' - a13 D) <= d /\
  Rabs (a21 D' - a21 D) <= d /\ Rabs (a22 D' - a22 D) <= d /\ Rabs (a23 D' - a23 D) <= d /\
  Rabs (a31 D' - a31 D) <= d /\ Rabs (a32 D' - a32 D) <= d /\ Rabs (a33 D' - a33 D) <= d.
