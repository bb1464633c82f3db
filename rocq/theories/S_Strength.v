(** Observations and specifications for LaminateStrength *)
From Coquelicot Require Import Coquelicot.
From Coq Require Import Reals List String.
From Verif Require Import M_Py S_Mat M_Material M_Laminate M_LamHistory M_Linalg S_Laminate M_Strength.
Import ListNotations.
Open Scope string_scope.
Open Scope list_scope.
Open Scope R_scope.

(** A LaminateStrength object on a freshly built laminate *)
Definition start (L : lam) : world := World L [].
Definition epsilon0_of (l : list (R * material)) (N : loads) : res (vec3 * vec3) :=
  L <- laminate_of l ;; snd (epsilon0 N (start L)).
Definition strain_of l N : res (list row) := L <- laminate_of l ;; snd (calculate_strain N (start L)).
Definition stress_of l N : res (list row) := L <- laminate_of l ;; snd (calculate_stress N (start L)).
Definition margin_of {M} (mg : allow -> vec3 -> M) l N : res (list (mrow M)) :=
  L <- laminate_of l ;; snd (calculate_maxstressmargin mg N (start L)).

Definition zero6 : vec3 * vec3 := (vzero, vzero).
Definition add6 (x y : vec3 * vec3) := (vadd (fst x) (fst y), vadd (snd x) (snd y)).
Definition scale6 k (x : vec3 * vec3) := (vscale k (fst x), vscale k (snd x)).
(** a matrix is singular when it annihilates some non-zero vector *)
Definition singular (M : mat6) : Prop := exists x, x <> zero6 /\ mvec6 M x = zero6.

(** ** Integration of a table through the thickness.
    Between the two rows of a ply the quantity varies linearly with z. *)
Definition interp (z0 z1 f0 f1 z : R) : R := f0 + (z - z0) / (z1 - z0) * (f1 - f0).
(** sum over the plies of the integral of w(z) * column(z) *)
Fixpoint through_thickness (w : R -> R) (col : vec3 -> R) (rows : list row) : R :=
  match rows with
  | b :: t :: rest =>
      RInt (fun z => w z * interp (r_z b) (r_z t) (col (r_xy b)) (col (r_xy t)) z) (r_z b) (r_z t)
      + through_thickness w col rest
  | _ => 0
  end.
Definition resultant (w : R -> R) (rows : list row) : vec3 :=
  V3 (through_thickness w vx rows) (through_thickness w vy rows) (through_thickness w vz rows).

(** example laminate: two plies [0/90] of the example material *)
Definition ex_lam : list (R * material) := [(0, Ortho ex_mat); (90, Ortho ex_mat)].
