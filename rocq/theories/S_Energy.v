(** The Ritz method's energy forms, written with derivatives and integrals. *)
From Coq Require Import Reals.
From Coquelicot Require Import Coquelicot.
From Coq Require Import List.
From Verif Require Import S_Mat S_Bardell.
Import ListNotations.
Open Scope R_scope.

(** a field on the plate *)
Notation field := (R -> R -> R).
Definition dx (w : field) : field := fun x y => Derive (fun t => w t y) x.
Definition dy (w : field) : field := fun x y => Derive (fun t => w x t) y.
(** integral over the plate [0,a] x [0,b] *)
Definition over (a b : R) (f : field) : R := RInt (fun x => RInt (fun y => f x y) 0 b) 0 a.

(** Kirchhoff curvatures and membrane strains *)
Definition curvature (w : field) (x y : R) : vec3 := V3 (- dx (dx w) x y) (- dy (dy w) x y) (-2 * dx (dy w) x y).
Definition membrane (u v : field) (x y : R) : vec3 := V3 (dx u x y) (dy v x y) (dy u x y + dx v x y).

(** bilinear forms: bending energy, work of the in-plane loads, coupled energy *)
Definition bending (D : mat3) (a b : R) (w v : field) : R :=
  over a b (fun x y => dot (curvature w x y) (mvec D (curvature v x y))).
Definition load_work (Nxx Nyy Nxy a b : R) (w v : field) : R :=
  over a b (fun x y => Nxx * dx w x y * dx v x y + Nyy * dy w x y * dy v x y
                       + Nxy * (dx w x y * dy v x y + dy w x y * dx v x y)).
(** a displacement (u, v, w) *)
Record disp := Disp { du : field; dv : field; dw : field }.
Definition coupled (A B D : mat3) (a b : R) (d e : disp) : R :=
  over a b (fun x y =>
    let e1 := membrane (du d) (dv d) x y in let k1 := curvature (dw d) x y in
    let e2 := membrane (du e) (dv e) x y in let k2 := curvature (dw e) x y in
    dot e1 (mvec A e2) + dot e1 (mvec B k2) + dot k1 (mvec (mtrans B) e2) + dot k1 (mvec D k2)).

(** the plate coordinates of the unit square *)
Definition shape (a b : R) (i j : nat) : field := fun x y => bardell i (2 * x / a - 1) * bardell j (2 * y / b - 1).
(** a linear combination of shape functions *)
Definition combine_shapes (a b : R) (idx : list (nat * nat)) (c : list R) : field :=
  fun x y => rsum (map (fun p => snd p * shape a b (fst (fst p)) (snd (fst p)) x y) (combine idx c)).
Definition still : field := fun _ _ => 0.

(** exact integral over [-1,1] of the product of the p-th derivative of function i and the q-th of function k *)
Definition exact_int (p q i k : nat) : R :=
  RInt (fun x => Derive_n (bardell i) p x * Derive_n (bardell k) q x) (-1) 1.
