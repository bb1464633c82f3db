(** Observations on laminates and independent specifications of laminate theory.
    Everything a reader needs to interpret the laminate theorems (P_Laminate.v) is here, in M_Laminate.v and
    in S_Mat.v. *)
From Coq Require Import Reals List String Permutation.
From Verif Require Import M_Py S_Mat M_Material M_Laminate.
Import ListNotations.
Open Scope R_scope.

(** ** What a user observes: attributes of a freshly built laminate.
    [l] is the list of (angle, material) pairs, bottom first, i.e.
    LaminateProperty(stacking=[angles...], plies=[materials...]). *)
Definition laminate_of (l : list (R * material)) : res lam :=
  construct (SAngles (map fst l)) (PMany (map snd l)).
Definition A_of l : res mat3 := L <- laminate_of l ;; snd (get_A L).
Definition B_of l : res mat3 := L <- laminate_of l ;; snd (get_B L).
Definition D_of l : res mat3 := L <- laminate_of l ;; snd (get_D L).
Definition ABD_of l : res mat6 := L <- laminate_of l ;; snd (get_ABD L).
Definition Q_layup_of l : res (list mat3) := L <- laminate_of l ;; snd (get_Q_layup L).
Definition xiA_of l : res vec4 := L <- laminate_of l ;; get_xiA L.
Definition xiD_of l : res vec4 := L <- laminate_of l ;; get_xiD L.

(** Laminates built from lamination parameters *)
Definition lp_laminate (d : dict) (p : plies_t) : res lam := construct (SDict d) p.

(** Q_0 of the material can be read (no division by zero) *)
Definition readable (m : material) : Prop := exists q, Q_0 m = Ok q.
Definition all_readable (l : list (R * material)) : Prop := Forall (fun p => readable (snd p)) l.
(** Physically admissible plies: Q_0 is readable and positive definite, thickness positive *)
Definition admissible (m : material) : Prop :=
  (exists q, Q_0 m = Ok q /\ pos_def q) /\ 0 < thickness m.
Definition all_admissible (l : list (R * material)) : Prop := Forall (fun p => admissible (snd p)) l.

Definition total (l : list (R * material)) : R := rsum (map (fun p => thickness (snd p)) l).

(** ** Rotation of plane tensors (independent of the Voigt matrices used by the code)
    A plane symmetric tensor [[x, xy],[xy, y]] as a vec3 (x, y, xy). In axes rotated by the angle with
    cosine c and sine s the components become R t R^T with R = [[c, s],[-s, c]]. *)
Definition rotate_tensor (c s : R) (t : vec3) : vec3 :=
  let x := vx t in let y := vy t in let xy := vz t in
  (* first row of R t R^T, ... *)
  V3 (c*(c*x + s*xy) + s*(c*xy + s*y))
     ((-s)*((-s)*x + c*xy) + c*((-s)*xy + c*y))
     ((-s)*(c*x + s*xy) + c*(c*xy + s*y)).
(** engineering strains (ex, ey, gxy) <-> tensor strains (ex, ey, gxy/2) *)
Definition tensor_strain (e : vec3) : vec3 := V3 (vx e) (vy e) (vz e / 2).
Definition eng_strain (e : vec3) : vec3 := V3 (vx e) (vy e) (vz e * 2).
(** Stress in plate axes produced by a plate strain [e] (engineering) in a ply with stiffness [q] in its own axes *)
Definition ply_stress (c s : R) (q : mat3) (e : vec3) : vec3 :=
  let e12 := eng_strain (rotate_tensor c s (tensor_strain e)) in   (* strain in ply axes *)
  rotate_tensor c (-s) (mvec q e12).                               (* stress rotated back *)

(** Textbook closed form of the transformed reduced stiffness (e.g. Jones, Daniel & Ishai) *)
Definition Qbar_textbook (q : mat3) (c s : R) : mat3 :=
  let Q11 := a11 q in let Q12 := a12 q in let Q22 := a22 q in let Q66 := a33 q in
  let q11 := Q11*c^4 + 2*(Q12 + 2*Q66)*s^2*c^2 + Q22*s^4 in
  let q12 := (Q11 + Q22 - 4*Q66)*s^2*c^2 + Q12*(s^4 + c^4) in
  let q22 := Q11*s^4 + 2*(Q12 + 2*Q66)*s^2*c^2 + Q22*c^4 in
  let q16 := (Q11 - Q12 - 2*Q66)*s*c^3 + (Q12 - Q22 + 2*Q66)*s^3*c in
  let q26 := (Q11 - Q12 - 2*Q66)*s^3*c + (Q12 - Q22 + 2*Q66)*s*c^3 in
  let q66 := (Q11 + Q22 - 2*Q12 - 2*Q66)*s^2*c^2 + Q66*(s^4 + c^4) in
  M3 q11 q12 q16 q12 q22 q26 q16 q26 q66.
(** Multiple-angle form with the invariants (Tsai & Pagano) *)
Definition Qbar_multiangle (U : R * R * R * R * R) (a : R) : mat3 :=
  let '(U1, U2, U3, U4, U5) := U in
  M3 (U1 + U2*cos (2*a) + U3*cos (4*a)) (U4 - U3*cos (4*a)) (U2*sin (2*a)/2 + U3*sin (4*a))
     (U4 - U3*cos (4*a)) (U1 - U2*cos (2*a) + U3*cos (4*a)) (U2*sin (2*a)/2 - U3*sin (4*a))
     (U2*sin (2*a)/2 + U3*sin (4*a)) (U2*sin (2*a)/2 - U3*sin (4*a)) (U5 - U3*cos (4*a)).

(** ** 6x6 matrices given by blocks *)
Definition sym6 (M : mat6) : Prop :=
  symmetric (blkA M) /\ symmetric (blkD M) /\ mtrans (blkB M) = blkC M.
Definition mvec6 (M : mat6) (x : vec3 * vec3) : vec3 * vec3 :=
  (vadd (mvec (blkA M) (fst x)) (mvec (blkB M) (snd x)),
   vadd (mvec (blkC M) (fst x)) (mvec (blkD M) (snd x))).
Definition dot6 (x y : vec3 * vec3) : R := dot (fst x) (fst y) + dot (snd x) (snd y).
Definition pos_def6 (M : mat6) : Prop := forall x, x <> (vzero, vzero) -> 0 < dot6 x (mvec6 M x).

(** ** Layup transformations *)
(** same elastic constants, arbitrary thickness *)
Definition same_stiffness (m m' : material) : Prop := Q_0 m = Q_0 m'.
(** plies that cannot be told apart mechanically: equal thickness and elastic constants, and the same angle
    modulo 180 degrees *)
Definition ply_equiv (p q : R * material) : Prop :=
  thickness (snd q) = thickness (snd p) /\ same_stiffness (snd q) (snd p) /\
  exists k : Z, fst q = fst p + 180 * IZR k.
(** the layup reads the same from bottom to top and from top to bottom *)
Definition symmetric_layup (l : list (R * material)) : Prop := Forall2 ply_equiv l (rev l).
Definition rotate_all (phi : R) (l : list (R * material)) : list (R * material) :=
  map (fun p => (fst p + phi, snd p)) l.
(** the plies can be matched among themselves so that partners have equal thickness and stiffness and opposite
    angles (modulo 180 degrees, so 0 and 90 degree plies may be their own partners) *)
Definition balanced (l : list (R * material)) : Prop :=
  exists l', Permutation l l' /\ Forall2 (fun p q => ply_equiv (- fst p, snd p) q) l l'.
Definition standard_angle (theta : R) : Prop :=
  exists k : Z, theta = 180 * IZR k \/ theta = 90 + 180 * IZR k \/ theta = 45 + 180 * IZR k \/ theta = -45 + 180 * IZR k.
(** entry number i of Q_layup *)
Definition Q_entry l (i : nat) : res mat3 := Qs <- Q_layup_of l ;; get Qs i.

(** Example material used to instantiate theorems: e1 = 2, e2 = 1, v12 = 0, g12 = 1, thickness 1 *)
Definition ex_mat : omat := OMat 2 1 0 1 1 0 0 0 0 0.
