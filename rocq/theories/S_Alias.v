(** What a laminate answers after the lists it was built from have been changed. *)
From Coq Require Import Reals List String.
From Verif Require Import M_Py S_Mat M_Material M_Laminate M_LamHistory M_Strength S_Laminate S_Strength.
Import ListNotations.
Open Scope R_scope.

(** the sum of w_i g(theta_i) over the angles, one weight per angle *)
Definition weighted (w : list R) (g : R -> R) (angles : list R) : R :=
  fold_right Rplus 0 (map (fun p => fst p * g (snd p * (PI / 180))) (combine w angles)).
(** the values of [f upper lower] between consecutive heights *)
Definition gaps (f : R -> R -> R) (z : list R) : list R := map (fun p => f (snd p) (fst p)) (combine z (tl z)).
(** lamination parameters with weights taken from the heights [z], the angles [angles] and the thickness T; an angle without a ply
    raises IndexError *)
Definition parameters (f : R -> R -> R) (k : R) (pw : nat) (z angles : list R) (T : R) : res vec4 :=
  if Nat.ltb (List.length angles) (List.length z) then
    if Req_EM_T (T ^ pw) 0 then Err NotFinite
    else let s g := k * weighted (gaps f z) g angles / T ^ pw in
         Ok (s (fun x => cos (2 * x)), s (fun x => sin (2 * x)), s (fun x => cos (4 * x)), s (fun x => sin (4 * x)))
  else Err IndexError.
Definition thickness_of (l : list material) : R := fold_right Rplus 0 (map thickness l).

(** [rows] is the table [true] of the laminate, cut to the plies that have an angle, with the plate-direction columns unchanged, the
    angles taken from [angles] and the material directions turned to them: by [turn c s] of the plate-direction columns *)
Definition returned (turn : R -> R -> vec3 -> vec3) (angles : list R) (rows true_rows : list row) : Prop :=
  map r_angle rows = flat_map (fun t => [t; t]) angles /\
  Forall2 (fun r r0 => r_ply r = r_ply r0 /\ r_z r = r_z r0 /\ r_position r = r_position r0 /\ r_xy r = r_xy r0 /\
                       r_12 r = turn (cos (r_angle r * PI / 180)) (sin (r_angle r * PI / 180)) (r_xy r0))
          rows (firstn (2 * List.length angles) true_rows).
Definition turn_stress (c s : R) (v : vec3) : vec3 := rotate_tensor c s v.
Definition turn_strain (c s : R) (v : vec3) : vec3 := eng_strain (rotate_tensor c s (tensor_strain v)).

From Verif Require Import M_Alias.
(** in the state m, LaminateProperty(stacking, plies) with the arguments at [s] and [p] has the contents of the laminate L *)
Definition arguments (m : memory) (s : nat) (p : plies_ref) (L : lam) : Prop :=
  exists st pl, stacking_now (m_heap m) s = Some st /\ plies_now (m_heap m) p = Some pl /\ construct st pl = Ok L.
(** the state after building it as laminate number [next m] and doing anything else *)
Definition next (m : memory) : nat := List.length (m_lams m).
Definition since (m : memory) (s : nat) (p : plies_ref) (rest : list op) : memory := after m (Build s p :: rest).
(** the list of plies a laminate with angles refers to: the argument, or the list made from one material *)
Definition plies_list (m : memory) (p : plies_ref) : nat := match p with OneMaterial _ => List.length (m_heap m) | MaterialList i => i end.

(** Example: one ply at 90 degrees, weak across the fibres, built from the lists at 0 and 1 *)
Definition soft_ply : material := Ortho (OMat 2 1 0 1 1 2 2 (1 / 2) (1 / 2) 1).
Definition setup : memory := after empty_memory [Create (Nums [90]); Create (Mats [soft_ply])].
