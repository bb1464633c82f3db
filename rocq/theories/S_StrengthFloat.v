(** Vocabulary for LaminateStrength in binary64: what is assumed of numpy's products and of the inverse, and the accuracy that is claimed. *)
From Coq Require Import Reals ZArith String.
From Flocq Require Import IEEE754.BinarySingleNaN.
From Coq Require Import List.
From Verif Require Import M_Py M_Float M_Validate M_Material M_Laminate M_Strength M_MatFloat M_LayupFloat M_Margin M_StrengthFloat M_K S_Mat S_Ritz S_Round S_LamRound S_MatFloat S_LayupFloat S_Strength S_Reserve.
Import ListNotations.
Open Scope R_scope.

Definition finite_vec (n : nat) (v : fvec) : Prop := forall k, (k < n)%nat -> is_finite (v k) = true.
Definition finite_arr (n : nat) (X : farr) : Prop := forall i j, (i < n)%nat -> (j < n)%nat -> is_finite (X i j) = true.
(** row i of an array with n columns times a vector, and the same with magnitudes *)
Definition row_sum (n : nat) (f : nat -> R) : R := rsum (map f (seq 0 n)).
Definition row_product (n : nat) (X : farr) (v : fvec) (i : nat) : R := row_sum n (fun j => B2R (X i j) * B2R (v j)).
Definition row_magnitude (n : nat) (X : farr) (v : fvec) (i : nat) : R := row_sum n (fun j => Rabs (B2R (X i j) * B2R (v j))).
(** @ of an n x n array with a vector: n + 1 units of the magnitudes, whatever the order of the summation and whether or not multiplications and additions are fused *)
Definition mv_near (n : nat) (mv : farr -> fvec -> fvec) : Prop := forall X v, finite_arr n X -> finite_vec n v ->
  (forall i, (i < n)%nat -> row_magnitude n X v i <= powerRZ 2 900) ->
  forall i, (i < n)%nat -> is_finite (mv X v i) = true /\ Rabs (B2R (mv X v i) - row_product n X v i) <= (INR n + 1) * unit * row_magnitude n X v i + powerRZ 2 (-900).
(** linalg.inv at one 6x6 array M: entry i,j of M Y - 1 is at most r i j *)
Definition inv6_near (nv : numpy_v) (r : nat -> nat -> R) (M Y : farr) : Prop := np_inv6 nv M = Ok Y /\ finite_arr 6 Y /\
  forall i j, (i < 6)%nat -> (j < 6)%nat -> Rabs (row_sum 6 (fun k => B2R (M i k) * B2R (Y k j)) - (if Nat.eqb i j then 1 else 0)) <= r i j.

(** six doubles as numbers: strains and curvatures, or forces and moments *)
Definition six (e : fvec) : vec3 * vec3 := (V3 (B2R (e 0%nat)) (B2R (e 1%nat)) (B2R (e 2%nat)), V3 (B2R (e 3%nat)) (B2R (e 4%nat)) (B2R (e 5%nat))).
(** entry number k of three and of six numbers *)
Definition part (v : vec3) (k : nat) : R := match k with 0%nat => vx v | 1%nat => vy v | _ => vz v end.
Definition part6 (v : vec3 * vec3) (k : nat) : R := if Nat.ltb k 3 then part (fst v) k else part (snd v) (k - 3).
(** the strains found in the laminate are of this size: mid-plane strains, and curvatures times the thickness *)
Definition strain_size (T : R) (v : vec3 * vec3) : R :=
  Rabs (vx (fst v)) + Rabs (vy (fst v)) + Rabs (vz (fst v)) + T * (Rabs (vx (snd v)) + Rabs (vy (snd v)) + Rabs (vz (snd v))).

(** a computed row and an exact one: the same ply, position and angle; z within a few units of the thickness, the numbers within [off] *)
Record row_near (zoff off : R) (f : frow) (r : row) : Prop := {
  rn_ply : fr_ply f = r_ply r; rn_position : fr_position f = r_position r; rn_angle : B2R (fr_angle f) = r_angle r;
  rn_z : is_finite (fr_z f) = true /\ Rabs (B2R (fr_z f) - r_z r) <= zoff;
  rn_xy : forall k, (k < 3)%nat -> is_finite (fr_xy f k) = true /\ Rabs (B2R (fr_xy f k) - part (r_xy r) k) <= off;
  rn_12 : forall k, (k < 3)%nat -> is_finite (fr_12 f k) = true /\ Rabs (B2R (fr_12 f k) - part (r_12 r) k) <= off }.
Definition z_off (l : list (f64 * fmaterial)) : R := (INR (length l) + 1) * unit * total l.
(** errors of the strains and of the stresses of a laminate with these mid-plane strains and curvatures *)
Definition strain_off (l : list (f64 * fmaterial)) (v : vec3 * vec3) : R := (2 * INR (length l) + 230) * unit * strain_size (total l) v + powerRZ 2 (-800).
Definition stress_off (k mu q : R) (l : list (f64 * fmaterial)) (v : vec3 * vec3) : R :=
  (3 * ply_units k mu + 9 * INR (length l) + 1100) * unit * q * strain_size (total l) v + powerRZ 2 (-500).

(** error of entry i, j of ABD, and the error that makes in the loads *)
Definition abd_off (k mu q : R) (l : list (f64 * fmaterial)) (i j : nat) : R :=
  matrix_off k mu q (1 + (if Nat.ltb i 3 then 0 else 1) + (if Nat.ltb j 3 then 0 else 1)) l.
Definition load_off (k mu q : R) (r : nat -> nat -> R) (l : list (f64 * fmaterial)) (M Y : farr) (N e : fvec) (i : nat) : R :=
  row_sum 6 (fun j => r i j * Rabs (B2R (N j))) +
  row_sum 6 (fun j => Rabs (B2R (M i j)) * (7 * unit * row_magnitude 6 Y N j + powerRZ 2 (-900))) +
  row_sum 6 (fun j => abd_off k mu q l i j * Rabs (B2R (e j))).

(** no allowable is exceeded by more than [off] *)
Definition survives_within (off : R) (a : allow) (s : vec3) : Prop :=
  - al_c1 a - off <= vx s <= al_t1 a + off /\ - al_c2 a - off <= vy s <= al_t2 a + off /\ Rabs (vz s) <= al_s a + off.
(** no margin of the row is below zero *)
Definition none_negative (r : fmrow) : Prop := Forall (fun c => flt (snd c) fzero = false) (fm_margins r).

(** six numbers minus six others, entry by entry, and the sum of the squares of six numbers *)
Definition minus6 (v w : vec3 * vec3) : vec3 * vec3 :=
  (V3 (vx (fst v) - vx (fst w)) (vy (fst v) - vy (fst w)) (vz (fst v) - vz (fst w)),
   V3 (vx (snd v) - vx (snd w)) (vy (snd v) - vy (snd w)) (vz (snd v) - vz (snd w))).
Definition squares6 (f : nat -> R) : R := row_sum 6 (fun i => f i * f i).
(** every ply is orthotropic and its allowables are numbers that are not negative *)
Definition allowables_good (l : list (f64 * fmaterial)) : Prop := Forall (fun p => exists o, snd p = FOrtho o /\
  Forall (fun a => is_finite a = true /\ 0 <= B2R a) [fo_t1 o; fo_c1 o; fo_t2 o; fo_c2 o; fo_s o]) l.
(** the allowables that are exceeded by more than [off], by the name of their margin *)
Inductive exceeds_by (off : R) (a : allow) (s : vec3) : string -> Prop :=
| eb_t1 : al_t1 a + off < vx s -> exceeds_by off a s "margin_t1"
| eb_c1 : al_c1 a + off < - vx s -> exceeds_by off a s "margin_c1"
| eb_t2 : al_t2 a + off < vy s -> exceeds_by off a s "margin_t2"
| eb_c2 : al_c2 a + off < - vy s -> exceeds_by off a s "margin_c2"
| eb_s : al_s a + off < Rabs (vz s) -> exceeds_by off a s "margin_s".
(** a row of margins against the allowables and stresses of the exact row: no negative margin means that no allowable is exceeded by more than [off],
    stresses inside the allowables by [off] (and in magnitude above [off]) give no negative margin, and (again with magnitudes above [off]) when an allowable is exceeded by more than
    [off] the column critical names one that is exceeded up to [off] *)
Record margin_near (off : R) (m : fmrow) (t : mrow (allow * vec3)) : Prop := {
  mn_ply : fm_ply m = mr_ply t; mn_position : fm_position m = mr_position t; mn_angle : B2R (fm_angle m) = mr_angle t;
  mn_safe : none_negative m -> survives_within off (fst (mr_margins t)) (snd (mr_margins t));
  mn_complete : survives_within (- off) (fst (mr_margins t)) (snd (mr_margins t)) -> off < Rabs (vx (snd (mr_margins t))) -> off < Rabs (vy (snd (mr_margins t))) -> none_negative m;
  mn_critical : off < Rabs (vx (snd (mr_margins t))) -> off < Rabs (vy (snd (mr_margins t))) -> forall n, exceeds_by off (fst (mr_margins t)) (snd (mr_margins t)) n -> exists n', fm_critical m = Some n' /\ exceeds_by (- off) (fst (mr_margins t)) (snd (mr_margins t)) n' }.

(** the plain loop for a product: x[0]*y[0], then adding x[k]*y[k] one after the other up to k = n *)
Fixpoint dot_loop (x y : fvec) (n : nat) : f64 :=
  match n with
  | O => fmul (x O) (y O)
  | S m => fadd (dot_loop x y m) (fmul (x (S m)) (y (S m)))
  end.
Definition loop_product (n : nat) (X : farr) (v : fvec) : fvec := fun i => dot_loop (X i) v (n - 1).
