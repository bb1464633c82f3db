(** Vocabulary for the matrices as assembled in binary64. *)
From Coq Require Import Reals ZArith.
From Flocq Require Import IEEE754.BinarySingleNaN.
From Coq Require Import List.
From Verif Require Import M_Py M_Plate M_K M_Expr M_Float M_FloatArith S_Mat S_K S_Eigen.
Open Scope R_scope.

(** half the distance of 1 to the next double *)
Definition unit : R := / 9007199254740992.
(** lengths between 2^-64 and 2^64 *)
Definition usual (x : f64) : Prop := is_finite x = true /\ powerRZ 2 (-64) <= B2R x <= powerRZ 2 64.
(** stiffnesses and loads that are zero or between 2^-200 and 2^200 in magnitude *)
Definition usual0 (x : f64) : Prop := is_finite x = true /\ (B2R x = 0 \/ powerRZ 2 (-200) <= Rabs (B2R x) <= powerRZ 2 200).
(** squares and cubes are accurate to 3 units: true of C libraries (at most one unit in the last place) and of repeated multiplication *)
Definition pow_close (pow : f64 -> nat -> res f64) : Prop := forall x n, usual x -> n = 2%nat \/ n = 3%nat ->
  exists y, pow x n = Ok y /\ is_finite y = true /\ Rabs (B2R y - B2R x ^ n) <= 3 * unit * B2R x ^ n.
(** decimal literals are read to nearest *)
Definition dec_close (dec : Z -> Z -> f64) : Prop := forall m e, (0 <= m)%Z ->
  m = 0%Z \/ powerRZ 10 (-30) <= IZR m * powerRZ 10 e <= 10 ->
  is_finite (dec m e) = true /\ Rabs (B2R (dec m e) - IZR m * powerRZ 10 e) <= unit * (IZR m * powerRZ 10 e).
(** the numbers a 3x3 array holds *)
Definition numbers (D : nat -> nat -> f64) : mat3 :=
  M3 (B2R (D 0 0)%nat) (B2R (D 0 1)%nat) (B2R (D 0 2)%nat) (B2R (D 1 0)%nat) (B2R (D 1 1)%nat) (B2R (D 1 2)%nat)
     (B2R (D 2 0)%nat) (B2R (D 2 1)%nat) (B2R (D 2 2)%nat).
(** the matrix of reals a matrix of doubles stands for *)
Definition reals (K : list (list f64)) : list (list R) := map (map (@B2R 53 1024)) K.
Definition all_finite (K : list (list f64)) : Prop := Forall (Forall (fun x => is_finite x = true)) K.
(** every entry is within [e] of the entry at the same place *)
Definition entries_within (e : R) (K : list (list f64)) (K' : list (list R)) : Prop :=
  forall r s x y, entry K r s = Some x -> entry K' r s = Some y -> Rabs (B2R x - y) <= e.
(** accurate powers and literals, lengths, stiffnesses and loads of usual size *)
Record usual_inputs (pow : f64 -> nat -> res f64) (dec : Z -> Z -> f64) (D : nat -> nat -> f64) (a b Nxx Nyy Nxy : f64) : Prop := {
  ui_pow : pow_close pow; ui_dec : dec_close dec; ui_D : forall i j, (i < 3)%nat -> (j < 3)%nat -> usual0 (D i j);
  ui_a : usual a; ui_b : usual b; ui_xx : usual0 Nxx; ui_yy : usual0 Nyy; ui_xy : usual0 Nxy }.
(** the smallest positive factor of the matrices assembled in binary64 *)
Definition critical_float (pow : f64 -> nat -> res f64) (dec : Z -> Z -> f64) (D : nat -> nat -> f64) (a b Nxx Nyy Nxy : f64) (c : constraints) (m n : nat) (l : R) : Prop :=
  exists K KG : list (list f64), calc_K_KG_D (stored (FA pow) dec) D a b Nxx Nyy Nxy c m n = Ok (K, KG) /\ smallest_factor (reals K) (reals KG) l.
(** the identity matrix in doubles *)
Definition fid (i j : nat) : f64 := if Nat.eqb i j then f_of_Z 1 else fzero.
