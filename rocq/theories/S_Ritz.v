(** Vocabulary comparing the assembled matrices with the energy forms. *)
From Coq Require Import Reals.
From Coq Require Import List.
From Verif Require Import M_Py M_K M_RealArith S_Plate S_Mat S_Energy S_K.
Import ListNotations.
Open Scope R_scope.

(** the tables with the exact integrals in place of the stored texts *)
Definition exact_tables : tables RA :=
  Tables RA (fun i k => Ok (exact_int 0 0 i k)) (fun i k => Ok (exact_int 1 0 i k)) (fun i k => Ok (exact_int 1 1 i k))
            (fun i k => Ok (exact_int 2 0 i k)) (fun i k => Ok (exact_int 2 1 i k)) (fun i k => Ok (exact_int 2 2 i k)).
(** a 3x3 matrix as the array the code indexes *)
Definition as_arr (D : mat3) : @arr RA := fun i j =>
  match i, j return R with
  | 0, 0 => a11 D | 0, 1 => a12 D | 0, 2 => a13 D
  | 1, 0 => a21 D | 1, 1 => a22 D | 1, 2 => a23 D
  | 2, 0 => a31 D | 2, 1 => a32 D | 2, 2 => a33 D
  | _, _ => 0%R
  end%nat.

(** c^T M c *)
Definition dot_list (u v : list R) : R := rsum (map2 Rmult u v).
Definition quad_rows (M : list (list R)) (c : list R) : R := dot_list c (map (fun row => dot_list row c) M).
Definition nonzero (c : list R) : Prop := Exists (fun x => x <> 0) c.

(** the edges leave no rigid motion: one edge is clamped or two edges are held *)
Definition held (c : condition) : nat := match c with Free => 0 | _ => 1 end.
Definition restrained (c0 ca d0 db : condition) : Prop :=
  c0 = Clamped \/ ca = Clamped \/ d0 = Clamped \/ db = Clamped \/ (2 <= held c0 + held ca + held d0 + held db)%nat.

(** how far an entry may be from the energy form: the tables are accurate to 1e-8 and bounded by 8/5 *)
Definition k_err (D : mat3) (a b : R) : R :=
  33 / 1000000000 * (4 * b / a ^ 3 * Rabs (a11 D) + 8 / (a * b) * Rabs (a21 D) + 4 * a / b ^ 3 * Rabs (a22 D)
                     + 16 / a ^ 2 * Rabs (a31 D) + 16 / b ^ 2 * Rabs (a32 D) + 16 / (a * b) * Rabs (a33 D)).
Definition kG_err (Nxx Nyy Nxy a b : R) : R :=
  33 / 1000000000 * (b / a * Rabs Nxx + a / b * Rabs Nyy + 2 * Rabs Nxy).

(** a displacement along one of the directions u, v, w *)
Definition move (d : nat) (f : field) : disp :=
  match d with 0%nat => Disp f still still | 1%nat => Disp still f still | _ => Disp still still f end.
(** the 6x6 array [[A, B], [B, D]] *)
Definition arr6 (A B D : mat3) : @arr RA := fun i j =>
  if Nat.ltb i 3 then (if Nat.ltb j 3 then as_arr A i j else as_arr B i (j - 3)%nat)
  else (if Nat.ltb j 3 then as_arr B (i - 3)%nat j else as_arr D (i - 3)%nat (j - 3)%nat).
(** the shape function of a pair of indices *)
Definition shape_of (a b : R) (p : nat * nat) : field := shape a b (fst p) (snd p).
