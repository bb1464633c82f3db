(** Vocabulary for the laminate matrices in binary64: the textbook sums and the accuracy that is claimed. *)
From Coq Require Import Reals ZArith.
From Flocq Require Import IEEE754.BinarySingleNaN.
From Coq Require Import List.
From Verif Require Import M_Py M_Material M_K M_Float M_FloatArith M_LamArith S_Mat S_Laminate S_Ritz S_Round.
Import ListNotations.
Open Scope R_scope.

(** total thickness and height of interface number k above the mid-plane *)
Definition height (ts : list f64) : R := rsum (map (@B2R 53 1024) ts).
Definition interface (ts : list f64) (k : nat) : R := - height ts / 2 + rsum (map (@B2R 53 1024) (firstn k ts)).
(** integral over the thickness of z^(p-1) times the ply value [q]: the plies have thickness [ts], the lowest one starts at [z] *)
Fixpoint moment (p : nat) (z : R) (ts qs : list R) : R :=
  match ts, qs with
  | t :: ts', q :: qs' => ((z + t) ^ p - z ^ p) / INR p * q + moment p (z + t) ts' qs'
  | _, _ => 0
  end.
(** entry i,j of A (p = 1), B (p = 2), D (p = 3) for plies with arrays Qs *)
Definition stiffness (p : nat) (ts : list f64) (Qs : list (nat -> nat -> f64)) (i j : nat) : R :=
  moment p (- height ts / 2) (map (@B2R 53 1024) ts) (map (fun Q => B2R (Q i j)) Qs).
(** up to a million plies of usual thickness *)
Definition usual_plies (ts : list f64) : Prop := Forall usual ts /\ (1 <= length ts)%nat /\ INR (length ts) <= 1000000.
(** all entries of all arrays are finite and at most [q] *)
Definition entries_below (q : R) (Qs : list (nat -> nat -> f64)) : Prop :=
  Forall (fun Q => forall i j, (i < 3)%nat -> (j < 3)%nat -> is_finite (Q i j) = true /\ Rabs (B2R (Q i j)) <= q) Qs.
(** squares and cubes of doubles up to 2^90 in magnitude are accurate to 3 units, apart from underflow *)
Definition pow_near (pow : f64 -> nat -> res f64) : Prop := forall x n, is_finite x = true -> Rabs (B2R x) <= powerRZ 2 90 -> n = 2%nat \/ n = 3%nat ->
  exists y, pow x n = Ok y /\ is_finite y = true /\ Rabs (B2R y - B2R x ^ n) <= 3 * unit * Rabs (B2R x ^ n) + powerRZ 2 (-900).
(** the property getter of order p *)
Definition matrix (pow : f64 -> nat -> res f64) (p : nat) : list f64 -> list (@arr (FA pow)) -> res (@arr (FA pow)) :=
  match p with 1%nat => @matrix_A (FA pow) | 2%nat => @matrix_B (FA pow) | _ => @matrix_D (FA pow) end.
(** the attribute A (p = 1), B (p = 2) or D (p = 3) in exact arithmetic *)
Definition attribute (p : nat) (l : list (R * material)) : res mat3 :=
  match p with 1%nat => A_of l | 2%nat => B_of l | _ => D_of l end.
(** the thicknesses of the plies of [l] are the doubles [ts] *)
Definition thicknesses (ts : list f64) (l : list (R * material)) : Prop := map (@B2R 53 1024) ts = map (fun p => thickness (snd p)) l.
(** the arrays are within [eps] of the matrices, entry by entry *)
Definition arrays_within (eps : R) (Qs : list (nat -> nat -> f64)) (X : list mat3) : Prop :=
  Forall2 (fun Q M => forall i j, (i < 3)%nat -> (j < 3)%nat -> Rabs (B2R (Q i j) - as_arr M i j) <= eps) Qs X.
