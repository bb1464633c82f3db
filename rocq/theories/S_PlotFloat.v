(** Vocabulary for the plotted deflection in binary64: what is assumed of pow and of numpy's @, and the accuracy that is claimed. *)
From Coq Require Import Reals ZArith.
From Flocq Require Import IEEE754.BinarySingleNaN.
From Coq Require Import List.
From Verif Require Import M_Py M_Float S_Mat S_Round S_StrengthFloat S_Bardell.
Import ListNotations.
Open Scope R_scope.

(** pow on [-1, 1] with an error below one unit in the last place, subnormal results included *)
Definition pow_near (pow : f64 -> nat -> res f64) : Prop := forall x n, is_finite x = true -> Rabs (B2R x) <= 1 -> (n <= 49)%nat ->
  exists y, pow x n = Ok y /\ is_finite y = true /\ Rabs (B2R y - B2R x ^ n) <= 2 * unit * Rabs (B2R x ^ n) + powerRZ 2 (-1000).
(** the sum of the products of two lists, and of their magnitudes *)
Definition products (s c : list f64) : R := rsum (map (fun p => B2R (fst p) * B2R (snd p)) (combine s c)).
Definition magnitudes (s c : list f64) : R := rsum (map (fun p => Rabs (B2R (fst p) * B2R (snd p))) (combine s c)).
(** @ of two vectors of n doubles: n + 1 units of the magnitudes, whatever the order of the summation and whether or not multiplications and additions are fused *)
Definition dot_near (n : nat) (dot : list f64 -> list f64 -> f64) : Prop := forall s c : list f64, length s = n -> length c = n ->
  Forall (fun x => is_finite x = true) s -> Forall (fun x => is_finite x = true) c -> magnitudes s c <= powerRZ 2 900 ->
  is_finite (dot s c) = true /\ Rabs (B2R (dot s c) - products s c) <= (INR n + 1) * unit * magnitudes s c + powerRZ 2 (-900).

(** the plain loop over two lists of the same length *)
Definition loop_dot (s c : list f64) : f64 := dot_loop (fun k => nth k s fzero) (fun k => nth k c fzero) (length s - 1).

(** the sum of the magnitudes of the coefficients of Bardell's functions *)
Definition bardell_size (i : nat) : R :=
  match i with
  | 0%nat => 1/2 + 3/4 + 1/4
  | 1%nat => 1/8 + 1/8 + 1/8 + 1/8
  | 2%nat => 1/2 + 3/4 + 1/4
  | 3%nat => 1/8 + 1/8 + 1/8 + 1/8
  | _ => rsum (map (fun n => IZR (zdfact (2 * i - 2 * n - 5)) / (2 ^ n * IZR (zfact n) * IZR (zfact (i - 2 * n)))) (seq 0 (S (i / 2))))
  end.
(** the deflection with coefficients c, and the size its error is measured by *)
Definition shape_sum (idx : list (nat * nat)) (c : list f64) (xi eta : R) : R :=
  rsum (map (fun p => bardell (fst (fst p)) xi * bardell (snd (fst p)) eta * B2R (snd p)) (combine idx c)).
Definition shape_size (idx : list (nat * nat)) (c : list f64) : R :=
  rsum (map (fun p => bardell_size (fst (fst p)) * bardell_size (snd (fst p)) * Rabs (B2R (snd p))) (combine idx c)).
(** the errors of a plot with n shape functions *)
Definition plot_off (idx : list (nat * nat)) (c : list f64) : R := (INR (length idx) + 70) * unit * shape_size idx c + powerRZ 2 (-900).
(** index pairs that are stored *)
Definition stored_pairs (idx : list (nat * nat)) : Prop := Forall (fun ij => (fst ij < 50)%nat /\ (snd ij < 50)%nat) idx.
(** point number i of n on [-1, 1] at equal distances *)
Definition equal_point (n i : nat) : R := -1 + 2 * INR i / (INR n - 1).
