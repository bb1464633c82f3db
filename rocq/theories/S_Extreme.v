(** Vocabulary for plates of extreme size in binary64. *)
From Coq Require Import Reals ZArith Bool.
From Flocq Require Import IEEE754.BinarySingleNaN.
From Coq Require Import List.
From Verif Require Import M_Py M_Float S_Validate.
Open Scope R_scope.

(** lengths a plate accepts, by size: next to nothing (0.0 and -0.0 included), beyond all measure, in between *)
Definition vanishing (x : f64) : Prop := is_finite x = true /\ 0 <= B2R x <= powerRZ 2 (-359).
Definition huge (x : f64) : Prop := is_finite x = true /\ powerRZ 2 342 <= B2R x.
Definition moderate (x : f64) : Prop := is_finite x = true /\ powerRZ 2 (-340) <= B2R x <= powerRZ 2 340.
(** infinity or not a number *)
Definition endless (x : f64) : Prop := x = finf \/ x = fnan.

(** Python's float ** int for the exponents 2 and 3: NaN and infinity stay, a result far out of range raises
    OverflowError, one far below the smallest double is zero, one in range is a positive double. Nothing is said of results
    near either end of the range, where C libraries differ. *)
Record pow_range (pow : f64 -> nat -> res f64) : Prop := {
  pr_nan : forall n, n = 2%nat \/ n = 3%nat -> pow fnan n = Ok fnan;
  pr_inf : forall n, n = 2%nat \/ n = 3%nat -> pow finf n = Ok finf;
  pr_over : forall x n, n = 2%nat \/ n = 3%nat -> is_finite x = true -> powerRZ 2 1025 <= B2R x ^ n -> pow x n = Err OverflowError;
  pr_under : forall x n, n = 2%nat \/ n = 3%nat -> is_finite x = true -> 0 <= B2R x -> B2R x ^ n <= powerRZ 2 (-1077) ->
    exists z, pow x n = Ok z /\ is_zero z;
  pr_mid : forall x n, n = 2%nat \/ n = 3%nat -> is_finite x = true -> 0 < B2R x -> powerRZ 2 (-1020) <= B2R x ^ n <= powerRZ 2 1020 ->
    exists y, pow x n = Ok y /\ is_finite y = true /\ 0 < B2R y }.
(** one that keeps to it: repeated multiplication *)
Definition mul_pow (x : f64) (n : nat) : res f64 :=
  let y := match n with 2%nat => fmul x x | 3%nat => fmul (fmul x x) x | _ => fone end in
  if is_finite x && negb (is_finite y) then Err OverflowError else Ok y.
(** no entry is finite *)
Definition none_finite (K : list (list f64)) : Prop := Forall (Forall (fun x => is_finite x = false)) K.
