(** IEEE-754 binary64, the Python [float] and numpy [float64] (Flocq's BinarySingleNaN, one NaN value:
    payloads are not observable through the API). Rounding is to nearest, ties to even. *)
From Coq Require Import ZArith Bool.
From Flocq Require Import IEEE754.BinarySingleNaN.
From Flocq Require Core.

Definition f64 : Set := binary_float 53 1024.

Lemma f64_prec : Core.FLX.Prec_gt_0 53.
Proof. reflexivity. Qed.
Lemma f64_emax : Prec_lt_emax 53 1024.
Proof. reflexivity. Qed.

Definition f_of_Z_exp (m e : Z) : f64 := binary_normalize 53 1024 f64_prec f64_emax mode_NE m e false.
(** Python [float(int)] except that an int out of range gives an infinity here (see [to_float]). *)
Definition f_of_Z (z : Z) : f64 := f_of_Z_exp z 0.

Definition fzero : f64 := B754_zero false.
Definition fnzero : f64 := B754_zero true.
Definition finf : f64 := B754_infinity false.
Definition fninf : f64 := B754_infinity true.
Definition fnan : f64 := B754_nan.
Definition fone : f64 := f_of_Z 1.
Definition fhalf : f64 := f_of_Z_exp 1 (-1).

(** Comparisons: false whenever an operand is NaN; -0.0 == 0.0. *)
Definition flt (x y : f64) : bool := Bltb x y.
Definition fgt (x y : f64) : bool := Bltb y x.
Definition feq (x y : f64) : bool := Beqb x y.

(** numpy division (no exception: x/0 is an infinity or NaN), subtraction, product, abs, negation *)
Definition fdiv (x y : f64) : f64 := @Bdiv 53 1024 f64_prec f64_emax mode_NE x y.
Definition fsub (x y : f64) : f64 := @Bminus 53 1024 f64_prec f64_emax mode_NE x y.
Definition fadd (x y : f64) : f64 := @Bplus 53 1024 f64_prec f64_emax mode_NE x y.
Definition fmul (x y : f64) : f64 := @Bmult 53 1024 f64_prec f64_emax mode_NE x y.
Definition fabs (x : f64) : f64 := Babs x.
Definition fopp (x : f64) : f64 := Bopp x.

(** [float.is_integer] : false for NaN and infinities. *)
Definition f_is_integer (x : f64) : bool :=
  match x with
  | B754_zero _ => true
  | B754_finite _ m e _ => (0 <=? e)%Z || (Z.pos m mod 2 ^ (- e) =? 0)%Z
  | _ => false
  end.

(** [int(x)] for a finite x : truncation toward zero. *)
Definition f_to_Z (x : f64) : Z :=
  match x with
  | B754_finite s m e _ =>
      let a := if (0 <=? e)%Z then (Z.pos m * 2 ^ e)%Z else (Z.pos m / 2 ^ (- e))%Z in
      if s then (- a)%Z else a
  | _ => 0%Z
  end.
