(** The binary64 instance of the arithmetic used by M_K.v. Python's float ** int is the C library's pow, whose rounding is
    not fixed: it is a parameter, as is the value of a decimal literal. Division of Python floats by zero raises. *)
From Coq Require Import ZArith.
From Flocq Require Import IEEE754.BinarySingleNaN.
From Verif Require Import M_Py M_K M_Float.

Definition FA (pow : f64 -> nat -> res f64) : arith :=
  Arith f64 fadd fsub fmul fopp (fun x y => if feq y fzero then Err ZeroDivisionError else Ok (fdiv x y)) pow f_of_Z.
