(** The exact-real instance of the arithmetic used by M_K.v and M_Expr.v. Python float division by zero raises
    ZeroDivisionError (the plate's a and b are Python floats); rounding and overflow are not modelled here. *)
From Coq Require Import Reals ZArith.
From Verif Require Import M_Py M_K M_Expr.
Open Scope R_scope.

Definition RA : arith :=
  Arith R Rplus Rminus Rmult Ropp (fun x y => if Req_EM_T y 0 then Err ZeroDivisionError else Ok (x / y))
        (fun x n => Ok (x ^ n)) IZR.
(** the value of the literal m * 10^e *)
Definition Rdec (m e : Z) : num RA := IZR m * powerRZ 10 e.

(** the stored tables, evaluated exactly *)
Definition stored_R : tables RA := stored RA Rdec.
