(** composipy/core/property.py: A and D of a laminate given by lamination parameters, in binary64, from the numbers an OrthotropicMaterial
    stores (M_Validate.v). T and the parameters are Python floats, the invariants numpy floats; the power operator is an argument. *)
From Coq Require Import ZArith List.
From Verif Require Import M_Py M_Float M_Validate M_MatFloat M_LayupFloat.
Import ListNotations.

(** the brackets of property.py:185-193 and :241-249 *)
Definition brackets (U1 U2 U3 U4 U5 xi1 xi2 xi3 xi4 : f64) : farr :=
  array9 (fadd (fadd U1 (fmul U2 xi1)) (fmul U3 xi3))
         (fadd (fmul (fopp U3) xi3) U4)
         (fadd (fdiv (fmul U2 xi2) (f_of_Z 2)) (fmul U3 xi4))
         (fadd (fmul (fopp U3) xi3) U4)
         (fadd (fsub U1 (fmul U2 xi1)) (fmul U3 xi3))
         (fsub (fdiv (fmul U2 xi2) (f_of_Z 2)) (fmul U3 xi4))
         (fadd (fdiv (fmul U2 xi2) (f_of_Z 2)) (fmul U3 xi4))
         (fsub (fdiv (fmul U2 xi2) (f_of_Z 2)) (fmul U3 xi4))
         (fadd (fmul (fopp U3) xi3) U5).
(** property.py:182-183, 237-238 : the unpacking *)
Definition unpack_f (m : fomat) (xi : list f64) : res farr :=
  U <- ortho_invariants m ;;
  match U, xi with
  | [U1; U2; U3; U4; U5], [xi1; xi2; xi3; xi4] => Ok (brackets U1 U2 U3 U4 U5 xi1 xi2 xi3 xi4)
  | _, _ => Err ValueError
  end.
(** property.py:180-197 : A *)
Definition A_lp_f (m : fomat) (xi : list f64) (T : f64) : res farr := P <- unpack_f m xi ;; Ok (fun i j => fmul T (P i j)).
(** property.py:235-253 : D; the power is written nine times and has the same value each time *)
Definition D_lp_f (pow : f64 -> nat -> res f64) (m : fomat) (xi : list f64) (T : f64) : res farr :=
  P <- unpack_f m xi ;; t3 <- pow T 3 ;; Ok (fun i j => fdiv (fmul t3 (P i j)) (f_of_Z 12)).
