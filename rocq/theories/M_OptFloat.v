(** composipy/optimize/utils.py:27-104 on Python floats (binary64): normalisation of the loads, warnings, constraint functions and the
    mask of the plots. The power operator is an argument, as in M_FloatArith.v: [pow x n] is [x**n] and may raise OverflowError. *)
From Coq Require Import ZArith Bool.
From Flocq Require Import IEEE754.BinarySingleNaN.
From Coq Require Import List.
From Verif Require Import M_Py M_Float M_Validate M_Optimize.
Import ListNotations.

(** [x >= y] : false whenever an operand is NaN *)
Definition fge (x y : f64) : bool := Bleb y x.

(** utils.py:27-37 : normalize_critical_load; Python's division raises for a zero divisor *)
Definition normalize_f (Nxx Nyy Nxy : f64) : res (f64 * f64 * f64 * f64) :=
  let mx := last_of (sort3 flt (fabs Nxx) (fabs Nyy) (fabs Nxy)) fzero in
  x <- py_fdiv Nxx mx ;; y <- py_fdiv Nyy mx ;; z <- py_fdiv Nxy mx ;; Ok (x, y, z, mx).

(** utils.py:75-84 : check_loads; the warnings issued, in order *)
Definition check_loads_f (Nxx Nyy Nxy : f64) : list warning :=
  (if fge Nxx fzero && fge Nyy fzero && feq Nxy fzero then [NoCompression] else []) ++
  (if fgt (fabs Nxx) fone || fgt (fabs Nyy) fone || fgt (fabs Nxy) fone then [NotNormalised] else []).

(** utils.py:43-46, 54-57, 66-69 : the unpacking shared by the three constraint functions *)
Definition xi13_f (y0 : list f64) : res (f64 * f64) :=
  match y0 with [xi1; xi3] => Ok (xi1, xi3) | [_; xi1; xi3] => Ok (xi1, xi3) | _ => Err UnboundLocalError end.

Section Pow.
Variable pow : f64 -> nat -> res f64.
(** the expressions [xi3 + 2*xi1 + 1], [xi3 - 2*xi1 + 1], [xi3 - 2*xi1**2 + 1]; the int 2 and 1 become floats *)
Definition g1_f (xi1 xi3 : f64) : f64 := fadd (fadd xi3 (fmul (f_of_Z 2) xi1)) fone.
Definition g2_f (xi1 xi3 : f64) : f64 := fadd (fsub xi3 (fmul (f_of_Z 2) xi1)) fone.
Definition gn_f (xi1 xi3 : f64) : res f64 := s <- pow xi1 2 ;; Ok (fadd (fsub xi3 (fmul (f_of_Z 2) s)) fone).
(** utils.py:40-49, 52-60, 63-72 *)
Definition penalty_g1_f (y0 : list f64) : res f64 := p <- xi13_f y0 ;; Ok (g1_f (fst p) (snd p)).
Definition penalty_g2_f (y0 : list f64) : res f64 := p <- xi13_f y0 ;; Ok (g2_f (fst p) (snd p)).
Definition natural_constraint_g_f (y0 : list f64) : res f64 := p <- xi13_f y0 ;; gn_f (fst p) (snd p).
(** utils.py:87-104 : _constraint; the parabola is evaluated in any case *)
Definition mask_f (xi1 xi3 : f64) (penalty : bool) : res bool :=
  gn <- gn_f xi1 xi3 ;;
  let g := if negb penalty then gn else if flt xi1 fzero then g1_f xi1 xi3 else g2_f xi1 xi3 in
  Ok (negb (flt g fzero)).
End Pow.
