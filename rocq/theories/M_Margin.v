(** composipy/core/strength.py:408-423 : the margin formulas of calculate_maxstressmargin for one row, on
    binary64 (numpy semantics: division by zero gives an infinity or NaN, no exception). *)
From Coq Require Import ZArith Bool List String.
From Flocq Require Import IEEE754.BinarySingleNaN.
From Verif Require Import M_Py M_Float.
Import ListNotations.
Open Scope string_scope.
Open Scope list_scope.

(** pandas [s.mask(s < 0, 0)] on one element: replace by 0.0 where the condition holds (NaN < 0 is False) *)
Definition mask_negative (x : f64) : f64 := if flt x fzero then fzero else x.
(** pandas [s.mask(s > 0, 0)] *)
Definition mask_positive (x : f64) : f64 := if fgt x fzero then fzero else x.

(** strength.py:408 and :410 : allowable / sigma.mask(sigma < 0, 0) - 1 *)
Definition margin_t (allowable sigma : f64) : f64 := fsub (fdiv allowable (mask_negative sigma)) fone.
(** strength.py:409 and :411 : allowable / sigma.mask(sigma > 0, 0).abs() - 1 *)
Definition margin_c (allowable sigma : f64) : f64 := fsub (fdiv allowable (fabs (mask_positive sigma))) fone.
(** strength.py:412 : allowable / tau.abs() - 1 *)
Definition margin_s (allowable tau : f64) : f64 := fsub (fdiv allowable (fabs tau)) fone.

Record fallow := FAllow { fa_t1 : f64; fa_c1 : f64; fa_t2 : f64; fa_c2 : f64; fa_s : f64 }.
Record fstress := FStress { fs_1 : f64; fs_2 : f64; fs_12 : f64 }.

(** strength.py:418-422 : the five margin columns of a row, in the column order used on line 423 *)
Definition margin_columns (a : fallow) (st : fstress) : list (string * f64) :=
  [("margin_t1", margin_t (fa_t1 a) (fs_1 st));
   ("margin_c1", margin_c (fa_c1 a) (fs_1 st));
   ("margin_t2", margin_t (fa_t2 a) (fs_2 st));
   ("margin_c2", margin_c (fa_c2 a) (fs_2 st));
   ("margin_s", margin_s (fa_s a) (fs_12 st))].

(** pandas DataFrame.idxmin(axis=1) on one row (skipna=True): pandas replaces NaN by +inf, takes numpy's argmin
    (the first smallest) and then reports a missing value if every entry was NaN (pandas.core.nanops.nanargmin;
    pandas 3 raises ValueError for all-NaN rows instead, modelled as missing). *)
Definition fill_nan (x : f64) : f64 := if is_nan x then finf else x.
Fixpoint argmin (best : string * f64) (l : list (string * f64)) : string :=
  match l with
  | [] => fst best
  | c :: t => if flt (snd c) (snd best) then argmin c t else argmin best t
  end.
Definition idxmin (l : list (string * f64)) : option string :=
  if forallb (fun c => is_nan (snd c)) l then None
  else match map (fun c => (fst c, fill_nan (snd c))) l with
       | [] => None
       | c :: t => Some (argmin c t)
       end.

(** strength.py:423 : the column [critical] *)
Definition critical (a : fallow) (st : fstress) : option string := idxmin (margin_columns a st).
