(** When a row of the stress table exceeds an allowable, by the name of the margin that should show it. *)
From Coq Require Import String.
From Verif Require Import M_Float M_Margin S_Validate.
Open Scope string_scope.

Inductive exceeds (a : fallow) (st : fstress) : string -> Prop :=
| ex_t1 : less (fa_t1 a) (fs_1 st) -> exceeds a st "margin_t1"
| ex_c1 : less (fa_c1 a) (fopp (fs_1 st)) -> exceeds a st "margin_c1"
| ex_t2 : less (fa_t2 a) (fs_2 st) -> exceeds a st "margin_t2"
| ex_c2 : less (fa_c2 a) (fopp (fs_2 st)) -> exceeds a st "margin_c2"
| ex_s : less (fa_s a) (fabs (fs_12 st)) -> exceeds a st "margin_s".
(** allowables the material constructor accepts; NaN is among them *)
Definition accepted (a : fallow) : Prop := not_below_zero (fa_t1 a) /\ not_below_zero (fa_c1 a) /\
  not_below_zero (fa_t2 a) /\ not_below_zero (fa_c2 a) /\ not_below_zero (fa_s a).
