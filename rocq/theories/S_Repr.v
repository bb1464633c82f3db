(** Vocabulary for the texts of materials and laminates. *)
From Coq Require Import ZArith Ascii String Decimal DecimalString.
From Coq Require Import List.
From Flocq Require Import IEEE754.BinarySingleNaN.
From Verif Require Import M_Py M_Float M_Validate M_MatObj M_Repr S_MatObj.
Import ListNotations.

(** What Python guarantees of the text of a float: different floats have different texts (all NaN count as one), the text is not empty,
    has no space and no comma, and never looks like an int. *)
Record prints (fmt : f64 -> string) : Prop := {
  pr_inj : forall x y, fmt x = fmt y -> x = y;
  pr_some : forall x, fmt x <> ""%string;
  pr_plain : forall x c, In c (list_ascii_of_string (fmt x)) -> c <> " "%char /\ c <> ","%char;
  pr_float : forall x z, fmt x <> NilZero.string_of_int (Z.to_int z) }.
(** a history in which every repr() is replaced by reading the name *)
Definition only_names (l : list rop) : list mop := map (fun o => match o with RCall o => o | RRepr k => ReadName k end) l.
(** the i-th call is repr() of material k and returned s *)
Definition shown fmt parse (l : list rop) (i k : nat) (s : string) : Prop :=
  nth_error l i = Some (RRepr k) /\ nth_error (snd (rrun fmt parse mstate0 l)) i = Some (RText s).
(** the angles of a laminate *)
Definition angles (l : list entry) : list num := map (fun e => oval (fst (oval e))) l.
(** one way of writing floats that has these properties (used in the examples only; Python's is another) *)
Definition plain_fmt (x : f64) : string :=
  match x with
  | B754_zero s => if s then "-0.0" else "0.0"
  | B754_infinity s => if s then "-inf" else "inf"
  | B754_nan => "nan"
  | B754_finite s m e _ => (int_text (if s then Zneg m else Zpos m) ++ "e" ++ int_text e)%string
  end.
