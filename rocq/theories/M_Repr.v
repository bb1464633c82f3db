(** The texts repr() gives for materials and laminates. *)
From Coq Require Import ZArith Ascii String Decimal DecimalString.
From Coq Require Import List.
From Flocq Require Import IEEE754.BinarySingleNaN.
From Verif Require Import M_Py M_Float M_Validate M_MatObj.
Import ListNotations.
Open Scope string_scope.
Open Scope list_scope.

(** [fmt] is Python's text of a float, the same for repr, str and an f-string without format: an argument of the model. *)

(** labels and numbers of an f-string, one after the other *)
Fixpoint fields (fmt : f64 -> string) (l : list (string * f64)) : string :=
  match l with [] => "" | (label, x) :: t => label ++ fmt x ++ fields fmt t end%string.
(** [\n] and the indentation of the next source line: the backslash at the end of the line only continues the literal *)
Definition nl : string := String (ascii_of_nat 10) "            ".

(** material.py:175-179 : OrthotropicMaterial.__repr__ *)
Definition ortho_text (fmt : f64 -> string) (name : string) (m : fomat) : string :=
  ("Ply(" ++ name ++ fields fmt [(", E1 = ", fo_e1 m); (", E2 = ", fo_e2 m); (", " ++ nl ++ "v12 = ", fo_v12 m); (", G12 = ", fo_g12 m); (", thickness = ", fo_thickness m);
     (", " ++ nl ++ "T1 = ", fo_t1 m); (", C1 = ", fo_c1 m); (", T2 = ", fo_t2 m); (", C2 = ", fo_c2 m); (", S = ", fo_s m)] ++ ")")%string.
(** material.py:298-302 : IsotropicMaterial.__repr__ *)
Definition iso_text (fmt : f64 -> string) (name : string) (m : fimat) : string :=
  ("IsotropicMaterial(" ++ name ++ fields fmt [(", E = ", fi_e m); (", " ++ nl ++ "v = ", fi_v m); (", G = ", fi_g m); (", thickness = ", fi_thickness m);
     (", " ++ nl ++ "T = ", fi_t m); (", C = ", fi_c m); (", S = ", fi_s m)] ++ ")")%string.
Definition mat_text (fmt : f64 -> string) (name : string) (d : matdata) : string :=
  match d with DOrtho m => ortho_text fmt name m | DIso m => iso_text fmt name m end.

(** repr(x) for the k-th material of a history: self.name is read first, which gives an unnamed material its name (material.py:121-127, 269-275) *)
Inductive rop := RCall (o : mop) | RRepr (k : nat).
Inductive rout := ROut (m : mout) | RText (s : string).
Definition rstep (fmt : f64 -> string) (parse : string -> option f64) (st : mstate) (o : rop) : mstate * rout :=
  match o with
  | RCall o => let (st', out) := mstep parse st o in (st', ROut out)
  | RRepr k =>
      match mstep parse st (ReadName k) with
      | (st', Name s) => match nth_error (objs st') k with Some x => (st', RText (mat_text fmt s (in_data x))) | None => (st', ROut NoSuch) end
      | (st', out) => (st', ROut out)
      end
  end.
Fixpoint rrun (fmt : f64 -> string) (parse : string -> option f64) (st : mstate) (l : list rop) : mstate * list rout :=
  match l with
  | [] => (st, [])
  | o :: t => let (st1, out) := rstep fmt parse st o in let (st2, outs) := rrun fmt parse st1 t in (st2, out :: outs)
  end.

(** repr of an int and of a list of numbers: [a, b, c] *)
Definition int_text (z : Z) : string := NilZero.string_of_int (Z.to_int z).
Definition num_text (fmt : f64 -> string) (a : num) : string := match a with NInt z => int_text z | NFloat x => fmt x end.
Definition list_text (fmt : f64 -> string) (l : list num) : string := ("[" ++ String.concat ", " (map (num_text fmt) l) ++ "]")%string.
(** property.py:307-311 : LaminateProperty.__repr__ for a stacking that is a list of ints and floats *)
Definition lam_text (fmt : f64 -> string) (stacking : list num) : string :=
  ("composipy.LaminateProperty" ++ String (ascii_of_nat 10) "stacking = " ++ list_text fmt stacking)%string.
