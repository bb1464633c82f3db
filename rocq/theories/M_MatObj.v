(** Material objects: automatic names, equality, and equality of laminates, on binary64 values. *)
From Coq Require Import ZArith Bool List String Decimal DecimalString.
From Flocq Require Import IEEE754.BinarySingleNaN.
From Verif Require Import M_Py M_Float M_Validate.
Import ListNotations.
Open Scope string_scope.
Open Scope list_scope.

(** ** Names (material.py:57,84,85,121-127 and 220,240,241,269-275) *)

Inductive matdata := DOrtho (m : fomat) | DIso (m : fimat).

(** An instance: its numbers, [_id], and [__name] ([None] until given or first read). *)
Record inst := Inst { in_data : matdata; in_id : nat; in_name : option string }.

(** The two class counters [_ids] and all instances created so far (index = creation order). *)
Record mstate := MState { next_o : nat; next_i : nat; objs : list inst }.
(** material.py:57 and :220 : itertools.count(1) *)
Definition mstate0 : mstate := MState 1 1 [].

Inductive mop :=
| NewOrtho (a : oargs) (name : option string)
| NewIso (a : iargs) (name : option string)
| ReadName (k : nat).                 (* x.name for the k-th created instance *)

Inductive mout :=
| Created (k : nat)
| Raised (e : exn)
| Name (s : string)
| NoSuch.                             (* the history mentions an instance that does not exist *)

(** The f-string ['ply_{n}'] (material.py:124, :272): decimal without leading zeros. *)
Definition ply_name (n : nat) : string := "ply_" ++ NilZero.string_of_uint (Nat.to_uint n).

Fixpoint upd {A} (l : list A) (k : nat) (x : A) : list A :=
  match l, k with
  | [], _ => []
  | _ :: t, O => x :: t
  | y :: t, S k' => y :: upd t k' x
  end.

(** One API call. [name] may be any object at construction; only str and None are modelled. *)
Definition mstep (parse : string -> option f64) (st : mstate) (o : mop) : mstate * mout :=
  match o with
  | NewOrtho a name =>
      match ortho_init parse a with
      | Err e => (st, Raised e)                       (* raised before line 84 *)
      | Ok m => (MState (S (next_o st)) (next_i st) (objs st ++ [Inst (DOrtho m) (next_o st) name]),
                 Created (List.length (objs st)))
      end
  | NewIso a name =>
      match iso_init parse a with
      | Err e => (st, Raised e)                       (* raised before line 240 *)
      | Ok m => (MState (next_o st) (S (next_i st)) (objs st ++ [Inst (DIso m) (next_i st) name]),
                 Created (List.length (objs st)))
      end
  | ReadName k =>
      match nth_error (objs st) k with
      | None => (st, NoSuch)
      | Some x =>
          match in_name x with
          | None => (MState (next_o st) (next_i st)
                       (upd (objs st) k (Inst (in_data x) (in_id x) (Some (ply_name (in_id x))))),
                     Name (ply_name (in_id x)))
          | Some s => (st, Name s)
          end
      end
  end.

Fixpoint mrun (parse : string -> option f64) (st : mstate) (l : list mop) : mstate * list mout :=
  match l with
  | [] => (st, [])
  | o :: t => let (st1, out) := mstep parse st o in
              let (st2, outs) := mrun parse st1 t in (st2, out :: outs)
  end.

(** ** Equality of materials *)

(** The right operand of [==]: a material object or anything else. *)
Inductive operand := OpMat (d : matdata) | OpOther.

(** material.py:182-193 *)
Definition ortho_eqb (x y : fomat) : bool :=
  feq (fo_e1 x) (fo_e1 y) && feq (fo_e2 x) (fo_e2 y) && feq (fo_v12 x) (fo_v12 y)
  && feq (fo_g12 x) (fo_g12 y) && feq (fo_thickness x) (fo_thickness y)
  && feq (fo_t1 x) (fo_t1 y) && feq (fo_c1 x) (fo_c1 y) && feq (fo_t2 x) (fo_t2 y)
  && feq (fo_c2 x) (fo_c2 y) && feq (fo_s x) (fo_s y).
(** material.py:305-313 *)
Definition iso_eqb (x y : fimat) : bool :=
  feq (fi_e x) (fi_e y) && feq (fi_v x) (fi_v y) && feq (fi_g x) (fi_g y)
  && feq (fi_thickness x) (fi_thickness y) && feq (fi_t x) (fi_t y)
  && feq (fi_c x) (fi_c y) && feq (fi_s x) (fi_s y).

(** material.py:182-195, :305-315 : [x == other] *)
Definition mat_eq (x : matdata) (other : operand) : res bool :=
  match x, other with
  | DOrtho a, OpMat (DOrtho b) => Ok (ortho_eqb a b)
  | DIso a, OpMat (DIso b) => Ok (iso_eqb a b)
  | _, _ => Err ValueError
  end.

(** ** Equality of laminates (property.py:314-317) *)

(** An angle of the stacking: a Python int or float. *)
Inductive num := NInt (z : Z) | NFloat (x : f64).

(** Python's exact int/float comparison [z == x] *)
Definition int_float_eq (z : Z) (x : f64) : bool := f_is_integer x && Z.eqb z (f_to_Z x).
Definition num_eq (a b : num) : bool :=
  match a, b with
  | NInt x, NInt y => Z.eqb x y
  | NFloat x, NFloat y => feq x y
  | NInt z, NFloat x => int_float_eq z x
  | NFloat x, NInt z => int_float_eq z x
  end.

(** An object with its identity ([id()]). *)
Record obj (A : Type) := Obj { oid : nat; oval : A }.
Arguments Obj {A}. Arguments oid {A}. Arguments oval {A}.

(** An entry of [layup]: the tuple object (angle, ply) made by zip (property.py:73). *)
Definition entry : Type := obj (obj num * obj matdata).

(** PyObject_RichCompareBool with ==: identical objects are equal, otherwise call [==]. *)
Definition rich_eq {A} (f : A -> A -> res bool) (x y : obj A) : res bool :=
  if Nat.eqb (oid x) (oid y) then Ok true else f (oval x) (oval y).

Definition angle_eq (a b : num) : res bool := Ok (num_eq a b).
Definition ply_eq (a b : matdata) : res bool := mat_eq a (OpMat b).

(** tuple == tuple for two pairs: the first unequal component decides. *)
Definition pair_eq (x y : obj num * obj matdata) : res bool :=
  r <- rich_eq angle_eq (fst x) (fst y) ;;
  if r : bool then rich_eq ply_eq (snd x) (snd y) else Ok false.

(** The element loop of list == list (CPython list_richcompare) for lists of equal length. *)
Fixpoint entries_eq (l1 l2 : list entry) : res bool :=
  match l1, l2 with
  | x :: t1, y :: t2 =>
      r <- rich_eq pair_eq x y ;; if r : bool then entries_eq t1 t2 else Ok false
  | _, _ => Ok true
  end.

(** list == list: lists of different lengths are unequal without looking at the elements. *)
Definition layup_eq (l1 l2 : list entry) : res bool :=
  if Nat.eqb (List.length l1) (List.length l2) then entries_eq l1 l2 else Ok false.

(** property.py:314-317 : [lam == other]; [None] = not a LaminateProperty. Then NotImplemented is returned and
    Python falls back to the other operand's [__eq__] and finally to identity: False (an [other] whose own
    [__eq__] accepts laminates is not modelled). *)
Definition lam_eq (l : list entry) (other : option (list entry)) : res bool :=
  match other with Some l2 => layup_eq l l2 | None => Ok false end.
