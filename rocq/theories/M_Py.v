(** Python-level outcomes: exceptions are values.

    Models the exception classes that the code in /repo raises or lets through. Only the class is
    kept; the message text is not modelled. *)
From Coq Require Import List String.
Import ListNotations.

Inductive exn :=
| ValueError            (* raised by validators.py:10,12,14,22,24,26,28,34, property.py:68, pcomp_generator.py:26,134,156,158 *)
| TypeError             (* raised by the interpreter, e.g. indexing a str with a str *)
| KeyError              (* dict lookup of a missing key *)
| IndexError            (* list index out of range *)
| AttributeError        (* missing attribute, e.g. IsotropicMaterial.Invariants *)
| UnboundLocalError     (* a local variable read before assignment *)
| ZeroDivisionError     (* float division by zero on Python floats *)
| OverflowError         (* a Python float power out of range *)
| LinAlgError           (* numpy.linalg.inv of a singular matrix *)
| ArpackError           (* scipy.sparse.linalg.ArpackError *)
| NotFinite.            (* NOT an exception: marks a numpy result containing nan/inf (division by 0.0),
                           which has no value in the real-arithmetic part of the model *)

Inductive res (A : Type) : Type :=
| Ok (a : A)
| Err (e : exn).
Arguments Ok {A} a.
Arguments Err {A} e.

Definition bind {A B : Type} (x : res A) (f : A -> res B) : res B :=
  match x with Ok a => f a | Err e => Err e end.

Notation "x <- e1 ;; e2" := (bind e1 (fun x => e2))
  (at level 61, e1 at next level, right associativity).

(** [get l i] is Python's [l[i]] for a non-negative index [i]. *)
Definition get {A} (l : list A) (i : nat) : res A :=
  match nth_error l i with Some x => Ok x | None => Err IndexError end.

(** A [for x in l: out.append(f x)] loop in which [f] may raise. *)
Fixpoint mapM {A B} (f : A -> res B) (l : list A) : res (list B) :=
  match l with
  | [] => Ok []
  | x :: t => y <- f x ;; r <- mapM f t ;; Ok (y :: r)
  end.

Definition is_ok {A} (x : res A) : bool := match x with Ok _ => true | Err _ => false end.
