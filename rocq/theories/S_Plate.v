(** Specification side of the edge conditions. *)
From Coq Require Import Bool Arith String Ascii List Sorted.
From Verif Require Import M_Py M_Plate.
Import ListNotations.
Open Scope string_scope.
Open Scope list_scope.

(** What an edge condition forbids. Shape functions 0 and 1 carry the value and the slope at the start of the interval,
    2 and 3 those at its end. *)
Inductive condition := Free | Pinned | Clamped.
Definition holds_value (c : condition) : bool := match c with Free => false | _ => true end.
Definition holds_slope (c : condition) : bool := match c with Clamped => true | _ => false end.

(** function [i] is allowed between an edge with (value, slope) held and one with (value', slope') held *)
Definition allowed (v0 s0 v1 s1 : bool) (i : nat) : Prop :=
  (i = 0 -> v0 = false) /\ (i = 1 -> s0 = false) /\ (i = 2 -> v1 = false) /\ (i = 3 -> s1 = false).
Definition admissible (c0 c1 : condition) : nat -> Prop :=
  allowed (holds_value c0) (holds_slope c0) (holds_value c1) (holds_slope c1).

(** [l] lists the first [k] numbers satisfying [P], in increasing order *)
Definition first_k (P : nat -> Prop) (k : nat) (l : list nat) : Prop :=
  List.length l = k /\ StronglySorted lt l /\ Forall P l /\ (forall i j, In j l -> i < j -> P i -> In i l).

(** documented names, in any letter case *)
Inductive names : string -> condition -> Prop :=
| N_free s : lower s = "free" -> names s Free
| N_pinned s : lower s = "pinned" -> names s Pinned
| N_ss s : lower s = "simply_supported" -> names s Pinned
| N_fixed s : lower s = "fixed" -> names s Clamped
| N_clamped s : lower s = "clamped" -> names s Clamped.

(** the documented ways to name four conditions (structure.py:54-65) *)
Inductive specifies : constraints -> condition -> condition -> condition -> condition -> Prop :=
| Sp_pinned : specifies (CStr "PINNED") Pinned Pinned Pinned Pinned
| Sp_clamped : specifies (CStr "CLAMPED") Clamped Clamped Clamped Clamped
| Sp_dict s0 sa r0 rb c0 ca d0 db : names s0 c0 -> names sa ca -> names r0 d0 -> names rb db ->
    specifies (CDict (Some (EStr s0)) (Some (EStr sa)) (Some (EStr r0)) (Some (EStr rb))) c0 ca d0 db.

(** pairs in row-major order: the first component varies slowest *)
Definition row_major {A B} (l : list A) (r : list B) (p : list (A * B)) : Prop :=
  List.length p = List.length l * List.length r /\
  forall a b, a < List.length l -> b < List.length r ->
    nth_error p (a * List.length r + b) =
      match nth_error l a, nth_error r b with Some x, Some y => Some (x, y) | _, _ => None end.

(** number of functions a condition takes away *)
Definition taken (c : condition) : nat := match c with Free => 0 | Pinned => 1 | Clamped => 2 end.

Definition mixed_example : constraints :=
  CDict (Some (EList ["TX"; "TY"; "TZ"])) (Some (EStr "clamped")) (Some (EStr "Pinned")) (Some (EStr "FIXED")).

(** [name] is not part of the text *)
Definition no_component (s : string) : Prop :=
  forall name a b, In name ["TX"; "TY"; "TZ"; "RX"; "RY"; "RZ"] -> s <> (a ++ name ++ b)%string.
(** an edge given by a list, or by a text that mentions no component *)
Definition list_or_plain (e : edge) : Prop := match e with EList _ => True | EStr s => no_component s | EOther => False end.
Definition is_list (e : edge) : Prop := match e with EList _ => True | _ => False end.
Definition freed (e : edge) : edge := match e with EStr _ => EList [] | _ => e end.
(** two edges agree on a component *)
Definition agree (name : string) (e e' : edge) : Prop :=
  match e, e' with EList l, EList l' => In name l <-> In name l' | _, _ => False end.
