(** Vocabulary for assembled matrices given by rows. *)
From Coq Require Import Arith List.
From Verif Require Import M_Py M_K.
Import ListNotations.

Definition entry {X} (M : list (list X)) (r c : nat) : option X :=
  match nth_error M r with Some row => nth_error row c | None => None end.
Definition square {X} (n : nat) (M : list (list X)) : Prop := length M = n /\ Forall (fun row => length row = n) M.
Definition sym_rows {X} (M : list (list X)) : Prop := forall r c, entry M r c = entry M c r.
(** addition does not depend on the order of the operands *)
Definition add_comm (A : arith) : Prop := forall x y, nadd A x y = nadd A y x.

From Coq Require Import Reals.
Open Scope R_scope.
Definition scale_rows (s : R) (M : list (list R)) : list (list R) := map (map (Rmult s)) M.
Fixpoint map2 {X Y Z} (f : X -> Y -> Z) (l : list X) (r : list Y) : list Z :=
  match l, r with x :: l', y :: r' => f x y :: map2 f l' r' | _, _ => [] end.
Definition add_rows (M N : list (list R)) : list (list R) := map2 (map2 Rplus) M N.
