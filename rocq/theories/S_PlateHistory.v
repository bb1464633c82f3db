(** Vocabulary for histories of plates. *)
From Coq Require Import Reals ZArith Arith List.
From Verif Require Import M_Py M_Plate M_K M_RealArith M_Buckling M_Laminate M_Material M_PlateHistory S_Laminate.
Import ListNotations.
Open Scope R_scope.

(** the operation assigns to an edge of constraint object i *)
Definition edits (w : world) (i : nat) (o : op) : Prop :=
  match o with SetEdge p _ _ => exists P, nth_error (w_plates w) p = Some P /\ p_con P = i | _ => False end.
(** no operation of the history does so *)
Fixpoint unedited (eigsh : solver) (t : tables RA) (i : nat) (w : world) (ops : list op) : Prop :=
  match ops with [] => True | o :: rest => ~ edits w i o /\ unedited eigsh t i (fst (step eigsh t w o)) rest end.
(** the operation analyses plate p *)
Definition analyses (p : nat) (o : op) : Prop := match o with Analyse q _ => q = p | _ => False end.
(** the operation makes plate p compute its index lists *)
Definition assembles (p : nat) (o : op) : Prop := match o with MatricesD q | MatricesABD q => q = p | _ => False end.

(** every entry is 0 *)
Definition all_zero (M : list (list R)) : Prop := Forall (Forall (fun x => x = 0)) M.
(** a ply with bending stiffness 1 when used alone *)
Definition unit_ply : material := Ortho (OMat 12 12 0 12 1 0 0 0 0 0).
(** no restraint *)
Definition free_edge : edge := EList [].
