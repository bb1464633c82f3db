(** Two plies used in the examples about plies added to the faces of a laminate. *)
From Coq Require Import Reals.
From Verif Require Import M_Material.
Open Scope R_scope.

Definition foam : material := Iso (IMat 1 0 1 1 0 0 0).
Definition steel : material := Iso (IMat 100 0 50 1 0 0 0).
