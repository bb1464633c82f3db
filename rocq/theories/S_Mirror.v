(** Mirror images of plates and laminates, and the exchange of the two axes. *)
From Coq Require Import Reals String List.
From Verif Require Import M_Material M_Plate S_Mat.
Import ListNotations.
Open Scope R_scope.

(** the stiffness seen when one of the axes is reversed: the shear couplings change sign *)
Definition mirrored (D : mat3) : mat3 :=
  M3 (a11 D) (a12 D) (- a13 D) (a21 D) (a22 D) (- a23 D) (- a31 D) (- a32 D) (a33 D).
(** the stiffness seen when the axes are exchanged *)
Definition exchanged (D : mat3) : mat3 :=
  M3 (a22 D) (a21 D) (a23 D) (a12 D) (a11 D) (a13 D) (a32 D) (a31 D) (a33 D).

(** the layups that a mirror and an exchange of the axes make of a layup *)
Definition opposite_angles (l : list (R * material)) : list (R * material) := map (fun p => (- fst p, snd p)) l.
Definition complementary_angles (l : list (R * material)) : list (R * material) := map (fun p => (90 - fst p, snd p)) l.

(** a plate free on x = a, and its mirror image *)
Definition free_right : constraints := CDict (Some (EStr "pinned"%string)) (Some (EStr "free"%string)) (Some (EStr "pinned"%string)) (Some (EStr "pinned"%string)).
Definition free_left : constraints := CDict (Some (EStr "free"%string)) (Some (EStr "pinned"%string)) (Some (EStr "pinned"%string)) (Some (EStr "pinned"%string)).
