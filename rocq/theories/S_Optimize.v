(** Vocabulary for the optimisation problems. *)
From Coq Require Import Reals String.
From Coq Require Import List.
From Verif Require Import M_Py S_Mat M_Material M_Laminate M_Buckling M_Optimize.
Import ListNotations.
Open Scope R_scope.

(** the elastic constants of a material the constructor accepts and whose plane-stress stiffness is positive definite *)
Definition elastic (E1 E2 v12 G12 : R) : Prop := 0 < E1 /\ 0 < E2 /\ 0 < G12 /\ -1/2 <= v12 <= 1/2 /\ v12 ^ 2 * E2 < E1.
(** D of LaminateProperty({'xiD': [xi1, 0, xi3, 0], 'T': T}, OrthotropicMaterial(E1, E2, v12, G12, thickness=h)) *)
Definition D_lp (h E1 E2 v12 G12 T xi1 xi3 : R) : res mat3 :=
  m <- ortho_real E1 E2 v12 G12 h ;;
  L <- construct (SDict [("xiD", DVec [xi1; 0; xi3; 0]); ("T", DNum T)]%string) (POne (Ortho m)) ;;
  snd (get_D L).

(** a value lies between the bounds of a constraint; an infinite one does not count *)
Definition within (v : res ext) (lo : R) (hi : option R) : Prop :=
  exists x, v = Ok (Fin x) /\ lo <= x /\ match hi with Some h => x <= h | None => True end.
(** y satisfies the bounds and all constraints of the problem *)
Definition feasible (p : problem) (y : list R) : Prop :=
  Forall2 (fun x b => fst b <= x <= snd b) y (bnds p) /\ Forall (fun c => within (fst (fst c) y) (snd (fst c)) (snd c)) (cons p).
