(** Vocabulary for laminates given by lamination parameters in binary64. *)
From Coq Require Import Reals ZArith String.
From Flocq Require Import IEEE754.BinarySingleNaN.
From Coq Require Import List.
From Verif Require Import M_Py M_Float M_Validate M_Material M_Laminate M_LayupFloat S_Mat S_Round S_MatFloat S_LayupFloat.
Import ListNotations.
Open Scope R_scope.

(** A and D, in exact arithmetic, of the laminate given by lamination parameters for the numbers the doubles stand for
    (the constructor wants xiD also where only A is asked for) *)
Definition exact_A (f : fomat) (xi : list f64) (T : f64) : res mat3 :=
  L <- construct (SDict [("xiA", DVec (map (@B2R 53 1024) xi)); ("xiD", DVec (map (@B2R 53 1024) xi)); ("T", DNum (B2R T))]%string) (POne (Ortho (exact_ply f))) ;; snd (get_A L).
Definition exact_D (f : fomat) (xi : list f64) (T : f64) : res mat3 :=
  L <- construct (SDict [("xiD", DVec (map (@B2R 53 1024) xi)); ("T", DNum (B2R T))]%string) (POne (Ortho (exact_ply f))) ;; snd (get_D L).
(** four parameters in [-1, 1], up to rounding *)
Definition four_parameters (xi : list f64) : Prop := length xi = 4%nat /\ Forall (fun x => is_finite x = true /\ Rabs (B2R x) <= 1001 / 1000) xi.
(** a ply built by the constructor with moduli of usual size, 1 - v12 v21 at least mu and the numbers of Q_0 together at most q *)
Definition lp_ply (mu q : R) (f : fomat) : Prop := good_ply mu (FOrtho f) /\ stiff_below q (FOrtho f).
(** error bound for the entries of A (p = 1) and D (p = 3) *)
Definition lp_off (mu q : R) (p : nat) (T : f64) : R := (match p with 1%nat => 50 | _ => 5 end) / mu * unit * q * B2R T ^ p.
