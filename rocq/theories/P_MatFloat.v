(** The theorems on the stiffness of a ply in binary64.
    Statements only: every proof is [exact] a lemma of T_MatFloat.v with the same statement.
    Below each theorem, Print Assumptions lists the axioms it uses. *)
From Coq Require Import Reals ZArith Lra Lia Bool String.
From Flocq Require Import Core.Core IEEE754.BinarySingleNaN.
From Coq Require Import List.
From Verif Require Import M_Py M_Float M_Validate M_MatFloat M_Material M_K M_RealArith S_Mat S_Ritz S_Validate S_Laminate S_Round S_Sens S_MatFloat.
Import ListNotations.
Open Scope R_scope.
From Verif Require T_MatFloat.

(** C87: reading Q_0 of any accepted material raises ZeroDivisionError exactly when v12*v21, rounded, is 1; otherwise the array is symmetric to the
    last bit, its zeros are zeros and its last entry is g12 unchanged. *)
Theorem C87_array : forall parse a f, ortho_init parse a = Ok f ->
  (ortho_Q0 f = Err ZeroDivisionError <-> same_number (fmul (fo_v12 f) (fo_v21 f)) fone) /\
  (forall e, ortho_Q0 f = Err e -> e = ZeroDivisionError) /\
  (forall Q, ortho_Q0 f = Ok Q -> (forall i j, Q i j = Q j i) /\ Q 0%nat 2%nat = fzero /\ Q 1%nat 2%nat = fzero /\ Q 2%nat 2%nat = fo_g12 f).
Proof. exact T_MatFloat.t_C87_array. Qed.
Print Assumptions C87_array.

(** C87: accuracy. For moduli of usual size and 1 - v12*v21 at least 2^-40, every entry of Q_0 is finite and has a relative error of at most
    7 units divided by 1 - v12*v21. *)
Theorem C87_accurate : forall parse a f, ortho_init parse a = Ok f -> usual_ply f -> powerRZ 2 (-40) <= margin f ->
  exists Q X, ortho_Q0 f = Ok Q /\ o_Q0 (exact_ply f) = Ok X /\ array_close (7 / margin f) Q X.
Proof. exact T_MatFloat.t_C87_accurate. Qed.
Print Assumptions C87_accurate.

(** C87: the computed Q_0 then is symmetric and positive definite like the exact one. *)
Theorem C87_definite : forall parse a f, ortho_init parse a = Ok f -> usual_ply f -> powerRZ 2 (-40) <= margin f ->
  exists Q, ortho_Q0 f = Ok Q /\ symmetric (numbers Q) /\ pos_def (numbers Q).
Proof. exact T_MatFloat.t_C87_definite. Qed.
Print Assumptions C87_definite.

(** C87: an isotropic material never raises when Q_0 is read, whatever was accepted by the constructor (even a NaN); for moduli of usual size every
    entry is finite with a relative error of at most 6 units. *)
Theorem C87_isotropic : forall parse a f, iso_init parse a = Ok f -> exists Q, iso_Q0 f = Ok Q /\
  (forall i j, Q i j = Q j i) /\ Q 0%nat 0%nat = Q 1%nat 1%nat /\ Q 0%nat 2%nat = fzero /\ Q 1%nat 2%nat = fzero /\ Q 2%nat 2%nat = fi_g f /\
  (usual_iso f -> exists X, i_Q0 (exact_iso f) = Ok X /\ array_close 6 Q X).
Proof. exact T_MatFloat.t_C87_isotropic. Qed.
Print Assumptions C87_isotropic.

(** C87: the invariants. They are finite and differ from those of the exact Q_0 by at most 10 units of |Q11|+|Q12|+|Q22|+|Q66|, divided by 1 - v12*v21. *)
Theorem C87_invariants : forall parse a f, ortho_init parse a = Ok f -> usual_ply f -> powerRZ 2 (-40) <= margin f ->
  exists U1 U2 U3 U4 U5 X I1 I2 I3 I4 I5, ortho_invariants f = Ok [U1; U2; U3; U4; U5] /\ o_Q0 (exact_ply f) = Ok X /\
  Invariants (Ortho (exact_ply f)) = Ok (I1, I2, I3, I4, I5) /\
  Forall2 (fun (U : f64) I => is_finite U = true /\ Rabs (B2R U - I) <= 10 / margin f * unit * size X) [U1; U2; U3; U4; U5] [I1; I2; I3; I4; I5].
Proof. exact T_MatFloat.t_C87_invariants. Qed.
Print Assumptions C87_invariants.

(** C87: it is not enough that v12^2 e2 < e1. With e1 = 49, e2 = 400 and v12 = 0.35 the double nearest to 0.35 is below it, the ply is stable, and still reading Q_0
    raises ZeroDivisionError. *)
Theorem C87_zero_refuted : exists a f, (forall parse, ortho_init parse a = Ok f) /\ usual_ply f /\ physical (exact_ply f) /\ ortho_Q0 f = Err ZeroDivisionError.
Proof. exact T_MatFloat.t_C87_zero_refuted. Qed.
Print Assumptions C87_zero_refuted.

(** C87: nor does a result mean a stiffness. With e1 = 9, e2 = 2418.7046492878258 and v12 = 0.061 the ply is stable and the computed Q11 is a negative number. *)
Theorem C87_negative_refuted : exists a f Q, (forall parse, ortho_init parse a = Ok f) /\ physical (exact_ply f) /\ ortho_Q0 f = Ok Q /\
  is_finite (Q 0%nat 0%nat) = true /\ flt (Q 0%nat 0%nat) fzero = true.
Proof. exact T_MatFloat.t_C87_negative_refuted. Qed.
Print Assumptions C87_negative_refuted.

(** C87: and the exact division by zero is not always noticed. With e1 = 3721, e2 = 16384 and v12 = 61/128, all exact as doubles, 1 - v12*v21 is 0, and Q_0 is returned with
    finite numbers. *)
Theorem C87_singular_refuted : exists a f Q, (forall parse, ortho_init parse a = Ok f) /\ o_Q0 (exact_ply f) = Err ZeroDivisionError /\ ortho_Q0 f = Ok Q /\
  is_finite (Q 0%nat 0%nat) = true /\ flt fzero (Q 0%nat 0%nat) = true.
Proof. exact T_MatFloat.t_C87_singular_refuted. Qed.
Print Assumptions C87_singular_refuted.

(** C87: outside the usual range. With e1 = 2^-600, e2 = 2^600 and v12 = 0 the ply is stable (Q11 = e1, Q22 = e2); the computed Q11 is not a number. *)
Theorem C87_range_refuted : exists a f Q X, (forall parse, ortho_init parse a = Ok f) /\ physical (exact_ply f) /\ margin f = 1 /\ ortho_Q0 f = Ok Q /\ o_Q0 (exact_ply f) = Ok X /\
  a11 X = B2R (fo_e1 f) /\ is_nan (Q 0%nat 0%nat) = true.
Proof. exact T_MatFloat.t_C87_range_refuted. Qed.
Print Assumptions C87_range_refuted.

(** C87: the ply of the docstring, 129500, 9370, 0.38, 5240, 0.2, meets the hypotheses and its margin is above 0.98. *)
Example C87_ex : exists a f, (forall parse, ortho_init parse a = Ok f) /\ usual_ply f /\ powerRZ 2 (-40) <= margin f /\ 98 / 100 <= margin f.
Proof. exact T_MatFloat.t_C87_ex. Qed.
