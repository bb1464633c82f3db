(** The theorems on the conversion of arguments to floats.
    Statements only: every proof is [exact] a lemma of T_Convert.v with the same statement.
    Below each theorem, Print Assumptions lists the axioms it uses. *)
From Coq Require Import Reals ZArith Lra Lia Bool String.
From Flocq Require Import Core.Core IEEE754.BinarySingleNaN.
From Coq Require Import List.
From Verif Require Import M_Py M_Float M_Validate S_Validate S_Round S_OptFloat.
Open Scope R_scope.
From Verif Require T_Convert.

(** C01: what the arguments convert to. None never converts; False and True are 0 and 1; a float is itself; an int becomes a double nearest
    to it, the int itself up to 2^53, and does not convert exactly when its magnitude is at least 2^1024 - 2^970. *)
Theorem C01_conversion : forall parse,
  to_float parse PNone = None /\
  (forall b, exists x, to_float parse (PBool b) = Some x /\ denotes x (if b then 1 else 0)) /\
  (forall x, to_float parse (PFloat x) = Some x) /\
  (forall z, to_float parse (PInt z) = None <-> (2 ^ 1024 - 2 ^ 970 <= Z.abs z)%Z) /\
  (forall z x, to_float parse (PInt z) = Some x -> nearest x (IZR z) /\ ((Z.abs z <= 2 ^ 53)%Z -> denotes x (IZR z))).
Proof. exact T_Convert.t_C01_conversion. Qed.
Print Assumptions C01_conversion.

(** C01: so True is accepted wherever 1 is, and the same material results. *)
Theorem C01_bool : forall parse v12 g12 th, exists z,
  to_float parse (PBool true) = Some z /\ denotes z 1 /\
  ortho_init parse (oargs5 (PBool true) (PBool true) v12 g12 th) = ortho_init parse (oargs5 (PInt 1) (PInt 1) v12 g12 th).
Proof. exact T_Convert.t_C01_bool. Qed.
Print Assumptions C01_bool.
