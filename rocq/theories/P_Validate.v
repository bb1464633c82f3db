(** Constructor validation, automatic names, equality of materials and laminates
    Statements only: every proof is [exact] a lemma of T_Validate.v with the same statement.
    Below each theorem, Print Assumptions lists the axioms it uses. *)
From Coq Require Import Reals ZArith Bool List String Lia Lra Decimal DecimalString DecimalNat.
From Flocq Require Import IEEE754.BinarySingleNaN.
From Verif Require Import M_Py M_Float M_Validate M_MatObj S_Validate S_MatObj.
Import ListNotations.
Open Scope string_scope.
Open Scope list_scope.
Open Scope R_scope.
From Verif Require T_Validate.

(** C01. The constructor returns an object exactly when every argument converts to a float in its range and e1 is
    not a zero; the attributes are then those floats (v21 is the rounded v12 * (e2/e1)). *)
Theorem C01_accepts : forall parse a m,
  ortho_init parse a = Ok m <->
  (ortho_valid parse a m /\ ~ is_zero (fo_e1 m) /\ fo_v21 m = fmul (fo_v12 m) (fdiv (fo_e2 m) (fo_e1 m))).
Proof. exact T_Validate.t_C01_accepts. Qed.
Print Assumptions C01_accepts.

(** C01. ZeroDivisionError is raised exactly when every argument is in range and e1 is +0.0 or -0.0. *)
Theorem C01_zero_division : forall parse a,
  ortho_init parse a = Err ZeroDivisionError <-> (exists m, ortho_valid parse a m /\ is_zero (fo_e1 m)).
Proof. exact T_Validate.t_C01_zero_division. Qed.
Print Assumptions C01_zero_division.

(** C01. Every other call raises ValueError: some argument does not convert or is out of range. *)
Theorem C01_value_error : forall parse a,
  ortho_init parse a = Err ValueError <-> (forall m, ~ ortho_valid parse a m).
Proof. exact T_Validate.t_C01_value_error. Qed.
Print Assumptions C01_value_error.

(** C01. No other exception escapes. *)
Theorem C01_total : forall parse a,
  (exists m, ortho_init parse a = Ok m) \/ ortho_init parse a = Err ValueError
  \/ ortho_init parse a = Err ZeroDivisionError.
Proof. exact T_Validate.t_C01_total. Qed.
Print Assumptions C01_total.

(** C01. NaN passes every check: a material all of whose numbers are NaN is accepted, whatever the parser. *)
Theorem C01_nan_accepted : forall parse,
  exists m, ortho_init parse (oargs5 (PFloat fnan) (PFloat fnan) (PFloat fnan) (PFloat fnan) (PFloat fnan)) = Ok m
            /\ fo_e1 m = fnan /\ fo_thickness m = fnan.
Proof. exact T_Validate.t_C01_nan_accepted. Qed.
Print Assumptions C01_nan_accepted.

(** C01, example: a carbon ply with documented defaults is accepted. *)
Example C01_example :
  match ortho_init ex_parse ex_oargs with
  | Ok m => feq (fo_e1 m) (f_of_Z 129500) && feq (fo_v12 m) (f_of_Z_exp 3 (-3)) && feq (fo_t1 m) fzero = true
  | Err _ => False
  end.
Proof. exact T_Validate.t_C01_example. Qed.

(** C01, example: e1 = -0.0 passes the range check and then divides by zero; e1 = -1 is a ValueError. *)
Example C01_example_errors :
  ortho_init ex_parse (oargs5 (PFloat fnzero) (PInt 1) (PInt 0) (PInt 1) (PInt 1)) = Err ZeroDivisionError /\
  ortho_init ex_parse (oargs5 (PInt (-1)) (PInt 1) (PInt 0) (PInt 1) (PInt 1)) = Err ValueError.
Proof. exact T_Validate.t_C01_example_errors. Qed.

(** C02. The isotropic constructor succeeds exactly when all seven numbers convert and are in range. *)
Theorem C02_accepts : forall parse a m, iso_init parse a = Ok m <-> iso_valid parse a m.
Proof. exact T_Validate.t_C02_accepts. Qed.
Print Assumptions C02_accepts.

(** C02. It fails only with ValueError. *)
Theorem C02_errors : forall parse a e, iso_init parse a = Err e -> e = ValueError.
Proof. exact T_Validate.t_C02_errors. Qed.
Print Assumptions C02_errors.

(** C02. Leaving any of the documented optional allowables t, c, s out always raises ValueError. *)
Theorem C02_default_allowables : forall parse e v g th (t c s : option pyobj),
  t = None \/ c = None \/ s = None ->
  iso_init parse (IArgs e v g th (opt_arg t) (opt_arg c) (opt_arg s)) = Err ValueError.
Proof. exact T_Validate.t_C02_default_allowables. Qed.
Print Assumptions C02_default_allowables.

(** C02, example: giving all seven numbers works. *)
Example C02_example :
  match iso_init ex_parse ex_iargs with
  | Ok m => feq (fi_e m) (f_of_Z 70000) && feq (fi_s m) (f_of_Z 200) = true
  | Err _ => False
  end.
Proof. exact T_Validate.t_C02_example. Qed.

(** C60. PlateStructure is constructed exactly when dproperty is a Property, a and b convert and are not below 0,
    the loads convert, and m and n convert to integral numbers of at least 1, which are stored as integers. *)
Theorem C60_accepts : forall parse prop a b Nxx Nyy Nxy m n p,
  plate_init parse prop a b Nxx Nyy Nxy m n = Ok p <-> (prop = true /\ plate_valid parse a b Nxx Nyy Nxy m n p).
Proof. exact T_Validate.t_C60_accepts. Qed.
Print Assumptions C60_accepts.

(** C60. Every rejected call raises ValueError. *)
Theorem C60_errors : forall parse prop a b Nxx Nyy Nxy m n e,
  plate_init parse prop a b Nxx Nyy Nxy m n = Err e -> e = ValueError.
Proof. exact T_Validate.t_C60_errors. Qed.
Print Assumptions C60_errors.

(** C60. Consequence: infinite and NaN m or n are rejected while infinite and NaN edge lengths are accepted. *)
Theorem C60_nonfinite : forall parse prop a b Nxx Nyy Nxy m n x,
  to_float parse m = Some x -> is_finite x = false ->
  plate_init parse prop a b Nxx Nyy Nxy m n = Err ValueError.
Proof. exact T_Validate.t_C60_nonfinite. Qed.
Print Assumptions C60_nonfinite.

(** C60, example: m = 10.0 is stored as 10; a = 0.0 and b = NaN are accepted. *)
Example C60_example :
  match plate_init ex_parse true (PInt 0) (PFloat fnan) (PInt (-1)) (PInt 0) (PInt 0) (PFloat (f_of_Z 10)) (PInt 7) with
  | Ok p => fp_a p = fzero /\ fp_b p = fnan /\ feq (fp_Nxx p) (f_of_Z (-1)) = true /\ fp_m p = 10%Z /\ fp_n p = 7%Z
  | Err _ => False
  end
  /\ plate_init ex_parse true (PInt 1) (PInt 1) (PInt (-1)) (PInt 0) (PInt 0) (PFloat (f_of_Z_exp 21 (-1))) (PInt 7) = Err ValueError.
Proof. exact T_Validate.t_C60_example. Qed.
