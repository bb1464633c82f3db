(** The theorems on plates of extreme size
    Statements only: every proof is [exact] a lemma of T_Extreme.v with the same statement.
    Below each theorem, Print Assumptions lists the axioms it uses. *)
From Coq Require Import Reals ZArith Lra Lia Bool String.
From Coquelicot Require Import Coquelicot.
From Flocq Require Import Core.Core IEEE754.BinarySingleNaN.
From Coq Require Import List.
From Verif Require Import M_Py M_Validate M_Plate M_K M_Tables M_Expr M_Float M_FloatArith S_Validate S_Plate S_Mat S_K S_Round S_Extreme.
Import ListNotations.
Open Scope R_scope.
From Verif Require T_Extreme.

(** C82. Which plate lengths the assembly can work with in binary64. Whatever the stiffness and the loads, whatever boundary conditions are
    understood and for all m and n from 1 to 26: a length a of at most 2^-359, zero included, raises ZeroDivisionError; one of at least 2^342
    raises OverflowError; otherwise b decides in the same way; and with both lengths in between, or infinite, or NaN, nothing is raised. *)
Theorem C82_table : forall pow dec (D : nat -> nat -> f64) a b Nxx Nyy Nxy c m n idx, pow_range pow -> dec_close dec ->
  compute_constraints c m n = Ok idx -> (1 <= m <= 26)%nat -> (1 <= n <= 26)%nat ->
  let run := calc_K_KG_D (stored (FA pow) dec) D a b Nxx Nyy Nxy c m n in
  (vanishing a -> run = Err ZeroDivisionError) /\ (huge a -> run = Err OverflowError) /\
  (moderate a \/ endless a -> vanishing b -> run = Err ZeroDivisionError) /\ (moderate a \/ endless a -> huge b -> run = Err OverflowError) /\
  (moderate a \/ endless a -> moderate b \/ endless b -> exists K KG, run = Ok (K, KG) /\ square (m * n) K /\ square (m * n) KG /\
     (endless a \/ endless b -> none_finite K /\ none_finite KG)).
Proof. exact T_Extreme.t_C82_table. Qed.
Print Assumptions C82_table.

(** C82: the same lengths decide whether the assembly from the full ABD matrix returns or raises. *)
Theorem C82_ABD : forall pow dec (ABD : nat -> nat -> f64) a b Nxx Nyy Nxy c m n idx, pow_range pow -> dec_close dec ->
  compute_constraints c m n = Ok idx -> (1 <= m <= 26)%nat -> (1 <= n <= 26)%nat ->
  let run := calc_K_KG_ABD (stored (FA pow) dec) ABD a b Nxx Nyy Nxy c m n in
  (vanishing a \/ huge a -> exists e, run = Err e) /\ (moderate a \/ endless a -> vanishing b \/ huge b -> exists e, run = Err e) /\
  (moderate a \/ endless a -> moderate b \/ endless b -> exists K KG, run = Ok (K, KG)).
Proof. exact T_Extreme.t_C82_ABD. Qed.
Print Assumptions C82_ABD.

(** C82: the constructor takes every one of these lengths as it is. *)
Theorem C82_accepted : forall parse a b Nxx Nyy Nxy (m n : nat), (vanishing a \/ huge a \/ moderate a \/ endless a) -> (vanishing b \/ huge b \/ moderate b \/ endless b) ->
  (1 <= m <= 26)%nat -> (1 <= n <= 26)%nat ->
  plate_init parse true (PFloat a) (PFloat b) (PFloat Nxx) (PFloat Nyy) (PFloat Nxy) (PInt (Z.of_nat m)) (PInt (Z.of_nat n)) =
  Ok (FPlate a b Nxx Nyy Nxy (Z.of_nat m) (Z.of_nat n)).
Proof. exact T_Extreme.t_C82_accepted. Qed.
Print Assumptions C82_accepted.

(** C82: powers by repeated multiplication keep to the contract and literals can be read to nearest; 0.0, -0.0 and 2^-400 are vanishing lengths, 2^400 is
    a huge one, 1 a moderate one; a pinned plate of 0 by 1 raises ZeroDivisionError, one of 1 by 2^400 OverflowError, and one of infinite length
    gives matrices without a finite entry. *)
Example C82_ex : exists dec, pow_range mul_pow /\ dec_close dec /\ vanishing fzero /\ vanishing fnzero /\ vanishing (f_of_Z_exp 1 (-400)) /\ huge (f_of_Z_exp 1 400) /\ moderate fone /\
  let run a b := calc_K_KG_D (stored (FA mul_pow) dec) fid a b (f_of_Z (-1)) fzero fzero (CStr "PINNED") 3 3 in
  run fzero fone = Err ZeroDivisionError /\ run fone (f_of_Z_exp 1 400) = Err OverflowError /\ (exists K KG, run finf fone = Ok (K, KG) /\ none_finite K /\ none_finite KG).
Proof. exact T_Extreme.t_C82_ex. Qed.
