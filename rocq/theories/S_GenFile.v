(** Vocabulary for the files written by the generators. *)
From Coq Require Import Reals ZArith QArith Qreals String Ascii List.
From Verif Require Import M_Py M_K M_RealArith S_Energy S_Ritz.
Open Scope R_scope.

(** the value at x of a polynomial given by its coefficients, constant term first *)
Fixpoint poly_at (p : list Q) (x : R) : R := match p with nil => 0 | cons c p' => Q2R c + x * poly_at p' x end.
(** a text without quotes, backslashes and line ends *)
Definition plain (s : string) : Prop :=
  forall c, In c (list_ascii_of_string s) -> c <> ascii_of_nat 39 /\ c <> ascii_of_nat 92 /\ c <> ascii_of_nat 10.
(** a text without line ends *)
Definition one_line (s : string) : Prop := ~ In (ascii_of_nat 10) (list_ascii_of_string s).
(** a name as a file may bind it: it starts with a letter *)
Definition starts_with_letter (s : string) : Prop :=
  exists c t, s = String c t /\ (65 <= nat_of_ascii c <= 90 \/ 97 <= nat_of_ascii c <= 122)%nat.
(** dictionary keys: an int or a pair of ints *)
Definition key_ok (k : list nat) : Prop := length k = 1%nat \/ length k = 2%nat.
