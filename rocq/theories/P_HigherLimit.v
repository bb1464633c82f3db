(** The theorems on the limits of all the factors.
    Statements only: every proof is [exact] a lemma of T_HigherLimit.v with the same statement.
    Below each theorem, Print Assumptions lists the axioms it uses. *)
From Coq Require Import QArith Qreals Reals ZArith Lra Lia Bool String Sorting.Sorted Classical FunctionalExtensionality.
From Coquelicot Require Import Coquelicot.
From Coq Require Import List.
From Verif Require Import M_Py M_Plate M_K M_RealArith M_Plot M_Buckling S_Plate S_Mat S_Bardell S_Energy S_K S_Ritz S_Eigen S_Compare S_Space S_Bounds S_Limit S_Higher S_HigherLimit.
Import ListNotations.
Open Scope R_scope.
From Verif Require T_HigherLimit.

(** C92: no factor of the buckling analysis is on the unsafe side of the continuous plate: the one in place j, counted from 0, is never below the multiplier of the
    loads up to which no space of j + 1 dimensions of smooth deflections has negative energy. *)
Theorem C92_above : forall (D : mat3) a b Nxx Nyy Nxy c c0 ca d0 db m n fs j L l, plate_any D a b c c0 ca d0 db ->
  higher_limit D a b Nxx Nyy Nxy c0 ca d0 db (Datatypes.S j) L -> lowest_factors D a b Nxx Nyy Nxy c m n fs -> nth_error fs j = Some l -> L <= l.
Proof. exact T_HigherLimit.t_C92_above. Qed.
Print Assumptions C92_above.

(** C92: convergence of all the factors: with enough functions in both directions the analysed plate has as many positive factors as limits are given, and each
    is as close to its limit as wanted. *)
Theorem C92_converges : forall (D : mat3) a b Nxx Nyy Nxy c c0 ca d0 db Ls eps, plate_any D a b c c0 ca d0 db ->
  higher_limits D a b Nxx Nyy Nxy c0 ca d0 db Ls -> 0 < eps ->
  exists M, forall m n, (M <= m)%nat -> (M <= n)%nat -> exists fs, lowest_factors D a b Nxx Nyy Nxy c m n fs /\ Forall2 (fun L l => L <= l < L + eps) Ls fs.
Proof. exact T_HigherLimit.t_C92_converges. Qed.
Print Assumptions C92_converges.

(** C92: the limit for j + 1 dimensions exists exactly when the loads do work on a space of j + 1 dimensions, there is only one, and the limits ascend with the
    dimension. *)
Theorem C92_exists : forall (D : mat3) a b Nxx Nyy Nxy c0 ca d0 db, 0 < a -> 0 < b -> symmetric D -> pos_def D -> restrained c0 ca d0 db ->
  (forall j, (exists L, higher_limit D a b Nxx Nyy Nxy c0 ca d0 db (Datatypes.S j) L) <-> driven a b Nxx Nyy Nxy c0 ca d0 db (Datatypes.S j)) /\
  (forall j j' L L', (j <= j')%nat -> higher_limit D a b Nxx Nyy Nxy c0 ca d0 db j L -> higher_limit D a b Nxx Nyy Nxy c0 ca d0 db j' L' -> L <= L') /\
  (forall j L L', higher_limit D a b Nxx Nyy Nxy c0 ca d0 db j L -> higher_limit D a b Nxx Nyy Nxy c0 ca d0 db j L' -> L = L').
Proof. exact T_HigherLimit.t_C92_exists. Qed.
Print Assumptions C92_exists.

(** C92: the first of them is the stability limit of C84. *)
Theorem C92_first : forall (D : mat3) a b Nxx Nyy Nxy c0 ca d0 db L, 0 < a -> 0 < b -> pos_def D ->
  (higher_limit D a b Nxx Nyy Nxy c0 ca d0 db 1 L <-> stability_limit D a b Nxx Nyy Nxy c0 ca d0 db L).
Proof. exact T_HigherLimit.t_C92_first. Qed.
Print Assumptions C92_first.

(** C92: a plate compressed in every direction has all the limits. *)
Theorem C92_all : forall (D : mat3) a b Nxx Nyy Nxy c c0 ca d0 db k, plate_any D a b c c0 ca d0 db -> compression Nxx Nyy Nxy ->
  exists Ls, List.length Ls = k /\ higher_limits D a b Nxx Nyy Nxy c0 ca d0 db Ls.
Proof. exact T_HigherLimit.t_C92_all. Qed.
Print Assumptions C92_all.

(** C92: and so what the analysis reports converges: for a plate compressed in every direction that is stable under its loads, with enough functions and whatever
    the documented solver, the reported factors come in the order of the limits, none left out, each not below its limit and as close to it as wanted. *)
Theorem C92_reported : forall (D : mat3) a b Nxx Nyy Nxy c c0 ca d0 db Ls eps, plate_any D a b c c0 ca d0 db -> compression Nxx Nyy Nxy ->
  higher_limits D a b Nxx Nyy Nxy c0 ca d0 db Ls -> (forall L, nth_error Ls 0 = Some L -> 1 <= L) -> 0 < eps ->
  exists M, forall eigsh m n num out vecs, documented eigsh -> (M <= m)%nat -> (M <= n)%nat ->
    buckling_analysis eigsh exact_tables (as_arr D) a b Nxx Nyy Nxy c m n num = Ok (out, vecs) ->
    forall j L x, nth_error Ls j = Some L -> nth_error out j = Some x -> exists l, x = Fin l /\ L <= l < L + eps.
Proof. exact T_HigherLimit.t_C92_reported. Qed.
Print Assumptions C92_reported.

(** C92 example: the square pinned plate of unit edges and stiffness under equal compression has four limits, the first 2 pi^2; the one of C91 has four limits not
    above the factors 1, 135/52, 135/52, 9/2 found with two functions in each direction. *)
Example C92_ex :
  (exists Ls, List.length Ls = 4%nat /\ higher_limits (M3 1 0 0 0 1 0 0 0 (1 / 2)) 1 1 (- (1)) (- (1)) 0 Pinned Pinned Pinned Pinned Ls /\ nth_error Ls 0 = Some (2 * PI ^ 2) /\ 1 <= 2 * PI ^ 2 /\
    plate_any (M3 1 0 0 0 1 0 0 0 (1 / 2)) 1 1 (CStr "PINNED") Pinned Pinned Pinned Pinned /\ compression (- (1)) (- (1)) 0) /\
  (exists Ls, higher_limits mid 2 2 (-8) (-8) 0 Pinned Pinned Pinned Pinned Ls /\ Forall2 Rle Ls [1; 135/52; 135/52; 9/2]).
Proof. exact T_HigherLimit.t_C92_ex. Qed.
