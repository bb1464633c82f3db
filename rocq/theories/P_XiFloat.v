(** The theorems on lamination parameters of a layup in binary64
    Statements only: every proof is [exact] a lemma of T_XiFloat.v with the same statement.
    Below each theorem, Print Assumptions lists the axioms it uses. *)
From Coq Require Import Reals ZArith Lra Lia Bool String.
From Coquelicot Require Import Coquelicot.
From Flocq Require Import Core.Core IEEE754.BinarySingleNaN.
From Coq Require Import List.
From Verif Require Import M_Py M_K M_Float M_FloatArith M_RealArith M_Validate M_Material M_Laminate M_MatFloat M_LamArith M_LayupFloat M_LpFloat M_XiFloat S_Mat S_Laminate S_Ritz S_Validate S_Round S_LamRound S_MatFloat S_LayupFloat S_LpFloat S_XiFloat.
Import ListNotations.
Open Scope R_scope.
From Verif Require T_XiFloat.

(** C95: the lamination parameters xiA (p = 1) and xiD (p = 3) of a layup, computed in binary64, are finite and within xi_off of those of the exact layup. *)
Theorem C95_accurate : forall np p l, p = 1%nat \/ p = 3%nat -> xi_layup np l ->
  exists xs v, parameters_f np p l = Ok xs /\ parameters p (exact_layup l) = Ok v /\ four_within (xi_off p l) xs v.
Proof. exact T_XiFloat.t_C95_accurate. Qed.
Print Assumptions C95_accurate.

(** C95: the computed parameters lie in [-1, 1] and above the parabola up to xi_off and six times xi_off; for plies at 0, 45, -45 and 90 degrees also above the two lines, up to three times xi_off. *)
Theorem C95_range : forall np p l, p = 1%nat \/ p = 3%nat -> xi_layup np l ->
  exists x1 x2 x3 x4, parameters_f np p l = Ok [x1; x2; x3; x4] /\ Forall (fun x => is_finite x = true /\ Rabs (B2R x) <= 1 + xi_off p l) [x1; x2; x3; x4] /\
    2 * B2R x1 ^ 2 - 1 - 6 * xi_off p l <= B2R x3 /\
    (Forall (fun p => standard_angle (B2R (fst p))) l -> 2 * Rabs (B2R x1) - 1 - 3 * xi_off p l <= B2R x3).
Proof. exact T_XiFloat.t_C95_range. Qed.
Print Assumptions C95_range.

(** C95: take a layup of one material, compute its lamination parameters and total thickness, and build the laminate again from those: A and D of the two laminates, all computed in binary64, differ by
    trip_off at most. *)
Theorem C95_round_trip : forall np k mu q p l f, p = 1%nat \/ p = 3%nat -> good_layup np k mu q l -> 0 <= k <= 1000000 -> powerRZ 2 (-40) <= mu -> powerRZ 2 (-200) <= q <= powerRZ 2 190 ->
  Forall (fun p => snd p = FOrtho f) l -> xi_layup np l -> pow_close (np_pow np) -> usual (total_f np l) ->
  exists M xs M', matrix_f np p l = Ok M /\ parameters_f np p l = Ok xs /\ lp_matrix_f np p f xs (total_f np l) = Ok M' /\
    forall i j, (i < 3)%nat -> (j < 3)%nat -> is_finite (M i j) = true /\ is_finite (M' i j) = true /\ Rabs (B2R (M i j) - B2R (M' i j)) <= trip_off np k mu q p l.
Proof. exact T_XiFloat.t_C95_round_trip. Qed.
Print Assumptions C95_round_trip.

(** C95, staying in [-1, 1] is refuted: eight plies of thickness 0.1 at 0 degrees have exact parameters 1 and computed ones above 1, with exact cosine and sine. *)
Theorem C95_unit_interval_refuted : exists np l, xi_layup np l /\ Forall (fun p => fst p = fzero) l /\ forall p, p = 1%nat \/ p = 3%nat ->
  parameters p (exact_layup l) = Ok (1, 0, 1, 0) /\ exists x1 x2 x3 x4, parameters_f np p l = Ok [x1; x2; x3; x4] /\ B2R x1 > 1.
Proof. exact T_XiFloat.t_C95_unit_interval_refuted. Qed.
Print Assumptions C95_unit_interval_refuted.

(** C95, an example: two plies at 0 and 45 degrees, with exact parameters 1/2, 1/2, 0, 0. *)
Example C95_ex : exists np l, xi_layup np l /\ map (fun p => B2R (fst p)) l = [0; 45] /\ parameters 1 (exact_layup l) = Ok (1/2, 1/2, 0, 0) /\
  exists x1 x2 x3 x4, parameters_f np 1 l = Ok [x1; x2; x3; x4] /\ Rabs (B2R x1 - 1/2) <= 126 * unit /\ Rabs (B2R x2 - 1/2) <= 126 * unit /\ Rabs (B2R x3) <= 126 * unit /\ Rabs (B2R x4) <= 126 * unit.
Proof. exact T_XiFloat.t_C95_ex. Qed.

(** C95, an example of the round trip: two plies at 0 degrees. *)
Example C95_ex_round_trip : exists np l f, good_layup np 0 (1 / 2) 8 l /\ Forall (fun p => snd p = FOrtho f) l /\ xi_layup np l /\ pow_close (np_pow np) /\ usual (total_f np l) /\ length l = 2%nat /\ trip_off np 0 (1 / 2) 8 3 l <= 850 * unit.
Proof. exact T_XiFloat.t_C95_ex_round_trip. Qed.
