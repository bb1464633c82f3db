(** The theorems on laminates given by lamination parameters in binary64
    Statements only: every proof is [exact] a lemma of T_LpFloat.v with the same statement.
    Below each theorem, Print Assumptions lists the axioms it uses. *)
From Coq Require Import Reals ZArith Lra Lia Bool String.
From Coquelicot Require Import Coquelicot.
From Flocq Require Import Core.Core IEEE754.BinarySingleNaN.
From Coq Require Import List.
From Verif Require Import M_Py M_Float M_FloatArith M_RealArith M_Validate M_Material M_Laminate M_Plate M_K M_MatFloat M_LamArith M_LayupFloat M_LpFloat M_Optimize S_Mat S_Laminate S_Plate S_Bardell S_Energy S_K S_Ritz S_Eigen S_Compare S_Stored S_Validate S_Round S_LamRound S_MatFloat S_Sens S_LayupFloat S_LpFloat S_Optimize.
Import ListNotations.
Open Scope R_scope.
From Verif Require T_LpFloat.

(** C94: for whatever numbers, also infinite ones and NaN, the arrays A and D computed from lamination parameters are symmetric to the last bit. *)
Theorem C94_symmetric : forall pow f xi T,
  (forall M, A_lp_f f xi T = Ok M -> forall i j, (i < 3)%nat -> (j < 3)%nat -> M i j = M j i) /\
  (forall M, D_lp_f pow f xi T = Ok M -> forall i j, (i < 3)%nat -> (j < 3)%nat -> M i j = M j i).
Proof. exact T_LpFloat.t_C94_symmetric. Qed.
Print Assumptions C94_symmetric.

(** C94: which exceptions: those of reading Q_0 first, then ValueError unless there are exactly four parameters, then, for D only, that of the power. *)
Theorem C94_errors : forall pow f xi T e,
  (A_lp_f f xi T = Err e <-> ortho_Q0 f = Err e \/ (exists Q, ortho_Q0 f = Ok Q) /\ length xi <> 4%nat /\ e = ValueError) /\
  (D_lp_f pow f xi T = Err e <-> ortho_Q0 f = Err e \/ (exists Q, ortho_Q0 f = Ok Q) /\ (length xi <> 4%nat /\ e = ValueError \/ length xi = 4%nat /\ pow T 3%nat = Err e)).
Proof. exact T_LpFloat.t_C94_errors. Qed.
Print Assumptions C94_errors.

(** C94: A and D computed in binary64 from lamination parameters in [-1, 1] (up to 1/1000, for parameters that are themselves computed) are within lp_off of the exact A and D, where mu is a lower bound for 1 - v12 v21 and the numbers
    of Q_0 add up to at most q. *)
Theorem C94_accurate : forall pow mu q f xi T, powerRZ 2 (-40) <= mu -> powerRZ 2 (-200) <= q <= powerRZ 2 190 -> lp_ply mu q f -> four_parameters xi -> usual T -> pow_close pow ->
  (exists M X, A_lp_f f xi T = Ok M /\ exact_A f xi T = Ok X /\ forall i j, (i < 3)%nat -> (j < 3)%nat -> is_finite (M i j) = true /\ Rabs (B2R (M i j) - as_arr X i j) <= lp_off mu q 1 T) /\
  (exists M X, D_lp_f pow f xi T = Ok M /\ exact_D f xi T = Ok X /\ forall i j, (i < 3)%nat -> (j < 3)%nat -> is_finite (M i j) = true /\ Rabs (B2R (M i j) - as_arr X i j) <= lp_off mu q 3 T).
Proof. exact T_LpFloat.t_C94_accurate. Qed.
Print Assumptions C94_accurate.

(** C94: so if every curvature e stores at least nu |e|^2 and nu is above three times the error bound, the computed D is symmetric and positive definite, and the critical
    factor of the plate with it is within that share of the critical factor with the exact D: either exists when the other does. *)
Theorem C94_factor : forall pow mu q nu f xi T (X : mat3) a b Nxx Nyy Nxy c c0 ca d0 db m n, powerRZ 2 (-40) <= mu -> powerRZ 2 (-200) <= q <= powerRZ 2 190 -> lp_ply mu q f -> four_parameters xi -> usual T -> pow_close pow ->
  exact_D f xi T = Ok X -> plate_any X a b c c0 ca d0 db -> (forall e, nu * dot e e <= quad X e) -> 3 * lp_off mu q 3 T < nu ->
  exists M : farr, D_lp_f pow f xi T = Ok M /\ symmetric (numbers M) /\ pos_def (numbers M) /\
    (forall l, critical X a b Nxx Nyy Nxy c m n l -> exists l', critical (numbers M) a b Nxx Nyy Nxy c m n l' /\ Rabs (l' - l) <= 3 * lp_off mu q 3 T / nu * l) /\
    (forall l', critical (numbers M) a b Nxx Nyy Nxy c m n l' -> exists l, critical X a b Nxx Nyy Nxy c m n l /\ Rabs (l' - l) <= 3 * lp_off mu q 3 T / nu * l).
Proof. exact T_LpFloat.t_C94_factor. Qed.
Print Assumptions C94_factor.

(** C94, from the lamination parameters to the buckling load, the path of the optimisers: with D computed in binary64 from the parameters, K and KG assembled in binary64 from
    the stored tables, and the critical factor l' of those matrices, 1/l' differs from 1/l of the exact D and the exact tables by at most (e + d (1 + e)) / l' + (1 + d) g,
    where d is the share lost in D and e, g are those lost in the assembly. *)
Theorem C94_end : forall mu q nu f xi T (X : mat3) (M : farr) pow dec a b Nxx Nyy Nxy c c0 ca d0 db m n N u (K KG : list (list R)) l l',
  powerRZ 2 (-40) <= mu -> powerRZ 2 (-200) <= q <= powerRZ 2 190 -> lp_ply mu q f -> four_parameters xi -> usual T ->
  exact_D f xi T = Ok X -> plate_ok X (B2R a) (B2R b) c c0 ca d0 db m n -> (forall e, nu * dot e e <= quad X e) -> 3 * lp_off mu q 3 T < nu ->
  D_lp_f pow f xi T = Ok M -> usual_inputs pow dec M a b Nxx Nyy Nxy -> (N <= 30)%nat -> (m + taken c0 + taken ca <= N)%nat -> (n + taken d0 + taken db <= N)%nat ->
  calc_K_KG_D exact_tables (as_arr X) (B2R a) (B2R b) (B2R Nxx) (B2R Nyy) (B2R Nxy) c m n = Ok (K, KG) -> at_least u K ->
  let d := 3 * lp_off mu q 3 T / nu in
  let e := INR (m * n) * k_off (tolerance N + 16 * unit) (numbers M) (B2R a) (B2R b) / ((1 - d) * u) in
  let g := INR (m * n) * kG_off (tolerance N + 16 * unit) (B2R Nxx) (B2R Nyy) (B2R Nxy) (B2R a) (B2R b) / ((1 - d) * u) in
  INR (m * n) * k_off (tolerance N + 16 * unit) (numbers M) (B2R a) (B2R b) < (1 - d) * u ->
  critical X (B2R a) (B2R b) (B2R Nxx) (B2R Nyy) (B2R Nxy) c m n l ->
  (g * (1 + d) * l < 1 -> exists l', critical_float pow dec M a b Nxx Nyy Nxy c m n l') /\
  (critical_float pow dec M a b Nxx Nyy Nxy c m n l' -> Rabs (1 / l - 1 / l') <= (e + d * (1 + e)) / l' + (1 + d) * g).
Proof. exact T_LpFloat.t_C94_end. Qed.
Print Assumptions C94_end.

(** C94: the exact D meant here is the one the optimisers work with. *)
Theorem C94_path : forall f xi1 xi3 T h, usual_ply f -> -1/2 <= B2R (fo_v12 f) <= 1/2 -> 0 <= h ->
  exact_D f [xi1; fzero; xi3; fzero] T = D_lp h (B2R (fo_e1 f)) (B2R (fo_e2 f)) (B2R (fo_v12 f)) (B2R (fo_g12 f)) (B2R T) (B2R xi1) (B2R xi3).
Proof. exact T_LpFloat.t_C94_path. Qed.
Print Assumptions C94_path.

(** C94: the hypotheses are met by a ply with e1 = 4, e2 = 2, v12 = 1/4, g12 = 1, the parameters [1/2, 0, 1/2, 0] and thickness 1 on a pinned plate; the computed D has numbers
    of usual size, and the share lost in D is below 2^-35. *)
Example C94_ex : exists pow f xi T (X : mat3) (M : farr), lp_ply (1 / 2) 8 f /\ four_parameters xi /\ usual T /\ pow_close pow /\ map (@B2R 53 1024) xi = [/ 2; 0; / 2; 0] /\ B2R T = 1 /\
  exact_D f xi T = Ok X /\ a11 X = 439 / 1488 /\ plate_ok X 2 2 (CStr "PINNED") Pinned Pinned Pinned Pinned 5 5 /\ (forall e, / 20 * dot e e <= quad X e) /\ 3 * lp_off (1 / 2) 8 3 T < / 20 /\
  3 * lp_off (1 / 2) 8 3 T / / 20 < powerRZ 2 (-35) /\ D_lp_f pow f xi T = Ok M /\ forall i j, (i < 3)%nat -> (j < 3)%nat -> usual0 (M i j).
Proof. exact T_LpFloat.t_C94_ex. Qed.
