(** The theorems on the laminate matrices in binary64
    Statements only: every proof is [exact] a lemma of T_LamRound.v with the same statement.
    Below each theorem, Print Assumptions lists the axioms it uses. *)
From Coq Require Import Reals ZArith Lra Lia Bool.
From Flocq Require Import Core.Core IEEE754.BinarySingleNaN.
From Coq Require Import List.
From Verif Require Import M_Py M_Material M_Laminate M_K M_Float M_FloatArith M_RealArith M_LamArith S_Mat S_Laminate S_Validate S_Ritz S_Round S_LamRound.
Import ListNotations.
Open Scope R_scope.
From Verif Require T_LamRound.

(** C78: for up to a million plies of usual thickness, z_position in binary64 is a list of n + 1 finite numbers, and each is within n + 1 units times the
    total thickness of the exact height of that interface. *)
Theorem C78_interfaces : forall pow ts, usual_plies ts -> exists zs : list f64, @positions (FA pow) ts = Ok zs /\ length zs = S (length ts) /\
  forall k x, nth_error zs k = Some x -> is_finite x = true /\ Rabs (B2R x - interface ts k) <= (INR (length ts) + 1) * unit * height ts.
Proof. exact T_LamRound.t_C78_interfaces. Qed.
Print Assumptions C78_interfaces.

(** C78: for all finite non-negative thicknesses: as long as the interfaces are finite they never decrease from one ply to the next. *)
Theorem C78_ordered : forall pow ts (zs : list f64), Forall (fun t => is_finite t = true /\ 0 <= B2R t) ts -> @positions (FA pow) ts = Ok zs -> Forall (fun x => is_finite x = true) zs ->
  forall k x y, nth_error zs k = Some x -> nth_error zs (S k) = Some y -> B2R x <= B2R y.
Proof. exact T_LamRound.t_C78_ordered. Qed.
Print Assumptions C78_ordered.

(** C78: strictly increasing when every ply is at least one unit (2^-53) of the total thickness. *)
Theorem C78_strict : forall pow ts, usual_plies ts -> Forall (fun t => unit * height ts <= B2R t) ts -> exists zs : list f64, @positions (FA pow) ts = Ok zs /\
  forall k x y, nth_error zs k = Some x -> nth_error zs (S k) = Some y -> B2R x < B2R y.
Proof. exact T_LamRound.t_C78_strict. Qed.
Print Assumptions C78_strict.

(** C78: A, B and D in binary64, for squares and cubes accurate to 3 units: no exception, finite entries, each within 3 n + 4 units times the largest entry of
    Q_layup times the first, second or third power of the total thickness of the exact sum over the plies (n plies, any arrays Q_layup). *)
Theorem C78_matrices : forall pow p ts Qs q, pow_near pow -> (1 <= p <= 3)%nat -> usual_plies ts -> length Qs = length ts -> entries_below q Qs -> powerRZ 2 (-200) <= q <= powerRZ 2 200 ->
  exists M : nat -> nat -> f64, matrix pow p ts Qs = Ok M /\ forall i j, (i < 3)%nat -> (j < 3)%nat ->
    is_finite (M i j) = true /\ Rabs (B2R (M i j) - stiffness p ts Qs i j) <= (3 * INR (length ts) + 4) * unit * q * height ts ^ p.
Proof. exact T_LamRound.t_C78_matrices. Qed.
Print Assumptions C78_matrices.

(** C78: for layups that read the same in both directions every entry of B is zero up to 3 n + 4 units times the largest entry of Q_layup times the square of the total thickness. *)
Theorem C78_symmetric : forall pow ts Qs q, pow_near pow -> usual_plies ts -> length Qs = length ts -> entries_below q Qs -> powerRZ 2 (-200) <= q <= powerRZ 2 200 ->
  rev ts = ts -> rev Qs = Qs -> exists M : nat -> nat -> f64, matrix pow 2 ts Qs = Ok M /\
  forall i j, (i < 3)%nat -> (j < 3)%nat -> Rabs (B2R (M i j)) <= (3 * INR (length ts) + 4) * unit * q * height ts ^ 2.
Proof. exact T_LamRound.t_C78_symmetric. Qed.
Print Assumptions C78_symmetric.

(** C78: evaluated in exact arithmetic the same sums are the attributes A, B and D of the laminate (C10-C19), and the interfaces those of z_position. *)
Theorem C78_same_text : forall l Qx A B D, Q_layup_of l = Ok Qx -> A_of l = Ok A -> B_of l = Ok B -> D_of l = Ok D ->
  let ts := map (fun p => thickness (snd p)) l in
  @positions RA ts = Ok (z_position l) /\
  (exists M : nat -> nat -> R, @matrix_A RA ts (map as_arr Qx) = Ok M /\ forall i j, (i < 3)%nat -> (j < 3)%nat -> M i j = as_arr A i j) /\
  (exists M : nat -> nat -> R, @matrix_B RA ts (map as_arr Qx) = Ok M /\ forall i j, (i < 3)%nat -> (j < 3)%nat -> M i j = as_arr B i j) /\
  (exists M : nat -> nat -> R, @matrix_D RA ts (map as_arr Qx) = Ok M /\ forall i j, (i < 3)%nat -> (j < 3)%nat -> M i j = as_arr D i j).
Proof. exact T_LamRound.t_C78_same_text. Qed.
Print Assumptions C78_same_text.

(** C78: so for a laminate whose Q_layup is computed within eps of the exact one, A, B and D as computed are within those units plus eps times the power of the total
    thickness of the exact A, B and D. *)
Theorem C78_laminate : forall pow p l Qx X ts Qs q eps, pow_near pow -> (1 <= p <= 3)%nat -> usual_plies ts -> thicknesses ts l -> Q_layup_of l = Ok Qx -> attribute p l = Ok X ->
  arrays_within eps Qs Qx -> entries_below q Qs -> powerRZ 2 (-200) <= q <= powerRZ 2 200 ->
  exists M : nat -> nat -> f64, matrix pow p ts Qs = Ok M /\ forall i j, (i < 3)%nat -> (j < 3)%nat ->
    is_finite (M i j) = true /\ Rabs (B2R (M i j) - as_arr X i j) <= ((3 * INR (length ts) + 4) * unit * q + eps) * height ts ^ p.
Proof. exact T_LamRound.t_C78_laminate. Qed.
Print Assumptions C78_laminate.

(** C78, the strict order is refuted: a ply much thinner than the rest has no height at all; its two interfaces are the same double and it contributes nothing to A, B and D. *)
Theorem C78_absorbed_refuted : exists pow ts, usual_plies ts /\ exists (zs : list f64) x y, @positions (FA pow) ts = Ok zs /\ nth_error zs 1 = Some x /\ nth_error zs 2 = Some y /\ feq x y = true /\
  exists w, @weight_A (FA pow) y x = Ok w /\ feq w fzero = true.
Proof. exact T_LamRound.t_C78_absorbed_refuted. Qed.
Print Assumptions C78_absorbed_refuted.

(** C78, exact symmetry is refuted: three equal plies of thickness 0.1 with the unit matrix as stiffness do not have B = 0, and the top face is not opposite to the bottom face. *)
Theorem C78_B_refuted : exists pow t, pow_near pow /\ usual t /\ feq t (fdiv (f_of_Z 1) (f_of_Z 10)) = true /\
  (exists M : nat -> nat -> f64, matrix pow 2 [t; t; t] [fid; fid; fid] = Ok M /\ feq (M 0 0)%nat fzero = false) /\
  (exists (zs : list f64) x y, @positions (FA pow) [t; t; t] = Ok zs /\ nth_error zs 0 = Some x /\ nth_error zs 3 = Some y /\ feq y (fopp x) = false).
Proof. exact T_LamRound.t_C78_B_refuted. Qed.
Print Assumptions C78_B_refuted.

(** C78: the hypotheses are met, with exact arrays, by two plies at 0 degrees of the example material (e1 = 2, e2 = 1, v12 = 0, g12 = 1, thickness 1). *)
Example C78_ex : exists pow Q Qx X, pow_near pow /\ usual_plies [f_of_Z 1; f_of_Z 1] /\ thicknesses [f_of_Z 1; f_of_Z 1] [(0, Ortho ex_mat); (0, Ortho ex_mat)] /\
  Q_layup_of [(0, Ortho ex_mat); (0, Ortho ex_mat)] = Ok Qx /\ attribute 3 [(0, Ortho ex_mat); (0, Ortho ex_mat)] = Ok X /\ arrays_within 0 [Q; Q] Qx /\ entries_below 2 [Q; Q] /\
  as_arr X 0%nat 0%nat = 4 / 3 /\ height [f_of_Z 1; f_of_Z 1] = 2.
Proof. exact T_LamRound.t_C78_ex. Qed.
