(** The theorems on the laminate in binary64, from the plies to the buckling load
    Statements only: every proof is [exact] a lemma of T_LayupFloat.v with the same statement.
    Below each theorem, Print Assumptions lists the axioms it uses. *)
From Coq Require Import Reals ZArith Lra Lia Bool String.
From Coquelicot Require Import Coquelicot.
From Flocq Require Import Core.Core IEEE754.BinarySingleNaN.
From Coq Require Import List.
From Verif Require Import M_Py M_Float M_FloatArith M_RealArith M_Validate M_Material M_Laminate M_Plate M_K M_MatFloat M_LamArith M_LayupFloat S_Mat S_Laminate S_Plate S_Bardell S_Energy S_K S_Ritz S_Eigen S_Compare S_Stored S_Validate S_Round S_LamRound S_MatFloat S_Sens S_LayupFloat.
Import ListNotations.
Open Scope R_scope.
From Verif Require T_LayupFloat.

(** C88: the transformation matrices of T_layup, computed in binary64, are within 100 units of the exact ones, if cos and sin are accurate to two units at the computed
    radians and squares to three. *)
Theorem C88_transformations : forall np k theta, usual_angle theta -> numpy_near np k theta -> let c := cdeg (B2R theta) in let s := sdeg (B2R theta) in
  exists Tr Te, T_ply_f np theta = Ok (Tr, Te) /\ forall i j, (i < 3)%nat -> (j < 3)%nat ->
    is_finite (Tr i j) = true /\ Rabs (B2R (Tr i j) - as_arr (T_real c s) i j) <= 100 * unit /\
    is_finite (Te i j) = true /\ Rabs (B2R (Te i j) - as_arr (T_engineering c s) i j) <= 100 * unit.
Proof. exact T_LayupFloat.t_C88_transformations. Qed.
Print Assumptions C88_transformations.

(** C88: the stiffness of a ply turned into the axes of the laminate, as computed: within ply_units units of q of the exact one, where the numbers of Q_0 add up to at
    most q, mu is a lower bound for 1 - v12 v21 and T inv(T) - 1 has entries of at most k units. *)
Theorem C88_ply : forall np k mu q theta m, usual_angle theta -> numpy_near np k theta -> 0 <= k <= 1000000 -> good_ply mu m -> powerRZ 2 (-40) <= mu -> stiff_below q m ->
  powerRZ 2 (-200) <= q <= powerRZ 2 190 ->
  exists Q Y, Q_ply_f np theta m = Ok Q /\ Q_ply (B2R theta) (exact_mat m) = Ok Y /\ forall i j, (i < 3)%nat -> (j < 3)%nat ->
    is_finite (Q i j) = true /\ Rabs (B2R (Q i j) - as_arr Y i j) <= ply_units k mu * unit * q /\ Rabs (B2R (Q i j)) <= 3 * q.
Proof. exact T_LayupFloat.t_C88_ply. Qed.
Print Assumptions C88_ply.

(** C88: so A, B and D of a layup, computed in binary64 from the plies, are within matrix_off of the exact A, B and D. *)
Theorem C88_matrices : forall np k mu q p l, (1 <= p <= 3)%nat -> good_layup np k mu q l -> 0 <= k <= 1000000 -> powerRZ 2 (-40) <= mu -> powerRZ 2 (-200) <= q <= powerRZ 2 190 ->
  exists (M : farr) (X : mat3), matrix_f np p l = Ok M /\ attribute p (exact_layup l) = Ok X /\ forall i j, (i < 3)%nat -> (j < 3)%nat ->
    is_finite (M i j) = true /\ Rabs (B2R (M i j) - as_arr X i j) <= matrix_off k mu q p l.
Proof. exact T_LayupFloat.t_C88_matrices. Qed.
Print Assumptions C88_matrices.

(** C88: the stiffness matrices of the plate are assembled from the numbers of D on and below the diagonal only: that the computed D is not exactly symmetric does not
    enter, in any arithmetic. *)
Theorem C88_lower : forall A (t : @tables A) (D : @arr A) (a b Nxx Nyy Nxy : num A) c m n, calc_K_KG_D t D a b Nxx Nyy Nxy c m n = calc_K_KG_D t (lower D) a b Nxx Nyy Nxy c m n.
Proof. exact T_LayupFloat.t_C88_lower. Qed.
Print Assumptions C88_lower.

(** C88: so if every curvature e stores at least nu |e|^2 and nu is above three times the error bound, the computed D stands for a positive definite plate, and its
    critical factor is within that share of the critical factor of the exact laminate: either exists when the other does. *)
Theorem C88_factor : forall np k mu q nu l (X : mat3) a b Nxx Nyy Nxy c c0 ca d0 db m n, good_layup np k mu q l -> 0 <= k <= 1000000 -> powerRZ 2 (-40) <= mu ->
  powerRZ 2 (-200) <= q <= powerRZ 2 190 -> attribute 3 (exact_layup l) = Ok X -> plate_any X a b c c0 ca d0 db -> (forall e, nu * dot e e <= quad X e) -> 3 * matrix_off k mu q 3 l < nu ->
  exists M : farr, D_f np l = Ok M /\ symmetric (numbers (lower M)) /\ pos_def (numbers (lower M)) /\
    (forall f, critical X a b Nxx Nyy Nxy c m n f -> exists f', critical (numbers (lower M)) a b Nxx Nyy Nxy c m n f' /\ Rabs (f' - f) <= 3 * matrix_off k mu q 3 l / nu * f) /\
    (forall f', critical (numbers (lower M)) a b Nxx Nyy Nxy c m n f' -> exists f, critical X a b Nxx Nyy Nxy c m n f /\ Rabs (f' - f) <= 3 * matrix_off k mu q 3 l / nu * f).
Proof. exact T_LayupFloat.t_C88_factor. Qed.
Print Assumptions C88_factor.

(** C88, from the plies to the buckling load: with D computed in binary64 from the plies, K and KG assembled in binary64 from the stored tables, and the critical factor l'
    of those matrices, 1/l' differs from 1/l of the exact laminate and the exact tables by at most (e + d (1 + e)) / l' + (1 + d) g, where d is the share lost in D and
    e, g are those lost in the assembly. *)
Theorem C88_end : forall np k mu q nu l (X : mat3) (M : farr) pow dec a b Nxx Nyy Nxy c c0 ca d0 db m n N u (K KG : list (list R)) f l',
  good_layup np k mu q l -> 0 <= k <= 1000000 -> powerRZ 2 (-40) <= mu -> powerRZ 2 (-200) <= q <= powerRZ 2 190 ->
  attribute 3 (exact_layup l) = Ok X -> plate_ok X (B2R a) (B2R b) c c0 ca d0 db m n -> (forall e, nu * dot e e <= quad X e) -> 3 * matrix_off k mu q 3 l < nu ->
  D_f np l = Ok M -> usual_inputs pow dec M a b Nxx Nyy Nxy -> (N <= 30)%nat -> (m + taken c0 + taken ca <= N)%nat -> (n + taken d0 + taken db <= N)%nat ->
  calc_K_KG_D exact_tables (as_arr X) (B2R a) (B2R b) (B2R Nxx) (B2R Nyy) (B2R Nxy) c m n = Ok (K, KG) -> at_least u K ->
  let d := 3 * matrix_off k mu q 3 l / nu in
  let e := INR (m * n) * k_off (tolerance N + 16 * unit) (numbers (lower M)) (B2R a) (B2R b) / ((1 - d) * u) in
  let g := INR (m * n) * kG_off (tolerance N + 16 * unit) (B2R Nxx) (B2R Nyy) (B2R Nxy) (B2R a) (B2R b) / ((1 - d) * u) in
  INR (m * n) * k_off (tolerance N + 16 * unit) (numbers (lower M)) (B2R a) (B2R b) < (1 - d) * u ->
  critical X (B2R a) (B2R b) (B2R Nxx) (B2R Nyy) (B2R Nxy) c m n f ->
  (g * (1 + d) * f < 1 -> exists l', critical_float pow dec M a b Nxx Nyy Nxy c m n l') /\
  (critical_float pow dec M a b Nxx Nyy Nxy c m n l' -> Rabs (1 / f - 1 / l') <= (e + d * (1 + e)) / l' + (1 + d) * g).
Proof. exact T_LayupFloat.t_C88_end. Qed.
Print Assumptions C88_end.

(** C88: the assumption on @ is met by the plain product that adds three products from left to right. *)
Theorem C88_loop : mm_near (fun X Y i j => fadd (fadd (fmul (X i 0%nat) (Y 0%nat j)) (fmul (X i 1%nat) (Y 1%nat j))) (fmul (X i 2%nat) (Y 2%nat j))).
Proof. exact T_LayupFloat.t_C88_loop. Qed.
Print Assumptions C88_loop.

(** C88, exactness at right angles is refuted: np.pi is below pi, so with a cosine and sine of even modest relative accuracy the transformation of a ply at 90 degrees
    has a number where the exact one has 0. *)
Theorem C88_right_angle_refuted : forall np, pow_near (np_pow np) -> let x := radians (f_of_Z 90) in
  is_finite (np_cos np x) = true -> Rabs (B2R (np_cos np x) - cos (B2R x)) <= cos (B2R x) / 2 ->
  is_finite (np_sin np x) = true -> Rabs (B2R (np_sin np x) - sin (B2R x)) <= sin (B2R x) / 2 ->
  exists Tr Te, T_ply_f np (f_of_Z 90) = Ok (Tr, Te) /\ feq (Tr 0 2)%nat fzero = false /\ feq (Te 2 0)%nat fzero = false /\
    (as_arr (T_real (cdeg 90) (sdeg 90)) 0%nat 2%nat : R) = 0 /\ (as_arr (T_engineering (cdeg 90) (sdeg 90)) 2%nat 0%nat : R) = 0.
Proof. exact T_LayupFloat.t_C88_right_angle_refuted. Qed.
Print Assumptions C88_right_angle_refuted.

(** C88: the hypotheses are met: for a numpy that is exact at these angles, by two plies at 0 and 90 degrees (e1 = 4, e2 = 2, v12 = 1/4, g12 = 1, thickness 1/8), whose
    computed D has numbers of usual size, on a pinned plate. The share lost in D is then below 2^-30. *)
Example C88_ex : exists np l (X : mat3) (M : farr), good_layup np 0 (1 / 2) 8 l /\ map (fun p => B2R (fst p)) l = [0; 90] /\ attribute 3 (exact_layup l) = Ok X /\ a11 X = 1 / 248 /\
  plate_ok X 2 2 (CStr "PINNED") Pinned Pinned Pinned Pinned 5 5 /\ (forall e, / 1000 * dot e e <= quad X e) /\ 3 * matrix_off 0 (1 / 2) 8 3 l < / 1000 /\
  3 * matrix_off 0 (1 / 2) 8 3 l / / 1000 < powerRZ 2 (-30) /\ D_f np l = Ok M /\ forall i j, (i < 3)%nat -> (j < 3)%nat -> usual0 (M i j).
Proof. exact T_LayupFloat.t_C88_ex. Qed.
