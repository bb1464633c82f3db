(** The failure envelope and the reserve to failure
    Statements only: every proof is [exact] a lemma of T_Reserve.v with the same statement.
    Below each theorem, Print Assumptions lists the axioms it uses. *)
From Coq Require Import Reals List Lra Lia String.
From Flocq Require Import Core.Core IEEE754.BinarySingleNaN.
From Verif Require Import M_Py M_Float S_Mat M_Material M_Laminate M_LamHistory M_Linalg S_Laminate S_Validate S_Round M_Margin M_Strength S_Strength S_Mirror S_Reserve.
Import ListNotations.
Open Scope string_scope.
Open Scope list_scope.
Open Scope R_scope.
From Verif Require T_Reserve.

(** C81. The set of loads a laminate survives is convex: a weighted mean of two load cases that are both safe is safe. *)
Theorem C81_convex : forall l N1 N2 t, safe l N1 -> safe l N2 -> 0 <= t <= 1 -> safe l (add6 (scale6 (1 - t) N1) (scale6 t N2)).
Proof. exact T_Reserve.t_C81_convex. Qed.
Print Assumptions C81_convex.

(** C81. The reserve: from the margins of one load case alone one knows which multiples of it are safe, namely exactly the
    multiples that are at most one plus every margin of the table. *)
Theorem C81_reserve : forall l N rows k, table l N = Ok rows -> allowables_ok l -> 0 <= k ->
  (safe l (scale6 k N) <-> forall m, table_margin rows m -> k <= 1 + m).
Proof. exact T_Reserve.t_C81_reserve. Qed.
Print Assumptions C81_reserve.

(** C81. So the largest safe multiple of a load is one plus the smallest margin of its table, and the load itself is safe
    exactly when that margin is not negative. *)
Theorem C81_multiplier : forall l N rows m, table l N = Ok rows -> allowables_ok l -> smallest_margin rows m ->
  (forall k, 0 <= k -> (safe l (scale6 k N) <-> k <= 1 + m)) /\ (safe l N <-> 0 <= m).
Proof. exact T_Reserve.t_C81_multiplier. Qed.
Print Assumptions C81_multiplier.

(** C81. No load at all is safe, reducing a safe load keeps it safe, and a load whose table shows no margin that is a number
    can be increased without bound. *)
Theorem C81_reduce : forall l N rows, table l N = Ok rows -> allowables_ok l ->
  safe l zero6 /\ (forall k, 0 <= k <= 1 -> safe l N -> safe l (scale6 k N)) /\
  ((forall m, ~ table_margin rows m) -> forall k, 0 <= k -> safe l (scale6 k N)).
Proof. exact T_Reserve.t_C81_reduce. Qed.
Print Assumptions C81_reduce.

(** C81. Checking the two faces of every ply suffices: if a load is safe, the stress in material directions at every height
    inside every ply, computed from the strains of epsilon0, respects the allowables of that ply. *)
Theorem C81_inside : forall l N e k i th o z0 z1 z, safe l N -> epsilon0_of l N = Ok (e, k) ->
  nth_error l i = Some (th, Ortho o) -> nth_error (z_position l) i = Some z0 -> nth_error (z_position l) (i+1) = Some z1 -> z0 <= z <= z1 ->
  exists q, Q_0 (Ortho o) = Ok q /\
    survives (Allow (o_t1 o) (o_c1 o) (o_t2 o) (o_c2 o) (o_s o))
      (mvec q (eng_strain (rotate_tensor (cdeg th) (sdeg th) (tensor_strain (vadd e (vscale z k)))))).
Proof. exact T_Reserve.t_C81_inside. Qed.
Print Assumptions C81_inside.

(** C81. Turning the plate axes: with all angles increased by phi and the loads expressed in the correspondingly turned axes, the
    margin table is the same except for its angle column, whatever the margin formula. *)
Theorem C81_frame : forall M (mg : allow -> vec3 -> M) l phi N margins, margin_of mg l (turn_loads (cdeg phi) (sdeg phi) N) = Ok margins ->
  exists margins', margin_of mg (rotate_all phi l) N = Ok margins' /\ same_but_angle (fun m => m) margins margins'.
Proof. exact T_Reserve.t_C81_frame. Qed.
Print Assumptions C81_frame.

(** C81. Mirror images and exchanged axes: with all angles reversed and the shear load and twisting moment reversed, or with every angle t replaced by
    90 - t and the two directions of the loads exchanged, every row keeps its allowables and its normal stresses in material directions, and the shear
    stress changes sign. *)
Theorem C81_mirror : forall l N rows, table l N = Ok rows ->
  (exists rows', table (opposite_angles l) (reverse_shear N) = Ok rows' /\ same_but_angle reverse_tau rows rows') /\
  (exists rows', table (complementary_angles l) (exchange_axes N) = Ok rows' /\ same_but_angle reverse_tau rows rows').
Proof. exact T_Reserve.t_C81_mirror. Qed.
Print Assumptions C81_mirror.

(** C81. Hence the mirror image is as safe as the laminate. *)
Theorem C81_mirror_safe : forall l N, safe l N -> safe (opposite_angles l) (reverse_shear N) /\ safe (complementary_angles l) (exchange_axes N).
Proof. exact T_Reserve.t_C81_mirror_safe. Qed.
Print Assumptions C81_mirror_safe.

(** C81. Rounding of a margin: for a finite allowable and a finite stress of the sign checked, whose quotient is between 2^-1022 and 2^1021, the margin returned is the
    exact margin up to 3 * 2^-53 times one plus the quotient. *)
Theorem C81_accuracy : forall t sigma r x, denotes t r -> denotes sigma x ->
  let near (m : f64) (q : R) := bpow radix2 (-1022) <= q <= bpow radix2 1021 -> exists v, denotes m v /\ Rabs (v - (q - 1)) <= 3 * bpow radix2 (-53) * (1 + q) in
  (0 < x -> near (margin_t t sigma) (r / x)) /\
  (x < 0 -> near (margin_c t sigma) (r / - x)) /\
  (x <> 0 -> near (margin_s t sigma) (r / Rabs x)).
Proof. exact T_Reserve.t_C81_accuracy. Qed.
Print Assumptions C81_accuracy.

(** C81, example: a ply with allowables 6, 6, 3, 3, 2 under Nxx = 2, Nyy = -1 has smallest margin 2: three times the load is safe, four times is not. *)
Example C81_ex : exists rows, table ex_strong (V3 2 (-1) 0, vzero) = Ok rows /\ allowables_ok ex_strong /\ smallest_margin rows 2 /\
  safe ex_strong (scale6 3 (V3 2 (-1) 0, vzero)) /\ ~ safe ex_strong (scale6 4 (V3 2 (-1) 0, vzero)).
Proof. exact T_Reserve.t_C81_ex. Qed.
