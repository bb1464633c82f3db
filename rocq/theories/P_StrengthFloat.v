(** The theorems on LaminateStrength in binary64
    Statements only: every proof is [exact] a lemma of T_StrengthFloat.v with the same statement.
    Below each theorem, Print Assumptions lists the axioms it uses. *)
From Coq Require Import Reals ZArith Lra Lia Bool String.
From Coquelicot Require Import Coquelicot.
From Flocq Require Import Core.Core IEEE754.BinarySingleNaN.
From Coq Require Import List.
From Verif Require Import M_Py M_Float M_FloatArith M_RealArith M_Validate M_Material M_Laminate M_Strength M_K M_MatFloat M_LamArith M_LayupFloat M_XiFloat M_Margin M_Linalg S_Margin M_StrengthFloat S_Mat S_Laminate S_Ritz S_Validate S_Round S_LamRound S_MatFloat S_LayupFloat S_Strength S_Reserve S_StrengthFloat.
Import ListNotations.
Open Scope R_scope.
From Verif Require T_StrengthFloat.

(** C96: the strains as computed. Whatever strains epsilon0() has returned (finite, of usual size), calculate_strain() returns the table of the exact laminate under the loads that
    produce exactly these strains, to within strain_off: the same plies, positions and angles, z to within n + 1 units of the thickness, the strains in both axes to within
    2n + 230 units of the strains in the laminate. *)
Theorem C96_strain : forall np nv k mu q l N e, good_layup np k mu q l -> 0 <= k <= 1000000 -> powerRZ 2 (-40) <= mu -> powerRZ 2 (-200) <= q <= powerRZ 2 190 -> mv_near 3 (np_mv nv) ->
  epsilon0_f np nv l N = Ok e -> finite_vec 6 e -> strain_size (total l) (six e) <= powerRZ 2 300 ->
  exists M rows rows', ABD_of (exact_layup l) = Ok M /\ calculate_strain_f np nv l N = Ok rows /\ strain_of (exact_layup l) (mvec6 M (six e)) = Ok rows' /\
    Forall2 (row_near (z_off l) (strain_off l (six e))) rows rows'.
Proof. exact T_StrengthFloat.t_C96_strain. Qed.
Print Assumptions C96_strain.

(** C96: the stresses as computed, in the same sense: calculate_stress() is within stress_off of the table of the exact laminate under the loads that produce exactly the strains
    epsilon0() has returned. *)
Theorem C96_stress : forall np nv k mu q l N e, good_layup np k mu q l -> 0 <= k <= 1000000 -> powerRZ 2 (-40) <= mu -> powerRZ 2 (-200) <= q <= powerRZ 2 190 -> mv_near 3 (np_mv nv) ->
  epsilon0_f np nv l N = Ok e -> finite_vec 6 e -> strain_size (total l) (six e) <= powerRZ 2 300 ->
  exists M rows rows', ABD_of (exact_layup l) = Ok M /\ calculate_stress_f np nv l N = Ok rows /\ stress_of (exact_layup l) (mvec6 M (six e)) = Ok rows' /\
    Forall2 (row_near (z_off l) (stress_off k mu q l (six e))) rows rows'.
Proof. exact T_StrengthFloat.t_C96_stress. Qed.
Print Assumptions C96_stress.

(** C96: the strains as computed produce the given loads. With an inverse Y of the computed ABD whose residual is r, the strains e of epsilon0() times the exact ABD give back each
    of the six loads to within load_off: the residual times the loads, seven units of the product, and the error of ABD times the strains. *)
Theorem C96_loads : forall np nv k mu q r l N Mf Y, good_layup np k mu q l -> 0 <= k <= 1000000 -> powerRZ 2 (-40) <= mu -> powerRZ 2 (-200) <= q <= powerRZ 2 190 -> mv_near 6 (np_mv6 nv) ->
  ABD_f np l = Ok Mf -> inv6_near nv r Mf Y -> finite_vec 6 N -> (forall i, (i < 6)%nat -> row_magnitude 6 Y N i <= powerRZ 2 900) ->
  exists e M, epsilon0_f np nv l N = Ok e /\ finite_vec 6 e /\ ABD_of (exact_layup l) = Ok M /\
    forall i, (i < 6)%nat -> Rabs (part6 (mvec6 M (six e)) i - B2R (N i)) <= load_off k mu q r l Mf Y N e i.
Proof. exact T_StrengthFloat.t_C96_loads. Qed.
Print Assumptions C96_loads.

(** C96: the strains as computed against the exact strains. If the smallest stiffness of the exact ABD is at least nu, the strains of epsilon0() differ from the exact solution of the
    given loads by at most the loads' error divided by nu (root of the sum of squares). *)
Theorem C96_epsilon0 : forall np nv k mu q r l N Mf Y nu M, good_layup np k mu q l -> 0 <= k <= 1000000 -> powerRZ 2 (-40) <= mu -> powerRZ 2 (-200) <= q <= powerRZ 2 190 -> mv_near 6 (np_mv6 nv) ->
  ABD_f np l = Ok Mf -> inv6_near nv r Mf Y -> finite_vec 6 N -> (forall i, (i < 6)%nat -> row_magnitude 6 Y N i <= powerRZ 2 900) ->
  ABD_of (exact_layup l) = Ok M -> 0 < nu -> (forall v, nu * dot6 v v <= dot6 v (mvec6 M v)) ->
  exists e x, epsilon0_f np nv l N = Ok e /\ finite_vec 6 e /\ epsilon0_of (exact_layup l) (six N) = Ok x /\
    nu * nu * squares6 (part6 (minus6 (six e) x)) <= squares6 (load_off k mu q r l Mf Y N e).
Proof. exact T_StrengthFloat.t_C96_epsilon0. Qed.
Print Assumptions C96_epsilon0.

(** C96: the tables as computed against the exact tables of the given loads: the errors of t_C96_strain and t_C96_stress, plus the effect of the difference between the computed
    strains e and the exact ones x (bounded in C96_epsilon0). *)
Theorem C96_tables : forall np nv k mu q l N e, good_layup np k mu q l -> 0 <= k <= 1000000 -> powerRZ 2 (-40) <= mu -> powerRZ 2 (-200) <= q <= powerRZ 2 190 -> mv_near 3 (np_mv nv) ->
  epsilon0_f np nv l N = Ok e -> finite_vec 6 e -> strain_size (total l) (six e) <= powerRZ 2 300 ->
  exists x strains strains' stresses stresses', epsilon0_of (exact_layup l) (six N) = Ok x /\
    calculate_strain_f np nv l N = Ok strains /\ strain_of (exact_layup l) (six N) = Ok strains' /\
    Forall2 (row_near (z_off l) (strain_off l (six e) + 2 * strain_size (total l) (minus6 (six e) x))) strains strains' /\
    calculate_stress_f np nv l N = Ok stresses /\ stress_of (exact_layup l) (six N) = Ok stresses' /\
    Forall2 (row_near (z_off l) (stress_off k mu q l (six e) + 10 * q * strain_size (total l) (minus6 (six e) x))) stresses stresses'.
Proof. exact T_StrengthFloat.t_C96_tables. Qed.
Print Assumptions C96_tables.

(** C96: the verdict of the margin table. With orthotropic plies and allowables that are numbers >= 0, the table of margins computed in binary64 has the plies, positions and angles of
    the exact table under the given loads; a row without a negative margin means that the exact stresses exceed no allowable by more than the error of the stresses, and exact stresses
    inside the allowables by that error (and not within it of zero) give no negative margin. If an allowable is exceeded by more than the error, the column critical names one that
    is exceeded up to the error. *)
Theorem C96_margins : forall np nv k mu q l N e, good_layup np k mu q l -> 0 <= k <= 1000000 -> powerRZ 2 (-40) <= mu -> powerRZ 2 (-200) <= q <= powerRZ 2 190 -> mv_near 3 (np_mv nv) ->
  epsilon0_f np nv l N = Ok e -> finite_vec 6 e -> strain_size (total l) (six e) <= powerRZ 2 300 -> allowables_good l ->
  exists x rows rows', epsilon0_of (exact_layup l) (six N) = Ok x /\ calculate_maxstressmargin_f np nv l N = Ok rows /\ table (exact_layup l) (six N) = Ok rows' /\
    Forall2 (margin_near (stress_off k mu q l (six e) + 10 * q * strain_size (total l) (minus6 (six e) x))) rows rows'.
Proof. exact T_StrengthFloat.t_C96_margins. Qed.
Print Assumptions C96_margins.

(** C96: what is assumed of numpy's products of an array with a vector holds for the plain loop, for vectors of up to a thousand entries. *)
Theorem C96_loop : forall n, (1 <= n <= 1000)%nat -> mv_near n (loop_product n).
Proof. exact T_StrengthFloat.t_C96_loop. Qed.
Print Assumptions C96_loop.

(** C96: the hypotheses are met, by a ply of thickness 1/2 at 0 degrees (e1 = 4, e2 = 2, v12 = 0, g12 = 1, allowables 1) under Nxx = 1/8, Nyy = 1/16 and Mxx = 1/64: the computed D has
    rounding errors, the inverse used has a residual below 2^-50, and the strains found are 1/16, 1/16 and the curvature 3/8. *)
Example C96_ex : exists np nv l N Mf Y e M, good_layup np 0 (1 / 2) 8 l /\ mv_near 3 (np_mv nv) /\ mv_near 6 (np_mv6 nv) /\ ABD_f np l = Ok Mf /\ inv6_near nv (fun _ _ => powerRZ 2 (-50)) Mf Y /\
  finite_vec 6 N /\ (forall i, (i < 6)%nat -> row_magnitude 6 Y N i <= powerRZ 2 900) /\ epsilon0_f np nv l N = Ok e /\ finite_vec 6 e /\ strain_size (total l) (six e) <= powerRZ 2 300 /\ allowables_good l /\
  six e = (V3 (1 / 16) (1 / 16) 0, V3 (3 / 8) 0 0) /\ ABD_of (exact_layup l) = Ok M /\ B2R (Mf 3%nat 3%nat) <> a11 (blkD M) /\ forall v, / 100 * dot6 v v <= dot6 v (mvec6 M v).
Proof. exact T_StrengthFloat.t_C96_ex. Qed.
