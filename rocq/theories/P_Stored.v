(** The theorems about the stored tables
    Statements only: every proof is [exact] a lemma of T_Stored.v with the same statement.
    Below each theorem, Print Assumptions lists the axioms it uses. *)
From Coq Require Import Reals ZArith QArith Qreals Lra Lia Bool String FunctionalExtensionality.
From Coquelicot Require Import Coquelicot.
From Coq Require Import List.
From Verif Require Import M_Py M_Plate M_K M_Tables M_Expr M_RealArith M_Plot M_Buckling M_Material M_Laminate M_Optimize S_Plate S_Mat S_Bardell S_Shape S_Energy S_K S_Ritz S_Eigen S_Compare S_Space S_Stored.
Import ListNotations.
Open Scope R_scope.
From Verif Require T_Stored.

(** C75: every stored integral of two of the functions with numbers 4 to 29 is exact: the text evaluates, in real arithmetic, to the
    integral of the product of the derivatives it names. *)
Theorem C75_exact : forall i k, (4 <= i < 30)%nat -> (4 <= k < 30)%nat ->
  t_ff stored_R i k = Ok (exact_int 0 0 i k) /\ t_fxi_f stored_R i k = Ok (exact_int 1 0 i k) /\
  t_fxi_fxi stored_R i k = Ok (exact_int 1 1 i k) /\ t_fxixi_f stored_R i k = Ok (exact_int 2 0 i k) /\
  t_fxixi_fxi stored_R i k = Ok (exact_int 2 1 i k) /\ t_fxixi_fxixi stored_R i k = Ok (exact_int 2 2 i k).
Proof. exact T_Stored.t_C75_exact. Qed.
Print Assumptions C75_exact.

(** C75: the other stored integrals are within 1e-15 of the exact ones while both numbers are below 10, within 2e-12 while they are below
    20, and within 1e-8 always. *)
Theorem C75_accuracy : forall M i k, (M <= 30)%nat -> (i < M)%nat -> (k < M)%nat -> exists v00 v10 v11 v20 v21 v22,
    t_ff stored_R i k = Ok v00 /\ within (tolerance M) v00 (exact_int 0 0 i k) /\
    t_fxi_f stored_R i k = Ok v10 /\ within (tolerance M) v10 (exact_int 1 0 i k) /\
    t_fxi_fxi stored_R i k = Ok v11 /\ within (tolerance M) v11 (exact_int 1 1 i k) /\
    t_fxixi_f stored_R i k = Ok v20 /\ within (tolerance M) v20 (exact_int 2 0 i k) /\
    t_fxixi_fxi stored_R i k = Ok v21 /\ within (tolerance M) v21 (exact_int 2 1 i k) /\
    t_fxixi_fxixi stored_R i k = Ok v22 /\ within (tolerance M) v22 (exact_int 2 2 i k).
Proof. exact T_Stored.t_C75_accuracy. Qed.
Print Assumptions C75_accuracy.

(** C75: so for plates clamped on all four edges with m and n up to 26 both assembly functions compute exactly what they would with exact
    integrals, whatever the stiffness, the lengths and the loads, errors included. *)
Theorem C75_clamped : forall c m n (D ABD : @arr RA) a b Nxx Nyy Nxy, specifies c Clamped Clamped Clamped Clamped -> (m <= 26)%nat -> (n <= 26)%nat ->
  calc_K_KG_D stored_R D a b Nxx Nyy Nxy c m n = calc_K_KG_D exact_tables D a b Nxx Nyy Nxy c m n /\
  calc_K_KG_ABD stored_R ABD a b Nxx Nyy Nxy c m n = calc_K_KG_ABD exact_tables ABD a b Nxx Nyy Nxy c m n.
Proof. exact T_Stored.t_C75_clamped. Qed.
Print Assumptions C75_clamped.

(** C75: and so do the buckling analysis, the load computed from lamination parameters, both optimisation problems and the data of the contour
    plot: every theorem about these with exact integrals holds of clamped plates as the code computes them. *)
Theorem C75_users : forall eigsh c m n, specifies c Clamped Clamped Clamped Clamped -> (m <= 26)%nat -> (n <= 26)%nat ->
  (forall D a b Nxx Nyy Nxy num, buckling_analysis eigsh stored_R D a b Nxx Nyy Nxy c m n num = buckling_analysis eigsh exact_tables D a b Nxx Nyy Nxy c m n num) /\
  (forall a b T xi1 xi3 E1 E2 v12 G12 Nxx Nyy Nxy,
     Ncr_from_lp eigsh stored_R a b T m n xi1 xi3 E1 E2 v12 G12 Nxx Nyy Nxy c = Ncr_from_lp eigsh exact_tables a b T m n xi1 xi3 E1 E2 v12 G12 Nxx Nyy Nxy c) /\
  (forall a b T E1 E2 v12 G12 Nxx Nyy Nxy penalty,
     maximize_buckling_load eigsh stored_R a b T E1 E2 v12 G12 Nxx Nyy Nxy m n c penalty = maximize_buckling_load eigsh exact_tables a b T E1 E2 v12 G12 Nxx Nyy Nxy m n c penalty) /\
  (forall a b E1 E2 v12 G12 Nxx Nyy Nxy start,
     minimize_panel_weight eigsh stored_R a b E1 E2 v12 G12 Nxx Nyy Nxy m n start c = minimize_panel_weight eigsh exact_tables a b E1 E2 v12 G12 Nxx Nyy Nxy m n start c) /\
  (forall a b T E1 E2 v12 G12 Nxx Nyy Nxy p penalty,
     plot_optimization eigsh stored_R a b T m n E1 E2 v12 G12 Nxx Nyy Nxy c p penalty = plot_optimization eigsh exact_tables a b T m n E1 E2 v12 G12 Nxx Nyy Nxy c p penalty).
Proof. exact T_Stored.t_C75_users. Qed.
Print Assumptions C75_users.

(** C75: the Ritz principle for the matrices the code assembles: for a clamped plate with symmetric positive definite D, the smallest positive
    factor of K and KG as built from the stored tables is the exact one over all polynomial deflections of the degrees considered
    that meet the edge conditions. *)
Theorem C75_ritz : forall (D : mat3) a b Nxx Nyy Nxy c m n l, 0 < a -> 0 < b -> symmetric D -> pos_def D ->
  specifies c Clamped Clamped Clamped Clamped -> (m <= 26)%nat -> (n <= 26)%nat ->
  let trial w := bipoly (m + 4) (n + 4) w /\ fits a b Clamped Clamped Clamped Clamped w in
  let energy w := bending D a b w w + l * load_work Nxx Nyy Nxy a b w w in
  (critical_with stored_R D a b Nxx Nyy Nxy c m n l <->
   0 < l /\ (forall w, trial w -> 0 <= energy w) /\ (exists w, trial w /\ (exists x y, w x y <> 0) /\ energy w = 0)).
Proof. exact T_Stored.t_C75_ritz. Qed.
Print Assumptions C75_ritz.

(** C75: the matrices the code assembles for a clamped plate are symmetric, K is positive definite, and the quadratic forms are exactly the
    bending energy and the work of the loads. *)
Theorem C75_pencil : forall (D : mat3) a b Nxx Nyy Nxy c m n, 0 < a -> 0 < b -> symmetric D -> pos_def D ->
  specifies c Clamped Clamped Clamped Clamped -> (m <= 26)%nat -> (n <= 26)%nat ->
  exists idx (K KG : list (list R)), compute_constraints c m n = Ok idx /\ calc_K_KG_D stored_R (as_arr D) a b Nxx Nyy Nxy c m n = Ok (K, KG) /\ pencil K KG /\
  forall cw, let w := combine_shapes a b (sw_idx idx) cw in quad_rows K cw = bending D a b w w /\ quad_rows KG cw = load_work Nxx Nyy Nxy a b w w.
Proof. exact T_Stored.t_C75_pencil. Qed.
Print Assumptions C75_pencil.

(** C75: the plate of C42_unsafe_refuted is clamped, so the code as it stands reports it as safe: whatever documented solver answers, one factor
    above 1.3 is returned while the smallest positive factor of the same matrices is below 0.62. *)
Theorem C75_unsafe_refuted : forall eigsh num out vecs, documented eigsh ->
  buckling_analysis eigsh stored_R (as_arr mid) 1 1 (-200) 0 0 (CStr "CLAMPED") 3 1 num = Ok (out, vecs) ->
  exists (K KG : list (list R)) l z, calc_K_KG_D stored_R (as_arr mid) 1 1 (-200) 0 0 (CStr "CLAMPED") 3 1 = Ok (K, KG) /\
    smallest_factor K KG l /\ l < 62 / 100 /\ out = [Fin z] /\ 13 / 10 < z.
Proof. exact T_Stored.t_C75_unsafe_refuted. Qed.
Print Assumptions C75_unsafe_refuted.

(** C75: exactness fails for pinned plates already at the first entry: the stored integral of the square of function 0 is not 26/35, and the
    K of a pinned plate with m = n = 1 is not the bending energy. *)
Theorem C75_rounded_refuted : exact_int 0 0 0 0 = 26 / 35 /\ t_ff stored_R 0 0 <> Ok (exact_int 0 0 0 0) /\
  calc_K_KG_D stored_R (as_arr mid) 2 2 0 0 0 (CStr "PINNED") 1 1 <> calc_K_KG_D exact_tables (as_arr mid) 2 2 0 0 0 (CStr "PINNED") 1 1.
Proof. exact T_Stored.t_C75_rounded_refuted. Qed.
Print Assumptions C75_rounded_refuted.

(** C75: a clamped plate with 26 functions each way meets the hypotheses, and the code assembles matrices of order 676 for it. *)
Example C75_ex : specifies (CStr "CLAMPED") Clamped Clamped Clamped Clamped /\ symmetric mid /\ pos_def mid /\
  exists K KG : list (list R), calc_K_KG_D stored_R (as_arr mid) 1 2 (-1) 0 3 (CStr "CLAMPED") 26 26 = Ok (K, KG) /\ pencil K KG /\ square 676 K.
Proof. exact T_Stored.t_C75_ex. Qed.
