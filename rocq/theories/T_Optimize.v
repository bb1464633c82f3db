(** Proofs of the theorems on the optimisation problems. *)
From Coq Require Import Reals ZArith QArith Qreals Lra Lia Psatz Bool String Sorting.Sorted Classical.
From Coquelicot Require Import Coquelicot.
From Coq Require Import List.
From Verif Require Import M_Py M_Plate M_K M_Tables M_Expr M_RealArith M_Plot M_Buckling M_Material M_Laminate M_Optimize S_Plate S_Mat S_Bardell S_Energy S_K S_Ritz S_Eigen S_Laminate S_Optimize L_Quad L_Eigen L_Plate L_FirstK L_K L_KR L_Poly L_Shape L_TabV L_Energy L_Ritz L_ABD L_Mat L_Lam L_LamAlg L_LamSums L_LamEnergy T_Plate T_Shape T_K T_Energy T_ABD T_Buckling T_Laminate.
Import ListNotations.
Open Scope R_scope.

(* ------------------------------------------------------------------ C47 *)
Definition rmax3 (x y z : R) : R := Rmax (Rmax x y) z.
Lemma last_sort3 x y z d : last_of (sort3 Rltb x y z) d = rmax3 x y z.
Proof.
  unfold last_of, sort3, insert_third, Rltb, rmax3. assert (A := Rmax_l x y). assert (B := Rmax_r x y).
  assert (C : Rmax x y = x \/ Rmax x y = y) by (unfold Rmax; destruct (Rle_dec x y); auto). unfold Rmax at 1.
  repeat match goal with |- context [Rlt_dec ?a ?b] => destruct (Rlt_dec a b) end; cbn; destruct (Rle_dec (Rmax x y) z); lra.
Qed.
Lemma rmax3_spec x y z : 0 <= x -> 0 <= y -> 0 <= z -> let M := rmax3 x y z in
  x <= M /\ y <= M /\ z <= M /\ (M = x \/ M = y \/ M = z).
Proof.
  intros. unfold M, rmax3. assert (A := Rmax_l x y). assert (B := Rmax_r x y). assert (A' := Rmax_l (Rmax x y) z). assert (B' := Rmax_r (Rmax x y) z).
  assert (C : Rmax x y = x \/ Rmax x y = y) by (unfold Rmax; destruct (Rle_dec x y); auto).
  assert (C' : Rmax (Rmax x y) z = Rmax x y \/ Rmax (Rmax x y) z = z) by (generalize (Rmax x y); intros u; unfold Rmax; destruct (Rle_dec u z); auto). lra.
Qed.
Lemma normalize_eq Nxx Nyy Nxy : normalize_critical_load Nxx Nyy Nxy =
  let M := rmax3 (Rabs Nxx) (Rabs Nyy) (Rabs Nxy) in
  if Req_EM_T M 0 then Err ZeroDivisionError else Ok (Nxx / M, Nyy / M, Nxy / M, M).
Proof.
  unfold normalize_critical_load. rewrite last_sort3. cbv zeta. unfold pydiv. destruct (Req_EM_T _ 0); reflexivity.
Qed.
(*@ C47: normalised loads lie in [-1, 1], one of them has absolute value 1, and multiplied by the returned maximum, which is positive
    and is the largest absolute load, they give back the inputs. @*)
Lemma t_C47_normalised : forall Nxx Nyy Nxy x y z M, normalize_critical_load Nxx Nyy Nxy = Ok (x, y, z, M) ->
  0 < M /\ (M = Rabs Nxx \/ M = Rabs Nyy \/ M = Rabs Nxy) /\ Rabs x <= 1 /\ Rabs y <= 1 /\ Rabs z <= 1 /\
  (Rabs x = 1 \/ Rabs y = 1 \/ Rabs z = 1) /\ M * x = Nxx /\ M * y = Nyy /\ M * z = Nxy.
Proof.
  intros Nxx Nyy Nxy x y z M H. rewrite normalize_eq in H. cbv zeta in H.
  destruct (rmax3_spec (Rabs Nxx) (Rabs Nyy) (Rabs Nxy) (Rabs_pos _) (Rabs_pos _) (Rabs_pos _)) as (A & B & C & E).
  set (M' := rmax3 (Rabs Nxx) (Rabs Nyy) (Rabs Nxy)) in *. destruct (Req_EM_T M' 0) as [|N]; [discriminate|].
  assert (P : 0 < M') by (assert (Q := Rabs_pos Nxx); lra). injection H as <- <- <- <-.
  assert (Ab : forall u, Rabs (u / M') = Rabs u / M') by (intros u; unfold Rdiv; rewrite Rabs_mult, Rabs_inv, (Rabs_pos_eq M') by lra; reflexivity).
  assert (Le : forall u, Rabs u <= M' -> Rabs (u / M') <= 1).
  { intros u Hu. rewrite Ab. apply (Rmult_le_reg_r M'); [exact P|]. unfold Rdiv. rewrite Rmult_assoc, Rinv_l by exact N. lra. }
  assert (Eq : forall u, M' = Rabs u -> Rabs (u / M') = 1) by (intros u Hu; rewrite Ab, <- Hu; field; exact N).
  repeat split; auto.
  - destruct E as [E|[E|E]]; auto.
  - field; exact N.
  - field; exact N.
  - field; exact N.
Qed.
(*@ C47: normalisation fails exactly when all loads are zero, with ZeroDivisionError. @*)
Lemma t_C47_error : forall Nxx Nyy Nxy e,
  normalize_critical_load Nxx Nyy Nxy = Err e <-> e = ZeroDivisionError /\ Nxx = 0 /\ Nyy = 0 /\ Nxy = 0.
Proof.
  intros Nxx Nyy Nxy e. rewrite normalize_eq. cbv zeta.
  destruct (rmax3_spec (Rabs Nxx) (Rabs Nyy) (Rabs Nxy) (Rabs_pos _) (Rabs_pos _) (Rabs_pos _)) as (A & B & C & E).
  set (M' := rmax3 (Rabs Nxx) (Rabs Nyy) (Rabs Nxy)) in *.
  assert (Z : forall u, Rabs u <= 0 -> u = 0).
  { intros u Hu. destruct (Req_dec u 0) as [|N]; [assumption|]. assert (0 < Rabs u) by (apply Rabs_pos_lt; exact N). lra. }
  destruct (Req_EM_T M' 0) as [Z0|N]; split.
  - intros H. injection H as <-. split; [reflexivity|]. rewrite Z0 in *. auto.
  - intros (-> & _). reflexivity.
  - discriminate.
  - intros (_ & -> & -> & ->). exfalso. apply N. rewrite Rabs_R0 in E. lra.
Qed.
(*@ C47: which loads are warned about; both warnings are issued at most once, and normalised loads never get the second. All-zero
    loads only get the first. @*)
Lemma t_C47_warnings : forall Nxx Nyy Nxy,
  (In NoCompression (check_loads Nxx Nyy Nxy) <-> 0 <= Nxx /\ 0 <= Nyy /\ Nxy = 0) /\
  (In NotNormalised (check_loads Nxx Nyy Nxy) <-> 1 < Rabs Nxx \/ 1 < Rabs Nyy \/ 1 < Rabs Nxy) /\
  NoDup (check_loads Nxx Nyy Nxy) /\
  (forall x y z M, normalize_critical_load Nxx Nyy Nxy = Ok (x, y, z, M) -> ~ In NotNormalised (check_loads x y z)).
Proof.
  assert (G : forall Nxx Nyy Nxy, (In NoCompression (check_loads Nxx Nyy Nxy) <-> 0 <= Nxx /\ 0 <= Nyy /\ Nxy = 0) /\
    (In NotNormalised (check_loads Nxx Nyy Nxy) <-> 1 < Rabs Nxx \/ 1 < Rabs Nyy \/ 1 < Rabs Nxy) /\ NoDup (check_loads Nxx Nyy Nxy)).
  { intros Nxx Nyy Nxy. unfold check_loads.
    assert (H1 : exists l1, (if Rle_dec 0 Nxx then if Rle_dec 0 Nyy then if Req_EM_T Nxy 0 then [NoCompression] else [] else [] else []) = l1 /\
      (l1 = [NoCompression] /\ 0 <= Nxx /\ 0 <= Nyy /\ Nxy = 0 \/ l1 = [] /\ ~ (0 <= Nxx /\ 0 <= Nyy /\ Nxy = 0))).
    { eexists. split; [reflexivity|]. destruct (Rle_dec 0 Nxx), (Rle_dec 0 Nyy), (Req_EM_T Nxy 0); tauto. }
    assert (H2 : exists l2, (if Rlt_dec 1 (Rabs Nxx) then [NotNormalised] else if Rlt_dec 1 (Rabs Nyy) then [NotNormalised] else if Rlt_dec 1 (Rabs Nxy) then [NotNormalised] else []) = l2 /\
      (l2 = [NotNormalised] /\ (1 < Rabs Nxx \/ 1 < Rabs Nyy \/ 1 < Rabs Nxy) \/ l2 = [] /\ ~ (1 < Rabs Nxx \/ 1 < Rabs Nyy \/ 1 < Rabs Nxy))).
    { eexists. split; [reflexivity|]. destruct (Rlt_dec 1 (Rabs Nxx)), (Rlt_dec 1 (Rabs Nyy)), (Rlt_dec 1 (Rabs Nxy)); tauto. }
    destruct H1 as (l1 & -> & H1), H2 as (l2 & -> & H2).
    destruct H1 as [[-> H1]|[-> H1]], H2 as [[-> H2]|[-> H2]]; cbn [List.app In]; (split; [|split]);
      try (clear -H1; intuition discriminate); try (clear -H2; intuition discriminate); repeat (constructor; [cbn [In]; intuition discriminate|]); constructor. }
  intros Nxx Nyy Nxy. destruct (G Nxx Nyy Nxy) as (A & B & C). split; [exact A|]. split; [exact B|]. split; [exact C|].
  intros x y z M H I. destruct (t_C47_normalised _ _ _ _ _ _ _ H) as (_ & _ & X & Y & Z & _). destruct (G x y z) as (_ & B' & _). apply B' in I. lra.
Qed.
(*@ C47 example. @*)
Example t_C47_ex : normalize_critical_load (-4) 1 2 = Ok (-4 / 4, 1 / 4, 2 / 4, 4) /\ normalize_critical_load 0 0 0 = Err ZeroDivisionError /\
  check_loads 0 0 0 = [NoCompression] /\ check_loads (-4) 1 2 = [NotNormalised].
Proof.
  split.
  { rewrite normalize_eq. cbv zeta. replace (rmax3 (Rabs (-4)) (Rabs 1) (Rabs 2)) with 4.
    - destruct (Req_EM_T 4 0); [lra|reflexivity].
    - rewrite (Rabs_left (-4)), (Rabs_pos_eq 1), (Rabs_pos_eq 2) by lra. unfold rmax3, Rmax. repeat destruct (Rle_dec _ _); lra. }
  split; [apply t_C47_error; auto|]. unfold check_loads. rewrite Rabs_R0, (Rabs_left (-4)) by lra. split.
  - destruct (Rle_dec 0 0); [|lra]. destruct (Req_EM_T 0 0); [|lra]. destruct (Rlt_dec 1 0); [lra|reflexivity].
  - destruct (Rle_dec 0 (-4)); [lra|]. destruct (Rlt_dec 1 (- -4)); [reflexivity|lra].
Qed.

(* ------------------------------------------------------------------ C48 *)
(*@ C48: the penalty functions are non-negative together exactly on the triangle xi3 >= 2|xi1| - 1 and the mask used for plots is that
    triangle; without penalty the mask is the parabola. @*)
Lemma t_C48_triangle : forall xi1 xi3, exists g1 g2 g,
  penalty_g1 [xi1; xi3] = Ok g1 /\ penalty_g2 [xi1; xi3] = Ok g2 /\ natural_constraint_g [xi1; xi3] = Ok g /\
  (0 <= g1 /\ 0 <= g2 <-> 2 * Rabs xi1 - 1 <= xi3) /\ (0 <= g <-> 2 * xi1 ^ 2 - 1 <= xi3) /\
  (constraint_mask xi1 xi3 true = true <-> 2 * Rabs xi1 - 1 <= xi3) /\ (constraint_mask xi1 xi3 false = true <-> 2 * xi1 ^ 2 - 1 <= xi3).
Proof.
  intros xi1 xi3. exists (xi3 + 2 * xi1 + 1), (xi3 - 2 * xi1 + 1), (xi3 - 2 * xi1 ^ 2 + 1). do 3 (split; [reflexivity|]).
  assert (A : Rabs xi1 = xi1 /\ 0 <= xi1 \/ Rabs xi1 = - xi1 /\ xi1 < 0) by (unfold Rabs; destruct (Rcase_abs xi1); lra).
  split; [lra|]. split; [lra|]. unfold constraint_mask. cbn [negb]. split.
  - destruct (Rlt_dec xi1 0); destruct (Rlt_dec _ 0); (split; [intros; (discriminate || lra)|intros; (reflexivity || lra)]).
  - destruct (Rlt_dec _ 0); (split; [intros; (discriminate || lra)|intros; (reflexivity || lra)]).
Qed.
(*@ C48: for |xi1| <= 1 the triangle lies inside the parabola; both touch at the points of 0, 45 and 90 degree plies. @*)
Lemma t_C48_inside : forall xi1 xi3, Rabs xi1 <= 1 -> (constraint_mask xi1 xi3 true = true -> constraint_mask xi1 xi3 false = true) /\
  (2 * xi1 ^ 2 - 1 = 2 * Rabs xi1 - 1 <-> xi1 = 0 \/ xi1 = 1 \/ xi1 = -1).
Proof.
  intros xi1 xi3 H. destruct (t_C48_triangle xi1 xi3) as (_ & _ & _ & _ & _ & _ & _ & _ & M1 & M2).
  assert (S : xi1 ^ 2 = Rabs xi1 * Rabs xi1) by (rewrite <- Rabs_mult, Rabs_pos_eq; [ring|nra]). assert (P := Rabs_pos xi1). split.
  - rewrite M1, M2, S. intros. nra.
  - rewrite S. split.
    + intros E. assert (Z : Rabs xi1 * (Rabs xi1 - 1) = 0) by lra. apply Rmult_integral in Z. unfold Rabs in Z. destruct (Rcase_abs xi1); lra.
    + intros [-> | [-> | ->]]; [rewrite Rabs_R0|rewrite Rabs_R1|rewrite Rabs_left by lra]; lra.
Qed.
(*@ C48: the three functions take (xi1, xi3) and (T, xi1, xi3) alike and raise UnboundLocalError for every other length. @*)
Lemma t_C48_lengths : forall f, In f [penalty_g1; penalty_g2; natural_constraint_g] ->
  (forall T xi1 xi3, f [T; xi1; xi3] = f [xi1; xi3]) /\
  (forall y, List.length y <> 2%nat -> List.length y <> 3%nat -> f y = Err UnboundLocalError).
Proof.
  intros f [<-|[<-|[<-|[]]]]; (split; [reflexivity|]); intros [|a [|b [|c [|d y]]]] H2 H3; cbn in H2, H3; try contradiction; try lia; reflexivity.
Qed.
(*@ C48: with xi3 <= 1 the triangle is the set of lamination parameters of laminates mixing 0, 90 and 45 degree plies in any
    proportions p, q, r. @*)
Lemma t_C48_mixtures : forall xi1 xi3,
  (constraint_mask xi1 xi3 true = true /\ xi3 <= 1 <->
   exists p q r, 0 <= p /\ 0 <= q /\ 0 <= r /\ p + q + r = 1 /\
     xi1 = p * cos (2 * 0) + q * cos (2 * (PI / 2)) + r * cos (2 * (PI / 4)) /\
     xi3 = p * cos (4 * 0) + q * cos (4 * (PI / 2)) + r * cos (4 * (PI / 4))).
Proof.
  intros xi1 xi3. destruct (t_C48_triangle xi1 xi3) as (_ & _ & _ & _ & _ & _ & _ & _ & M1 & _). rewrite M1.
  replace (2 * 0) with 0 by ring. replace (4 * 0) with 0 by ring. replace (2 * (PI / 2)) with PI by field. replace (2 * (PI / 4)) with (PI / 2) by field.
  replace (4 * (PI / 2)) with (2 * PI) by field. replace (4 * (PI / 4)) with PI by field. rewrite cos_0, cos_PI, cos_PI2, cos_2PI.
  assert (A : Rabs xi1 = xi1 /\ 0 <= xi1 \/ Rabs xi1 = - xi1 /\ xi1 < 0) by (unfold Rabs; destruct (Rcase_abs xi1); lra). split.
  - intros [H1 H2]. exists ((1 + xi3 + 2 * xi1) / 4), ((1 + xi3 - 2 * xi1) / 4), ((1 - xi3) / 2). lra.
  - intros (p & q & r & Hp & Hq & Hr & S & E1 & E2). lra.
Qed.
(*@ C48: with xi3 <= 1 the parabola is the set of lamination parameters of laminates mixing plies of some angle with 0 and 90 degree
    plies. @*)
Lemma t_C48_natural : forall xi1 xi3,
  (constraint_mask xi1 xi3 false = true /\ xi3 <= 1 <->
   exists th p q r, 0 <= p /\ 0 <= q /\ 0 <= r /\ p + q + r = 1 /\
     xi1 = p * cos (2 * 0) + q * cos (2 * (PI / 2)) + r * cos (2 * th) /\
     xi3 = p * cos (4 * 0) + q * cos (4 * (PI / 2)) + r * cos (4 * th)).
Proof.
  intros xi1 xi3. destruct (t_C48_triangle xi1 xi3) as (_ & _ & _ & _ & _ & _ & _ & _ & _ & M2). rewrite M2.
  assert (C4 : forall th, cos (4 * th) = 2 * cos (2 * th) ^ 2 - 1).
  { intros th. replace (4 * th) with (2 * (2 * th)) by ring. rewrite cos_2a_cos. ring. }
  replace (2 * 0) with 0 by ring. replace (4 * 0) with 0 by ring. replace (2 * (PI / 2)) with PI by field.
  replace (4 * (PI / 2)) with (2 * PI) by field. rewrite cos_0, cos_PI, cos_2PI. split.
  - intros [H1 H2]. assert (B : -1 <= xi1 <= 1) by nra.
    destruct (Req_dec (xi1 ^ 2) 1) as [E|E].
    + exists 0, ((1 + xi1) / 2), ((1 - xi1) / 2), 0. replace (2 * 0) with 0 by ring. replace (4 * 0) with 0 by ring. rewrite cos_0. repeat split; nra.
    + (* r (2 x^2 - 1) + (1 - r) = xi3 with x = xi1 *)
      set (r := (1 - xi3) / (2 * (1 - xi1 ^ 2))). assert (D : 0 < 1 - xi1 ^ 2) by nra.
      assert (R0 : 0 <= r) by (apply Rmult_le_pos; [lra|left; apply Rinv_0_lt_compat; lra]).
      assert (Er : r * (2 * (1 - xi1 ^ 2)) = 1 - xi3) by (unfold r; field; lra).
      assert (R1 : r <= 1) by nra.
      exists (acos xi1 / 2), ((1 - r) * (1 + xi1) / 2), ((1 - r) * (1 - xi1) / 2), r.
      rewrite C4. replace (2 * (acos xi1 / 2)) with (acos xi1) by field. rewrite cos_acos by exact B.
      split; [nra|]. split; [nra|]. split; [exact R0|]. split; [field|]. split; [field|]. lra.
  - intros (th & p & q & r & Hp & Hq & Hr & S & E1 & E2). rewrite C4 in E2. assert (B := COS_bound (2 * th)). set (u := cos (2 * th)) in *.
    assert (U : u ^ 2 <= 1) by nra. assert (Hu : r * u ^ 2 <= r * 1) by (apply Rmult_le_compat_l; assumption). split; [|lra].
    assert (V : 0 <= p * (1 - xi1) ^ 2 + q * (-1 - xi1) ^ 2 + r * (u - xi1) ^ 2) by (assert (Q := fun z => pow2_ge_0 z); assert (0 <= p * (1 - xi1) ^ 2) by (apply Rmult_le_pos; auto); assert (0 <= q * (-1 - xi1) ^ 2) by (apply Rmult_le_pos; auto); assert (0 <= r * (u - xi1) ^ 2) by (apply Rmult_le_pos; auto); lra).
    assert (W : p * (1 - xi1) ^ 2 + q * (-1 - xi1) ^ 2 + r * (u - xi1) ^ 2 = (p + q + r * u ^ 2) - 2 * xi1 * (p - q + r * u) + (p + q + r) * xi1 ^ 2) by ring.
    replace (p - q + r * u) with xi1 in W by lra. rewrite S in W. lra.
Qed.
(*@ C48 example. @*)
Example t_C48_ex : constraint_mask (1/2) 0 true = true /\ constraint_mask (1/2) (-1/4) true = false /\ constraint_mask (1/2) (-1/4) false = true.
Proof.
  unfold constraint_mask. cbn [negb]. repeat split; destruct (Rlt_dec (1/2) 0); try lra; destruct (Rlt_dec _ 0); try reflexivity; lra.
Qed.

(* ------------------------------------------------------------------ C49 *)
Section Dmat.
Variables (E1 E2 v12 G12 : R).
Definition den : R := 1 - v12 * (v12 * (E2 / E1)).
(** Q11 + Q22 + 2 Q12, Q11 + Q22 - 2 Q12 and Q11 - Q22 *)
Definition QP : R := (E1 + E2 + 2 * (v12 * E2)) / den.
Definition QM : R := (E1 + E2 - 2 * (v12 * E2)) / den.
Definition QD : R := (E1 - E2) / den.
Definition cA : R := QP / 4.
Definition cC (y : R) : R := QM * (1 + y) / 8 + G12 * (1 - y) / 2.
Definition Dmat (T x y : R) : mat3 :=
  M3 (T^3 / 12 * (cA + cC y + QD / 2 * x)) (T^3 / 12 * (cA - cC y)) 0 (T^3 / 12 * (cA - cC y)) (T^3 / 12 * (cA + cC y - QD / 2 * x)) 0
     0 0 (T^3 / 12 * (QM * (1 - y) / 8 + G12 * (1 + y) / 2)).
End Dmat.
Lemma elastic_den E1 E2 v12 G12 : elastic E1 E2 v12 G12 -> 0 < den E1 E2 v12 <= 1.
Proof.
  intros (A & B & _ & _ & C). unfold den. replace (1 - v12 * (v12 * (E2 / E1))) with ((E1 - v12 ^ 2 * E2) / E1) by (field; lra). split.
  - apply Rdiv_lt_0_compat; lra.
  - apply (Rmult_le_reg_r E1); [exact A|]. unfold Rdiv. rewrite Rmult_assoc, Rinv_l by lra. assert (0 <= v12 ^ 2 * E2) by (apply Rmult_le_pos; [apply pow2_ge_0|lra]). lra.
Qed.
Lemma ortho_real_ok E1 E2 v12 G12 h : 0 < E1 -> 0 <= E2 -> 0 <= G12 -> -1/2 <= v12 <= 1/2 -> 0 <= h -> ortho_real E1 E2 v12 G12 h = Ok (OMat E1 E2 v12 G12 h 0 0 0 0 0).
Proof.
  intros. unfold ortho_real, pydiv. repeat (destruct (Rlt_dec _ _); [lra|]). destruct (Req_EM_T E1 0); [lra|]. reflexivity.
Qed.
Lemma D_lp_eq h E1 E2 v12 G12 T x y : elastic E1 E2 v12 G12 -> 0 <= h -> D_lp h E1 E2 v12 G12 T x y = Ok (Dmat E1 E2 v12 G12 T x y).
Proof.
  intros El Hh. assert (Dn := elastic_den _ _ _ _ El). destruct El as (A & B & C & V & W). unfold D_lp. rewrite ortho_real_ok by (assumption || lra). cbn [bind construct lookup String.eqb].
  cbn. rewrite o_Q0_spec. unfold o_den, o_v21. cbn [o_v12 o_e2 o_e1]. fold (den E1 E2 v12).
  destruct (Req_EM_T (den E1 E2 v12) 0); [lra|]. cbn [bind snd]. apply (f_equal Ok). unfold invariants_of_Q, o_Qval, D_from_xi, o_den, o_v21. cbn [a11 a12 a22 a33 o_v12 o_e2 o_e1 o_g12]. fold (den E1 E2 v12).
  unfold Dmat, cA, cC, QP, QM, QD. f_equal; field; lra.
Qed.
Lemma quarter_pos E1 E2 v12 G12 : elastic E1 E2 v12 G12 -> 0 < QP E1 E2 v12 /\ 0 < QM E1 E2 v12 /\ QD E1 E2 v12 ^ 2 < QP E1 E2 v12 * QM E1 E2 v12.
Proof.
  intros El. assert (Dn := elastic_den _ _ _ _ El). destruct El as (A & B & C & V & W).
  assert (K : (v12 * E2) ^ 2 < E1 * E2) by nra. assert (Id := Rinv_0_lt_compat _ (proj1 Dn)).
  assert (Q : 0 < (E1 + E2 + 2 * (v12 * E2)) * (E1 + E2 - 2 * (v12 * E2)) - (E1 - E2) ^ 2) by nra.
  assert (P1 : 0 < E1 + E2 + 2 * (v12 * E2)) by nra. assert (P2 : 0 < E1 + E2 - 2 * (v12 * E2)) by nra.
  unfold QP, QM, QD. split; [apply Rdiv_lt_0_compat; lra|]. split; [apply Rdiv_lt_0_compat; lra|].
  unfold Rdiv. assert (I2 : 0 < / den E1 E2 v12 * / den E1 E2 v12) by (apply Rmult_lt_0_compat; assumption). nra.
Qed.
Lemma Dmat_pd E1 E2 v12 G12 T x y : 0 < T ->
  (pos_def (Dmat E1 E2 v12 G12 T x y) <->
   0 < cA E1 E2 v12 + cC E1 E2 v12 G12 y + QD E1 E2 v12 / 2 * x /\ 0 < cA E1 E2 v12 + cC E1 E2 v12 G12 y - QD E1 E2 v12 / 2 * x /\
   (QD E1 E2 v12 / 2 * x) ^ 2 < 4 * cA E1 E2 v12 * cC E1 E2 v12 G12 y /\ 0 < QM E1 E2 v12 * (1 - y) / 8 + G12 * (1 + y) / 2).
Proof.
  intros HT. unfold Dmat. rewrite pd_block. set (t := T ^ 3 / 12). assert (Ht : 0 < t) by (unfold t; assert (0 < T ^ 3) by (apply pow_lt; exact HT); lra).
  set (A := cA E1 E2 v12). set (C := cC E1 E2 v12 G12 y). set (u := QD E1 E2 v12 / 2 * x). set (w := QM E1 E2 v12 * (1 - y) / 8 + G12 * (1 + y) / 2).
  assert (Pos : forall z, 0 < t * z <-> 0 < z).
  { intros z. split; intros H; [|apply Rmult_lt_0_compat; assumption]. apply (Rmult_lt_reg_l t); [exact Ht|]. lra. }
  rewrite !Pos. assert (Sq : (t * (A - C)) ^ 2 < t * (A + C + u) * (t * (A + C - u)) <-> u ^ 2 < 4 * A * C).
  { assert (T2 : 0 < t * t) by (apply Rmult_lt_0_compat; assumption).
    replace ((t * (A - C)) ^ 2) with (t * t * (A - C) ^ 2) by ring. replace (t * (A + C + u) * (t * (A + C - u))) with (t * t * ((A + C + u) * (A + C - u))) by ring. split; intros H.
    - apply (Rmult_lt_reg_l (t * t)) in H; [|exact T2]. lra.
    - apply Rmult_lt_compat_l; [exact T2|]. lra. }
  rewrite Sq. reflexivity.
Qed.
Lemma Dmat_region E1 E2 v12 G12 T x y : elastic E1 E2 v12 G12 -> 0 < T -> 2 * x ^ 2 - 1 <= y <= 1 -> pos_def (Dmat E1 E2 v12 G12 T x y).
Proof.
  intros El HT Hy. destruct (quarter_pos _ _ _ _ El) as (P & M & K). assert (G : 0 < G12) by apply El. apply Dmat_pd; [exact HT|].
  assert (X2 : 0 <= x ^ 2 <= 1) by (assert (Q := pow2_ge_0 x); lra).
  assert (Cp : 0 < cC E1 E2 v12 G12 y).
  { unfold cC. destruct (Req_dec y (-1)) as [->|N]; [lra|]. assert (0 < QM E1 E2 v12 * (1 + y)) by (apply Rmult_lt_0_compat; lra). assert (0 <= G12 * (1 - y)) by (apply Rmult_le_pos; lra). lra. }
  assert (Ap : 0 < cA E1 E2 v12) by (unfold cA; lra).
  assert (Det : (QD E1 E2 v12 / 2 * x) ^ 2 < 4 * cA E1 E2 v12 * cC E1 E2 v12 G12 y).
  { replace ((QD E1 E2 v12 / 2 * x) ^ 2) with (QD E1 E2 v12 ^ 2 * x ^ 2 / 4) by field.
    destruct (Req_dec (x ^ 2) 0) as [Z|N].
    - rewrite Z. assert (0 < cA E1 E2 v12 * cC E1 E2 v12 G12 y) by (apply Rmult_lt_0_compat; assumption). lra.
    - assert (H1 : QD E1 E2 v12 ^ 2 * x ^ 2 < QP E1 E2 v12 * QM E1 E2 v12 * x ^ 2) by (apply Rmult_lt_compat_r; lra).
      assert (H2 : QP E1 E2 v12 * QM E1 E2 v12 * x ^ 2 <= QP E1 E2 v12 * QM E1 E2 v12 * ((1 + y) / 2)) by (apply Rmult_le_compat_l; [apply Rmult_le_pos; lra|lra]).
      assert (H3 : 0 <= QP E1 E2 v12 * (G12 * (1 - y))) by (apply Rmult_le_pos; [lra|apply Rmult_le_pos; lra]).
      unfold cA, cC. lra. }
  set (A := cA E1 E2 v12) in *. set (C := cC E1 E2 v12 G12 y) in *. set (u := QD E1 E2 v12 / 2 * x) in *.
  assert (Sm : u ^ 2 < (A + C) ^ 2) by (assert (Q := pow2_ge_0 (A - C)); lra).
  assert (Lo : - (A + C) < u) by (destruct (Rlt_or_le (- (A + C)) u) as [|L]; [assumption|exfalso]; assert (0 <= (- u - (A + C)) * (- u + (A + C))) by (apply Rmult_le_pos; lra); lra).
  assert (Hi : u < A + C) by (destruct (Rlt_or_le u (A + C)) as [|L]; [assumption|exfalso]; assert (0 <= (u - (A + C)) * (u + (A + C))) by (apply Rmult_le_pos; lra); lra).
  split; [lra|]. split; [lra|]. split; [exact Det|].
  destruct (Req_dec y 1) as [->|N]; [lra|]. assert (0 < QM E1 E2 v12 * (1 - y)) by (apply Rmult_lt_0_compat; lra). assert (0 <= G12 * (1 + y)) by (apply Rmult_le_pos; lra). lra.
Qed.
Lemma Dmat_sym E1 E2 v12 G12 T x y : symmetric (Dmat E1 E2 v12 G12 T x y).
Proof. reflexivity. Qed.
Lemma elastic_diag e : 0 < e -> elastic 1 e 0 e.
Proof. intros. unfold elastic. lra. Qed.
Lemma elastic_diag' e : 0 < e -> elastic 1 1 0 e.
Proof. intros. unfold elastic. lra. Qed.
(*@ C49: the natural constraint with xi3 <= 1 is exactly the region where D is positive definite for every admissible material and
    thickness. @*)
Lemma t_C49_region : forall xi1 xi3,
  (constraint_mask xi1 xi3 false = true /\ xi3 <= 1 <->
   forall h E1 E2 v12 G12 T, 0 <= h -> elastic E1 E2 v12 G12 -> 0 < T ->
     exists D, D_lp h E1 E2 v12 G12 T xi1 xi3 = Ok D /\ symmetric D /\ pos_def D).
Proof.
  intros x y. destruct (t_C48_triangle x y) as (_ & _ & _ & _ & _ & _ & _ & _ & _ & M2). rewrite M2. split.
  - intros H h E1 E2 v12 G12 T Hh El HT. exists (Dmat E1 E2 v12 G12 T x y). split; [apply D_lp_eq; assumption|]. split; [apply Dmat_sym|apply Dmat_region; assumption].
  - intros H.
    assert (Pd : forall E1 E2 v12 G12, elastic E1 E2 v12 G12 -> pos_def (Dmat E1 E2 v12 G12 1 x y)).
    { intros E1 E2 v12 G12 El. destruct (H 0 E1 E2 v12 G12 1 ltac:(lra) El ltac:(lra)) as (D & E & _ & P). rewrite D_lp_eq in E by (assumption || lra). injection E as <-. exact P. }
    split.
    + destruct (Rle_or_lt (2 * x ^ 2 - 1) y) as [|L]; [assumption|exfalso].
      set (d := x ^ 2 / 4 - (1 + y) / 8). assert (Hd : 0 < d) by (unfold d; lra).
      set (c1 := (1 + y) / 4 + (1 - y) / 2 + x ^ 2 / 2). set (c2 := (1 + y) / 8 + (1 - y) / 2 - x ^ 2 / 4).
      set (k := Rabs c1 + Rabs c2 + d + 1). assert (A1 := Rle_abs c1). assert (A2 := Rle_abs c2). assert (B1 := Rabs_pos c1). assert (B2 := Rabs_pos c2).
      assert (Hk : 0 < k) by (unfold k; lra). set (e := d / k). assert (He : 0 < e) by (apply Rdiv_lt_0_compat; assumption).
      assert (Ek : e * k = d) by (unfold e; field; lra). assert (E1 : e < 1) by (unfold k in Ek; nra).
      specialize (Pd 1 e 0 e (elastic_diag e He)). apply Dmat_pd in Pd; [|lra]. destruct Pd as (_ & _ & Q & _). revert Q.
      unfold cA, cC, QP, QM, QD, den. replace (1 - 0 * (0 * (e / 1))) with 1 by ring. rewrite Rmult_0_l. intros Q.
      assert (Q' : 0 < - d + e * c1 + e * e * c2) by (unfold d, c1, c2; lra).
      assert (e * c1 <= e * Rabs c1) by (apply Rmult_le_compat_l; lra).
      assert (e * e * c2 <= e * Rabs c2). { apply (Rle_trans _ (e * e * Rabs c2)); [apply Rmult_le_compat_l; [nra|lra]|]. apply Rmult_le_compat_r; [lra|nra]. }
      unfold k in Ek. nra.
    + destruct (Rle_or_lt y 1) as [|L]; [assumption|exfalso].
      set (e := (y - 1) / (2 * (1 + y))). assert (He : 0 < e) by (apply Rdiv_lt_0_compat; lra).
      specialize (Pd 1 1 0 e (elastic_diag' e He)). apply Dmat_pd in Pd; [|lra]. destruct Pd as (_ & _ & _ & Q). revert Q.
      unfold QM, den. replace (1 - 0 * (0 * (1 / 1))) with 1 by ring. rewrite Rmult_0_l. assert (Ee : e * (1 + y) = (y - 1) / 2) by (unfold e; field; lra). intros Q. lra.
Qed.
(** ** the tolerance of 0.0001 granted to the optimiser *)
Lemma moderate_elastic E1 E2 v12 G12 : 0 < E2 <= E1 /\ E1 <= 1000 * E2 /\ E1 <= 1000 * G12 /\ -1/2 <= v12 <= 1/2 -> elastic E1 E2 v12 G12.
Proof. intros (A & B & C & V). unfold elastic. assert (v12 ^ 2 <= 1/4) by nra. repeat split; try lra; nra. Qed.
Lemma Dmat_tolerance E1 E2 v12 G12 T x y : 0 < E2 <= E1 /\ E1 <= 1000 * E2 /\ E1 <= 1000 * G12 /\ -1/2 <= v12 <= 1/2 -> 0 < T ->
  -1 <= x <= 1 -> -1 <= y <= 1 -> 2 * x ^ 2 - 1 - 1/10000 <= y -> pos_def (Dmat E1 E2 v12 G12 T x y).
Proof.
  intros Mo HT Hx Hy H. assert (El := moderate_elastic _ _ _ _ Mo). destruct (quarter_pos _ _ _ _ El) as (P & M & K). assert (G : 0 < G12) by apply El.
  assert (Dn := elastic_den _ _ _ _ El). apply Dmat_pd; [exact HT|]. destruct Mo as (A & B & C & V).
  assert (X2 : 0 <= x ^ 2 <= 1) by nra.
  (* bounds in terms of E1 *)
  assert (V2 : 0 <= v12 ^ 2 <= 1/4) by nra.
  assert (Dl : 3/4 <= den E1 E2 v12).
  { unfold den. replace (1 - v12 * (v12 * (E2 / E1))) with ((E1 - v12 ^ 2 * E2) / E1) by (field; lra). apply (Rmult_le_reg_r E1); [lra|]. unfold Rdiv. rewrite !Rmult_assoc, Rinv_l by lra. nra. }
  assert (ZP : QP E1 E2 v12 * den E1 E2 v12 = E1 + E2 + 2 * (v12 * E2)) by (unfold QP; field; lra).
  assert (ZM : QM E1 E2 v12 * den E1 E2 v12 = E1 + E2 - 2 * (v12 * E2)) by (unfold QM; field; lra).
  assert (ZD : QD E1 E2 v12 * den E1 E2 v12 = E1 - E2) by (unfold QD; field; lra).
  set (p := QP E1 E2 v12) in *. set (m := QM E1 E2 v12) in *. set (q := QD E1 E2 v12) in *. set (d := den E1 E2 v12) in *.
  assert (Hp : p <= 4 * E1) by nra. assert (Hm : m <= 4 * E1) by nra.
  (* p m - q^2 = 4 E1 E2 / d >= 4 E1^2 / 1000 *)
  assert (Gap : (p * m - q ^ 2) * d = 4 * (E1 * E2)).
  { assert (Ed : d * E1 = E1 - v12 ^ 2 * E2) by (unfold d, den; field; lra).
    assert (W : (p * m - q ^ 2) * d * d = 4 * (E1 * E2) * d).
    { replace ((p * m - q ^ 2) * d * d) with ((p * d) * (m * d) - (q * d) ^ 2) by ring. rewrite ZP, ZM, ZD. replace (4 * (E1 * E2) * d) with (4 * E2 * (d * E1)) by ring. rewrite Ed. ring. }
    apply (Rmult_eq_reg_r d); lra. }
  assert (GapL : E1 * E1 / 250 <= p * m - q ^ 2) by nra.
  assert (PM : p * m <= 16 * (E1 * E1)) by nra.
  assert (Pm0 : 0 < p * m) by (apply Rmult_lt_0_compat; assumption).
  assert (C0 : cC E1 E2 v12 G12 y = m * (1 + y) / 8 + G12 * (1 - y) / 2) by reflexivity.
  assert (A0 : cA E1 E2 v12 = p / 4) by reflexivity.
  assert (Det : (q / 2 * x) ^ 2 < 4 * cA E1 E2 v12 * cC E1 E2 v12 G12 y).
  { rewrite C0, A0. replace ((q / 2 * x) ^ 2) with (q ^ 2 * x ^ 2 / 4) by field.
    replace (4 * (p / 4) * (m * (1 + y) / 8 + G12 * (1 - y) / 2)) with (p * m * ((1 + y) / 8) + p * G12 * ((1 - y) / 2)) by field.
    assert (Q0 := pow2_ge_0 q). assert (Pg : 0 < p * G12) by (apply Rmult_lt_0_compat; assumption).
    assert (T3 : 0 <= p * G12 * ((1 - y) / 2)) by (apply Rmult_le_pos; lra).
    destruct (Rle_or_lt (1/2) (x ^ 2)) as [X|X].
    - assert (T1 : p * m * ((2 * x ^ 2 - 1/10000) / 8) <= p * m * ((1 + y) / 8)) by (apply Rmult_le_compat_l; lra).
      assert (T2 : E1 * E1 / 250 * x ^ 2 <= (p * m - q ^ 2) * x ^ 2) by (apply Rmult_le_compat_r; lra).
      assert (T4 : E1 * E1 / 250 * (1/2) <= E1 * E1 / 250 * x ^ 2) by (apply Rmult_le_compat_l; nra).
      assert (0 < E1 * E1) by nra. lra.
    - destruct (Rle_or_lt 0 y) as [Y|Y].
      + assert (T1 : p * m * (1 / 8) <= p * m * ((1 + y) / 8)) by (apply Rmult_le_compat_l; lra).
        assert (T2 : q ^ 2 * x ^ 2 <= q ^ 2 * (1/2)) by (apply Rmult_le_compat_l; lra). assert (0 < E1 * E1) by nra. lra.
      + assert (T1 : p * m * ((2 * x ^ 2 - 1/10000) / 8) <= p * m * ((1 + y) / 8)) by (apply Rmult_le_compat_l; lra).
        assert (T2 : p * G12 * (1/2) <= p * G12 * ((1 - y) / 2)) by (apply Rmult_le_compat_l; lra).
        assert (T4 : p * m <= p * (4 * E1)) by (apply Rmult_le_compat_l; lra).
        assert (T5 : p * (4 * E1) <= p * (4000 * G12)) by (apply Rmult_le_compat_l; lra).
        assert (T6 : q ^ 2 * x ^ 2 <= p * m * x ^ 2) by (apply Rmult_le_compat_r; lra). lra. }
  assert (Ap : 0 < cA E1 E2 v12) by (rewrite A0; lra).
  assert (Cp : 0 < cC E1 E2 v12 G12 y).
  { rewrite C0. destruct (Req_dec y (-1)) as [->|N]; [lra|]. assert (0 < m * (1 + y)) by (apply Rmult_lt_0_compat; lra). assert (0 <= G12 * (1 - y)) by (apply Rmult_le_pos; lra). lra. }
  set (a := cA E1 E2 v12) in *. set (c := cC E1 E2 v12 G12 y) in *. set (u := q / 2 * x) in *.
  assert (Sm : u ^ 2 < (a + c) ^ 2) by (assert (Q := pow2_ge_0 (a - c)); lra).
  assert (Lo : - (a + c) < u) by (destruct (Rlt_or_le (- (a + c)) u) as [|L]; [assumption|exfalso]; assert (0 <= (- u - (a + c)) * (- u + (a + c))) by (apply Rmult_le_pos; lra); lra).
  assert (Hi : u < a + c) by (destruct (Rlt_or_le u (a + c)) as [|L]; [assumption|exfalso]; assert (0 <= (u - (a + c)) * (u + (a + c))) by (apply Rmult_le_pos; lra); lra).
  split; [lra|]. split; [lra|]. split; [exact Det|].
  destruct (Req_dec y 1) as [->|N]; [lra|]. assert (0 < m * (1 - y)) by (apply Rmult_lt_0_compat; lra). assert (0 <= G12 * (1 + y)) by (apply Rmult_le_pos; lra). lra.
Qed.
Lemma within_fin1 f y lo hi x : f y = Ok x -> within (fin1 f y) lo hi -> lo <= x.
Proof. intros E (z & H & L & _). unfold fin1 in H. rewrite E in H. cbn [bind] in H. injection H as <-. exact L. Qed.
Lemma penalty_natural x y : -1 <= x <= 1 -> - 1 / 10000 <= y + 2 * x + 1 -> - 1 / 10000 <= y - 2 * x + 1 -> 2 * x ^ 2 - 1 - 1/10000 <= y.
Proof. intros Hx G1 G2. nra. Qed.
Section Feas.
Variables (eigsh : solver) (t : tables RA) (a b E1 E2 v12 G12 Nxx Nyy Nxy : R) (m n : nat) (c : constraints).
Lemma max_feasible T penalty w p xi1 xi3 : maximize_buckling_load eigsh t a b T E1 E2 v12 G12 Nxx Nyy Nxy m n c penalty = (w, Ok p) -> feasible p [xi1; xi3] ->
  -1 <= xi1 <= 1 /\ -1 <= xi3 <= 1 /\ 2 * xi1 ^ 2 - 1 - 1/10000 <= xi3.
Proof.
  intros H F. unfold maximize_buckling_load in H. destruct (normalize_critical_load Nxx Nyy Nxy) as [[[[Nx Ny] Nz] M]|e]; [|discriminate]. cbn [bind] in H.
  assert (H' := f_equal (fun r => match snd r with Ok p => Some p | Err _ => None end) H). cbn in H'. injection H' as <-. destruct F as [F1 F2]. cbn [bnds cons] in F1, F2.
  inversion F1 as [|? ? ? ? B1 F1']; subst. inversion F1' as [|? ? ? ? B2 _]; subst. cbn [fst snd] in B1, B2. split; [lra|]. split; [lra|].
  destruct penalty; inversion F2 as [|? ? W1 F2']; subst.
  - inversion F2' as [|? ? W2 _]; subst. cbn [fst snd] in W1, W2. apply (within_fin1 penalty_g1 [xi1; xi3] _ _ (xi3 + 2 * xi1 + 1) eq_refl) in W1. apply (within_fin1 penalty_g2 [xi1; xi3] _ _ (xi3 - 2 * xi1 + 1) eq_refl) in W2.
    apply penalty_natural; lra.
  - cbn [fst snd] in W1. apply (within_fin1 natural_constraint_g [xi1; xi3] _ _ (xi3 - 2 * xi1 ^ 2 + 1) eq_refl) in W1. lra.
Qed.
Lemma min_feasible start w p T xi1 xi3 : minimize_panel_weight eigsh t a b E1 E2 v12 G12 Nxx Nyy Nxy m n start c = (w, Ok p) -> feasible p [T; xi1; xi3] ->
  1/1000 <= T <= 1000000 /\ -1 <= xi1 <= 1 /\ -1 <= xi3 <= 1 /\ 2 * xi1 ^ 2 - 1 - 1/10000 <= xi3 /\
  exists Nx Ny Nz M x, normalize_critical_load Nxx Nyy Nxy = Ok (Nx, Ny, Nz, M) /\
    eig_or_minus1 (Ncr_from_lp eigsh t a b T m n xi1 xi3 E1 E2 v12 G12 Nx Ny Nz c) = Ok (Fin x) /\ M <= x.
Proof.
  intros H F. unfold minimize_panel_weight in H. destruct (normalize_critical_load Nxx Nyy Nxy) as [[[[Nx Ny] Nz] M]|e]; [|discriminate]. cbn [bind] in H.
  assert (H' := f_equal (fun r => match snd r with Ok p => Some p | Err _ => None end) H). cbn in H'. injection H' as <-. destruct F as [F1 F2]. cbn [bnds cons] in F1, F2.
  inversion F1 as [|? ? ? ? B0 F1']; subst. inversion F1' as [|? ? ? ? B1 F1'']; subst. inversion F1'' as [|? ? ? ? B2 _]; subst. cbn [fst snd] in B0, B1, B2.
  inversion F2 as [|? ? W0 F2']; subst. inversion F2' as [|? ? W1 F2'']; subst. inversion F2'' as [|? ? W2 _]; subst. cbn [fst snd] in W0, W1, W2.
  apply (within_fin1 penalty_g1 [T; xi1; xi3] _ _ (xi3 + 2 * xi1 + 1) eq_refl) in W1. apply (within_fin1 penalty_g2 [T; xi1; xi3] _ _ (xi3 - 2 * xi1 + 1) eq_refl) in W2.
  split; [lra|]. split; [lra|]. split; [lra|]. split; [apply penalty_natural; lra|]. destruct W0 as (x & W0 & L & _). exists Nx, Ny, Nz, M, x. auto.
Qed.
End Feas.
(*@ C49: every point feasible for one of the optimisation problems, with the tolerance 0.0001 they grant, has a positive definite D when
    neither E1/E2 nor E1/G12 exceeds 1000. @*)
Lemma t_C49_feasible : forall eigsh t a b E1 E2 v12 G12 Nxx Nyy Nxy m n c h, 0 < E2 <= E1 /\ E1 <= 1000 * E2 /\ E1 <= 1000 * G12 /\ -1/2 <= v12 <= 1/2 -> 0 <= h ->
  (forall T penalty w p xi1 xi3, 0 < T -> maximize_buckling_load eigsh t a b T E1 E2 v12 G12 Nxx Nyy Nxy m n c penalty = (w, Ok p) -> feasible p [xi1; xi3] ->
     exists D, D_lp h E1 E2 v12 G12 T xi1 xi3 = Ok D /\ symmetric D /\ pos_def D) /\
  (forall start w p T xi1 xi3, minimize_panel_weight eigsh t a b E1 E2 v12 G12 Nxx Nyy Nxy m n start c = (w, Ok p) -> feasible p [T; xi1; xi3] ->
     exists D, D_lp h E1 E2 v12 G12 T xi1 xi3 = Ok D /\ symmetric D /\ pos_def D).
Proof.
  intros eigsh t a b E1 E2 v12 G12 Nxx Nyy Nxy m n c h Mo Hh. assert (El := moderate_elastic _ _ _ _ Mo). split.
  - intros T penalty w p xi1 xi3 HT H F. destruct (max_feasible _ _ _ _ _ _ _ _ _ _ _ _ _ _ _ _ _ _ _ _ H F) as (B1 & B2 & B3).
    exists (Dmat E1 E2 v12 G12 T xi1 xi3). split; [apply D_lp_eq; assumption|]. split; [apply Dmat_sym|]. apply Dmat_tolerance; assumption.
  - intros start w p T xi1 xi3 H F. destruct (min_feasible _ _ _ _ _ _ _ _ _ _ _ _ _ _ _ _ _ _ _ _ H F) as (B0 & B1 & B2 & B3 & _).
    exists (Dmat E1 E2 v12 G12 T xi1 xi3). split; [apply D_lp_eq; assumption|]. split; [apply Dmat_sym|]. apply Dmat_tolerance; try assumption; lra.
Qed.
(*@ C49: without such a bound the tolerance is too large: E1 = 10^6, E2 = G12 = 1 is an admissible material and (xi1, xi3) = (1, 0.9999) is
    feasible for both maximisation problems, but D is not positive definite. @*)
Lemma t_C49_tolerance_refuted : elastic 1000000 1 0 1 /\ forall eigsh t a b m n c penalty h, 0 <= h ->
  exists w p D, maximize_buckling_load eigsh t a b 1 1000000 1 0 1 (-1) 0 0 m n c penalty = (w, Ok p) /\ feasible p [1; 9999/10000] /\
    D_lp h 1000000 1 0 1 1 1 (9999/10000) = Ok D /\ ~ pos_def D.
Proof.
  assert (El : elastic 1000000 1 0 1) by (unfold elastic; lra). split; [exact El|].
  intros eigsh t a b m n c penalty h Hh.
  assert (Nm : normalize_critical_load (-1) 0 0 = Ok (-1, 0, 0, 1)).
  { rewrite normalize_eq. cbv zeta. replace (rmax3 (Rabs (-1)) (Rabs 0) (Rabs 0)) with 1.
    - destruct (Req_EM_T 1 0); [lra|]. repeat f_equal; lra.
    - rewrite (Rabs_left (-1)), Rabs_R0 by lra. unfold rmax3. rewrite (Rmax_left (- -1) 0), Rmax_left; lra. }
  unfold maximize_buckling_load. rewrite Nm. cbn [bind].
  eexists; eexists; exists (Dmat 1000000 1 0 1 1 1 (9999/10000)). split; [reflexivity|]. split; [split; cbn [bnds cons]|].
  - repeat constructor; cbn; lra.
  - destruct penalty; repeat constructor; cbn [fst snd]; unfold within; (eexists; split; [reflexivity|]; cbn [fst snd]; lra).
  - split; [apply D_lp_eq; assumption|]. intros Pd. apply Dmat_pd in Pd; [|lra]. destruct Pd as (_ & Q & _). revert Q.
    unfold cA, cC, QP, QM, QD, den. replace (1 - 0 * (0 * (1 / 1000000))) with 1 by field. intros Q. lra.
Qed.
(*@ C49 example: a carbon-epoxy material and the quasi-isotropic point. @*)
Example t_C49_ex : elastic 150 10 (3/10) 5 /\ constraint_mask 0 0 true = true /\ constraint_mask 0 0 false = true /\
  exists w p, maximize_buckling_load (fun _ _ _ => Err ArpackError) exact_tables 1 1 1 150 10 (3/10) 5 (-1) 0 0 7 7 (CStr "PINNED") true = (w, Ok p) /\ feasible p [0; 0].
Proof.
  split; [unfold elastic; lra|]. destruct (t_C48_triangle 0 0) as (_ & _ & _ & _ & _ & _ & _ & _ & M1 & M2). rewrite Rabs_R0 in M1.
  split; [apply M1; lra|]. split; [apply M2; lra|].
  unfold maximize_buckling_load. destruct (normalize_critical_load (-1) 0 0) as [[[[x y] z] M]|e] eqn:E.
  - cbn [bind]. eexists; eexists. split; [reflexivity|]. split; cbn [bnds cons].
    + repeat constructor; cbn; lra.
    + repeat constructor; cbn [fst snd]; unfold within; (eexists; split; [reflexivity|]; cbn [fst snd]; lra).
  - apply t_C47_error in E. lra.
Qed.

(* ------------------------------------------------------------------ C50 *)
Lemma D_scale U x T : D_from_xi U x T = mscale (T ^ 3) (D_from_xi U x 1).
Proof. destruct U as [[[[u1 u2] u3] u4] u5], x as [[[x1 x2] x3] x4]. unfold D_from_xi, mscale. cbn. f_equal; field. Qed.
Lemma D_lp_unfold h E1 E2 v12 G12 T x y D : D_lp h E1 E2 v12 G12 T x y = Ok D -> exists U, D = D_from_xi U (x, 0, y, 0) T /\
  forall h' T', 0 <= h' -> D_lp h' E1 E2 v12 G12 T' x y = Ok (D_from_xi U (x, 0, y, 0) T').
Proof.
  intros H. unfold D_lp in H. apply bind_inv in H. destruct H as (m & Em & H).
  assert (Es : m = OMat E1 E2 v12 G12 h 0 0 0 0 0 /\ forall h', 0 <= h' -> ortho_real E1 E2 v12 G12 h' = Ok (OMat E1 E2 v12 G12 h' 0 0 0 0 0)).
  { unfold ortho_real, pydiv in *. repeat (destruct (Rlt_dec _ _) in Em; [discriminate|]). destruct (Req_EM_T E1 0) in Em; [discriminate|]. cbn [bind] in Em. injection Em as <-.
    split; [reflexivity|]. intros h' Hh. repeat (destruct (Rlt_dec _ _); [lra|]). destruct (Req_EM_T E1 0); [lra|]. reflexivity. }
  destruct Es as [-> Es]. cbn in H. destruct (o_Q0 (OMat E1 E2 v12 G12 h 0 0 0 0 0)) as [q|e] eqn:Eq; [|discriminate]. cbn in H.
  exists (invariants_of_Q q). split; [symmetry; apply (f_equal (fun r => match r with Ok d => d | Err _ => D end)) in H; exact H|].
  intros h' T' Hh. unfold D_lp. rewrite (Es h' Hh). cbn. change (o_Q0 (OMat E1 E2 v12 G12 h' 0 0 0 0 0)) with (o_Q0 (OMat E1 E2 v12 G12 h 0 0 0 0 0)). rewrite Eq. reflexivity.
Qed.
(*@ C50: D is T^3 times the D for T = 1, and the ply thickness given to the material does not matter. @*)
Lemma t_C50_D : forall h h' E1 E2 v12 G12 T xi1 xi3 D, D_lp h E1 E2 v12 G12 T xi1 xi3 = Ok D -> 0 <= h' ->
  exists D1, D_lp h' E1 E2 v12 G12 1 xi1 xi3 = Ok D1 /\ D = mscale (T ^ 3) D1 /\ D_lp h' E1 E2 v12 G12 T xi1 xi3 = Ok D.
Proof.
  intros h h' E1 E2 v12 G12 T xi1 xi3 D H Hh. destruct (D_lp_unfold _ _ _ _ _ _ _ _ _ H) as (U & -> & F).
  exists (D_from_xi U (xi1, 0, xi3, 0) 1). split; [apply F; exact Hh|]. split; [apply D_scale|apply F; exact Hh].
Qed.
Lemma scaleD_calc (t : tables RA) D a b Nxx Nyy Nxy c m n (K KG : list (list R)) s : t = stored_R \/ t = exact_tables -> a <> 0 -> b <> 0 ->
  calc_K_KG_D t (as_arr D) a b Nxx Nyy Nxy c m n = Ok (K, KG) -> calc_K_KG_D t (as_arr (mscale s D)) a b Nxx Nyy Nxy c m n = Ok (scale_rows s K, KG).
Proof.
  intros Ht Ha Hb H.
  assert (Gen : forall P e (G : good P t e) idx, compute_constraints c m n = Ok idx ->
    (forall p, In p (sw_idx idx) -> P (fst p) /\ P (snd p)) ->
    calc_K_KG_D t (as_arr (mscale s D)) a b Nxx Nyy Nxy c m n = Ok (scale_rows s K, KG)).
  { intros P e G idx E Pi.
    set (kf := fun (D : mat3) pq => k33f e a b pq (a11 D) (a21 D) (a22 D) (a31 D) (a32 D) (a33 D)).
    assert (W : forall D, calc_K_KG_D t (as_arr D) a b Nxx Nyy Nxy c m n =
      Ok (map (fun p => map (fun q => kf D (p, q)) (sw_idx idx)) (sw_idx idx), map (fun p => map (fun q => kGf e a b (p, q) Nxx Nyy Nxy) (sw_idx idx)) (sw_idx idx))).
    { intros D0. apply (K_D_ok t (as_arr D0) a b Nxx Nyy Nxy c m n idx (kf D0) (fun pq => kGf e a b pq Nxx Nyy Nxy) E). intros p q Ip Iq. unfold ent_D.
      destruct (Pi p Ip), (Pi q Iq).
      rewrite (k33_ok _ _ _ G a b Ha Hb (p, q)) by (repeat split; assumption). cbn [bind].
      rewrite (kG_ok _ _ _ G a b Ha Hb (p, q)) by (repeat split; assumption). reflexivity. }
    rewrite W in H |- *. assert (H1 := f_equal (fun r => match r with Ok p => p | Err _ => ([], []) end) H). cbn beta iota in H1.
    assert (X := f_equal fst H1). assert (Y := f_equal snd H1). cbn [fst snd] in X, Y. rewrite <- X, <- Y. apply Ok_pair; [|reflexivity].
    unfold scale_rows. rewrite map_map. apply map_ext. intros p. rewrite map_map. apply map_ext. intros q. unfold kf, k33f, mscale. cbn [a11 a21 a22 a31 a32 a33]. ring. }
  destruct Ht as [-> | ->].
  - destruct (stored_inv _ a b Nxx Nyy Nxy c m n K KG Ha Hb H) as (idx & E & In30 & _). apply (Gen _ _ stored_good idx E). exact In30.
  - assert (H' := H). unfold calc_K_KG_D in H'. apply bind_inv in H'. destruct H' as (idx & E & _). apply (Gen _ _ exact_good idx E). intros; split; exact I.
Qed.
Lemma buckles_scaleK s K KG l v : s <> 0 -> (buckles (scale_rows s K) KG (s * l) v <-> buckles K KG l v).
Proof.
  intros Hs. unfold buckles. unfold scale_rows at 1 3. rewrite map_length. fold (scale_rows s K).
  assert (E : map2 (fun k g => k + s * l * g) (mat_vec (scale_rows s K) v) (mat_vec KG v) = map (Rmult s) (map2 (fun k g => k + l * g) (mat_vec K v) (mat_vec KG v))).
  { unfold mat_vec, scale_rows. rewrite map_map. generalize KG. clear. induction K as [|k K IH]; intros [|g G]; try reflexivity. cbn [map map2]. rewrite dot_scale, IH. apply f_equal2; [ring|reflexivity]. }
  rewrite E. assert (Z : forall u n, map (Rmult s) u = repeat 0 n <-> u = repeat 0 n).
  { induction u as [|x u IH]; intros [|n]; cbn [map repeat]; try (split; (discriminate || reflexivity)).
    split; intros H; injection H as H1 H2.
    - apply Rmult_integral in H1. destruct H1; [contradiction|]. apply f_equal2; [assumption|apply IH, H2].
    - subst x. apply f_equal2; [ring|]. apply IH. exact H2. }
  rewrite Z. reflexivity.
Qed.
Lemma smallest_scaleK s K KG l : 0 < s -> (smallest_factor (scale_rows s K) KG (s * l) <-> smallest_factor K KG l).
Proof.
  intros Hs. assert (F : forall z, factor (scale_rows s K) KG (s * z) <-> factor K KG z).
  { intros z. unfold factor. split; intros (v & B); exists v; revert B; apply buckles_scaleK; lra. }
  assert (Inv : forall z, s * (z / s) = z) by (intros; field; lra). unfold smallest_factor. rewrite F. split; intros (P & Q & M).
  - split; [nra|]. split; [exact Q|]. intros l' Hl' F'. apply (Rmult_le_reg_l s); [exact Hs|]. apply M; [apply Rmult_lt_0_compat; assumption|apply F; exact F'].
  - split; [apply Rmult_lt_0_compat; assumption|]. split; [exact Q|]. intros l' Hl' F'. rewrite <- (Inv l'). apply Rmult_le_compat_l; [lra|]. apply M; [apply Rdiv_lt_0_compat; assumption|].
    apply F. rewrite Inv. exact F'.
Qed.
(*@ C50: multiplying T by s multiplies K by s^3, leaves KG, and multiplies the smallest positive factor by s^3; stored tables or exact
    integrals. @*)
Lemma t_C50_factors : forall (t : tables RA) h E1 E2 v12 G12 T s xi1 xi3 D D' a b Nxx Nyy Nxy c m n (K KG : list (list R)) l,
  t = stored_R \/ t = exact_tables -> a <> 0 -> b <> 0 -> 0 < s ->
  D_lp h E1 E2 v12 G12 T xi1 xi3 = Ok D -> D_lp h E1 E2 v12 G12 (s * T) xi1 xi3 = Ok D' ->
  calc_K_KG_D t (as_arr D) a b Nxx Nyy Nxy c m n = Ok (K, KG) ->
  exists K', calc_K_KG_D t (as_arr D') a b Nxx Nyy Nxy c m n = Ok (K', KG) /\ K' = scale_rows (s ^ 3) K /\
    (smallest_factor K' KG (s ^ 3 * l) <-> smallest_factor K KG l).
Proof.
  intros t h E1 E2 v12 G12 T s xi1 xi3 D D' a b Nxx Nyy Nxy c m n K KG l Ht Ha Hb Hs HD HD' H.
  assert (Hh : 0 <= h). { unfold D_lp in HD. apply bind_inv in HD. destruct HD as (mm & Em & _). unfold ortho_real in Em. repeat (destruct (Rlt_dec _ _) in Em; [discriminate|]). lra. }
  destruct (D_lp_unfold _ _ _ _ _ _ _ _ _ HD) as (U & -> & F). rewrite (F h (s * T) Hh) in HD'. apply (f_equal (fun r => match r with Ok d => d | Err _ => D' end)) in HD'. subst D'.
  assert (Es : D_from_xi U (xi1, 0, xi3, 0) (s * T) = mscale (s ^ 3) (D_from_xi U (xi1, 0, xi3, 0) T)).
  { rewrite (D_scale U _ (s * T)), (D_scale U _ T). unfold mscale. cbn [a11 a12 a13 a21 a22 a23 a31 a32 a33]. f_equal; ring. }
  exists (scale_rows (s ^ 3) K). rewrite Es. split; [apply scaleD_calc; assumption|]. split; [reflexivity|]. apply smallest_scaleK. apply pow_lt. exact Hs.
Qed.
(*@ C50: minimising the objective T^3 is minimising T. @*)
Lemma t_C50_objective : forall y y' T T', y <> [] -> y' <> [] -> nth_error y 0 = Some T -> nth_error y' 0 = Some T' ->
  exists w w', objective_function y = Ok (Fin w) /\ objective_function y' = Ok (Fin w') /\ (w <= w' <-> T <= T').
Proof.
  intros [|x y] [|x' y'] T T' N N' E E'; try contradiction. cbn in E, E'. injection E as ->. injection E' as ->.
  exists (T ^ 3), (T' ^ 3). split; [reflexivity|]. split; [reflexivity|].
  assert (Mon : forall u v, u < v -> u ^ 3 < v ^ 3).
  { intros u v H. assert (0 < (v - u) * (v ^ 2 + u * v + u ^ 2)); [|lra]. apply Rmult_lt_0_compat; [lra|].
    assert (Q := pow2_ge_0 (u + v)). destruct (Req_dec u 0) as [->|Nu]; [nra|]. assert (0 < u ^ 2) by nra. nra. }
  split; intros H.
  - destruct (Rle_or_lt T T') as [|L]; [assumption|]. assert (Q := Mon _ _ L). lra.
  - destruct H as [H|H]; [assert (Q := Mon _ _ H); lra|rewrite H; lra].
Qed.

(* ------------------------------------------------------------------ C51 *)
Lemma Ncr_unfold eigsh t a b T m n x y E1 E2 v12 G12 Nxx Nyy Nxy c v : Ncr_from_lp eigsh t a b T m n x y E1 E2 v12 G12 Nxx Nyy Nxy c = Ok v ->
  exists D out vecs, D_lp (1/10) E1 E2 v12 G12 T x y = Ok D /\ buckling_analysis eigsh t (as_arr D) a b Nxx Nyy Nxy c m n 5 = Ok (v :: out, vecs).
Proof.
  unfold Ncr_from_lp, D_lp. intros H. apply bind_inv in H. destruct H as (mm & -> & H). cbn [bind]. apply bind_inv in H. destruct H as (L & -> & H). cbn [bind].
  apply bind_inv in H. destruct H as (u & _ & H). apply bind_inv in H. destruct H as (D & -> & H). apply bind_inv in H. destruct H as ([ls vecs] & E & H).
  cbn [fst] in H. destruct ls as [|z out]; [discriminate|]. apply (f_equal (fun r => match r with Ok d => d | Err _ => v end)) in H. subst z.
  exists D, out, vecs. split; [reflexivity|exact E].
Qed.
Lemma Ncr_fwd eigsh t a b T m n x y E1 E2 v12 G12 Nxx Nyy Nxy c D v out vecs : 0 <= a -> 0 <= b -> (1 <= m)%nat -> (1 <= n)%nat -> D_lp (1/10) E1 E2 v12 G12 T x y = Ok D ->
  buckling_analysis eigsh t (as_arr D) a b Nxx Nyy Nxy c m n 5 = Ok (v :: out, vecs) -> Ncr_from_lp eigsh t a b T m n x y E1 E2 v12 G12 Nxx Nyy Nxy c = Ok v.
Proof.
  unfold Ncr_from_lp, D_lp. intros Ha Hb Hm Hn HD H. apply bind_inv in HD. destruct HD as (mm & -> & HD). cbn [bind]. apply bind_inv in HD. destruct HD as (L & -> & HD). cbn [bind].
  assert (Pl : plate_real a b m n = Ok tt).
  { unfold plate_real. repeat (destruct (Rlt_dec _ _); [lra|]). destruct (Nat.ltb_spec m 1); [lia|]. destruct (Nat.ltb_spec n 1); [lia|]. reflexivity. }
  rewrite Pl. cbn [bind]. rewrite HD. cbn [bind]. rewrite H. reflexivity.
Qed.
(*@ C51: what the two problems make of the first factor: the maximisation minimises minus the factor, and an ArpackError counts as the
    value 1; the weight problem requires the factor to be at least the largest load, and an ArpackError counts as factor -1;
    any other exception is raised. @*)
Lemma t_C51_objective : forall eigsh t a b T E1 E2 v12 G12 Nxx Nyy Nxy m n c penalty w p, maximize_buckling_load eigsh t a b T E1 E2 v12 G12 Nxx Nyy Nxy m n c penalty = (w, Ok p) ->
  exists Nx Ny Nz M, normalize_critical_load Nxx Nyy Nxy = Ok (Nx, Ny, Nz, M) /\
  forall xi1 xi3, match Ncr_from_lp eigsh t a b T m n xi1 xi3 E1 E2 v12 G12 Nx Ny Nz c with
    | Ok (Fin x) => objective p [xi1; xi3] = Ok (Fin (- x))
    | Ok Infinite => objective p [xi1; xi3] = Ok Infinite
    | Err ArpackError => objective p [xi1; xi3] = Ok (Fin 1)
    | Err e => objective p [xi1; xi3] = Err e
    end.
Proof.
  intros eigsh t a b T E1 E2 v12 G12 Nxx Nyy Nxy m n c penalty w p H. unfold maximize_buckling_load in H.
  destruct (normalize_critical_load Nxx Nyy Nxy) as [[[[Nx Ny] Nz] M]|e]; [|discriminate]. cbn [bind] in H.
  assert (H' := f_equal (fun r => match snd r with Ok p => Some p | Err _ => None end) H). cbn beta iota zeta delta [snd] in H'. injection H' as <-.
  exists Nx, Ny, Nz, M. split; [reflexivity|]. intros xi1 xi3. cbn [objective].
  destruct (Ncr_from_lp eigsh t a b T m n xi1 xi3 E1 E2 v12 G12 Nx Ny Nz c) as [[x|]|[]]; cbn [eig_or_minus1 bind eneg]; try reflexivity;
    apply (f_equal Ok), (f_equal Fin); ring.
Qed.
(*@ C51: a point of the weight problem at which the solver fails is never feasible, so at a feasible point the first factor was
    computed and is at least the largest load. @*)
Lemma t_C51_weight : forall eigsh t a b E1 E2 v12 G12 Nxx Nyy Nxy m n start c w p T xi1 xi3,
  minimize_panel_weight eigsh t a b E1 E2 v12 G12 Nxx Nyy Nxy m n start c = (w, Ok p) -> feasible p [T; xi1; xi3] ->
  exists Nx Ny Nz M x, normalize_critical_load Nxx Nyy Nxy = Ok (Nx, Ny, Nz, M) /\ 0 < M /\
    Ncr_from_lp eigsh t a b T m n xi1 xi3 E1 E2 v12 G12 Nx Ny Nz c = Ok (Fin x) /\ M <= x.
Proof.
  intros eigsh t a b E1 E2 v12 G12 Nxx Nyy Nxy m n start c w p T xi1 xi3 H F.
  destruct (min_feasible _ _ _ _ _ _ _ _ _ _ _ _ _ _ _ _ _ _ _ _ H F) as (_ & _ & _ & _ & Nx & Ny & Nz & M & x & En & Ex & Le).
  assert (HM : 0 < M) by (apply (t_C47_normalised _ _ _ _ _ _ _ En)).
  exists Nx, Ny, Nz, M, x. split; [exact En|]. split; [exact HM|]. split; [|exact Le].
  unfold eig_or_minus1 in Ex. destruct (Ncr_from_lp eigsh t a b T m n xi1 xi3 E1 E2 v12 G12 Nx Ny Nz c) as [y|[]]; try discriminate; [exact Ex|].
  injection Ex as Ex. lra.
Qed.
(*@ C51: for a documented solver and exact integrals, the value used by both problems is a factor of the plate; if l is the smallest
    positive factor the value is l, unless l < 1, when the value may be any factor in (l, 1/l]. @*)
Lemma t_C51_value : forall eigsh a b T E1 E2 v12 G12 Nxx Nyy Nxy c c0 ca d0 db m n xi1 xi3 v, documented eigsh -> 0 < a -> 0 < b -> 0 < T -> elastic E1 E2 v12 G12 ->
  constraint_mask xi1 xi3 false = true -> xi3 <= 1 ->
  specifies c c0 ca d0 db -> restrained c0 ca d0 db -> (m + taken c0 + taken ca <= 30)%nat -> (n + taken d0 + taken db <= 30)%nat ->
  Ncr_from_lp eigsh exact_tables a b T m n xi1 xi3 E1 E2 v12 G12 Nxx Nyy Nxy c = Ok v ->
  exists D (K KG : list (list R)), D_lp 1 E1 E2 v12 G12 T xi1 xi3 = Ok D /\ calc_K_KG_D exact_tables (as_arr D) a b Nxx Nyy Nxy c m n = Ok (K, KG) /\ pencil K KG /\
    (forall x, v = Fin x -> factor K KG x) /\
    (forall l, smallest_factor K KG l -> v = Fin l \/ l < 1 /\ exists x, v = Fin x /\ l < x <= 1 / l).
Proof.
  intros eigsh a b T E1 E2 v12 G12 Nxx Nyy Nxy c c0 ca d0 db m n xi1 xi3 v Dc Ha Hb HT El Mk Hx Sp Rs Bm Bn H.
  destruct (Ncr_unfold _ _ _ _ _ _ _ _ _ _ _ _ _ _ _ _ _ _ H) as (D & out & vecs & ED & EB).
  destruct (proj1 (t_C49_region xi1 xi3) (conj Mk Hx) (1/10) E1 E2 v12 G12 T ltac:(lra) El HT) as (D' & ED' & Sy & PD).
  assert (D' = D). { rewrite ED in ED'. apply (f_equal (fun r => match r with Ok d => d | Err _ => D' end)) in ED'. symmetry. exact ED'. } subst D'.
  destruct (t_C50_D (1/10) 1 E1 E2 v12 G12 T xi1 xi3 D ED ltac:(lra)) as (_ & _ & _ & ED1).
  assert (EB' := EB). unfold buckling_analysis in EB'. apply bind_inv in EB'. destruct EB' as ([K KG] & EK & _).
  assert (Pn := t_C42_pencil D a b Nxx Nyy Nxy c c0 ca d0 db m n K KG Ha Hb Sy PD Sp Rs EK).
  exists D, K, KG. split; [exact ED1|]. split; [exact EK|]. split; [exact Pn|]. split.
  - intros x ->. destruct (t_C42_pairs _ _ _ _ _ _ _ _ _ _ _ _ K KG _ _ Dc EK Pn EB 0%nat (Fin x) eq_refl) as (u & _ & Bu). exists u. exact Bu.
  - intros l Sl. destruct (t_C42_first _ _ _ _ _ _ _ _ _ _ _ _ K KG _ _ l Dc EK Pn Sl EB) as (x & rest & Ex & [-> | [L All]]).
    + left. congruence.
    + right. split; [exact L|]. destruct (All v (or_introl eq_refl)) as (z & -> & Hz). exists z. split; [reflexivity|exact Hz].
Qed.
(*@ C51: so a feasible point of the weight problem carries the given loads (its smallest factor under the normalised loads is at least
    the largest load), or else that factor is below 1; the loads are the normalised ones times the largest. @*)
Lemma t_C51_carries : forall eigsh a b E1 E2 v12 G12 Nxx Nyy Nxy c c0 ca d0 db m n start w p T xi1 xi3, documented eigsh -> 0 < a -> 0 < b ->
  0 < E2 <= E1 /\ E1 <= 1000 * E2 /\ E1 <= 1000 * G12 /\ -1/2 <= v12 <= 1/2 ->
  specifies c c0 ca d0 db -> restrained c0 ca d0 db -> (m + taken c0 + taken ca <= 30)%nat -> (n + taken d0 + taken db <= 30)%nat ->
  minimize_panel_weight eigsh exact_tables a b E1 E2 v12 G12 Nxx Nyy Nxy m n start c = (w, Ok p) -> feasible p [T; xi1; xi3] ->
  exists D Nx Ny Nz M (K KG : list (list R)), D_lp 1 E1 E2 v12 G12 T xi1 xi3 = Ok D /\ normalize_critical_load Nxx Nyy Nxy = Ok (Nx, Ny, Nz, M) /\
    Nxx = M * Nx /\ Nyy = M * Ny /\ Nxy = M * Nz /\
    calc_K_KG_D exact_tables (as_arr D) a b Nx Ny Nz c m n = Ok (K, KG) /\ pencil K KG /\
    calc_K_KG_D exact_tables (as_arr D) a b Nxx Nyy Nxy c m n = Ok (K, scale_rows M KG) /\
    forall l, smallest_factor K KG l -> smallest_factor K (scale_rows M KG) (l / M) /\ (1 <= l / M \/ l < 1 /\ l * M <= 1).
Proof.
  intros eigsh a b E1 E2 v12 G12 Nxx Nyy Nxy c c0 ca d0 db m n start w p T xi1 xi3 Dc Ha Hb Mo Sp Rs Bm Bn H F.
  destruct (t_C51_weight _ _ _ _ _ _ _ _ _ _ _ _ _ _ _ _ _ _ _ _ H F) as (Nx & Ny & Nz & M & x & En & HM & EN & Le).
  destruct (proj2 (t_C49_feasible eigsh exact_tables a b E1 E2 v12 G12 Nxx Nyy Nxy m n c (1/10) Mo ltac:(lra)) start w p T xi1 xi3 H F) as (D' & ED' & Sy & PD).
  destruct (Ncr_unfold _ _ _ _ _ _ _ _ _ _ _ _ _ _ _ _ _ _ EN) as (D & out & vecs & ED & EB).
  assert (D' = D). { rewrite ED in ED'. apply (f_equal (fun r => match r with Ok d => d | Err _ => D' end)) in ED'. symmetry. exact ED'. } subst D'.
  destruct (t_C50_D (1/10) 1 E1 E2 v12 G12 T xi1 xi3 D ED ltac:(lra)) as (_ & _ & _ & ED1).
  assert (EB' := EB). unfold buckling_analysis in EB'. apply bind_inv in EB'. destruct EB' as ([K KG] & EK & _).
  assert (Pn := t_C42_pencil D a b Nx Ny Nz c c0 ca d0 db m n K KG Ha Hb Sy PD Sp Rs EK).
  assert (Nl : Nxx = M * Nx /\ Nyy = M * Ny /\ Nxy = M * Nz).
  { assert (Q := t_C47_normalised _ _ _ _ _ _ _ En). decompose [and] Q. repeat split; lra. }
  destruct Nl as (N1 & N2 & N3).
  exists D, Nx, Ny, Nz, M, K, KG. split; [exact ED1|]. split; [exact En|]. split; [exact N1|]. split; [exact N2|]. split; [exact N3|]. split; [exact EK|]. split; [exact Pn|]. split.
  - rewrite N1, N2, N3. apply scale_calc; [right; reflexivity|lra|lra|exact EK].
  - intros l Sl. split; [apply smallest_scale; assumption|].
    assert (Pl := proj1 Sl).
    destruct (t_C42_first _ _ _ _ _ _ _ _ _ _ _ _ K KG _ _ l Dc EK Pn Sl EB) as (x' & rest & Ex & [-> | [L All]]).
    + assert (x = l) by congruence. subst x. left. apply (Rmult_le_reg_r M); [exact HM|]. replace (l / M * M) with l by (field; lra). lra.
    + right. split; [exact L|]. destruct (All (Fin x) (or_introl eq_refl)) as (z & Ez & _ & Hz). assert (x = z) by congruence. subst z.
      apply (Rmult_le_compat_l l) in Hz; [|lra]. replace (l * (1 / l)) with 1 in Hz by (field; lra).
      assert (l * M <= l * x) by (apply Rmult_le_compat_l; lra). lra.
Qed.

(** ** a thin clamped plate *)
Lemma mat_vec_scale s M v : mat_vec (scale_rows s M) v = map (Rmult s) (mat_vec M v).
Proof. unfold mat_vec, scale_rows. rewrite !map_map. apply map_ext. intros row. apply dot_scale. Qed.
Lemma scale_length s (M : list (list R)) : List.length (scale_rows s M) = List.length M.
Proof. apply map_length. Qed.
Lemma scale_square s n M : square n M -> square n (scale_rows s M).
Proof.
  intros [L F]. split; [rewrite scale_length; exact L|]. unfold scale_rows. apply Forall_map. eapply Forall_impl; [|exact F]. intros r Hr. cbn beta. rewrite map_length. exact Hr.
Qed.
Lemma scale_sym s M : sym_rows M -> sym_rows (scale_rows s M).
Proof.
  intros S r c. specialize (S r c).
  assert (Q : forall r c, entry (scale_rows s M) r c = option_map (Rmult s) (entry M r c)).
  { intros r0 c0. unfold entry, scale_rows. rewrite nth_error_map. destruct (nth_error M r0); [|reflexivity]. cbn. apply nth_error_map. }
  rewrite !Q, S. reflexivity.
Qed.
Lemma dot_scale_r s u v : dot_list u (map (Rmult s) v) = s * dot_list u v.
Proof. rewrite dot_comm, dot_scale, dot_comm. reflexivity. Qed.
Lemma quad_scale s M c : quad_rows (scale_rows s M) c = s * quad_rows M c.
Proof. unfold quad_rows. change (map (fun row => dot_list row c) (scale_rows s M)) with (mat_vec (scale_rows s M) c). rewrite mat_vec_scale, dot_scale_r. reflexivity. Qed.
Lemma pencil_both s K KG : 0 < s -> pencil K KG -> pencil (scale_rows s K) (scale_rows s KG).
Proof.
  intros Hs [S1 S2 S3 S4 S5]. constructor; try (rewrite scale_length); try (apply scale_square; assumption); try (apply scale_sym; assumption).
  intros c L N. rewrite quad_scale. rewrite scale_length in L. apply Rmult_lt_0_compat; [exact Hs|]. apply S5; assumption.
Qed.
Lemma map_scale_inj s (u v : list R) : s <> 0 -> map (Rmult s) u = map (Rmult s) v -> u = v.
Proof.
  intros Hs. revert v. induction u as [|x u IH]; intros [|y v] H; try discriminate; [reflexivity|]. cbn [map] in H. injection H as H1 H2.
  apply f_equal2; [apply (Rmult_eq_reg_l s); assumption|apply IH, H2].
Qed.
Lemma gen_scale s A M mu v : s <> 0 -> (gen_pair (scale_rows s A) (scale_rows s M) mu v <-> gen_pair A M mu v).
Proof.
  intros Hs. unfold gen_pair. rewrite scale_length, !mat_vec_scale.
  assert (C : map (Rmult mu) (map (Rmult s) (mat_vec M v)) = map (Rmult s) (map (Rmult mu) (mat_vec M v))) by (rewrite !map_map; apply map_ext; intros; ring).
  rewrite C. split; intros (L & N & E); (split; [exact L|]; split; [exact N|]); [apply (map_scale_inj s) in E; assumption|rewrite E; reflexivity].
Qed.
Lemma inner_scale s M u v : inner (scale_rows s M) u v = s * inner M u v.
Proof. unfold inner. rewrite mat_vec_scale, dot_scale_r. reflexivity. Qed.
(** the solver asked about a multiple of the pencil *)
Definition scaled (s : R) (eigsh : solver) : solver := fun A M k => eigsh (scale_rows s A) (scale_rows s M) k.
Lemma scaled_documented s eigsh : 0 < s -> documented eigsh -> documented (scaled s eigsh).
Proof.
  intros Hs Dc A M k. unfold scaled. destruct (Dc (scale_rows s A) (scale_rows s M) k) as [D1 D2]. split; [exact D1|]. intros vals vecs Pn E.
  destruct (D2 vals vecs (pencil_both s _ _ Hs Pn) E) as [R1 R2 R3 R4 R5]. assert (Hn : s <> 0) by lra.
  assert (In0 : forall u v, inner (scale_rows s M) u v = 0 <-> inner M u v = 0).
  { intros u v. rewrite inner_scale. split; intros H; [apply Rmult_integral in H; destruct H; [contradiction|assumption]|rewrite H; ring]. }
  constructor; [exact R1| | | |exact R5].
  - intros j mu Hj. destruct (R2 j mu Hj) as (N & v & Cv & G). split; [exact N|]. exists v. split; [exact Cv|]. apply (gen_scale s); assumption.
  - intros i j u v Hi Hj N Cu Cv. apply In0. apply (R3 i j); assumption.
  - intros mu v G N O. apply (R4 mu v); [apply gen_scale; assumption|exact N|]. intros j u Hj Cu. apply In0. apply (O j u Hj Cu).
Qed.
Lemma scaled_ba s eigsh (t : tables RA) (D D' : @arr RA) a b Nxx Nyy Nxy X Y Z c m n num (K KG : list (list R)) :
  calc_K_KG_D t D a b Nxx Nyy Nxy c m n = Ok (K, KG) -> calc_K_KG_D t D' a b X Y Z c m n = Ok (scale_rows s K, scale_rows s KG) ->
  buckling_analysis eigsh t D' a b X Y Z c m n num = buckling_analysis (scaled s eigsh) t D a b Nxx Nyy Nxy c m n num.
Proof. intros E E'. rewrite (ba_unfold _ _ _ _ _ _ _ _ _ _ _ _ _ _ E), (ba_unfold _ _ _ _ _ _ _ _ _ _ _ _ _ _ E'). rewrite scale_length. reflexivity. Qed.
Lemma scale_scale s u (M : list (list R)) : scale_rows s (scale_rows u M) = scale_rows (s * u) M.
Proof. unfold scale_rows. rewrite map_map. apply map_ext. intros row. rewrite map_map. apply map_ext. intros. ring. Qed.
Lemma scale_one (M : list (list R)) : scale_rows 1 M = M.
Proof. unfold scale_rows. rewrite <- (map_id M) at 2. apply map_ext. intros row. rewrite <- (map_id row) at 2. apply map_ext. intros. ring. Qed.
Lemma G3_mult s P : G3 (s * P) = scale_rows s (G3 P).
Proof. destruct vals3 as [_ F3]. rewrite !F3. unfold scale_rows. cbn [map]. repeat (apply f_equal2; [repeat (apply f_equal2; [field|]); reflexivity|]). reflexivity. Qed.
Lemma smallest_scale_iff s K KG l : 0 < s -> (smallest_factor K (scale_rows s KG) (l / s) <-> smallest_factor K KG l).
Proof.
  intros Hs. split; [|apply smallest_scale; exact Hs]. intros H. apply (smallest_scale (/ s)) in H; [|apply Rinv_0_lt_compat; exact Hs].
  rewrite scale_scale, Rinv_l, scale_one in H by lra. replace (l / s / / s) with l in H by (field; lra). exact H.
Qed.
(** an isotropic-looking material for which D is a multiple of the identity *)
Lemma D_iso h E T x : 0 < E -> 0 <= h -> D_lp h E E 0 E T x 1 = Ok (mscale (T ^ 3 * E / 12) mid).
Proof.
  intros HE Hh. rewrite D_lp_eq; [|unfold elastic; nra|exact Hh]. apply (f_equal Ok). unfold Dmat, cA, cC, QP, QM, QD, den, mscale, mid. cbn [a11 a12 a13 a21 a22 a23 a31 a32 a33].
  f_equal; field; lra.
Qed.
Lemma calc_iso s P : calc_K_KG_D exact_tables (as_arr (mscale s mid)) 1 1 (- P) 0 0 (CStr "CLAMPED") 3 1 = Ok (scale_rows s K3, G3 P).
Proof. apply scaleD_calc; [right; reflexivity|lra|lra|apply calc3]. Qed.
Lemma calc_iso1 s : calc_K_KG_D exact_tables (as_arr (mscale s mid)) 1 1 (-1) 0 0 (CStr "CLAMPED") 3 1 = Ok (scale_rows s K3, G3 1).
Proof. apply (calc_iso s 1). Qed.
Lemma iso_ba eigsh P : 0 < P ->
  buckling_analysis eigsh exact_tables (as_arr (mscale (/ P) mid)) 1 1 (-1) 0 0 (CStr "CLAMPED") 3 1 5 =
  buckling_analysis (scaled (/ P) eigsh) exact_tables (as_arr mid) 1 1 (- P) 0 0 (CStr "CLAMPED") 3 1 5.
Proof.
  intros HP. apply (scaled_ba (/ P) eigsh exact_tables (as_arr mid) _ 1 1 (- P) 0 0 (-1) 0 0 _ 3 1 5 K3 (G3 P)); [apply calc3|]. rewrite calc_iso1.
  rewrite <- G3_mult, Rinv_l by lra. reflexivity.
Qed.
Definition E0 : R := 324 / 25.
Lemma iso_D0 x : D_lp (1/10) E0 E0 0 E0 (1/6) x 1 = Ok (mscale (/ 200) mid).
Proof. rewrite D_iso by (unfold E0; lra). apply (f_equal Ok). apply (f_equal (fun s => mscale s mid)). unfold E0. field. Qed.
(** the value at T = 1/6 *)
Lemma thin_value eigsh x v : documented eigsh ->
  Ncr_from_lp eigsh exact_tables 1 1 (1/6) 3 1 x 1 E0 E0 0 E0 (-1) 0 0 (CStr "CLAMPED") = Ok v ->
  exists z l, v = Fin z /\ 13/10 < z /\ smallest_factor (scale_rows (/ 200) K3) (G3 1) l /\ l < 62/100.
Proof.
  intros Dc H. destruct (Ncr_unfold _ _ _ _ _ _ _ _ _ _ _ _ _ _ _ _ _ _ H) as (D & out & vecs & ED & EB). rewrite iso_D0 in ED.
  apply (f_equal (fun r => match r with Ok d => d | Err _ => D end)) in ED. subst D. rewrite iso_ba in EB by lra.
  destruct (t_C42_unsafe_refuted _ _ _ _ (scaled_documented (/ 200) eigsh ltac:(lra) Dc) EB) as (K & KG & l & z & EK & Sl & Ll & Eo & Hz).
  exists z, l. split; [congruence|]. split; [exact Hz|]. split; [|exact Ll].
  change (-200) with (- (200)) in EK. rewrite calc3 in EK. assert (Q := f_equal (fun r => match r with Ok p => p | Err _ => ([], []) end) EK). cbn beta iota in Q.
  assert (Q1 := f_equal fst Q). assert (Q2 := f_equal snd Q). cbn [fst snd] in Q1, Q2. subst K KG.
  replace (G3 200) with (scale_rows 200 (G3 1)) in Sl by (rewrite <- G3_mult, Rmult_1_r; reflexivity).
  replace l with (l * 200 / 200) in Sl by field. apply smallest_scale_iff in Sl; [|lra].
  replace l with (/ 200 * (l * 200)) by field. apply smallest_scaleK; [lra|exact Sl].
Qed.
(** the value at T = 1 *)
Lemma thick_value eigsh x v l : documented eigsh -> smallest_factor (scale_rows (/ 200) K3) (G3 1) l -> 1/100 < l ->
  Ncr_from_lp eigsh exact_tables 1 1 1 3 1 x 1 E0 E0 0 E0 (-1) 0 0 (CStr "CLAMPED") = Ok v -> v = Fin (216 * l).
Proof.
  intros Dc Sl Ll H. destruct (Ncr_unfold _ _ _ _ _ _ _ _ _ _ _ _ _ _ _ _ _ _ H) as (D & out & vecs & ED & EB). rewrite D_iso in ED by (unfold E0; lra).
  apply (f_equal (fun r => match r with Ok d => d | Err _ => D end)) in ED. subst D. replace (1 ^ 3 * E0 / 12) with (216 * / 200) in EB by (unfold E0; field).
  assert (Sm : smallest_factor (scale_rows (216 * / 200) K3) (G3 1) (216 * l)) by (rewrite <- scale_scale; apply smallest_scaleK; [lra|exact Sl]).
  assert (Pn : pencil (scale_rows (216 * / 200) K3) (G3 1)).
  { assert (Q := pencil_both (216 * / 200) K3 (G3 (/ (216 * / 200))) ltac:(lra) (pencil3 _)). rewrite <- G3_mult, Rinv_r in Q by lra. exact Q. }
  destruct (t_C42_first_above_one _ _ _ _ _ _ _ _ _ _ _ _ _ _ _ _ _ Dc (calc_iso1 _) Pn Sm ltac:(lra) EB) as (rest & Er). congruence.
Qed.
Lemma smallest_above l : smallest_factor (scale_rows (/ 200) K3) (G3 1) l -> 61/100 < l.
Proof.
  intros (Pl & Fl & _).
  assert (F3 : factor K3 (G3 200) l).
  { destruct Fl as (v & Bv). exists v. replace (G3 200) with (scale_rows 200 (G3 1)) by (rewrite <- G3_mult, Rmult_1_r; reflexivity).
    replace l with (l * 200 / 200) by field. apply buckles_scale; [lra|]. apply (buckles_scaleK (/ 200)); [lra|]. replace (/ 200 * (l * 200)) with l by field. exact Bv. }
  assert (B := l3_between). destruct (factors3 l F3) as [-> | [-> | L]]; lra.
Qed.
(*@ C50: "the first factor scales with T^3" is false of the code: for this clamped plate every documented solver gives at T = 1/6 more
    than twice (1/6)^3 times what it gives at T = 1. @*)
Lemma t_C50_refuted : exists E xi1 xi3, elastic E E 0 E /\ constraint_mask xi1 xi3 true = true /\ xi3 <= 1 /\
  forall eigsh v v', documented eigsh ->
    Ncr_from_lp eigsh exact_tables 1 1 (1/6) 3 1 xi1 xi3 E E 0 E (-1) 0 0 (CStr "CLAMPED") = Ok v ->
    Ncr_from_lp eigsh exact_tables 1 1 1 3 1 xi1 xi3 E E 0 E (-1) 0 0 (CStr "CLAMPED") = Ok v' ->
    exists z x, v = Fin z /\ v' = Fin x /\ 2 * ((1/6) ^ 3 * x) < z.
Proof.
  exists E0, 0, 1. split; [unfold elastic, E0; lra|].
  destruct (t_C48_triangle 0 1) as (_ & _ & _ & _ & _ & _ & _ & _ & M1 & _). rewrite Rabs_R0 in M1.
  split; [apply M1; lra|]. split; [lra|]. intros eigsh v v' Dc H H'.
  destruct (thin_value _ _ _ Dc H) as (z & l & -> & Hz & Sl & Ll). assert (La := smallest_above l Sl).
  rewrite (thick_value _ _ _ l Dc Sl ltac:(lra) H'). exists z, (216 * l). repeat split. lra.
Qed.
(*@ C51: "a feasible point of the weight problem carries the loads" is false of the code: for this clamped plate, load and point, every
    documented solver that answers makes the point feasible, although the plate buckles at less than half of the given load. @*)
Lemma t_C51_unsafe_refuted : exists E T xi1 xi3 Nxx, elastic E E 0 E /\ forall eigsh start v, documented eigsh ->
  Ncr_from_lp eigsh exact_tables 1 1 T 3 1 xi1 xi3 E E 0 E (-1) 0 0 (CStr "CLAMPED") = Ok v ->
  exists w p D (K KG : list (list R)) l, minimize_panel_weight eigsh exact_tables 1 1 E E 0 E Nxx 0 0 3 1 start (CStr "CLAMPED") = (w, Ok p) /\
    feasible p [T; xi1; xi3] /\ D_lp 1 E E 0 E T xi1 xi3 = Ok D /\
    calc_K_KG_D exact_tables (as_arr D) 1 1 Nxx 0 0 (CStr "CLAMPED") 3 1 = Ok (K, KG) /\ smallest_factor K KG l /\ l < 1/2.
Proof.
  exists E0, (1/6), 0, 1, (-13/10). split; [unfold elastic, E0; lra|]. intros eigsh start v Dc H.
  destruct (thin_value _ _ _ Dc H) as (z & l & Ev & Hz & Sl & Ll). subst v.
  assert (En : normalize_critical_load (-13/10) 0 0 = Ok (-1, 0, 0, 13/10)).
  { destruct (normalize_critical_load (-13/10) 0 0) as [[[[x y] w] M]|e] eqn:En.
    - assert (Q := t_C47_normalised _ _ _ _ _ _ _ En). decompose [and] Q. clear Q.
      assert (M = 13/10) by (rewrite Rabs_R0, (Rabs_left1 (-13/10)) in * by lra; lra).
      apply (f_equal Ok). subst M. repeat (apply f_equal2); lra.
    - apply t_C47_error in En. lra. }
  assert (ED : D_lp 1 E0 E0 0 E0 (1/6) 0 1 = Ok (mscale (/ 200) mid)).
  { destruct (t_C50_D (1/10) 1 _ _ _ _ _ _ _ _ (iso_D0 0) ltac:(lra)) as (_ & _ & _ & Q). exact Q. }
  unfold minimize_panel_weight. rewrite En. cbn [bind]. eexists. eexists. exists (mscale (/ 200) mid), (scale_rows (/ 200) K3), (G3 (13/10)), (l / (13/10)).
  split; [reflexivity|]. split; [|split; [exact ED|]; split; [|split]].
  - split; cbn [bnds cons].
    + repeat constructor; cbn; lra.
    + repeat constructor; cbn [fst snd].
      * exists z. rewrite H. split; [reflexivity|]. split; [lra|exact I].
      * eexists; split; [reflexivity|]; cbn [fst snd]; lra.
      * eexists; split; [reflexivity|]; cbn [fst snd]; lra.
  - replace (-13/10) with (- (13/10)) by lra. apply calc_iso.
  - replace (G3 (13/10)) with (scale_rows (13/10) (G3 1)) by (rewrite <- G3_mult, Rmult_1_r; reflexivity). apply smallest_scale; [lra|exact Sl].
  - lra.
Qed.

(** a solver answering for a plate with three terms and no factor below 1 *)
Lemma answer_above K KG l : pencil K KG -> List.length K = 3%nat -> smallest_factor K KG l -> 1 <= l ->
  exists vals vecs, eigsh_result KG K 1 vals vecs.
Proof.
  intros Pn Lk (Pl & (v & Bv) & Ml) L1. assert (Gp := buckles_pair K KG l v Pn ltac:(lra) Bv). assert (Ng := factor_neg l Pl).
  assert (Lv : List.length v = 3%nat) by (rewrite <- Lk; apply Bv).
  exists [-1 / l], (map (fun x => [x]) v).
  assert (Cv : column (map (fun x => [x]) v) 0 = Ok v). { destruct v as [|x [|y [|w [|? ?]]]]; try discriminate Lv. reflexivity. }
  constructor.
  - reflexivity.
  - intros [|[|j]] mu Hj; try discriminate Hj. assert (mu = -1 / l) by (cbn in Hj; congruence). subst mu. split; [lra|]. exists v. split; [exact Cv|exact Gp].
  - intros; lia.
  - intros mu u Gu N1 _ mu' [<-|[]]. rewrite cayley_factor by lra.
    assert (C1 : Rabs ((1 - l) / (1 + l)) = (l - 1) / (1 + l)).
    { rewrite Rabs_left1; [field; lra|]. unfold Rdiv. assert (0 < / (1 + l)) by (apply Rinv_0_lt_compat; lra). nra. }
    rewrite C1. destruct (Rlt_or_le mu 0) as [Hm|Hm].
    + assert (Hz := neg_pos mu Hm). assert (Fz : factor K KG (-1 / mu)) by (exists u; apply pair_buckles; [exact Pn|lra|exact Gu]).
      assert (Lz := Ml _ Hz Fz). set (z := -1 / mu) in *. assert (Em : mu = -1 / z) by (unfold z; rewrite neg_twice; lra).
      rewrite Em, cayley_factor by lra. unfold Rdiv. rewrite Rabs_mult, Rabs_inv, (Rabs_left1 (1 - z)), (Rabs_pos_eq (1 + z)) by lra.
      apply (Rmult_le_reg_r ((1 + l) * (1 + z))); [apply Rmult_lt_0_compat; lra|].
      replace ((l - 1) * / (1 + l) * ((1 + l) * (1 + z))) with ((l - 1) * (1 + z)) by (field; lra).
      replace (- (1 - z) * / (1 + z) * ((1 + l) * (1 + z))) with ((z - 1) * (1 + l)) by (field; lra). lra.
    + apply (Rle_trans _ 1).
      * apply (Rmult_le_reg_r (1 + l)); [lra|]. unfold Rdiv. rewrite Rmult_assoc, Rinv_l by lra. lra.
      * unfold cayley, Rdiv. rewrite Rabs_mult, Rabs_inv. assert (P : 0 < Rabs (mu - 1)) by (apply Rabs_pos_lt; lra).
        apply (Rmult_le_reg_r (Rabs (mu - 1))); [exact P|]. rewrite Rmult_assoc, Rinv_l by lra. rewrite (Rabs_pos_eq (mu + 1)) by lra.
        unfold Rabs in *. destruct (Rcase_abs (mu - 1)); lra.
  - repeat constructor.
Qed.
Lemma one_ba (t : tables RA) (D : @arr RA) a b X Y Z c m n (K KG : list (list R)) vals vecs : calc_K_KG_D t D a b X Y Z c m n = Ok (K, KG) -> (m * n = 3)%nat ->
  buckling_analysis (one_answer KG K vals vecs) t D a b X Y Z c m n 5 = Ok (map neg_recip vals, vecs).
Proof.
  intros E Mn. destruct (calc_square _ _ _ _ _ _ _ _ _ _ _ _ E) as [LK LG]. rewrite (ba_unfold _ _ _ _ _ _ _ _ _ _ _ _ _ _ E), LG, Mn. change (Z.min 5 (Z.of_nat 3 - 2)) with 1%Z.
  unfold one_answer. cbn [Z.leb Z.compare]. destruct (list_eq_dec (list_eq_dec Req_EM_T) KG KG); [|congruence]. destruct (list_eq_dec (list_eq_dec Req_EM_T) K K); [|congruence]. reflexivity.
Qed.
(** two solvers, the second asked when the first fails *)
Definition either (e1 e2 : solver) : solver := fun A M k => match e1 A M k with Err ArpackError => e2 A M k | r => r end.
Lemma either_documented e1 e2 : documented e1 -> documented e2 -> documented (either e1 e2).
Proof.
  intros D1 D2 A M k. unfold either. destruct (D1 A M k) as [A1 A2], (D2 A M k) as [B1 B2]. split.
  - intros Hk. rewrite (A1 Hk). reflexivity.
  - intros vals vecs Pn E. destruct (e1 A M k) as [[u w]|[]]; try discriminate; [apply A2; assumption|apply B2; assumption].
Qed.
Lemma either_left e1 e2 (t : tables RA) (D : @arr RA) a b X Y Z c m n num r : buckling_analysis e1 t D a b X Y Z c m n num = Ok r ->
  buckling_analysis (either e1 e2) t D a b X Y Z c m n num = Ok r.
Proof.
  unfold buckling_analysis, either. intros H. apply bind_inv in H. destruct H as (kk & -> & H). cbn [bind]. apply bind_inv in H. destruct H as (q & -> & H). exact H.
Qed.
Lemma one_or A0 M0 vals vecs A M k : (exists r, one_answer A0 M0 vals vecs A M k = Ok r) \/ one_answer A0 M0 vals vecs A M k = Err ValueError /\ (k <= 0)%Z \/ one_answer A0 M0 vals vecs A M k = Err ArpackError.
Proof.
  unfold one_answer. destruct (Z.leb_spec k 0); [auto|]. destruct (list_eq_dec _ A A0); [|auto]. destruct (list_eq_dec _ M M0); [|auto]. destruct (Z.eqb k 1); [left; eexists; reflexivity|auto].
Qed.
(** some documented solver answers for both thicknesses *)
Lemma both_answer : exists eigsh v v', documented eigsh /\
  Ncr_from_lp eigsh exact_tables 1 1 (1/6) 3 1 0 1 E0 E0 0 E0 (-1) 0 0 (CStr "CLAMPED") = Ok v /\
  Ncr_from_lp eigsh exact_tables 1 1 1 3 1 0 1 E0 E0 0 E0 (-1) 0 0 (CStr "CLAMPED") = Ok v'.
Proof.
  destruct t_C42_ex_solver as (e1 & out & vecs & D1 & B1).
  assert (D1s : documented (scaled 200 e1)) by (apply scaled_documented; [lra|exact D1]).
  assert (B1s : buckling_analysis (scaled 200 e1) exact_tables (as_arr (mscale (/ 200) mid)) 1 1 (-1) 0 0 (CStr "CLAMPED") 3 1 5 = Ok (out, vecs)).
  { rewrite iso_ba by lra. rewrite <- B1. change (-200) with (- (200)). rewrite !(ba_unfold _ _ _ _ _ _ _ _ _ _ _ _ _ _ (calc3 200)). unfold scaled.
    rewrite !scale_scale, Rinv_r, !scale_one by lra. reflexivity. }
  destruct (t_C42_unsafe_refuted _ _ _ _ D1 B1) as (_ & _ & _ & z0 & _ & _ & _ & Eo & _). subst out.
  assert (N1 := Ncr_fwd _ _ 1 1 _ 3 1 _ _ _ _ _ _ _ _ _ _ _ _ _ _ ltac:(lra) ltac:(lra) ltac:(lia) ltac:(lia) (iso_D0 0) B1s).
  destruct (thin_value _ _ _ D1s N1) as (z & l & _ & _ & Sl & _). assert (La := smallest_above l Sl).
  assert (Sm : smallest_factor (scale_rows (216 * / 200) K3) (G3 1) (216 * l)) by (rewrite <- scale_scale; apply smallest_scaleK; [lra|exact Sl]).
  assert (Pn : pencil (scale_rows (216 * / 200) K3) (G3 1)).
  { assert (Q := pencil_both (216 * / 200) K3 (G3 (/ (216 * / 200))) ltac:(lra) (pencil3 _)). rewrite <- G3_mult, Rinv_r in Q by lra. exact Q. }
  destruct (answer_above _ _ _ Pn eq_refl Sm ltac:(lra)) as (vals & vs & Er).
  set (e2 := one_answer (G3 1) (scale_rows (216 * / 200) K3) vals vs). assert (D2 : documented e2) by (apply one_documented; exact Er).
  exists (either e2 (scaled 200 e1)).
  assert (B2 := one_ba _ _ 1 1 (-1) 0 0 _ 3 1 _ _ vals vs (calc_iso1 (216 * / 200)) eq_refl). fold e2 in B2.
  assert (Cn := er_count _ _ _ _ _ Er). destruct vals as [|mu [|? ?]]; try discriminate Cn. cbn [map] in B2.
  assert (ED1 : D_lp (1/10) E0 E0 0 E0 1 0 1 = Ok (mscale (216 * / 200) mid)).
  { rewrite D_iso by (unfold E0; lra). apply (f_equal Ok), (f_equal (fun s => mscale s mid)). unfold E0. field. }
  assert (Th : exists v out' vecs', buckling_analysis (either e2 (scaled 200 e1)) exact_tables (as_arr (mscale (/ 200) mid)) 1 1 (-1) 0 0 (CStr "CLAMPED") 3 1 5 = Ok (v :: out', vecs')).
  { rewrite (ba_unfold _ _ _ _ _ _ _ _ _ _ _ _ _ _ (calc_iso1 (/ 200))) in B1s. rewrite (ba_unfold _ _ _ _ _ _ _ _ _ _ _ _ _ _ (calc_iso1 (/ 200))). unfold either.
    destruct (one_or (G3 1) (scale_rows (216 * / 200) K3) [mu] vs (G3 1) (scale_rows (/ 200) K3) (Z.min 5 (Z.of_nat (List.length (G3 1)) - 2))) as [(r & Hr)|[[_ Hk]|Hr]].
    - fold e2 in Hr. rewrite Hr. assert (r = ([mu], vs)). { unfold e2, one_answer in Hr. repeat (destruct (list_eq_dec _ _ _) in Hr; [|discriminate]) || destruct (_ <=? 0)%Z in Hr || destruct (_ =? 1)%Z in Hr; try discriminate; congruence. }
      subst r. do 3 eexists. reflexivity.
    - cbn in Hk. lia.
    - fold e2 in Hr. rewrite Hr. do 3 eexists. exact B1s. }
  destruct Th as (v & out' & vecs' & Th).
  exists v, (neg_recip mu). split; [apply either_documented; assumption|]. split.
  - apply (Ncr_fwd _ _ 1 1 _ 3 1 _ _ _ _ _ _ _ _ _ _ _ _ _ _ ltac:(lra) ltac:(lra) ltac:(lia) ltac:(lia) (iso_D0 0) Th).
  - apply (Ncr_fwd _ _ 1 1 _ 3 1 _ _ _ _ _ _ _ _ _ _ _ _ _ _ ltac:(lra) ltac:(lra) ltac:(lia) ltac:(lia) ED1 (either_left _ _ _ _ _ _ _ _ _ _ _ _ _ _ B2)).
Qed.
(*@ C50, C51 example: a documented solver that answers at both thicknesses of the plate used in the two refutations. @*)
Example t_C50_ex : exists eigsh v v', documented eigsh /\
  Ncr_from_lp eigsh exact_tables 1 1 (1/6) 3 1 0 1 (324/25) (324/25) 0 (324/25) (-1) 0 0 (CStr "CLAMPED") = Ok v /\
  Ncr_from_lp eigsh exact_tables 1 1 1 3 1 0 1 (324/25) (324/25) 0 (324/25) (-1) 0 0 (CStr "CLAMPED") = Ok v'.
Proof. exact both_answer. Qed.
(*@ C51 example: a feasible point of a weight problem whose plate carries the load, with a documented solver. @*)
Example t_C51_ex : exists eigsh w p T xi1 xi3, documented eigsh /\
  minimize_panel_weight eigsh exact_tables 1 1 (324/25) (324/25) 0 (324/25) (-100) 0 0 3 1 [1; 0; 0] (CStr "CLAMPED") = (w, Ok p) /\ feasible p [T; xi1; xi3].
Proof.
  destruct both_answer as (eigsh & v & v' & Dc & H & H'). destruct (thin_value _ _ _ Dc H) as (z & l & _ & _ & Sl & _). assert (La := smallest_above l Sl).
  rewrite (thick_value _ _ _ l Dc Sl ltac:(lra) H') in H'.
  assert (En : normalize_critical_load (-100) 0 0 = Ok (-1, 0, 0, 100)).
  { destruct (normalize_critical_load (-100) 0 0) as [[[[x y] w] M]|e] eqn:En.
    - assert (Q := t_C47_normalised _ _ _ _ _ _ _ En). decompose [and] Q. clear Q.
      assert (M = 100) by (rewrite Rabs_R0, (Rabs_left1 (-100)) in * by lra; lra).
      apply (f_equal Ok). subst M. repeat (apply f_equal2); lra.
    - apply t_C47_error in En. lra. }
  exists eigsh. unfold minimize_panel_weight. rewrite En. cbn [bind]. eexists. eexists. exists 1, 0, 1. split; [exact Dc|]. split; [reflexivity|].
  split; cbn [bnds cons].
  - repeat constructor; cbn; lra.
  - repeat constructor; cbn [fst snd].
    + exists (216 * l). change (324/25) with E0. rewrite H'. split; [reflexivity|]. split; [lra|exact I].
    + eexists; split; [reflexivity|]; cbn [fst snd]; lra.
    + eexists; split; [reflexivity|]; cbn [fst snd]; lra.
Qed.

(* ------------------------------------------------------------------ C64 *)
Lemma sqrt_prod {X} (l : list X) : Nat.sqrt (List.length (list_prod l l)) = List.length l.
Proof. rewrite prod_length. apply Nat.sqrt_square. Qed.
Lemma linspace_length p : List.length (linspace p) = p.
Proof. unfold linspace. rewrite map_length. apply seq_length. Qed.
Lemma linspace_nth p i : (2 <= p)%nat -> (i < p)%nat -> nth_error (linspace p) i = Some (-1 + 2 * INR i / INR (p - 1)).
Proof.
  intros Hp Hi. unfold linspace. rewrite nth_error_map. assert (E : nth_error (seq 0 p) i = Some i).
  { rewrite (nth_error_nth' _ 0%nat) by (rewrite seq_length; exact Hi). rewrite seq_nth by exact Hi. reflexivity. }
  rewrite E. cbn [option_map]. destruct p as [|[|p]]; try lia. apply (f_equal Some). field. apply not_0_INR. lia.
Qed.
Section Plot.
Variables (eigsh : solver) (t : tables RA) (a b T : R) (m n : nat) (E1 E2 v12 G12 Nxx Nyy Nxy : R) (c : constraints) (p : nat) (penalty : bool).
Let value x y := Ncr_from_lp eigsh t a b T m n x y E1 E2 v12 G12 Nxx Nyy Nxy c.
Let f (q : R * R) : res (R * R * option ext) := if constraint_mask (fst q) (snd q) penalty then v <- value (fst q) (snd q) ;; Ok (q, Some v) else Ok (q, None).
Let g (q : R * R) : R * R * option ext := match f q with Ok r => r | Err _ => (q, None) end.
Lemma plot_ok : (forall q, In q (list_prod (linspace p) (linspace p)) -> exists r, f q = Ok r) ->
  plot_optimization eigsh t a b T m n E1 E2 v12 G12 Nxx Nyy Nxy c p penalty =
  Ok (map (fun x => map (fun y => x) (linspace p)) (linspace p), map (fun x => map (fun y => y) (linspace p)) (linspace p),
      map (fun x => map (fun y => snd (g (x, y))) (linspace p)) (linspace p)).
Proof.
  intros H. unfold plot_optimization. change (mapM _ (list_prod (linspace p) (linspace p))) with (mapM f (list_prod (linspace p) (linspace p))).
  rewrite (mapM_ok f g) by (intros q Hq; destruct (H q Hq) as (r & E); unfold g; rewrite E; reflexivity). cbn [bind].
  rewrite map_length, sqrt_prod, !map_map.
  assert (G1 : forall q, fst (g q) = q).
  { intros q. unfold g, f. destruct (constraint_mask _ _ _); [|reflexivity]. destruct (value (fst q) (snd q)); reflexivity. }
  rewrite (reshape_prod (fun q => snd (g q))). cbn [bind].
  rewrite (map_ext (fun x => fst (fst (g x))) fst) by (intros; rewrite G1; reflexivity). rewrite (map_ext (fun x => snd (fst (g x))) snd) by (intros; rewrite G1; reflexivity).
  rewrite (reshape_prod fst), (reshape_prod snd). reflexivity.
Qed.
Lemma plot_err e : plot_optimization eigsh t a b T m n E1 E2 v12 G12 Nxx Nyy Nxy c p penalty = Err e ->
  exists x y, In x (linspace p) /\ In y (linspace p) /\ constraint_mask x y penalty = true /\ value x y = Err e.
Proof.
  intros H. unfold plot_optimization in H. change (mapM _ (list_prod (linspace p) (linspace p))) with (mapM f (list_prod (linspace p) (linspace p))) in H.
  assert (Q : forall l e', mapM f l = Err e' -> exists q, In q l /\ f q = Err e').
  { clear. induction l as [|q l IH]; intros e' E; [discriminate|]. cbn [mapM] in E. destruct (f q) as [r|e0] eqn:Eq.
    - cbn [bind] in E. destruct (mapM f l) as [rs|e1]; [discriminate|]. cbn [bind] in E. destruct (IH e1 eq_refl) as (q' & I & F). exists q'. split; [right; exact I|]. congruence.
    - cbn [bind] in E. exists q. split; [left; reflexivity|]. congruence. }
  destruct (mapM f (list_prod (linspace p) (linspace p))) as [rs|e0] eqn:Em.
  - exfalso. assert (Al : forall q, In q (list_prod (linspace p) (linspace p)) -> exists r, f q = Ok r).
    { intros q Iq. apply mapM_inv in Em. clear -Em Iq. induction Em as [|x r l rs E Em IH]; [destruct Iq|]. destruct Iq as [->|I]; [exists r; exact E|apply IH, I]. }
    assert (W := plot_ok Al). unfold plot_optimization in W. change (mapM _ (list_prod (linspace p) (linspace p))) with (mapM f (list_prod (linspace p) (linspace p))) in W. rewrite Em in W. rewrite W in H. discriminate.
  - cbn [bind] in H. assert (e0 = e) by congruence. subst e0. destruct (Q _ _ Em) as ([x y] & I & F). apply in_prod_iff in I. exists x, y. split; [apply I|]. split; [apply I|].
    unfold f in F. cbn [fst snd] in F. destruct (constraint_mask x y penalty); [|discriminate]. split; [reflexivity|]. destruct (value x y); [discriminate|]. cbn [bind] in F. congruence.
Qed.
End Plot.
(*@ C64: the contour plot of the maximisation: p x p arrays over the points -1 + 2 i/(p-1); a value is drawn exactly at the points
    inside the triangle or parabola, and it is the first factor there; elsewhere nan. @*)
Lemma t_C64_plot : forall eigsh t a b T m n E1 E2 v12 G12 Nxx Nyy Nxy c p penalty X1 X3 Nx, (2 <= p)%nat ->
  plot_optimization eigsh t a b T m n E1 E2 v12 G12 Nxx Nyy Nxy c p penalty = Ok (X1, X3, Nx) ->
  square p X1 /\ square p X3 /\ square p Nx /\
  forall i j, (i < p)%nat -> (j < p)%nat -> let x := -1 + 2 * INR i / INR (p - 1) in let y := -1 + 2 * INR j / INR (p - 1) in
    entry X1 i j = Some x /\ entry X3 i j = Some y /\
    ((if penalty then 2 * Rabs x - 1 <= y else 2 * x ^ 2 - 1 <= y) ->
       exists v, Ncr_from_lp eigsh t a b T m n x y E1 E2 v12 G12 Nxx Nyy Nxy c = Ok v /\ entry Nx i j = Some (Some v)) /\
    (~ (if penalty then 2 * Rabs x - 1 <= y else 2 * x ^ 2 - 1 <= y) -> entry Nx i j = Some None).
Proof.
  intros eigsh t a b T m n E1 E2 v12 G12 Nxx Nyy Nxy c p penalty X1 X3 Nx Hp H.
  set (value x y := Ncr_from_lp eigsh t a b T m n x y E1 E2 v12 G12 Nxx Nyy Nxy c).
  set (f := fun q : R * R => if constraint_mask (fst q) (snd q) penalty then v <- value (fst q) (snd q) ;; Ok (q, Some v) else Ok (q, None)).
  assert (Al : forall q, In q (list_prod (linspace p) (linspace p)) -> exists r, f q = Ok r).
  { intros q Iq. unfold plot_optimization in H. change (mapM _ (list_prod (linspace p) (linspace p))) with (mapM f (list_prod (linspace p) (linspace p))) in H.
    apply bind_inv in H. destruct H as (rs & Em & _). apply mapM_inv in Em. clear -Em Iq. induction Em as [|x r l rs E Em IH]; [destruct Iq|]. destruct Iq as [->|I]; [exists r; exact E|apply IH, I]. }
  rewrite (plot_ok eigsh t a b T m n E1 E2 v12 G12 Nxx Nyy Nxy c p penalty Al) in H. fold value f in H. set (g := fun q => match f q with Ok r => r | Err _ => (q, None) end).
  change (Ok (map (fun x => map (fun _ => x) (linspace p)) (linspace p), map (fun _ => map (fun y => y) (linspace p)) (linspace p), map (fun x => map (fun y => snd (g (x, y))) (linspace p)) (linspace p)) = Ok (X1, X3, Nx)) in H.
  assert (Q := f_equal (fun r => match r with Ok p => p | Err _ => ([], [], []) end) H). cbn beta iota in Q.
  assert (Q1 := f_equal (fun r => fst (fst r)) Q). assert (Q2 := f_equal (fun r => snd (fst r)) Q). assert (Q3 := f_equal snd Q). cbn [fst snd] in Q1, Q2, Q3. clear Q H.
  assert (Sq : forall Y (h : R -> R -> Y), square p (map (fun x => map (h x) (linspace p)) (linspace p))).
  { intros Y h. split; [rewrite map_length; apply linspace_length|]. apply Forall_map, Forall_forall. intros x _. rewrite map_length. apply linspace_length. }
  split; [rewrite <- Q1; apply (Sq _ (fun x _ => x))|]. split; [rewrite <- Q2; apply (Sq _ (fun _ y => y))|]. split; [rewrite <- Q3; apply (Sq _ (fun x y => snd (g (x, y))))|].
  intros i j Hi Hj x y.
  assert (Et : forall Y (h : R -> R -> Y), entry (map (fun x => map (h x) (linspace p)) (linspace p)) i j = Some (h x y)).
  { intros Y h. unfold entry. rewrite nth_error_map, (linspace_nth p i Hp Hi). cbn [option_map]. rewrite nth_error_map, (linspace_nth p j Hp Hj). reflexivity. }
  assert (Mk : constraint_mask x y penalty = true <-> if penalty then 2 * Rabs x - 1 <= y else 2 * x ^ 2 - 1 <= y).
  { destruct (t_C48_triangle x y) as (_ & _ & _ & _ & _ & _ & _ & _ & M1 & M2). destruct penalty; assumption. }
  split; [rewrite <- Q1; apply (Et _ (fun x _ => x))|]. split; [rewrite <- Q2; apply (Et _ (fun _ y => y))|].
  assert (Ev : entry Nx i j = Some (snd (g (x, y)))) by (rewrite <- Q3; apply (Et _ (fun x y => snd (g (x, y))))).
  assert (If : In (x, y) (list_prod (linspace p) (linspace p))).
  { apply in_prod; [apply (nth_error_In _ i), linspace_nth; assumption|apply (nth_error_In _ j), linspace_nth; assumption]. }
  destruct (Al _ If) as (r & Er). split.
  - intros HM. apply Mk in HM. unfold f in Er. cbn [fst snd] in Er. rewrite HM in Er. destruct (value x y) as [v|e] eqn:Evl; [|discriminate]. exists v. split; [exact Evl|].
    rewrite Ev. unfold g, f. cbn [fst snd]. rewrite HM, Evl. reflexivity.
  - intros HM. rewrite Ev. unfold g, f. cbn [fst snd]. destruct (constraint_mask x y penalty); [|reflexivity]. exfalso. apply HM, Mk. reflexivity.
Qed.
(*@ C64: an exception of any drawn point, including one of the solver, ends the plot; there is no other way for it to fail. @*)
Lemma t_C64_errors : forall eigsh t a b T m n E1 E2 v12 G12 Nxx Nyy Nxy c p penalty e, (2 <= p)%nat ->
  (plot_optimization eigsh t a b T m n E1 E2 v12 G12 Nxx Nyy Nxy c p penalty = Err e -> exists i j, (i < p)%nat /\ (j < p)%nat /\
     let x := -1 + 2 * INR i / INR (p - 1) in let y := -1 + 2 * INR j / INR (p - 1) in
     constraint_mask x y penalty = true /\ Ncr_from_lp eigsh t a b T m n x y E1 E2 v12 G12 Nxx Nyy Nxy c = Err e) /\
  (forall i j, (i < p)%nat -> (j < p)%nat -> let x := -1 + 2 * INR i / INR (p - 1) in let y := -1 + 2 * INR j / INR (p - 1) in
     constraint_mask x y penalty = true -> Ncr_from_lp eigsh t a b T m n x y E1 E2 v12 G12 Nxx Nyy Nxy c = Err e ->
     exists e', plot_optimization eigsh t a b T m n E1 E2 v12 G12 Nxx Nyy Nxy c p penalty = Err e').
Proof.
  intros eigsh t a b T m n E1 E2 v12 G12 Nxx Nyy Nxy c p penalty e Hp. split.
  - intros H. destruct (plot_err _ _ _ _ _ _ _ _ _ _ _ _ _ _ _ _ _ _ H) as (x & y & Ix & Iy & Mk & V).
    apply In_nth_error in Ix, Iy. destruct Ix as (i & Ei), Iy as (j & Ej).
    assert (Hi : (i < p)%nat) by (rewrite <- (linspace_length p); apply nth_error_Some; congruence).
    assert (Hj : (j < p)%nat) by (rewrite <- (linspace_length p); apply nth_error_Some; congruence).
    rewrite (linspace_nth p i Hp Hi) in Ei. rewrite (linspace_nth p j Hp Hj) in Ej. injection Ei as Ei. injection Ej as Ej.
    exists i, j. split; [exact Hi|]. split; [exact Hj|]. cbv zeta. rewrite Ei, Ej. split; assumption.
  - intros i j Hi Hj x y Mk V. destruct (plot_optimization _ _ _ _ _ _ _ _ _ _ _ _ _ _ _ _ _) as [[[X1 X3] Nx]|e'] eqn:P; [|exists e'; reflexivity]. exfalso.
    destruct (t_C64_plot _ _ _ _ _ _ _ _ _ _ _ _ _ _ _ _ _ _ _ _ Hp P) as (_ & _ & _ & Q). destruct (Q i j Hi Hj) as (_ & _ & In' & _). fold x y in In'.
    destruct In' as (v & Ev & _); [|congruence]. destruct (t_C48_triangle x y) as (_ & _ & _ & _ & _ & _ & _ & _ & M1 & M2). destruct penalty; [apply M1|apply M2]; exact Mk.
Qed.
(*@ C64: the plot uses the loads as given, the optimisation the normalised ones: with M the largest load, a smallest factor l under the
    normalised loads is l/M under the given ones, so where both analyses find their smallest factor (l >= 1 and l >= M) the
    contour shows l/M while the optimisation minimises -l; the plate carries the loads exactly when the contour is at least 1. @*)
Lemma t_C64_loads : forall eigsh a b T E1 E2 v12 G12 Nxx Nyy Nxy Nx Ny Nz M c c0 ca d0 db m n xi1 xi3 v v' D (K KG : list (list R)) l, documented eigsh -> 0 < a -> 0 < b -> 0 < T ->
  elastic E1 E2 v12 G12 -> constraint_mask xi1 xi3 false = true -> xi3 <= 1 ->
  specifies c c0 ca d0 db -> restrained c0 ca d0 db -> (m + taken c0 + taken ca <= 30)%nat -> (n + taken d0 + taken db <= 30)%nat ->
  normalize_critical_load Nxx Nyy Nxy = Ok (Nx, Ny, Nz, M) ->
  D_lp 1 E1 E2 v12 G12 T xi1 xi3 = Ok D -> calc_K_KG_D exact_tables (as_arr D) a b Nx Ny Nz c m n = Ok (K, KG) -> smallest_factor K KG l -> 1 <= l -> M <= l ->
  Ncr_from_lp eigsh exact_tables a b T m n xi1 xi3 E1 E2 v12 G12 Nx Ny Nz c = Ok v ->
  Ncr_from_lp eigsh exact_tables a b T m n xi1 xi3 E1 E2 v12 G12 Nxx Nyy Nxy c = Ok v' ->
  v = Fin l /\ v' = Fin (l / M).
Proof.
  intros eigsh a b T E1 E2 v12 G12 Nxx Nyy Nxy Nx Ny Nz M c c0 ca d0 db m n xi1 xi3 v v' D K KG l Dc Ha Hb HT El Mk Hx Sp Rs Bm Bn En ED EK Sl L1 LM H H'.
  assert (Q := t_C47_normalised _ _ _ _ _ _ _ En). destruct Q as (HM & _ & _ & _ & _ & _ & N1 & N2 & N3).
  destruct (t_C51_value _ _ _ _ _ _ _ _ _ _ _ _ _ _ _ _ _ _ _ _ _ Dc Ha Hb HT El Mk Hx Sp Rs Bm Bn H) as (D' & K' & KG' & ED' & EK' & _ & _ & V).
  destruct (t_C51_value _ _ _ _ _ _ _ _ _ _ _ _ _ _ _ _ _ _ _ _ _ Dc Ha Hb HT El Mk Hx Sp Rs Bm Bn H') as (D2 & K2 & KG2 & ED2 & EK2 & _ & _ & V2).
  assert (Inj : forall D0, D_lp 1 E1 E2 v12 G12 T xi1 xi3 = Ok D0 -> D0 = D).
  { intros D0 E. rewrite ED in E. apply (f_equal (fun r => match r with Ok d => d | Err _ => D0 end)) in E. symmetry. exact E. }
  apply Inj in ED', ED2. subst D' D2.
  assert (Pr : forall (X Y X' Y' : list (list R)), @Ok (list (list R) * list (list R)) (X, Y) = Ok (X', Y') -> X = X' /\ Y = Y').
  { intros X Y X' Y' E. assert (Q := f_equal (fun r => match r with Ok p => p | Err _ => ([], []) end) E). cbn beta iota in Q.
    split; [exact (f_equal fst Q)|exact (f_equal snd Q)]. }
  assert (EKs := scale_calc exact_tables (as_arr D) a b Nx Ny Nz c m n K KG M (or_intror eq_refl) (Rgt_not_eq _ _ Ha) (Rgt_not_eq _ _ Hb) EK). rewrite N1, N2, N3 in EKs.
  rewrite EK in EK'. apply Pr in EK'. destruct EK' as [<- <-]. rewrite EKs in EK2. apply Pr in EK2. destruct EK2 as [<- <-]. split.
  - destruct (V l Sl) as [|[L _]]; [assumption|lra].
  - assert (L2 : 1 <= l / M). { apply (Rmult_le_reg_r M); [exact HM|]. replace (l / M * M) with l by (field; lra). lra. }
    destruct (V2 (l / M) (smallest_scale M K KG l HM Sl)) as [|[L _]]; [assumption|lra].
Qed.
(*@ C64 example: a plot that is drawn, with two values and two gaps. @*)
Example t_C64_ex : exists eigsh r, documented eigsh /\
  plot_optimization eigsh exact_tables 1 1 1 3 1 (324/25) (324/25) 0 (324/25) (-1) 0 0 (CStr "CLAMPED") 2 true = Ok r.
Proof.
  destruct both_answer as (eigsh & v & v' & Dc & _ & H'). exists eigsh.
  assert (Vx : forall x, Ncr_from_lp eigsh exact_tables 1 1 1 3 1 x 1 E0 E0 0 E0 (-1) 0 0 (CStr "CLAMPED") = Ok v').
  { intros x. destruct (Ncr_unfold _ _ _ _ _ _ _ _ _ _ _ _ _ _ _ _ _ _ H') as (D & out & vecs & ED & EB).
    rewrite D_iso in ED by (unfold E0; lra). apply (f_equal (fun r => match r with Ok d => d | Err _ => D end)) in ED. subst D.
    apply (Ncr_fwd _ _ 1 1 _ 3 1 _ _ _ _ _ _ _ _ _ _ _ _ _ _ ltac:(lra) ltac:(lra) ltac:(lia) ltac:(lia) (D_iso (1/10) E0 1 x ltac:(unfold E0; lra) ltac:(lra)) EB). }
  destruct (plot_optimization eigsh exact_tables 1 1 1 3 1 (324/25) (324/25) 0 (324/25) (-1) 0 0 (CStr "CLAMPED") 2 true) as [r|e] eqn:P; [exists r; split; [exact Dc|reflexivity]|exfalso].
  destruct (proj1 (t_C64_errors _ _ _ _ _ _ _ _ _ _ _ _ _ _ _ 2%nat true e ltac:(lia)) P) as (i & j & Hi & Hj & Mk & V).
  set (x := -1 + 2 * INR i / INR (2 - 1)) in *. set (y := -1 + 2 * INR j / INR (2 - 1)) in *.
  assert (Y : y = -1 \/ y = 1) by (unfold y; destruct j as [|[|j]]; [left|right|lia]; cbn; lra).
  assert (X : x = -1 \/ x = 1) by (unfold x; destruct i as [|[|i]]; [left|right|lia]; cbn; lra).
  destruct Y as [Y|Y]; rewrite Y in *.
  - destruct (t_C48_triangle x (-1)) as (_ & _ & _ & _ & _ & _ & _ & _ & M1 & _). apply M1 in Mk. destruct X as [X|X]; rewrite X in Mk; unfold Rabs in Mk; destruct (Rcase_abs _) in Mk; lra.
  - change (324/25) with E0 in V. rewrite Vx in V. discriminate.
Qed.
(*@ C50: the value used by the optimisations scales with the cube of T as long as the smallest factor is at least 1 at both thicknesses. @*)
Lemma t_C50_value : forall eigsh a b T s E1 E2 v12 G12 Nxx Nyy Nxy c c0 ca d0 db m n xi1 xi3 v v' D (K KG : list (list R)) l, documented eigsh -> 0 < a -> 0 < b -> 0 < T -> 0 < s ->
  elastic E1 E2 v12 G12 -> constraint_mask xi1 xi3 false = true -> xi3 <= 1 ->
  specifies c c0 ca d0 db -> restrained c0 ca d0 db -> (m + taken c0 + taken ca <= 30)%nat -> (n + taken d0 + taken db <= 30)%nat ->
  D_lp 1 E1 E2 v12 G12 T xi1 xi3 = Ok D -> calc_K_KG_D exact_tables (as_arr D) a b Nxx Nyy Nxy c m n = Ok (K, KG) -> smallest_factor K KG l -> 1 <= l -> 1 <= s ^ 3 * l ->
  Ncr_from_lp eigsh exact_tables a b T m n xi1 xi3 E1 E2 v12 G12 Nxx Nyy Nxy c = Ok v ->
  Ncr_from_lp eigsh exact_tables a b (s * T) m n xi1 xi3 E1 E2 v12 G12 Nxx Nyy Nxy c = Ok v' ->
  v = Fin l /\ v' = Fin (s ^ 3 * l).
Proof.
  intros eigsh a b T s E1 E2 v12 G12 Nxx Nyy Nxy c c0 ca d0 db m n xi1 xi3 v v' D K KG l Dc Ha Hb HT Hs El Mk Hx Sp Rs Bm Bn ED EK Sl L1 L2 H H'.
  destruct (t_C51_value _ _ _ _ _ _ _ _ _ _ _ _ _ _ _ _ _ _ _ _ _ Dc Ha Hb HT El Mk Hx Sp Rs Bm Bn H) as (D' & K' & KG' & ED' & EK' & _ & _ & V).
  destruct (t_C51_value _ _ _ _ _ _ _ _ _ _ _ _ _ _ _ _ _ _ _ _ _ Dc Ha Hb (Rmult_lt_0_compat _ _ Hs HT) El Mk Hx Sp Rs Bm Bn H') as (D2 & K2 & KG2 & ED2 & EK2 & _ & _ & V2).
  rewrite ED in ED'. apply (f_equal (fun r => match r with Ok d => d | Err _ => D' end)) in ED'. subst D'.
  assert (Pr : forall (X Y X' Y' : list (list R)), @Ok (list (list R) * list (list R)) (X, Y) = Ok (X', Y') -> X = X' /\ Y = Y').
  { intros X Y X' Y' E. assert (Q := f_equal (fun r => match r with Ok p => p | Err _ => ([], []) end) E). cbn beta iota in Q.
    split; [exact (f_equal fst Q)|exact (f_equal snd Q)]. }
  rewrite EK in EK'. apply Pr in EK'. destruct EK' as [<- <-].
  destruct (t_C50_factors exact_tables 1 E1 E2 v12 G12 T s xi1 xi3 D D2 a b Nxx Nyy Nxy c m n K KG l (or_intror eq_refl) (Rgt_not_eq _ _ Ha) (Rgt_not_eq _ _ Hb) Hs ED ED2 EK) as (K3' & EK3 & _ & Sm).
  rewrite EK2 in EK3. apply Pr in EK3. destruct EK3 as [-> ->]. split.
  - destruct (V l Sl) as [|[L _]]; [assumption|lra].
  - apply Sm in Sl. destruct (V2 _ Sl) as [|[L _]]; [assumption|lra].
Qed.
