(** Proofs of the material stiffness properties C03, C04, C05 (exact arithmetic). *)
From Coq Require Import Reals List Lra Psatz Lia Permutation String.
From Verif Require Import M_Py S_Mat M_Material M_Laminate S_Laminate S_Material L_Mat L_Lam L_LamAlg L_LamSums L_LamEnergy T_Laminate.
Import ListNotations.
Open Scope R_scope.

(*@ C03: Q_0 is symmetric and is the two-sided inverse of the plane-stress compliance matrix; reciprocity holds. @*)
Lemma t_C03_inverse_of_compliance : forall m q, o_e1 m <> 0 -> o_e2 m <> 0 -> o_g12 m <> 0 -> Q_0 (Ortho m) = Ok q ->
  symmetric q /\ mmul q (compliance m) = mid /\ mmul (compliance m) q = mid /\ o_v21 m / o_e2 m = o_v12 m / o_e1 m.
Proof.
  intros m q H1 H2 H3 Hq; split; [|split; [|split]].
  - destruct (Q0_shape _ _ Hq) as (a&b&c&d&->); reflexivity.
  - apply (Q0_compliance m q H1 H2 H3 Hq).
  - apply (Q0_compliance m q H1 H2 H3 Hq).
  - unfold o_v21; field; auto.
Qed.
(*@ C03: reading Q_0 of a constructed orthotropic material raises exactly when v12^2 e2 = e1. @*)
Lemma t_C03_readable_iff : forall m, o_e1 m <> 0 ->
  (o_v12 m ^ 2 * o_e2 m = o_e1 m -> Q_0 (Ortho m) = Err ZeroDivisionError) /\
  (o_v12 m ^ 2 * o_e2 m <> o_e1 m -> exists q, Q_0 (Ortho m) = Ok q).
Proof.
  intros m H; simpl; rewrite o_Q0_spec; destruct (Req_EM_T (o_den m) 0) as [E|N]; split; intros X; eauto.
  - apply o_den_0 in E; [contradiction|assumption].
  - exfalso; apply N, o_den_0; assumption.
Qed.
(*@ C03: the isotropic Q_0 is the orthotropic one with equal moduli. @*)
Lemma t_C03_isotropic : forall e v g h t c s, e <> 0 ->
  Q_0 (Iso (IMat e v g h t c s)) = Q_0 (Ortho (OMat e e v g h t c t c s)).
Proof.
  intros e v g h t c s He; simpl; unfold i_Q0, o_Q0, o_v21; simpl.
  replace (v * (e / e)) with v by (field; assumption); reflexivity.
Qed.
(*@ C03, concrete instance. @*)
Example t_C03_ex : exists q, Q_0 (Ortho (OMat 4 2 (1/4) 1 1 0 0 0 0 0)) = Ok q.
Proof. apply (t_C03_readable_iff (OMat 4 2 (1/4) 1 1 0 0 0 0 0)); simpl; lra. Qed.

(*@ C04: exactly which materials have a positive definite Q_0. The hypotheses are what the constructor guarantees
    (non-negative moduli, e1 not zero). @*)
Lemma t_C04_pos_def_iff : forall m, 0 < o_e1 m -> 0 <= o_e2 m -> 0 <= o_g12 m -> -1/2 <= o_v12 m <= 1/2 ->
  ((exists q, Q_0 (Ortho m) = Ok q /\ pos_def q) <->
   0 < o_e2 m /\ 0 < o_g12 m /\ o_v12 m ^ 2 * o_e2 m < o_e1 m).
Proof.
  intros m H1 H2 H3 Hv; simpl; rewrite o_Q0_spec; unfold o_Qval.
  assert (D : o_den m = (o_e1 m - o_v12 m ^ 2 * o_e2 m) / o_e1 m) by (apply o_den_eq; lra).
  split.
  - intros [q [E P]]; destruct (Req_EM_T (o_den m) 0) as [Z|N]; [discriminate|]; apply Ok_inj in E; subst q.
    apply pd_block in P; destruct P as (P1 & P2 & P3 & P4).
    assert (Hd : 0 < o_den m).
    { destruct (Rlt_le_dec 0 (o_den m)) as [L|L]; [exact L|exfalso].
      assert (o_den m < 0) by lra. assert (/ o_den m < 0) by (apply Rinv_lt_0_compat; assumption).
      unfold Rdiv in P1; nra. }
    assert (0 < o_e2 m).
    { destruct H2 as [H2|H2]; [exact H2|exfalso]; rewrite <- H2 in P2; unfold Rdiv in P2; lra. }
    repeat split; auto.
    rewrite D in Hd; apply Rmult_lt_compat_r with (r := o_e1 m) in Hd; [|assumption].
    unfold Rdiv in Hd; rewrite Rmult_assoc, Rinv_l in Hd by lra; lra.
  - intros (E2 & G & L).
    assert (Hd : 0 < o_den m) by (rewrite D; apply Rdiv_lt_0_compat; lra).
    destruct (Req_EM_T (o_den m) 0) as [Z|N]; [lra|]; eexists; split; [reflexivity|].
    apply pd_block; repeat split; auto; try (apply Rdiv_lt_0_compat; assumption).
    replace ((o_v12 m * o_e2 m / o_den m)^2) with ((o_v12 m^2 * o_e2 m) * (o_e2 m / o_den m ^2)) by (field; lra).
    replace (o_e1 m / o_den m * (o_e2 m / o_den m)) with (o_e1 m * (o_e2 m / o_den m ^2)) by (field; lra).
    apply Rmult_lt_compat_r; [|assumption]; apply Rdiv_lt_0_compat; [assumption|apply pow_lt; assumption].
Qed.
(*@ C04: the constructor's ranges do not imply it: e1 = 1, e2 = 8, v12 = 1/2, g12 = 1 has an indefinite Q_0,
    e1 = 1, e2 = 4, v12 = 1/2 has none at all. @*)
Lemma t_C04_not_enforced_refuted :
  (exists q v, Q_0 (Ortho (OMat 1 8 (1/2) 1 1 0 0 0 0 0)) = Ok q /\ quad q v < 0) /\
  Q_0 (Ortho (OMat 1 4 (1/2) 1 1 0 0 0 0 0)) = Err ZeroDivisionError.
Proof.
  split.
  - exists (o_Qval (OMat 1 8 (1/2) 1 1 0 0 0 0 0)), (V3 1 0 0); simpl; rewrite o_Q0_spec.
    assert (D : o_den (OMat 1 8 (1/2) 1 1 0 0 0 0 0) = -1) by (unfold o_den, o_v21; simpl; lra).
    destruct (Req_EM_T _ 0) as [Z|N]; [lra|]; split; [reflexivity|].
    unfold o_Qval; rewrite D; unmat; simpl; lra.
  - apply t_C03_readable_iff; simpl; lra.
Qed.
(*@ C04, concrete instance: both sides hold for e1 = 4, e2 = 2, v12 = 1/4, g12 = 1. @*)
Example t_C04_ex : exists q, Q_0 (Ortho (OMat 4 2 (1/4) 1 1 0 0 0 0 0)) = Ok q /\ pos_def q.
Proof. apply t_C04_pos_def_iff; simpl; lra. Qed.

Lemma iso_Q0 e v g h t c s : -1 < v < 1 ->
  Q_0 (Iso (IMat e v g h t c s)) = Ok (M3 (e/(1-v*v)) (v*e/(1-v*v)) 0 (v*e/(1-v*v)) (e/(1-v*v)) 0 0 0 g).
Proof.
  intros Hv; simpl; unfold i_Q0, pydiv; simpl; destruct (Req_EM_T (1 - v*v) 0) as [Z|N]; [nra|reflexivity].
Qed.
Lemma sin45 : 0 < sdeg 45 /\ 0 < cdeg 45.
Proof.
  unfold sdeg, cdeg; replace (45*PI/180) with (PI/4) by field; pose proof PI_RGT_0; split.
  - apply sin_gt_0; lra.
  - apply cos_gt_0; lra.
Qed.
Lemma iso_turn e v g h t c s th : -1 < v < 1 -> g = e / (2*(1+v)) ->
  Qbar th (Iso (IMat e v g h t c s)) = Q0p (Iso (IMat e v g h t c s)).
Proof.
  intros Hv Hg; set (m := Iso _).
  assert (Hq : Q_0 m = Ok (M3 (e/(1-v*v)) (v*e/(1-v*v)) 0 (v*e/(1-v*v)) (e/(1-v*v)) 0 0 0 g)) by apply iso_Q0, Hv.
  assert (Hr : readable m) by (eexists; exact Hq).
  rewrite Qbar_textbook_ok by assumption; unfold Q0p; rewrite Hq; pose proof (cs1 th) as H1.
  set (cc := cdeg th) in *; set (ss := sdeg th) in *; clearbody cc ss.
  assert (Hs : ss^2 = 1 - cc^2) by lra; destruct (poly_mod_c cc ss Hs) as [H4 H3].
  unfold Qbar_textbook; cbn [a11 a12 a13 a21 a22 a23 a31 a32 a33]; subst g.
  apply mat3_ext; cbn [a11 a12 a13 a21 a22 a23 a31 a32 a33]; rewrite ?H4, ?H3, ?Hs; field; nra.
Qed.
(*@ C05: an isotropic ply has a direction-independent stiffness exactly when g = e/(2(1+v)). @*)
Lemma t_C05_iff : forall e v g h t c s, 0 < e -> -1 < v < 1 ->
  let m := Iso (IMat e v g h t c s) in
  (forall th, Q_entry [(th, m)] 0 = Q_0 m) <-> g = e / (2 * (1 + v)).
Proof.
  intros e v g h t c s He Hv m.
  assert (Hq : Q_0 m = Ok (M3 (e/(1-v*v)) (v*e/(1-v*v)) 0 (v*e/(1-v*v)) (e/(1-v*v)) 0 0 0 g)) by apply iso_Q0, Hv.
  assert (Hr : readable m) by (eexists; exact Hq).
  assert (E : forall th, Q_entry [(th, m)] 0 = Ok (Qbar th m)) by (intros th; apply Q_entry_eq; [reflexivity|repeat constructor; exact Hr]).
  split.
  - intros H; specialize (H 45); rewrite E, Hq in H; apply Ok_inj in H.
    rewrite Qbar_textbook_ok in H by assumption; unfold Q0p in H; rewrite Hq in H.
    apply (f_equal a33) in H; unfold Qbar_textbook in H; cbn [a11 a12 a22 a33] in H.
    pose proof sin45 as [S C]; pose proof (cs1 45) as H1.
    set (cc := cdeg 45) in *; set (ss := sdeg 45) in *; clearbody cc ss.
    assert (Hs : ss^2 = 1 - cc^2) by lra; destruct (poly_mod_c cc ss Hs) as [H4 H3].
    assert (K : (2 * (e/(1-v*v)) - 2 * (v*e/(1-v*v)) - 4 * g) * (ss^2 * cc^2) = 0).
    { rewrite H4, Hs in H; rewrite Hs. lra. }
    assert (P : 0 < ss^2 * cc^2) by (apply Rmult_lt_0_compat; apply pow_lt; assumption).
    apply Rmult_integral in K; destruct K as [K|K]; [|lra].
    apply Rmult_eq_reg_l with 4; [|lra].
    replace (4 * (e / (2 * (1 + v)))) with (2 * (e / (1 - v*v)) - 2 * (v * e / (1 - v*v))); [lra|field; nra].
  - intros Hg th; rewrite E, (readable_Q0p m Hr); f_equal; apply iso_turn; assumption.
Qed.
(*@ C05: in that case A, B and D do not depend on the angles. @*)
Lemma t_C05_angles_irrelevant : forall l l',
  map snd l = map snd l' ->
  Forall (fun m => exists e v h t c s, -1 < v < 1 /\ m = Iso (IMat e v (e / (2*(1+v))) h t c s)) (map snd l) ->
  A_of l = A_of l' /\ B_of l = B_of l' /\ D_of l = D_of l'.
Proof.
  intros l l' Em F.
  assert (K : pairs l = pairs l' /\ all_readable l /\ all_readable l').
  { revert l' Em; induction l as [|[th m] t IH]; intros [|[th' m'] t'] Em; try discriminate; [repeat split; constructor|].
    simpl in Em, F; injection Em as Em1 Em2; inversion F as [|? ? Hm Ft]; subst m'.
    destruct (IH Ft t' Em2) as (E1 & E2 & E3).
    assert (Hrd : readable m) by (destruct Hm as (e&v&h&tt&c&s&Hv&->); eexists; apply iso_Q0, Hv).
    split; [|split; constructor; auto].
    unfold pairs in *; cbn [map fst snd]; rewrite E1; do 2 f_equal.
    destruct Hm as (e&v&h&tt&c&s&Hv&->); rewrite !(iso_turn e v _ h tt c s _ Hv eq_refl); reflexivity. }
  destruct K as (E & Hr & Hr').
  rewrite !A_of_eq, !B_of_eq, !D_of_eq by assumption; unfold Lsum; rewrite E; auto.
Qed.
(*@ C05, concrete instance: e = 2, v = 0, g = 1 satisfies the relation, g = 2 does not. @*)
Example t_C05_ex : 1 = 2 / (2*(1+0)) /\ 2 <> 2 / (2*(1+0)).
Proof. lra. Qed.
