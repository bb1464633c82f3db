(** Laminate algebra: proofs for P_Laminate.v *)
From Coq Require Import Reals List Lra Psatz Lia Permutation String.
From Verif Require Import M_Py S_Mat M_Material M_Laminate M_LamHistory S_Laminate L_Mat L_Lam.
Import ListNotations.
Open Scope R_scope.

Lemma readable_ok m : readable m <-> ply_ok m.
Proof.
  unfold readable, ply_ok; split.
  - intros [q ->]; reflexivity.
  - destruct (Q_0 m) as [q|e]; simpl; [eauto|discriminate].
Qed.
Lemma all_readable_ok l : all_readable l -> layup_ok l.
Proof. unfold all_readable, layup_ok; apply Forall_impl; intros p; apply readable_ok. Qed.
Lemma admissible_readable l : all_admissible l -> all_readable l.
Proof.
  unfold all_admissible, all_readable; apply Forall_impl; intros p [[q [E _]] _]; exists q; exact E.
Qed.
Lemma readable_Q0p m : readable m -> Q_0 m = Ok (Q0p m).
Proof. intros H; apply Q_0_ok, readable_ok, H. Qed.

Definition fresh (l : list (R * material)) : lam :=
  Lam (SAngles (map fst l)) (PMany (map snd l)) l None None None None None DNone DNone DNone DNone.
Lemma combine_split l : combine (map fst l) (map snd l) = (l : list (R * material)).
Proof. induction l as [|[a b] t IH]; simpl; [reflexivity|now rewrite IH]. Qed.
Lemma laminate_of_eq l : laminate_of l = Ok (fresh l).
Proof.
  unfold laminate_of, construct; rewrite !map_length, Nat.eqb_refl; simpl.
  rewrite combine_split; reflexivity.
Qed.
Lemma fresh_Inv l : Inv (fresh l).
Proof. apply (construct_Inv (SAngles (map fst l)) (PMany (map snd l))), laminate_of_eq. Qed.

Lemma A_of_eq l : all_readable l -> A_of l = Ok (Lsum wA l).
Proof.
  intros H; unfold A_of; rewrite laminate_of_eq; simpl.
  destruct (get_A_inv (fresh l) (all_readable_ok l H) (fresh_Inv l)) as (L'&E&_); rewrite E; reflexivity.
Qed.
Lemma B_of_eq l : all_readable l -> B_of l = Ok (Lsum wB l).
Proof.
  intros H; unfold B_of; rewrite laminate_of_eq; simpl.
  destruct (get_B_inv (fresh l) (all_readable_ok l H) (fresh_Inv l)) as (L'&E&_); rewrite E; reflexivity.
Qed.
Lemma D_of_eq l : all_readable l -> D_of l = Ok (Lsum wD l).
Proof.
  intros H; unfold D_of; rewrite laminate_of_eq; simpl.
  destruct (get_D_inv (fresh l) (all_readable_ok l H) (fresh_Inv l)) as (L'&E&_); rewrite E; reflexivity.
Qed.
Lemma ABD_of_eq l : all_readable l ->
  ABD_of l = Ok (M6 (Lsum wA l) (Lsum wB l) (Lsum wB l) (Lsum wD l)).
Proof.
  intros H; unfold ABD_of; rewrite laminate_of_eq; simpl.
  destruct (get_ABD_inv (fresh l) (all_readable_ok l H) (fresh_Inv l)) as (L'&E&_); rewrite E; reflexivity.
Qed.
Lemma Q_layup_of_eq l : all_readable l -> Q_layup_of l = Ok (Qs_of l).
Proof.
  intros H; unfold Q_layup_of; rewrite laminate_of_eq; simpl.
  destruct (get_Q_inv (fresh l) (all_readable_ok l H) (fresh_Inv l)) as (L'&E&_); rewrite E; reflexivity.
Qed.

(** ** Shape of Q_0 *)
Lemma pydiv_ok x y r : pydiv x y = Ok r -> y <> 0 /\ r = x / y.
Proof. unfold pydiv; destruct (Req_EM_T y 0); [discriminate|]; injection 1 as <-; auto. Qed.
Lemma Q0_shape m q : Q_0 m = Ok q ->
  exists q11 q12 q22 q66, q = M3 q11 q12 0 q12 q22 0 0 0 q66.
Proof.
  destruct m as [o|i]; simpl; unfold o_Q0, i_Q0.
  - destruct (pydiv (o_e1 o) _); simpl; [|discriminate].
    destruct (pydiv (o_v12 o * o_e2 o) _); simpl; [|discriminate].
    destruct (pydiv (o_e2 o) _); simpl; [|discriminate]. injection 1 as <-; eauto.
  - destruct (pydiv (i_e i) _); simpl; [|discriminate].
    destruct (pydiv (i_v i * i_e i) _); simpl; [|discriminate]. injection 1 as <-; eauto.
Qed.
Lemma Q0p_shape m : readable m ->
  exists q11 q12 q22 q66, Q0p m = M3 q11 q12 0 q12 q22 0 0 0 q66.
Proof. intros H; apply (Q0_shape m), readable_Q0p, H. Qed.

Lemma rot_textbook c s q11 q12 q22 q66 :
  let q := M3 q11 q12 0 q12 q22 0 0 0 q66 in rot c s q = Qbar_textbook q c s.
Proof. unfold rot, Qbar_textbook, T_real_inv, T_engineering, mmul; simpl; f_equal; ring. Qed.

Lemma cos4 x : cos (4*x) = (cos x^2 - sin x^2)^2 - (2*sin x*cos x)^2.
Proof. replace (4*x) with (2*(2*x)) by ring. rewrite cos_2a, cos_2a, sin_2a. ring. Qed.
Lemma sin4 x : sin (4*x) = 2*(2*sin x*cos x)*(cos x^2 - sin x^2).
Proof. replace (4*x) with (2*(2*x)) by ring. rewrite sin_2a, cos_2a, sin_2a. ring. Qed.
Lemma cos2 x : cos (2*x) = cos x^2 - sin x^2.
Proof. rewrite cos_2a; ring. Qed.
Lemma sin2c2 x : sin x ^2 = 1 - cos x ^2.
Proof. pose proof (sin2_cos2 x) as H; unfold Rsqr in H; nra. Qed.

Lemma poly_mod_c (c s : R) : s^2 = 1 - c^2 -> s^4 = (1-c^2)^2 /\ s^3 = s*(1-c^2).
Proof. intros H; split; [replace (s^4) with ((s^2)^2) by ring|replace (s^3) with (s*s^2) by ring]; rewrite H; ring. Qed.
Lemma pow4_mod (c s : R) : s^2 = 1 - c^2 -> s*s = 1 - c*c.
Proof. simpl; intros H; lra. Qed.

Lemma textbook_multiangle q11 q12 q22 q66 a :
  let q := M3 q11 q12 0 q12 q22 0 0 0 q66 in
  Qbar_textbook q (cos a) (sin a) = Qbar_multiangle (invariants_of_Q q) a.
Proof.
  intros q; unfold Qbar_textbook, Qbar_multiangle, invariants_of_Q, q; cbn [a11 a12 a22 a33].
  rewrite cos4, sin4, cos2, sin_2a.
  pose proof (sin2c2 a) as H. set (c := cos a) in *; set (s := sin a) in *; clearbody c s.
  destruct (poly_mod_c c s H) as [H4 H3].
  apply mat3_ext; cbn [a11 a12 a13 a21 a22 a23 a31 a32 a33]; ring_simplify; rewrite ?H4, ?H3, ?H; field.
Qed.
