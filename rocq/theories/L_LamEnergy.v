(** Positive definiteness, lamination parameters, material stiffness: proofs for P_Laminate.v *)
From Coq Require Import Reals List Lra Psatz Lia Permutation String.
From Verif Require Import M_Py S_Mat M_Material M_Laminate M_LamHistory S_Laminate S_Material L_Mat L_Lam L_LamAlg L_LamSums.
Import ListNotations.
Open Scope R_scope.

(** ** Positive definiteness *)
Lemma rot_quad c s q v : quad (rot c s q) v = quad q (mvec (T_engineering c s) v).
Proof.
  unfold quad, rot; rewrite !mvec_mmul, dot_mtrans.
  replace (mtrans (T_real_inv c s)) with (T_engineering c s); [reflexivity|].
  unfold mtrans, T_real_inv, T_engineering; simpl; f_equal; ring.
Qed.
Lemma T_eng_inj c s v : c^2 + s^2 = 1 -> mvec (T_engineering c s) v = vzero -> v = vzero.
Proof.
  intros H E.
  assert (E' : mvec (mmul (T_engineering c (-s)) (T_engineering c s)) v = vzero).
  { rewrite mvec_mmul, E; unmat; f_equal; ring. }
  replace (mmul (T_engineering c (-s)) (T_engineering c s)) with mid in E'; [rewrite mvec_mid in E'; exact E'|].
  assert (E2 : T_engineering (c * c - (-s) * s) ((-s) * c + c * s) = mmul (T_engineering c (-s)) (T_engineering c s)).
  { unfold T_engineering, mmul; simpl; f_equal; ring. }
  rewrite <- E2; replace (c * c - - s * s) with 1 by (rewrite <- H; ring); replace (- s * c + c * s) with 0 by ring.
  unfold T_engineering, mid; f_equal; ring.
Qed.
Lemma rot_pos_def c s q : c^2 + s^2 = 1 -> pos_def q -> pos_def (rot c s q).
Proof.
  intros H Hq v Hv; rewrite rot_quad; apply Hq; intros E; apply Hv, (T_eng_inj c s); assumption.
Qed.
Lemma Qbar_pos_def th m : admissible m -> pos_def (Qbar th m).
Proof.
  intros [[q [E P]] _]; unfold Qbar, Q0p; rewrite E; apply rot_pos_def; [apply cs1|assumption].
Qed.

Definition q6 (M : mat6) e k := dot6 (e, k) (mvec6 M (e, k)).
Fixpoint energy (z0 : R) (pl : list (R * mat3)) (e k : vec3) : R :=
  match pl with
  | [] => 0
  | (h, Q) :: t => h * (quad Q (vadd e (vscale (z0 + h/2) k)) + h^2/12 * quad Q k) + energy (z0 + h) t e k
  end.
Lemma q6_madd A B D A' B' D' e k :
  q6 (M6 (madd A A') (madd B B') (madd B B') (madd D D')) e k = q6 (M6 A B B D) e k + q6 (M6 A' B' B' D') e k.
Proof. unfold q6, dot6, mvec6; simpl; destruct A, B, D, A', B', D', e, k; unmat; ring. Qed.
Lemma q6_ply h Q z0 e k : symmetric Q ->
  q6 (M6 (mscale (wA (z0+h) z0) Q) (mscale (wB (z0+h) z0) Q) (mscale (wB (z0+h) z0) Q) (mscale (wD (z0+h) z0) Q)) e k
  = h * (quad Q (vadd e (vscale (z0 + h/2) k)) + h^2/12 * quad Q k).
Proof.
  unfold symmetric, q6, dot6, mvec6, wA, wB, wD; destruct Q as [x1 x2 x3 x4 x5 x6 x7 x8 x9], e, k; unfold mtrans; simpl.
  intros E; injection E as E1 E2 E3 E4 E5 E6; subst; unmat; simpl; field.
Qed.
Lemma q6_energy pl : Forall (fun p => symmetric (snd p)) pl -> forall z0 e k,
  q6 (M6 (lsum wA z0 pl) (lsum wB z0 pl) (lsum wB z0 pl) (lsum wD z0 pl)) e k = energy z0 pl e k.
Proof.
  induction 1 as [|[h Q] t Hs _ IH]; intros z0 e k; simpl.
  - unfold q6, dot6, mvec6; simpl; destruct e, k; unmat; ring.
  - rewrite q6_madd, q6_ply by assumption; rewrite IH; reflexivity.
Qed.
Definition good_pair (p : R * mat3) : Prop := 0 < fst p /\ pos_def (snd p).
Lemma quad_pos_iff Q v : pos_def Q -> 0 <= quad Q v /\ (quad Q v = 0 -> v = vzero).
Proof.
  intros H; destruct (vec3_eq_dec v vzero) as [->|N].
  - rewrite quad_vzero; split; [lra|auto].
  - pose proof (H v N); split; lra.
Qed.
Lemma energy_nonneg pl e k : Forall good_pair pl -> forall z0, 0 <= energy z0 pl e k.
Proof.
  induction 1 as [|[h Q] t [Hh HQ] _ IH]; intros z0; simpl; [lra|]; simpl in *.
  specialize (IH (z0 + h)).
  destruct (quad_pos_iff Q (vadd e (vscale (z0 + h/2) k)) HQ) as [P1 _].
  destruct (quad_pos_iff Q k HQ) as [P2 _].
  assert (0 <= h * (h * 1) / 12 * quad Q k) by (apply Rmult_le_pos; [nra|assumption]).
  assert (0 <= h * (quad Q (vadd e (vscale (z0 + h/2) k)) + h * (h*1) / 12 * quad Q k)) by (apply Rmult_le_pos; lra).
  lra.
Qed.
Lemma energy_pos pl e k : pl <> [] -> Forall good_pair pl -> (e, k) <> (vzero, vzero) ->
  forall z0, 0 < energy z0 pl e k.
Proof.
  intros Hne HF Hv z0; destruct pl as [|[h Q] t]; [congruence|]; clear Hne.
  inversion HF as [|? ? [Hh HQ] Ht]; subst; simpl in *.
  pose proof (energy_nonneg t e k Ht (z0 + h)) as Hn.
  destruct (quad_pos_iff Q (vadd e (vscale (z0 + h/2) k)) HQ) as [P1 P1'].
  destruct (quad_pos_iff Q k HQ) as [P2 P2'].
  assert (Hc : 0 < h * (h * 1) / 12) by nra.
  destruct (Req_dec (quad Q k) 0) as [Ek|Nk].
  - apply P2' in Ek; subst k. assert (e <> vzero) by congruence.
    replace (vadd e (vscale (z0 + h/2) vzero)) with e in * by (destruct e; unmat; f_equal; ring).
    assert (0 < quad Q e) by (apply HQ; assumption). rewrite quad_vzero. nra.
  - assert (0 < h * (h * 1) / 12 * quad Q k) by (apply Rmult_lt_0_compat; lra).
    assert (0 < h * (quad Q (vadd e (vscale (z0 + h / 2) k)) + h * (h * 1) / 12 * quad Q k))
      by (apply Rmult_lt_0_compat; lra). lra.
Qed.
Lemma good_pairs l : all_admissible l -> Forall good_pair (pairs l).
Proof.
  intros H; unfold pairs; apply Forall_map; revert H; apply Forall_impl; intros [th m] Hm; simpl in *.
  split; simpl; [apply Hm|apply Qbar_pos_def, Hm].
Qed.
Lemma ABD_pos_def l : l <> [] -> all_admissible l ->
  pos_def6 (M6 (Lsum wA l) (Lsum wB l) (Lsum wB l) (Lsum wD l)).
Proof.
  intros Hne HA [e k] Hx.
  pose proof (q6_energy (pairs l) (pairs_sym l (admissible_readable l HA)) (z_bottom (pairs l)) e k) as E.
  unfold q6 in E; unfold Lsum; rewrite E; apply energy_pos; auto using good_pairs.
  destruct l; [congruence|discriminate].
Qed.

(** ** Lamination parameters *)
Fixpoint xsum (g : R -> R) (f : R -> R -> R) (z0 : R) (l : list (R * material)) : R :=
  match l with
  | [] => 0
  | p :: t => f (z0 + thickness (snd p)) z0 * g (fst p) + xsum g f (z0 + thickness (snd p)) t
  end.
Definition c2 (th : R) := cos (2 * (th * (PI/180))).
Definition s2 (th : R) := sin (2 * (th * (PI/180))).
Definition c4 (th : R) := cos (4 * (th * (PI/180))).
Definition s4 (th : R) := sin (4 * (th * (PI/180))).
Definition one (_ : R) := 1.

Lemma xi_loop_sum f l : forall pre z0 i x0 x1 x2 x3, List.length pre = i ->
  xi_loop f (pre ++ z0 :: z_loop l z0)%list (map fst l) i (x0, x1, x2, x3) =
  Ok (x0 + xsum c2 f z0 l, x1 + xsum s2 f z0 l, x2 + xsum c4 f z0 l, x3 + xsum s4 f z0 l).
Proof.
  induction l as [|[th m] t IH]; intros pre z0 i x0 x1 x2 x3 Hi; simpl.
  - now rewrite !Rplus_0_r.
  - assert (E0 : get (pre ++ z0 :: (z0 + thickness m) :: z_loop t (z0 + thickness m))%list i = Ok z0).
    { unfold get; rewrite <- Hi, nth_error_mid; reflexivity. }
    assert (E1 : get (pre ++ z0 :: (z0 + thickness m) :: z_loop t (z0 + thickness m))%list (i+1) = Ok (z0 + thickness m)).
    { unfold get; replace (pre ++ z0 :: (z0 + thickness m) :: z_loop t (z0 + thickness m))%list
        with ((pre ++ [z0]) ++ (z0 + thickness m) :: z_loop t (z0 + thickness m))%list by (rewrite <- app_assoc; reflexivity).
      replace (i+1)%nat with (List.length (pre ++ [z0])%list) by (rewrite app_length; simpl; lia).
      rewrite nth_error_mid; reflexivity. }
    rewrite E1; simpl; rewrite E0; simpl.
    replace (pre ++ z0 :: (z0 + thickness m) :: z_loop t (z0 + thickness m))%list
        with ((pre ++ [z0]) ++ (z0 + thickness m) :: z_loop t (z0 + thickness m))%list by (rewrite <- app_assoc; reflexivity).
    rewrite IH by (rewrite app_length; simpl; lia).
    unfold c2, s2, c4, s4; rewrite !Rplus_assoc; reflexivity.
Qed.

Definition zb (l : list (R * material)) : R := - total l / 2.
Lemma plies_total l : fold_left (fun a m => a + thickness m) (map snd l) 0 = total l.
Proof.
  unfold total; assert (H : forall acc, fold_left (fun a m => a + thickness m) (map snd l) acc
     = acc + rsum (map (fun p : R * material => thickness (snd p)) l)).
  { induction l as [|p t IH]; intros acc; simpl; [ring|rewrite IH; ring]. }
  rewrite H; ring.
Qed.
Lemma xi_get_eq f k pw l : total l ^ pw <> 0 ->
  xi_get f k pw (fresh l) =
  Ok (k * xsum c2 f (zb l) l / total l ^ pw, k * xsum s2 f (zb l) l / total l ^ pw,
      k * xsum c4 f (zb l) l / total l ^ pw, k * xsum s4 f (zb l) l / total l ^ pw).
Proof.
  intros HT; unfold xi_get, fresh; simpl; rewrite plies_total.
  unfold z_position; rewrite total_thickness_sum, total_hsum, Rplus_0_l; fold (zb l).
  pose proof (xi_loop_sum f l [] (zb l) 0 0 0 0 0 eq_refl) as E.
  rewrite !Rplus_0_l in E. simpl in E. rewrite E; clear E. simpl.
  destruct (Req_EM_T (total l ^ pw) 0); [contradiction|reflexivity].
Qed.
Lemma xiA_of_eq l : total l <> 0 ->
  xiA_of l = Ok (1 * xsum c2 wA (zb l) l / total l ^ 1, 1 * xsum s2 wA (zb l) l / total l ^ 1,
      1 * xsum c4 wA (zb l) l / total l ^ 1, 1 * xsum s4 wA (zb l) l / total l ^ 1).
Proof. intros H; unfold xiA_of; rewrite laminate_of_eq; apply xi_get_eq, pow_nonzero, H. Qed.
Lemma xiD_of_eq l : total l <> 0 ->
  xiD_of l = Ok (4 * xsum c2 wX (zb l) l / total l ^ 3, 4 * xsum s2 wX (zb l) l / total l ^ 3,
      4 * xsum c4 wX (zb l) l / total l ^ 3, 4 * xsum s4 wX (zb l) l / total l ^ 3).
Proof. intros H; unfold xiD_of; rewrite laminate_of_eq; apply xi_get_eq, pow_nonzero, H. Qed.

(** sum of the weights *)
Lemma xsum_one f l : (forall u v w, f u v + f v w = f u w) -> forall z0, xsum one f z0 l = f (z0 + total l) z0.
Proof.
  intros Hf; assert (H0 : forall u, f u u = 0) by (intros u; pose proof (Hf u u u); lra).
  unfold total; induction l as [|p t IH]; intros z0; simpl; [now rewrite Rplus_0_r, H0|].
  rewrite IH; unfold one; rewrite <- (Hf (z0 + (thickness (snd p) + _)) (z0 + thickness (snd p)) z0).
  rewrite <- Rplus_assoc; ring.
Qed.
Lemma wX_tele u v w : wX u v + wX v w = wX u w. Proof. unfold wX; ring. Qed.
Lemma xsum_one_wA l : xsum one wA (zb l) l = total l.
Proof. rewrite xsum_one by apply wA_tele; unfold wA; ring. Qed.
Lemma xsum_one_wX l : xsum one wX (zb l) l = total l ^ 3 / 4.
Proof. rewrite xsum_one by apply wX_tele; unfold wX, zb; field. Qed.
Lemma xsum_wD g l : forall z0, xsum g wD z0 l = xsum g wX z0 l / 3.
Proof. induction l as [|p t IH]; intros z0; simpl; [field|rewrite IH; unfold wD, wX; field]. Qed.

Definition mxi (U : R*R*R*R*R) (w0 w1 w2 w3 w4 : R) : mat3 :=
  let '(U1, U2, U3, U4, U5) := U in
  M3 (U1*w0 + U2*w1 + U3*w3) (U4*w0 - U3*w3) (U2*w2/2 + U3*w4)
     (U4*w0 - U3*w3) (U1*w0 - U2*w1 + U3*w3) (U2*w2/2 - U3*w4)
     (U2*w2/2 + U3*w4) (U2*w2/2 - U3*w4) (U5*w0 - U3*w3).
Lemma lsum_mxi f m l : readable m -> Forall (fun p => same_stiffness (snd p) m) l -> forall z0,
  lsum f z0 (pairs l) = mxi (invariants_of_Q (Q0p m)) (xsum one f z0 l) (xsum c2 f z0 l) (xsum s2 f z0 l) (xsum c4 f z0 l) (xsum s4 f z0 l).
Proof.
  intros Hm; destruct (invariants_of_Q (Q0p m)) as [[[[U1 U2] U3] U4] U5] eqn:EU.
  induction 1 as [|[th m'] t Hs _ IH]; intros z0; simpl.
  - unfold mzero, mxi; f_equal; field.
  - simpl in Hs; rewrite IH, (same_stiffness_Qbar th m' m Hs), Qbar_multi_ok, EU by assumption.
    unfold Qbar_multiangle, mxi, one, c2, s2, c4, s4; unmat; f_equal; field.
Qed.
Lemma Lsum_mxi f m l : readable m -> Forall (fun p => same_stiffness (snd p) m) l ->
  Lsum f l = mxi (invariants_of_Q (Q0p m)) (xsum one f (zb l) l) (xsum c2 f (zb l) l) (xsum s2 f (zb l) l) (xsum c4 f (zb l) l) (xsum s4 f (zb l) l).
Proof.
  intros Hm Hs; unfold Lsum; rewrite (lsum_mxi f m l Hm Hs); unfold z_bottom, zb; rewrite total_hsum; reflexivity.
Qed.
Lemma A_xi m l xi : readable m -> Forall (fun p => same_stiffness (snd p) m) l -> total l <> 0 ->
  xiA_of l = Ok xi -> A_from_xi (invariants_of_Q (Q0p m)) xi (total l) = Lsum wA l.
Proof.
  intros Hm Hs HT; rewrite xiA_of_eq by assumption; intros E; injection E as <-.
  rewrite (Lsum_mxi wA m l Hm Hs), xsum_one_wA.
  destruct (invariants_of_Q (Q0p m)) as [[[[U1 U2] U3] U4] U5]; unfold A_from_xi, mxi; f_equal; field; assumption.
Qed.
Lemma D_xi m l xi : readable m -> Forall (fun p => same_stiffness (snd p) m) l -> total l <> 0 ->
  xiD_of l = Ok xi -> D_from_xi (invariants_of_Q (Q0p m)) xi (total l) = Lsum wD l.
Proof.
  intros Hm Hs HT; rewrite xiD_of_eq by assumption; intros E; injection E as <-.
  rewrite (Lsum_mxi wD m l Hm Hs), !xsum_wD, xsum_one_wX.
  destruct (invariants_of_Q (Q0p m)) as [[[[U1 U2] U3] U4] U5]; unfold D_from_xi, mxi; f_equal; field; assumption.
Qed.

(** Feasibility *)
Definition all_thick (l : list (R * material)) := Forall (fun p => 0 < thickness (snd p)) l.
Definition pos_weight (f : R -> R -> R) := forall u v, v < u -> 0 < f u v.
Lemma pw_wA : pos_weight wA. Proof. unfold pos_weight, wA; intros; lra. Qed.
Lemma pw_wX : pos_weight wX.
Proof.
  unfold pos_weight, wX; intros u v H.
  replace (u^3 - v^3) with ((u-v) * (((2*u+v)^2 + 3*v^2)/4)) by field.
  apply Rmult_lt_0_compat; [lra|].
  pose proof (pow2_ge_0 (2*u+v)) as P1; pose proof (pow2_ge_0 v) as P2.
  destruct (Req_dec v 0) as [->|N].
  - assert (0 < u * u) by (apply Rmult_lt_0_compat; lra). simpl; lra.
  - pose proof (Rsqr_pos_lt v N) as P3; unfold Rsqr in P3; simpl in *; lra.
Qed.
Lemma xsum_le g g' f l : pos_weight f -> all_thick l -> Forall (fun p => g (fst p) <= g' (fst p)) l ->
  forall z0, xsum g f z0 l <= xsum g' f z0 l.
Proof.
  intros Hf Ht Hg; induction l as [|p t IH]; intros z0; simpl; [lra|].
  inversion Ht; inversion Hg; subst.
  specialize (IH ltac:(assumption) ltac:(assumption) (z0 + thickness (snd p))).
  assert (0 < f (z0 + thickness (snd p)) z0) by (apply Hf; lra). nra.
Qed.
Lemma xsum_scale k g f l : forall z0, xsum (fun a => k * g a) f z0 l = k * xsum g f z0 l.
Proof. induction l as [|p t IH]; intros z0; simpl; [ring|rewrite IH; ring]. Qed.
Lemma xsum_plus g g' f l : forall z0, xsum (fun a => g a + g' a) f z0 l = xsum g f z0 l + xsum g' f z0 l.
Proof. induction l as [|p t IH]; intros z0; simpl; [ring|rewrite IH; ring]. Qed.
Lemma xsum_ext g g' f l : (forall a, g a = g' a) -> forall z0, xsum g f z0 l = xsum g' f z0 l.
Proof. intros H; induction l as [|p t IH]; intros z0; simpl; [reflexivity|rewrite IH, H; reflexivity]. Qed.
Lemma total_pos l : l <> [] -> all_thick l -> 0 < total l.
Proof.
  intros Hne H; destruct l as [|p t]; [congruence|]; inversion H; subst; unfold total; simpl.
  assert (0 <= rsum (map (fun p : R * material => thickness (snd p)) t)).
  { clear -H3; induction H3; simpl; lra. }
  lra.
Qed.
Lemma Forall_all {A} (P : A -> Prop) l : (forall a, P a) -> Forall P l.
Proof. intros H; apply Forall_forall; auto. Qed.

(** normalised averages: W = sum of weights > 0 *)
Section Feas.
Variables (f : R -> R -> R) (l : list (R * material)) (W : R).
Hypotheses (Hf : pos_weight f) (Ht : all_thick l) (HW : 0 < W) (H1 : xsum one f (zb l) l = W).
Lemma xavg_bound g : (forall a, -1 <= g a <= 1) -> -1 <= xsum g f (zb l) l / W <= 1.
Proof using Hf Ht HW H1.
  intros Hg.
  assert (A1 : xsum g f (zb l) l <= W).
  { rewrite <- H1; apply xsum_le; auto; apply Forall_all; intros p; unfold one; apply Hg. }
  assert (A2 : - W <= xsum g f (zb l) l).
  { replace (- W) with (xsum (fun a => -1 * one a) f (zb l) l) by (rewrite xsum_scale, H1; ring).
    apply xsum_le; auto; apply Forall_all; intros p; unfold one; specialize (Hg (fst p)); lra. }
  split; [apply Rmult_le_reg_r with W|apply Rmult_le_reg_r with W]; try assumption;
  unfold Rdiv; rewrite Rmult_assoc, Rinv_l by lra; lra.
Qed.
Lemma xavg_jensen : xsum c4 f (zb l) l / W >= 2 * (xsum c2 f (zb l) l / W)^2 - 1.
Proof using Hf Ht HW H1.
  set (x := xsum c2 f (zb l) l / W).
  (* pointwise: c4 = 2 c2^2 - 1 >= 4 x c2 - 2 x^2 - 1 *)
  assert (P : xsum (fun a => 4*x * c2 a + (-2*x^2-1) * one a) f (zb l) l <= xsum c4 f (zb l) l).
  { apply xsum_le; auto; apply Forall_all; intros p; unfold one, c4, c2.
    replace (4 * (fst p * (PI/180))) with (2 * (2 * (fst p * (PI/180)))) by ring.
    rewrite (cos_2a_cos (2 * _)); set (c := cos _).
    assert (0 <= (c - x)^2) by apply pow2_ge_0. nra. }
  rewrite xsum_plus, !xsum_scale, H1 in P.
  assert (E : xsum c2 f (zb l) l = x * W) by (unfold x; field; lra).
  rewrite E in P.
  apply Rle_ge, Rmult_le_reg_r with W; [assumption|].
  unfold Rdiv; rewrite (Rmult_assoc (xsum c4 _ _ _)), Rinv_l by lra. nra.
Qed.
Lemma xavg_std : Forall (fun p => standard_angle (fst p)) l ->
  xsum c4 f (zb l) l / W >= 2 * Rabs (xsum c2 f (zb l) l / W) - 1.
Proof using Hf Ht HW H1.
  intros Hs.
  assert (K : forall th, standard_angle th -> forall sg, sg = 1 \/ sg = -1 -> 2*sg * c2 th + -1 * one th <= c4 th).
  { intros th Hth sg Hsg; unfold c4, c2, one.
    replace (4 * (th * (PI/180))) with (2 * (2 * (th * (PI/180)))) by ring.
    rewrite (cos_2a_cos (2 * _)).
    assert (Hc : cos (2 * (th * (PI/180))) = 0 \/ cos (2 * (th * (PI/180))) = 1 \/ cos (2 * (th * (PI/180))) = -1).
    { assert (Hk : forall x (k : Z), cos (x + 2 * PI * IZR k) = cos x).
      { intros x k; destruct (Z_le_gt_dec 0 k) as [H|H].
        - rewrite <- (Z2Nat.id k H), <- INR_IZR_INZ.
          replace (2 * PI * INR (Z.to_nat k)) with (2 * INR (Z.to_nat k) * PI) by ring; apply cos_period.
        - rewrite <- (cos_period (x + 2 * PI * IZR k) (Z.to_nat (-k))); f_equal.
          rewrite INR_IZR_INZ, Z2Nat.id, opp_IZR by lia; ring. }
      destruct Hth as [k [->|[->|[->| ->]]]].
      - right; left; replace (2 * (180 * IZR k * (PI/180))) with (0 + 2 * PI * IZR k) by field; rewrite Hk; apply cos_0.
      - right; right; replace (2 * ((90 + 180 * IZR k) * (PI/180))) with (PI + 2 * PI * IZR k) by field; rewrite Hk; apply cos_PI.
      - left; replace (2 * ((45 + 180 * IZR k) * (PI/180))) with (PI/2 + 2 * PI * IZR k) by field; rewrite Hk; apply cos_PI2.
      - left; replace (2 * ((-45 + 180 * IZR k) * (PI/180))) with (- (PI/2) + 2 * PI * IZR k) by field; rewrite Hk, cos_neg; apply cos_PI2. }
    destruct Hc as [-> | [-> | ->]], Hsg as [-> | ->]; lra. }
  assert (Q : forall sg, sg = 1 \/ sg = -1 -> 2 * sg * (xsum c2 f (zb l) l / W) - 1 <= xsum c4 f (zb l) l / W).
  { intros sg Hsg.
    assert (P : xsum (fun a => 2*sg * c2 a + -1 * one a) f (zb l) l <= xsum c4 f (zb l) l).
    { apply xsum_le; auto. revert Hs; apply Forall_impl; intros p Hp; apply K; assumption. }
    rewrite xsum_plus, !xsum_scale, H1 in P.
    apply Rmult_le_reg_r with W; [assumption|].
    unfold Rdiv; rewrite (Rmult_assoc (xsum c4 _ _ _)), Rinv_l by lra.
    replace ((2 * sg * (xsum c2 f (zb l) l * / W) - 1) * W) with (2 * sg * xsum c2 f (zb l) l - W) by (field; lra).
    lra. }
  apply Rle_ge; unfold Rabs; destruct (Rcase_abs _) as [H|H].
  - specialize (Q (-1) (or_intror eq_refl)); lra.
  - specialize (Q 1 (or_introl eq_refl)); lra.
Qed.
End Feas.

Lemma trig_bound g a : (g = c2 \/ g = s2 \/ g = c4 \/ g = s4) -> -1 <= g a <= 1.
Proof.
  intros [->|[->|[->| ->]]]; unfold c2, s2, c4, s4; try apply COS_bound; apply SIN_bound.
Qed.

Lemma vec4_eq (a b c d a' b' c' d' : R) : a = a' -> b = b' -> c = c' -> d = d' -> (a, b, c, d) = (a', b', c', d').
Proof. intros; subst; reflexivity. Qed.
Definition comps_bounded (xi : vec4) : Prop :=
  let '(x1, x2, x3, x4) := xi in
  (-1 <= x1 <= 1) /\ (-1 <= x2 <= 1) /\ (-1 <= x3 <= 1) /\ (-1 <= x4 <= 1).
Lemma feasible_gen l xi : l <> [] -> all_thick l -> xiA_of l = Ok xi \/ xiD_of l = Ok xi ->
  exists f W, pos_weight f /\ 0 < W /\ xsum one f (zb l) l = W /\
    xi = (xsum c2 f (zb l) l / W, xsum s2 f (zb l) l / W, xsum c4 f (zb l) l / W, xsum s4 f (zb l) l / W).
Proof.
  intros Hne Ht Hxi; pose proof (total_pos l Hne Ht) as HT.
  rewrite xiA_of_eq, xiD_of_eq in Hxi by lra; destruct Hxi as [E|E]; injection E as <-.
  - exists wA, (total l); split; [apply pw_wA|split; [assumption|split; [apply xsum_one_wA|]]].
    apply vec4_eq; field; lra.
  - exists wX, (total l ^ 3 / 4); split; [apply pw_wX|split; [|split; [apply xsum_one_wX|]]].
    + apply pow_lt with (n := 3%nat) in HT; lra.
    + apply vec4_eq; field; lra.
Qed.

(** ** Materials: Q_0 and the compliance *)

Definition o_den (m : omat) : R := 1 - o_v12 m * o_v21 m.
Definition o_Qval (m : omat) : mat3 :=
  M3 (o_e1 m / o_den m) (o_v12 m * o_e2 m / o_den m) 0 (o_v12 m * o_e2 m / o_den m) (o_e2 m / o_den m) 0 0 0 (o_g12 m).
Lemma o_Q0_spec m : o_Q0 m = if Req_EM_T (o_den m) 0 then Err ZeroDivisionError else Ok (o_Qval m).
Proof.
  unfold o_Q0, o_Qval, pydiv; fold (o_den m); destruct (Req_EM_T (o_den m) 0); reflexivity.
Qed.
Lemma o_den_eq m : o_e1 m <> 0 -> o_den m = (o_e1 m - o_v12 m ^ 2 * o_e2 m) / o_e1 m.
Proof. intros H; unfold o_den, o_v21; field; assumption. Qed.
Lemma o_den_0 m : o_e1 m <> 0 -> (o_den m = 0 <-> o_v12 m ^ 2 * o_e2 m = o_e1 m).
Proof.
  intros H; rewrite o_den_eq by assumption; split; intros E.
  - apply Rmult_integral in E; destruct E as [E|E]; [lra|].
    exfalso; revert E; apply Rinv_neq_0_compat; assumption.
  - replace (o_e1 m - o_v12 m ^ 2 * o_e2 m) with 0 by lra; field; assumption.
Qed.
Lemma Q0_compliance m q : o_e1 m <> 0 -> o_e2 m <> 0 -> o_g12 m <> 0 -> o_Q0 m = Ok q ->
  mmul q (compliance m) = mid /\ mmul (compliance m) q = mid.
Proof.
  intros H1 H2 H3; rewrite o_Q0_spec; destruct (Req_EM_T (o_den m) 0) as [E|N]; [discriminate|].
  intros E; injection E as <-.
  unfold o_Qval, compliance, mmul, mid; simpl.
  unfold o_den, o_v21 in *.
  assert (N' : o_e1 m - o_v12 m * (o_v12 m * o_e2 m) <> 0).
  { intros Z; apply N; replace (1 - o_v12 m * (o_v12 m * (o_e2 m / o_e1 m))) with
      ((o_e1 m - o_v12 m * (o_v12 m * o_e2 m)) / o_e1 m) by (field; assumption); rewrite Z; field; assumption. }
  split; apply mat3_ext; simpl; field; auto.
Qed.

(** positive definiteness of [[a,b,0],[b,d,0],[0,0,g]] *)
Lemma pd_block a b d g :
  pos_def (M3 a b 0 b d 0 0 0 g) <-> 0 < a /\ 0 < d /\ b^2 < a * d /\ 0 < g.
Proof.
  split.
  - intros H.
    assert (Ha : 0 < a).
    { pose proof (H (V3 1 0 0) ltac:(unfold vzero; intros E; injection E; lra)) as P; unmat; simpl in P; lra. }
    assert (Hg : 0 < g).
    { pose proof (H (V3 0 0 1) ltac:(unfold vzero; intros E; injection E; lra)) as P; unmat; simpl in P; lra. }
    assert (Hd : 0 < d).
    { pose proof (H (V3 0 1 0) ltac:(unfold vzero; intros E; injection E; lra)) as P; unmat; simpl in P; lra. }
    repeat split; auto.
    pose proof (H (V3 (-b) a 0) ltac:(unfold vzero; intros E; injection E; lra)) as P; unmat; simpl in P; nra.
  - intros (Ha & Hd & Hb & Hg) [x y z] N; unmat.
    assert (E : x * (a * x + b * y + 0 * z) + y * (b * x + d * y + 0 * z) + z * (0 * x + 0 * y + g * z)
       = a * (x + b * y / a)^2 + (a * d - b^2) / a * y^2 + g * z^2) by (field; lra).
    rewrite E.
    assert (0 < (a * d - b^2) / a) by (apply Rdiv_lt_0_compat; lra).
    pose proof (pow2_ge_0 (x + b*y/a)); pose proof (pow2_ge_0 y); pose proof (pow2_ge_0 z).
    destruct (Req_dec y 0) as [->|Ny].
    + destruct (Req_dec z 0) as [->|Nz].
      * assert (x <> 0) by (intros ->; apply N; reflexivity).
        replace (x + b * 0 / a) with x in * by (field; lra).
        assert (0 < x^2) by (pose proof (Rsqr_pos_lt x ltac:(assumption)) as P; unfold Rsqr in P; simpl; lra). nra.
      * assert (0 < z^2) by (pose proof (Rsqr_pos_lt z Nz) as P; unfold Rsqr in P; simpl; lra). nra.
    + assert (0 < y^2) by (pose proof (Rsqr_pos_lt y Ny) as P; unfold Rsqr in P; simpl; lra).
      assert (0 < (a * d - b^2) / a * y^2) by (apply Rmult_lt_0_compat; assumption). nra.
Qed.
