(** Rotations, sums over the layup: proofs for P_Laminate.v *)
From Coq Require Import Reals List Lra Psatz Lia Permutation String.
From Verif Require Import M_Py S_Mat M_Material M_Laminate M_LamHistory S_Laminate L_Mat L_Lam L_LamAlg.
Import ListNotations.
Open Scope R_scope.

(** ** Rotated stiffness *)
Lemma rad_deg th : th * PI / 180 = th * (PI / 180). Proof. field. Qed.

Lemma Qbar_textbook_ok th m : readable m -> Qbar th m = Qbar_textbook (Q0p m) (cdeg th) (sdeg th).
Proof. intros H; destruct (Q0p_shape m H) as (a&b&c&d&E); unfold Qbar; rewrite E; apply rot_textbook. Qed.
Lemma Qbar_multi_ok th m : readable m ->
  Qbar th m = Qbar_multiangle (invariants_of_Q (Q0p m)) (th * (PI/180)).
Proof.
  intros H; rewrite Qbar_textbook_ok by assumption.
  destruct (Q0p_shape m H) as (a&b&c&d&E); rewrite E; unfold cdeg, sdeg; rewrite rad_deg.
  apply textbook_multiangle.
Qed.

Lemma Qbar_stress th m e : readable m ->
  mvec (Qbar th m) e = ply_stress (cdeg th) (sdeg th) (Q0p m) e.
Proof.
  intros H; unfold Qbar, rot, ply_stress.
  destruct (Q0p m) as [x11 x12 x13 x21 x22 x23 x31 x32 x33]; destruct e as [e1 e2 e3].
  unfold rotate_tensor, tensor_strain, eng_strain, mvec, mmul, T_real_inv, T_engineering; simpl.
  f_equal; field.
Qed.

Lemma Qbar_sym th m : readable m -> symmetric (Qbar th m).
Proof. intros H; rewrite Qbar_textbook_ok by assumption; reflexivity. Qed.

Lemma cdeg_neg th : cdeg (- th) = cdeg th.
Proof. unfold cdeg; replace (- th * PI / 180) with (- (th * PI / 180)) by field; apply cos_neg. Qed.
Lemma sdeg_neg th : sdeg (- th) = - sdeg th.
Proof. unfold sdeg; replace (- th * PI / 180) with (- (th * PI / 180)) by field; apply sin_neg. Qed.
Lemma cdeg_180 th : cdeg (th + 180) = - cdeg th.
Proof. unfold cdeg; replace ((th + 180) * PI / 180) with (th * PI / 180 + PI) by field; apply neg_cos. Qed.
Lemma sdeg_180 th : sdeg (th + 180) = - sdeg th.
Proof. unfold sdeg; replace ((th + 180) * PI / 180) with (th * PI / 180 + PI) by field; apply neg_sin. Qed.
Lemma cdeg_90 th : cdeg (th + 90) = - sdeg th.
Proof.
  unfold cdeg, sdeg; replace ((th + 90) * PI / 180) with (PI/2 + th * PI / 180) by field.
  rewrite cos_plus, cos_PI2, sin_PI2; ring.
Qed.
Lemma sdeg_90 th : sdeg (th + 90) = cdeg th.
Proof.
  unfold cdeg, sdeg; replace ((th + 90) * PI / 180) with (PI/2 + th * PI / 180) by field.
  rewrite sin_plus, cos_PI2, sin_PI2; ring.
Qed.
Lemma cdeg_add x y : cdeg (x + y) = cdeg x * cdeg y - sdeg x * sdeg y.
Proof. unfold cdeg, sdeg; replace ((x + y) * PI / 180) with (x*PI/180 + y*PI/180) by field; apply cos_plus. Qed.
Lemma sdeg_add x y : sdeg (x + y) = sdeg x * cdeg y + cdeg x * sdeg y.
Proof. unfold cdeg, sdeg; replace ((x + y) * PI / 180) with (x*PI/180 + y*PI/180) by field; apply sin_plus. Qed.

Lemma rot_neg c s q : rot (-c) (-s) q = rot c s q.
Proof. unfold rot, T_real_inv, T_engineering; destruct q; unmat; f_equal; ring. Qed.

Lemma Qbar_180 th m : Qbar (th + 180) m = Qbar th m.
Proof. unfold Qbar; rewrite cdeg_180, sdeg_180; apply rot_neg. Qed.
Lemma Qbar_180_nat th m (k : nat) : Qbar (th + 180 * INR k) m = Qbar th m.
Proof.
  induction k as [|k IH].
  - simpl; f_equal; ring.
  - rewrite S_INR; replace (th + 180 * (INR k + 1)) with (th + 180 * INR k + 180) by ring.
    rewrite Qbar_180; exact IH.
Qed.
Lemma Qbar_180_Z th m (k : Z) : Qbar (th + 180 * IZR k) m = Qbar th m.
Proof.
  destruct (Z_le_gt_dec 0 k) as [H|H].
  - rewrite <- (Z2Nat.id k H), <- INR_IZR_INZ; apply Qbar_180_nat.
  - rewrite <- (Qbar_180_nat (th + 180 * IZR k) m (Z.to_nat (-k))).
    f_equal; rewrite INR_IZR_INZ, Z2Nat.id, opp_IZR by lia; ring.
Qed.

(** sign of the 16 and 26 terms *)
Definition flip16 (Q : mat3) : mat3 :=
  M3 (a11 Q) (a12 Q) (- a13 Q) (a21 Q) (a22 Q) (- a23 Q) (- a31 Q) (- a32 Q) (a33 Q).
Definition swap12 (Q : mat3) : mat3 :=
  M3 (a22 Q) (a21 Q) (- a23 Q) (a12 Q) (a11 Q) (- a13 Q) (- a32 Q) (- a31 Q) (a33 Q).
Lemma Qbar_neg th m : readable m -> Qbar (- th) m = flip16 (Qbar th m).
Proof.
  intros H; rewrite !Qbar_textbook_ok by assumption; rewrite cdeg_neg, sdeg_neg.
  unfold Qbar_textbook, flip16; simpl; f_equal; ring.
Qed.
Lemma Qbar_90 th m : readable m -> Qbar (th + 90) m = swap12 (Qbar th m).
Proof.
  intros H; rewrite !Qbar_textbook_ok by assumption; rewrite cdeg_90, sdeg_90.
  unfold Qbar_textbook, swap12; simpl; f_equal; ring.
Qed.
Lemma Qbar_invariants th m : readable m ->
  let Q := Qbar th m in let q := Q0p m in
  a11 Q + a22 Q + 2 * a12 Q = a11 q + a22 q + 2 * a12 q /\ a33 Q - a12 Q = a33 q - a12 q.
Proof.
  intros H Q q; unfold Q, q; rewrite Qbar_textbook_ok by assumption.
  destruct (Q0p_shape m H) as (x&y&z&w&E); rewrite E; pose proof (cs1 th) as C.
  unfold Qbar_textbook; simpl a11; simpl a12; simpl a22; simpl a33.
  set (c := cdeg th) in *; set (s := sdeg th) in *; clearbody c s.
  assert (C2 : s^2 = 1 - c^2) by lra. destruct (poly_mod_c c s C2) as [H4 _].
  split; ring_simplify; rewrite ?H4, ?C2; ring.
Qed.

Lemma rot_comp c s c' s' q :
  rot (c * c' - s * s') (s * c' + c * s') q = rot c' s' (rot c s q).
Proof.
  unfold rot.
  assert (E1 : T_real_inv (c * c' - s * s') (s * c' + c * s') = mmul (T_real_inv c' s') (T_real_inv c s)).
  { unfold T_real_inv, mmul; simpl; f_equal; ring. }
  assert (E2 : T_engineering (c * c' - s * s') (s * c' + c * s') = mmul (T_engineering c s) (T_engineering c' s')).
  { unfold T_engineering, mmul; simpl; f_equal; ring. }
  rewrite E1, E2, !mmul_assoc; reflexivity.
Qed.
Lemma Qbar_add th phi m : Qbar (th + phi) m = rot (cdeg phi) (sdeg phi) (Qbar th m).
Proof. unfold Qbar; rewrite cdeg_add, sdeg_add; apply rot_comp. Qed.
Lemma rot_madd c s A B : rot c s (madd A B) = madd (rot c s A) (rot c s B).
Proof. unfold rot; rewrite mmul_madd_r, mmul_madd_l; reflexivity. Qed.
Lemma rot_mscale c s k A : rot c s (mscale k A) = mscale k (rot c s A).
Proof. unfold rot; rewrite mmul_mscale_r, mmul_mscale_l; reflexivity. Qed.
Lemma rot_mzero c s : rot c s mzero = mzero.
Proof. unfold rot; rewrite mmul_mzero_r, mmul_mzero_l; reflexivity. Qed.
Lemma rot_1_0 q : rot 1 0 q = q.
Proof. unfold rot, T_real_inv, T_engineering; destruct q; unmat; f_equal; ring. Qed.
Lemma rot_inv c s q : c^2 + s^2 = 1 -> rot c (-s) (rot c s q) = q.
Proof.
  intros H; rewrite <- rot_comp.
  replace (c * c - s * - s) with 1 by (rewrite <- H; ring).
  replace (s * c + c * - s) with 0 by ring. apply rot_1_0.
Qed.

(** ** Sums *)
Lemma lsum_app f pl1 : forall z0 pl2, lsum f z0 (pl1 ++ pl2) = madd (lsum f z0 pl1) (lsum f (z0 + hsum pl1) pl2).
Proof.
  induction pl1 as [|[h Q] t IH]; intros z0 pl2; unfold hsum; simpl.
  - rewrite madd_0_l; f_equal; ring.
  - rewrite IH, madd_assoc; do 2 f_equal; unfold hsum; ring.
Qed.
Lemma hsum_app p q : hsum (p ++ q) = hsum p + hsum q.
Proof. unfold hsum; rewrite map_app, rsum_app; reflexivity. Qed.
Lemma hsum_rev p : hsum (rev p) = hsum p.
Proof.
  induction p as [|[h Q] t IH]; simpl; [reflexivity|].
  rewrite hsum_app, IH; unfold hsum; simpl; ring.
Qed.
Lemma lsum_sym f pl : forall z0, Forall (fun p => symmetric (snd p)) pl -> symmetric (lsum f z0 pl).
Proof.
  induction pl as [|[h Q] t IH]; intros z0 H; simpl; [apply sym_mzero|].
  inversion H; subst; apply sym_madd; [apply sym_mscale; assumption|apply IH; assumption].
Qed.
Lemma lsum_flip f sg pl : (forall u v, f (- v) (- u) = sg * f u v) ->
  forall z0, lsum f (- (z0 + hsum pl)) (rev pl) = mscale sg (lsum f z0 pl).
Proof.
  intros Hf; induction pl as [|[h Q] t IH]; intros z0; simpl.
  - rewrite mscale_mzero; reflexivity.
  - rewrite lsum_app; simpl; rewrite madd_0_r, hsum_rev.
    assert (E : hsum ((h, Q) :: t) = h + hsum t) by reflexivity; rewrite E.
    replace (- (z0 + (h + hsum t))) with (- ((z0 + h) + hsum t)) by ring.
    rewrite IH, mscale_madd, mscale_mscale, madd_comm; f_equal.
    replace (- (z0 + h + hsum t) + hsum t + h) with (- z0) by ring.
    replace (- (z0 + h + hsum t) + hsum t) with (- (z0 + h)) by ring.
    rewrite Hf; reflexivity.
Qed.
Lemma pairs_app l l' : pairs (l ++ l') = (pairs l ++ pairs l')%list.
Proof. unfold pairs; apply map_app. Qed.
Lemma pairs_rev l : pairs (rev l) = rev (pairs l).
Proof. unfold pairs; apply map_rev. Qed.
Lemma Lsum_flip f sg l : (forall u v, f (- v) (- u) = sg * f u v) ->
  Lsum f (rev l) = mscale sg (Lsum f l).
Proof.
  intros Hf; unfold Lsum; rewrite pairs_rev, <- (lsum_flip f sg _ Hf).
  f_equal; unfold z_bottom; rewrite hsum_rev; field.
Qed.
Lemma wA_flip u v : wA (-v) (-u) = 1 * wA u v. Proof. unfold wA; ring. Qed.
Lemma wB_flip u v : wB (-v) (-u) = (-1) * wB u v. Proof. unfold wB; ring. Qed.
Lemma wD_flip u v : wD (-v) (-u) = 1 * wD u v. Proof. unfold wD; ring. Qed.

Lemma pairs_sym l : all_readable l -> Forall (fun p => symmetric (snd p)) (pairs l).
Proof.
  intros H; unfold pairs; apply Forall_map; revert H; apply Forall_impl; intros p; simpl; apply Qbar_sym.
Qed.
Lemma Lsum_sym f l : all_readable l -> symmetric (Lsum f l).
Proof. intros H; apply lsum_sym, pairs_sym, H. Qed.

Lemma lsum_wA pl : forall z0, lsum wA z0 pl = msum (map (fun p => mscale (fst p) (snd p)) pl).
Proof.
  induction pl as [|[h Q] t IH]; intros z0; simpl; [reflexivity|].
  rewrite IH; do 2 f_equal; unfold wA; ring.
Qed.
Lemma Lsum_wA_perm l l' : Permutation l l' -> Lsum wA l = Lsum wA l'.
Proof.
  intros H; unfold Lsum; rewrite !lsum_wA; apply msum_perm, Permutation_map.
  unfold pairs; apply Permutation_map, H.
Qed.

Lemma all_readable_perm l l' : Permutation l l' -> all_readable l -> all_readable l'.
Proof. unfold all_readable; intros P H; eapply Permutation_Forall; eauto. Qed.
Lemma all_readable_rev l : all_readable l -> all_readable (rev l).
Proof. apply all_readable_perm, Permutation_rev. Qed.

Lemma mscale_m1_self A : A = mscale (-1) A -> A = mzero.
Proof.
  intros H; destruct A as [x1 x2 x3 x4 x5 x6 x7 x8 x9]; unfold mscale in H; simpl in H.
  injection H as E1 E2 E3 E4 E5 E6 E7 E8 E9; unfold mzero; f_equal; lra.
Qed.
Lemma same_stiffness_Qbar th m m' : same_stiffness m m' -> Qbar th m = Qbar th m'.
Proof. unfold same_stiffness, Qbar, Q0p; intros ->; reflexivity. Qed.
Lemma ply_equiv_pair p q : ply_equiv p q ->
  (thickness (snd q), Qbar (fst q) (snd q)) = (thickness (snd p), Qbar (fst p) (snd p)).
Proof.
  intros (Ht & Hs & k & Hk); rewrite Ht, Hk, Qbar_180_Z, (same_stiffness_Qbar _ _ _ Hs); reflexivity.
Qed.
Lemma pairs_equiv l l' : Forall2 ply_equiv l l' -> pairs l' = pairs l.
Proof.
  induction 1 as [|p q l l' H _ IH]; simpl; [reflexivity|].
  rewrite IH, (ply_equiv_pair p q H); reflexivity.
Qed.
Lemma Lsum_palindrome l : symmetric_layup l -> Lsum wB l = mzero.
Proof.
  intros H; apply mscale_m1_self; rewrite <- (Lsum_flip wB (-1) l wB_flip).
  unfold Lsum; rewrite (pairs_equiv _ _ H); reflexivity.
Qed.

(** balanced layups *)
Lemma flip16_madd A B : flip16 (madd A B) = madd (flip16 A) (flip16 B).
Proof. unfold flip16; destruct A, B; unmat; f_equal; ring. Qed.
Lemma flip16_mscale k A : flip16 (mscale k A) = mscale k (flip16 A).
Proof. unfold flip16; destruct A; unmat; f_equal; ring. Qed.
Lemma balanced_flip f l l' : all_readable l ->
  Forall2 (fun p q => ply_equiv (- fst p, snd p) q) l l' ->
  forall z0, lsum f z0 (pairs l') = flip16 (lsum f z0 (pairs l)).
Proof.
  intros Hr H; induction H as [|p q l l' Hp _ IH]; intros z0.
  - simpl; unfold flip16, mzero; simpl; f_equal; ring.
  - inversion Hr; subst; simpl; rewrite flip16_madd, flip16_mscale.
    apply ply_equiv_pair in Hp; pose proof (f_equal fst Hp) as Ht; pose proof (f_equal snd Hp) as HQ; cbn [fst snd] in Ht, HQ; rewrite Ht, HQ, Qbar_neg by assumption.
    rewrite IH by assumption; reflexivity.
Qed.
Lemma balanced_A l : all_readable l -> balanced l -> Lsum wA l = flip16 (Lsum wA l).
Proof.
  intros Hr (l'&P&F2).
  rewrite (Lsum_wA_perm l l' P) at 1.
  unfold Lsum; rewrite (balanced_flip wA l l' Hr F2), !lsum_wA; reflexivity.
Qed.

(** rotation of the laminate *)
Lemma pairs_rotate phi l :
  pairs (rotate_all phi l) = map (fun p => (fst p, rot (cdeg phi) (sdeg phi) (snd p))) (pairs l).
Proof.
  unfold pairs, rotate_all; rewrite !map_map; apply map_ext; intros [th m]; simpl; rewrite Qbar_add; reflexivity.
Qed.
Lemma hsum_map_snd g pl : hsum (map (fun p : R * mat3 => (fst p, g (snd p))) pl) = hsum pl.
Proof. unfold hsum; rewrite map_map; f_equal. Qed.
Lemma lsum_rot f c s pl : forall z0,
  lsum f z0 (map (fun p => (fst p, rot c s (snd p))) pl) = rot c s (lsum f z0 pl).
Proof.
  induction pl as [|[h Q] t IH]; intros z0; simpl; [symmetry; apply rot_mzero|].
  rewrite IH, rot_madd, rot_mscale; reflexivity.
Qed.
Lemma Lsum_rotate f phi l : Lsum f (rotate_all phi l) = rot (cdeg phi) (sdeg phi) (Lsum f l).
Proof.
  unfold Lsum; rewrite pairs_rotate, lsum_rot; unfold z_bottom; rewrite hsum_map_snd; reflexivity.
Qed.
Lemma rotate_readable phi l : all_readable l -> all_readable (rotate_all phi l).
Proof.
  unfold all_readable, rotate_all; intros H; apply Forall_map; revert H; apply Forall_impl; auto.
Qed.

(** splitting a ply *)
Lemma lsum_split f Q (hs : list R) : (forall u v w, f u v + f v w = f u w) ->
  forall z0, lsum f z0 (map (fun h => (h, Q)) hs) = mscale (f (z0 + rsum hs) z0) Q.
Proof.
  intros Hf.
  assert (H0 : forall u, f u u = 0) by (intros u; pose proof (Hf u u u); lra).
  induction hs as [|h t IH]; intros z0; simpl.
  - rewrite Rplus_0_r, H0, mscale_0; reflexivity.
  - rewrite IH, <- mscale_plus, Rplus_comm, Rplus_assoc, Hf; reflexivity.
Qed.
Lemma wA_tele u v w : wA u v + wA v w = wA u w. Proof. unfold wA; ring. Qed.
Lemma wB_tele u v w : wB u v + wB v w = wB u w. Proof. unfold wB; ring. Qed.
Lemma wD_tele u v w : wD u v + wD v w = wD u w. Proof. unfold wD; ring. Qed.
Lemma hsum_const Q hs : hsum (map (fun h => (h, Q)) hs) = rsum hs.
Proof. unfold hsum; rewrite map_map; f_equal; simpl; apply map_id. Qed.

Lemma split_pairs th m sub :
  Forall (fun p => fst p = th /\ same_stiffness (snd p) m) sub ->
  pairs sub = map (fun h => (h, Qbar th m)) (map (fun p => thickness (snd p)) sub).
Proof.
  intros H; unfold pairs; rewrite map_map; apply map_ext_in; intros p Hin.
  rewrite Forall_forall in H; destruct (H p Hin) as [<- E]; rewrite (same_stiffness_Qbar _ _ _ E); reflexivity.
Qed.
Lemma Lsum_split f l1 th m l2 sub : (forall u v w, f u v + f v w = f u w) ->
  Forall (fun p => fst p = th /\ same_stiffness (snd p) m) sub ->
  total sub = thickness m ->
  Lsum f (l1 ++ sub ++ l2) = Lsum f (l1 ++ (th, m) :: l2).
Proof.
  intros Hf Hs Ht; unfold Lsum.
  assert (Hh : hsum (pairs sub) = thickness m).
  { rewrite (split_pairs th m sub Hs), hsum_const; exact Ht. }
  assert (Ez : z_bottom (pairs (l1 ++ sub ++ l2)) = z_bottom (pairs (l1 ++ (th, m) :: l2))).
  { unfold z_bottom; do 2 f_equal; rewrite !pairs_app, !hsum_app, Hh; unfold hsum; simpl; ring. }
  rewrite Ez; set (z := z_bottom _); rewrite !pairs_app, !lsum_app; f_equal.
  set (z' := z + hsum (pairs l1)). simpl. f_equal.
  - rewrite (split_pairs th m sub Hs), (lsum_split f _ _ Hf); unfold total in Ht; rewrite Ht; reflexivity.
  - rewrite Hh; reflexivity.
Qed.
Lemma readable_split l1 th m l2 sub :
  Forall (fun p => fst p = th /\ same_stiffness (snd p) m) sub ->
  all_readable (l1 ++ (th, m) :: l2) -> all_readable (l1 ++ sub ++ l2).
Proof.
  unfold all_readable; intros Hs H; rewrite !Forall_app in *.
  destruct H as [H1 H2]; inversion H2; subst; repeat split; auto.
  revert Hs; apply Forall_impl; intros p [_ E]; unfold same_stiffness in E; simpl in *.
  unfold readable in *; rewrite E; assumption.
Qed.

(** z_position *)
Fixpoint zs (z0 : R) (hs : list R) : list R :=
  match hs with [] => [] | h :: t => (z0 + h) :: zs (z0 + h) t end.
Lemma z_loop_zs l : forall z0, z_loop l z0 = zs z0 (map (fun p => thickness (snd p)) l).
Proof. induction l as [|p t IH]; intros z0; simpl; [reflexivity|now rewrite IH]. Qed.
Lemma total_hsum l : hsum (pairs l) = total l.
Proof. unfold hsum, pairs, total; rewrite map_map; reflexivity. Qed.
Lemma z_position_zs l : z_position l = - total l / 2 :: zs (- total l / 2) (map (fun p => thickness (snd p)) l).
Proof.
  unfold z_position; rewrite total_thickness_sum, total_hsum, Rplus_0_l, z_loop_zs; reflexivity.
Qed.
Lemma zs_nth hs : forall z0 k, (k <= List.length hs)%nat ->
  nth_error (z0 :: zs z0 hs) k = Some (z0 + rsum (firstn k hs)).
Proof.
  induction hs as [|h t IH]; intros z0 k Hk.
  - destruct k; [|simpl in Hk; lia]; simpl; rewrite Rplus_0_r; reflexivity.
  - destruct k; [simpl; rewrite Rplus_0_r; reflexivity|].
    change (nth_error (z0 :: zs z0 (h :: t)) (S k)) with (nth_error (z0 + h :: zs (z0 + h) t) k).
    simpl in Hk; rewrite IH by lia; simpl; rewrite Rplus_assoc; reflexivity.
Qed.
Lemma zs_length hs : forall z0, List.length (zs z0 hs) = List.length hs.
Proof. induction hs; intros; simpl; auto. Qed.
