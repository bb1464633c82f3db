(** Proofs of the laminate properties C08-C20, C23, C24 (LaminateProperty, exact arithmetic). *)
From Coq Require Import Reals List Lra Psatz Lia Permutation String.
From Verif Require Import M_Py S_Mat M_Material M_Laminate M_LamHistory S_Laminate L_Mat L_Lam L_LamAlg L_LamSums L_LamEnergy.
Import ListNotations.
Open Scope string_scope.
Open Scope list_scope.
Open Scope R_scope.

Lemma Ok_inj {A} (x y : A) : Ok x = Ok y -> x = y.
Proof. intros H; injection H; auto. Qed.
Lemma Q_0_err m e : Q_0 m = Err e -> e = ZeroDivisionError.
Proof.
  destruct m as [o|i]; simpl; unfold o_Q0, i_Q0, pydiv.
  - destruct (Req_EM_T _ _); simpl; congruence.
  - destruct (Req_EM_T _ _); simpl; congruence.
Qed.
Lemma readable_or m : readable m \/ Q_0 m = Err ZeroDivisionError.
Proof.
  unfold readable; destruct (Q_0 m) as [q|e] eqn:E; [left; eauto|right; f_equal; eapply Q_0_err; eauto].
Qed.
Lemma Q_loop_or l : forall acc, all_readable l \/ exists q, Q_loop l acc = (q, Some ZeroDivisionError).
Proof.
  induction l as [|[th m] t IH]; intros acc; [left; constructor|]; simpl.
  unfold Q_ply; rewrite inv3_T_real by apply cs1; simpl.
  destruct (readable_or m) as [[q E]|E]; rewrite E; simpl; [|eauto].
  destruct (IH (acc ++ [mmul (mmul (T_real_inv (cdeg th) (sdeg th)) q) (T_engineering (cdeg th) (sdeg th))])%list) as [H|H];
    [left; constructor; [exists q; exact E|exact H]|right; exact H].
Qed.
Lemma reads_or l : all_readable l \/
  (A_of l = Err ZeroDivisionError /\ B_of l = Err ZeroDivisionError /\ D_of l = Err ZeroDivisionError /\
   ABD_of l = Err ZeroDivisionError /\ Q_layup_of l = Err ZeroDivisionError).
Proof.
  destruct (Q_loop_or l []) as [H|[q E]]; [left; exact H|right].
  unfold A_of, B_of, D_of, ABD_of, Q_layup_of; rewrite laminate_of_eq; simpl.
  unfold get_ABD, get_A, get_B, get_D, from_layup, get_Q_layup; simpl; rewrite E; auto 10.
Qed.
Ltac reads l H := destruct (reads_or l) as [H|(?EA & ?EB & ?ED & ?EABD & ?EQ)].

Lemma readable_iff_perm l l' : Permutation l l' -> all_readable l -> all_readable l'.
Proof. apply all_readable_perm. Qed.
Lemma not_readable l : ~ all_readable l -> A_of l = Err ZeroDivisionError /\ B_of l = Err ZeroDivisionError /\
   D_of l = Err ZeroDivisionError /\ ABD_of l = Err ZeroDivisionError /\ Q_layup_of l = Err ZeroDivisionError.
Proof. intros N; destruct (reads_or l) as [H|H]; [contradiction|exact H]. Qed.
Lemma readable_em l : all_readable l \/ ~ all_readable l.
Proof.
  destruct (reads_or l) as [H|(E&_)]; [left; exact H|right; intros H; rewrite A_of_eq in E by assumption; discriminate].
Qed.

(* ------------------------------------------------------------------ C08, C09 *)
(*@ C08: one material is used for every angle; the construction always succeeds. @*)
Lemma t_C08_one_material : forall angles m, exists L,
  construct (SAngles angles) (POne m) = Ok L /\
  layup L = map (fun a => (a, m)) angles /\ plies L = PMany (repeat m (List.length angles)).
Proof.
  intros angles m; eexists; split; [reflexivity|]; simpl; split; [|reflexivity].
  induction angles as [|a t IH]; simpl; [reflexivity|now rewrite IH].
Qed.

(*@ C08: a list of plies is accepted exactly when its length is the number of angles (otherwise ValueError), and
    ply i is paired with angle i. @*)
Lemma t_C08_many_materials : forall angles pl,
  (List.length pl = List.length angles ->
     exists L, construct (SAngles angles) (PMany pl) = Ok L /\ List.length (layup L) = List.length angles /\
       forall i a m, nth_error angles i = Some a -> nth_error pl i = Some m -> nth_error (layup L) i = Some (a, m)) /\
  (List.length pl <> List.length angles -> construct (SAngles angles) (PMany pl) = Err ValueError).
Proof.
  intros angles pl; split; intros H; unfold construct; destruct (Nat.eqb_spec (List.length pl) (List.length angles)); try contradiction; simpl.
  - eexists; split; [reflexivity|]; simpl; split; [rewrite combine_length; lia|].
    clear -H; revert pl H; induction angles as [|a t IH]; intros [|m pl] H i a' m'; simpl in *; try discriminate;
      destruct i; simpl; try discriminate; try congruence. intros; apply IH; auto.
  - reflexivity.
Qed.

(*@ C08, concrete instance. @*)
Example t_C08_ex : exists L, construct (SAngles [0; 90]) (PMany [Ortho ex_mat; Ortho ex_mat]) = Ok L
  /\ layup L = [(0, Ortho ex_mat); (90, Ortho ex_mat)].
Proof. eexists; split; reflexivity. Qed.

(*@ C09: a dictionary is accepted exactly when it has the keys xiD and T; a missing key surfaces as
    UnboundLocalError, never as KeyError. @*)
Lemma t_C09_dict_accepted : forall d p,
  (lookup d "xiD" <> None /\ lookup d "T" <> None -> exists L, construct (SDict d) p = Ok L) /\
  (lookup d "xiD" = None \/ lookup d "T" = None -> construct (SDict d) p = Err UnboundLocalError).
Proof.
  intros d p; unfold construct; destruct (lookup d "xiD"), (lookup d "T"); simpl; split; intros H; eauto; intuition congruence.
Qed.

(*@ C09: only xiA, xiD and T matter: two dictionaries that agree on these keys give laminates that cannot be told
    apart by any sequence of attribute reads (whatever their xiB and other keys), and every read of B gives zero. @*)
Lemma t_C09_xiB_ignored : forall d d' p L L' reads,
  lookup d "xiA" = lookup d' "xiA" -> lookup d "xiD" = lookup d' "xiD" -> lookup d "T" = lookup d' "T" ->
  construct (SDict d) p = Ok L -> construct (SDict d') p = Ok L' ->
  run L reads = run L' reads /\ snd (get_B L) = Ok mzero.
Proof.
  intros d d' p L L' reads EA ED ET HL HL'.
  pose proof (construct_Inv _ _ _ HL) as I; pose proof (construct_Inv _ _ _ HL') as I'.
  unfold construct in HL, HL'; rewrite <- EA, <- ED, <- ET in HL'.
  destruct (lookup d "xiD") as [xD|]; [|discriminate]; simpl in HL, HL'.
  destruct (lookup d "T") as [xT|]; [|discriminate]; simpl in HL, HL'.
  injection HL as <-; injection HL' as <-.
  split.
  - rewrite !run_pure; try (assumption || apply Forall_nil).
    apply map_ext; intros r; destruct r; try reflexivity.
  - edestruct get_B_inv as (L2&E&_); [|exact I|rewrite E; reflexivity]; apply Forall_nil.
Qed.

(*@ C09, concrete instance: the hypotheses are satisfiable with different xiB. @*)
Example t_C09_ex : exists L L',
  construct (SDict [("xiA", DVec [1;0;1;0]); ("xiB", DVec [1;1;1;1]); ("xiD", DVec [1;0;1;0]); ("T", DNum 1)]) (POne (Ortho ex_mat)) = Ok L /\
  construct (SDict [("xiA", DVec [1;0;1;0]); ("xiD", DVec [1;0;1;0]); ("T", DNum 1)]) (POne (Ortho ex_mat)) = Ok L' /\
  construct (SDict [("xiA", DVec [1;0;1;0]); ("T", DNum 1)]) (POne (Ortho ex_mat)) = Err UnboundLocalError.
Proof. do 2 eexists; repeat split. Qed.

(* ------------------------------------------------------------------ C10 *)
(*@ C10: z_position has one entry more than plies; entry k is minus half the total plus the thicknesses of the first
    k plies. @*)
Lemma t_C10_interfaces : forall l,
  List.length (z_position l) = S (List.length l) /\
  forall k, (k <= List.length l)%nat ->
    nth_error (z_position l) k = Some (- total l / 2 + total (firstn k l)).
Proof.
  intros l; rewrite z_position_zs; split; [simpl; rewrite zs_length, map_length; reflexivity|].
  intros k Hk; rewrite zs_nth by (rewrite map_length; exact Hk).
  unfold total; rewrite firstn_map; reflexivity.
Qed.
Lemma total_firstn_S l k th m : nth_error l k = Some (th, m) -> total (firstn (S k) l) = total (firstn k l) + thickness m.
Proof.
  revert k; induction l as [|p t IH]; intros k H; [destruct k; discriminate|].
  destruct k; simpl in H; [injection H as ->; unfold total; simpl; ring|].
  change (firstn (S (S k)) (p :: t)) with (p :: firstn (S k) t); change (firstn (S k) (p :: t)) with (p :: firstn k t).
  unfold total in *; cbn [map rsum]; rewrite (IH k H); ring.
Qed.

(*@ C10: first and last entries are minus and plus half the total; consecutive entries differ by the ply thickness, so
    the list is increasing when thicknesses are positive. @*)
Lemma t_C10_ends_and_steps : forall l,
  nth_error (z_position l) 0 = Some (- total l / 2) /\
  nth_error (z_position l) (List.length l) = Some (total l / 2) /\
  forall k th m, nth_error l k = Some (th, m) -> exists z0 z1,
    nth_error (z_position l) k = Some z0 /\ nth_error (z_position l) (S k) = Some z1 /\
    z1 - z0 = thickness m /\ (0 <= thickness m -> z0 <= z1) /\ (0 < thickness m -> z0 < z1).
Proof.
  intros l; destruct (t_C10_interfaces l) as [_ H]; split; [|split].
  - rewrite H by lia; simpl firstn; unfold total at 2; simpl; f_equal; lra.
  - rewrite H, firstn_all by lia; f_equal; lra.
  - intros k th m Hk; assert (k < List.length l)%nat by (apply nth_error_Some; congruence).
    exists (- total l / 2 + total (firstn k l)), (- total l / 2 + total (firstn (S k) l)).
    rewrite !H by lia; rewrite (total_firstn_S _ _ _ _ Hk); repeat split; intros; lra.
Qed.

(*@ C10, concrete instance. @*)
Example t_C10_ex : z_position [(0, Ortho ex_mat); (90, Ortho ex_mat)] = [-1; 0; 1].
Proof. unfold z_position; simpl; repeat f_equal; lra. Qed.

(* ------------------------------------------------------------------ C11, C12 *)
Lemma Q_entry_eq l i th m : nth_error l i = Some (th, m) -> all_readable l ->
  Q_entry l i = Ok (Qbar th m).
Proof.
  intros Hi Hr; unfold Q_entry; rewrite Q_layup_of_eq by assumption; unfold get, Qs_of; simpl.
  rewrite nth_error_map, Hi; reflexivity.
Qed.
Lemma readable_nth l i th m : nth_error l i = Some (th, m) -> all_readable l -> readable m.
Proof. intros Hi Hr; unfold all_readable in Hr; rewrite Forall_forall in Hr; apply (Hr (th, m)); eapply nth_error_In; eauto. Qed.
Lemma Q_entry_inv l i Q : Q_entry l i = Ok Q ->
  all_readable l /\ exists th m, nth_error l i = Some (th, m) /\ Q = Qbar th m.
Proof.
  unfold Q_entry; reads l H; [|rewrite EQ; discriminate].
  rewrite Q_layup_of_eq by assumption; unfold get, Qs_of; simpl; rewrite nth_error_map.
  destruct (nth_error l i) as [[th m]|]; simpl; [|discriminate]; intros E; injection E as <-; eauto.
Qed.

(*@ C11: the matrix inverted by Q_layup is never singular. @*)
Lemma t_C11_never_singular : forall theta, exists Ti,
  inv3 (T_real (cdeg theta) (sdeg theta)) = Ok Ti /\
  mmul Ti (T_real (cdeg theta) (sdeg theta)) = mid /\ mmul (T_real (cdeg theta) (sdeg theta)) Ti = mid.
Proof.
  intros th; exists (T_real_inv (cdeg th) (sdeg th)); rewrite inv3_T_real by apply cs1; split; [reflexivity|].
  pose proof (cs1 th) as H; set (c := cdeg th) in *; set (s := sdeg th) in *; clearbody c s.
  assert (Hs : s^2 = 1 - c^2) by lra; destruct (poly_mod_c c s Hs) as [H4 H3].
  unfold T_real, T_real_inv, mmul, mid; split; apply mat3_ext; cbn [a11 a12 a13 a21 a22 a23 a31 a32 a33];
    ring_simplify; rewrite ?H4, ?H3, ?Hs; ring.
Qed.

(*@ C11: reading Q_layup raises (ZeroDivisionError) exactly when some ply has an unreadable Q_0; otherwise it has one
    entry per ply. @*)
Lemma t_C11_Q_layup_defined : forall l,
  (all_readable l -> exists Qs, Q_layup_of l = Ok Qs /\ List.length Qs = List.length l) /\
  (~ all_readable l -> Q_layup_of l = Err ZeroDivisionError).
Proof.
  intros l; split; intros H.
  - exists (Qs_of l); rewrite Q_layup_of_eq by assumption; split; [reflexivity|unfold Qs_of; apply map_length].
  - apply not_readable in H; tauto.
Qed.

(*@ C11: every entry of Q_layup is the textbook transformed stiffness of its ply, and maps every plate strain to the
    stress obtained by rotating the strain tensor into ply axes, applying Q_0 and rotating the stress tensor back. @*)
Lemma t_C11_rotated_stiffness : forall l i th m Q q,
  nth_error l i = Some (th, m) -> Q_entry l i = Ok Q -> Q_0 m = Ok q ->
  Q = Qbar_textbook q (cdeg th) (sdeg th) /\
  forall e, mvec Q e = ply_stress (cdeg th) (sdeg th) q e.
Proof.
  intros l i th m Q q Hi HQ Hq; apply Q_entry_inv in HQ; destruct HQ as (Hr & th' & m' & Hi' & ->).
  rewrite Hi in Hi'; injection Hi' as <- <-.
  pose proof (readable_nth _ _ _ _ Hi Hr) as Hm.
  assert (E : Q0p m = q) by (unfold Q0p; rewrite Hq; reflexivity); rewrite <- E.
  split; [apply Qbar_textbook_ok; exact Hm|intros e; apply Qbar_stress; exact Hm].
Qed.

(*@ C11: ... and the multiple-angle form with the U's returned by Invariants(). @*)
Lemma t_C11_multiple_angles : forall l i th m Q U,
  nth_error l i = Some (th, m) -> Q_entry l i = Ok Q -> Invariants m = Ok U ->
  Q = Qbar_multiangle U (th * PI / 180).
Proof.
  intros l i th m Q U Hi HQ HU; apply Q_entry_inv in HQ; destruct HQ as (Hr & th' & m' & Hi' & ->).
  rewrite Hi in Hi'; injection Hi' as <- <-.
  pose proof (readable_nth _ _ _ _ Hi Hr) as Hm.
  rewrite Qbar_multi_ok, <- rad_deg by assumption; f_equal.
  destruct m as [o|]; simpl in HU; [|discriminate].
  unfold Q0p; simpl; destruct (o_Q0 o); simpl in *; [injection HU as <-; reflexivity|discriminate].
Qed.

(*@ C12: every entry is a symmetric matrix and its two trace-type invariants do not depend on the angle. @*)
Lemma t_C12_symmetric_invariants : forall l i th m Q q,
  nth_error l i = Some (th, m) -> Q_entry l i = Ok Q -> Q_0 m = Ok q ->
  symmetric Q /\ a11 Q + a22 Q + 2 * a12 Q = a11 q + a22 q + 2 * a12 q /\ a33 Q - a12 Q = a33 q - a12 q.
Proof.
  intros l i th m Q q Hi HQ Hq; apply Q_entry_inv in HQ; destruct HQ as (Hr & th' & m' & Hi' & ->).
  rewrite Hi in Hi'; injection Hi' as <- <-.
  pose proof (readable_nth _ _ _ _ Hi Hr) as Hm.
  assert (E : Q0p m = q) by (unfold Q0p; rewrite Hq; reflexivity); rewrite <- E.
  split; [apply Qbar_sym; exact Hm|apply (Qbar_invariants th m Hm)].
Qed.

(*@ C12: a half turn changes nothing; a quarter turn exchanges 11 and 22 and maps 16 to -26; a mirrored angle changes
    the sign of the 16 and 26 terms only. (l and l' are any two layups containing the two plies.) @*)
Lemma t_C12_angle_symmetries : forall l l' i j th th' m Q Q',
  nth_error l i = Some (th, m) -> nth_error l' j = Some (th', m) -> Q_entry l i = Ok Q -> Q_entry l' j = Ok Q' ->
  (forall k : Z, th' = th + 180 * IZR k -> Q' = Q) /\
  (th' = th + 90 -> a11 Q' = a22 Q /\ a22 Q' = a11 Q /\ a12 Q' = a12 Q /\ a33 Q' = a33 Q /\
                    a13 Q' = - a23 Q /\ a23 Q' = - a13 Q) /\
  (th' = - th -> a11 Q' = a11 Q /\ a22 Q' = a22 Q /\ a12 Q' = a12 Q /\ a33 Q' = a33 Q /\
                 a13 Q' = - a13 Q /\ a23 Q' = - a23 Q).
Proof.
  intros l l' i j th th' m Q Q' Hi Hj HQ HQ'.
  apply Q_entry_inv in HQ; destruct HQ as (Hr & t1 & m1 & E1 & ->); rewrite Hi in E1; injection E1 as <- <-.
  apply Q_entry_inv in HQ'; destruct HQ' as (Hr' & t2 & m2 & E2 & ->); rewrite Hj in E2; injection E2 as <- <-.
  pose proof (readable_nth _ _ _ _ Hi Hr) as Hm.
  pose proof (Qbar_sym th m Hm) as S; unfold symmetric in S.
  assert (S12 : a21 (Qbar th m) = a12 (Qbar th m)) by (rewrite <- S at 1; reflexivity).
  split; [|split].
  - intros k ->; apply Qbar_180_Z.
  - intros ->; rewrite Qbar_90 by assumption; unfold swap12; cbn [a11 a12 a13 a21 a22 a23 a31 a32 a33]; auto 10.
  - intros ->; rewrite Qbar_neg by assumption; unfold flip16; cbn [a11 a12 a13 a21 a22 a23 a31 a32 a33]; auto 10.
Qed.

Lemma ex_readable : readable (Ortho ex_mat).
Proof.
  unfold readable; simpl; rewrite o_Q0_spec.
  destruct (Req_EM_T (o_den ex_mat) 0) as [E|N]; [|eauto].
  exfalso; revert E; unfold o_den, o_v21, ex_mat; simpl; lra.
Qed.
Lemma ex_Q0 : Q_0 (Ortho ex_mat) = Ok (M3 2 0 0 0 1 0 0 0 1).
Proof.
  simpl; rewrite o_Q0_spec; assert (D : o_den ex_mat = 1) by (unfold o_den, o_v21, ex_mat; simpl; lra).
  destruct (Req_EM_T (o_den ex_mat) 0) as [E|N]; [lra|].
  f_equal; unfold o_Qval; rewrite D; unfold ex_mat; simpl; f_equal; lra.
Qed.
Lemma ex_all_readable a b : all_readable [(a, Ortho ex_mat); (b, Ortho ex_mat)].
Proof. repeat constructor; apply ex_readable. Qed.
Lemma cdeg_0 : cdeg 0 = 1. Proof. unfold cdeg; replace (0*PI/180) with 0 by field; apply cos_0. Qed.
Lemma sdeg_0 : sdeg 0 = 0. Proof. unfold sdeg; replace (0*PI/180) with 0 by field; apply sin_0. Qed.
Lemma cdeg_90' : cdeg 90 = 0. Proof. replace 90 with (0+90) by ring; rewrite cdeg_90, sdeg_0; ring. Qed.
Lemma sdeg_90' : sdeg 90 = 1. Proof. replace 90 with (0+90) by ring; rewrite sdeg_90, cdeg_0; ring. Qed.
Lemma ex_Q0p : Q0p (Ortho ex_mat) = M3 2 0 0 0 1 0 0 0 1.
Proof. unfold Q0p; rewrite ex_Q0; reflexivity. Qed.
Lemma ex_Q_0 : Qbar 0 (Ortho ex_mat) = M3 2 0 0 0 1 0 0 0 1.
Proof.
  rewrite Qbar_textbook_ok by apply ex_readable; rewrite ex_Q0p, cdeg_0, sdeg_0.
  unfold Qbar_textbook; simpl; f_equal; ring.
Qed.
Lemma ex_Q_90 : Qbar 90 (Ortho ex_mat) = M3 1 0 0 0 2 0 0 0 1.
Proof.
  rewrite Qbar_textbook_ok by apply ex_readable; rewrite ex_Q0p, cdeg_90', sdeg_90'.
  unfold Qbar_textbook; simpl; f_equal; ring.
Qed.

(*@ C11, C12, concrete instance: a 0/90 laminate whose two entries differ. @*)
Example t_C11_ex :
  Q_entry [(0, Ortho ex_mat); (90, Ortho ex_mat)] 0 = Ok (M3 2 0 0 0 1 0 0 0 1) /\
  Q_entry [(0, Ortho ex_mat); (90, Ortho ex_mat)] 1 = Ok (M3 1 0 0 0 2 0 0 0 1) /\
  exists U, Invariants (Ortho ex_mat) = Ok U.
Proof.
  pose proof (ex_all_readable 0 90) as H; repeat split.
  - rewrite (Q_entry_eq _ 0 0 (Ortho ex_mat)) by (auto; reflexivity); rewrite ex_Q_0; reflexivity.
  - rewrite (Q_entry_eq _ 1 90 (Ortho ex_mat)) by (auto; reflexivity); rewrite ex_Q_90; reflexivity.
  - pose proof ex_Q0 as E; simpl in *; rewrite E; simpl; eauto.
Qed.

(* ------------------------------------------------------------------ C13 *)
Lemma A_from_xi_sym U x T : symmetric (A_from_xi U x T).
Proof. destruct U as [[[[? ?] ?] ?] ?], x as [[[? ?] ?] ?]; reflexivity. Qed.
Lemma D_from_xi_sym U x T : symmetric (D_from_xi U x T).
Proof. destruct U as [[[[? ?] ?] ?] ?], x as [[[? ?] ?] ?]; reflexivity. Qed.
Lemma pure_A_sym L A : all_readable (layup L) -> pure_A L = Ok A -> symmetric A.
Proof.
  intros H; unfold pure_A, xi_value; destruct (p_xiA L).
  1,2: destruct (the_invariants (plies L)); cbn [bind]; [|discriminate]; match goal with |- context[unpack4 ?x] => destruct (unpack4 x) end; cbn [bind]; [|discriminate];
    destruct (as_num (p_T L)); simpl; [|discriminate]; intros E; injection E as <-; apply A_from_xi_sym.
  intros E; injection E as <-; apply Lsum_sym, H.
Qed.
Lemma pure_D_sym L A : all_readable (layup L) -> pure_D L = Ok A -> symmetric A.
Proof.
  intros H; unfold pure_D, xi_value; destruct (p_xiD L).
  1,2: destruct (the_invariants (plies L)); cbn [bind]; [|discriminate]; match goal with |- context[unpack4 ?x] => destruct (unpack4 x) end; cbn [bind]; [|discriminate];
    destruct (as_num (p_T L)); simpl; [|discriminate]; intros E; injection E as <-; apply D_from_xi_sym.
  intros E; injection E as <-; apply Lsum_sym, H.
Qed.
Lemma construct_layup_dict d p L : construct (SDict d) p = Ok L -> layup L = [].
Proof.
  unfold construct; destruct (lookup d "xiD"); simpl; [|discriminate].
  destruct (lookup d "T"); simpl; [|discriminate]; intros E; injection E as <-; reflexivity.
Qed.
Lemma construct_angle_eq a p L : construct (SAngles a) p = Ok L -> L = fresh (layup L).
Proof.
  intros H; unfold construct in H; destruct p as [m|pl]; simpl in H.
  - injection H as <-; unfold fresh; simpl.
    assert (E : forall a : list R, map fst (combine a (repeat m (List.length a))) = a /\ map snd (combine a (repeat m (List.length a))) = repeat m (List.length a)).
    { intros b; induction b as [|x t [E1 E2]]; simpl; [auto|rewrite E1, E2; auto]. }
    destruct (E a) as [-> ->]; reflexivity.
  - destruct (Nat.eqb_spec (List.length pl) (List.length a)); simpl in H; [|discriminate]; injection H as <-; unfold fresh; simpl.
    assert (E : map fst (combine a pl) = a /\ map snd (combine a pl) = pl).
    { revert pl e; induction a as [|x t IH]; intros [|y pl] e; simpl in *; try discriminate; auto.
      injection e as e; destruct (IH pl e) as [-> ->]; auto. }
    destruct E as [-> ->]; reflexivity.
Qed.

(*@ C13: A, B, D of every laminate are symmetric and ABD is the symmetric matrix with blocks A, B, B, D, whatever
    the construction (angles or lamination parameters), whenever the reads succeed. @*)
Lemma t_C13_symmetric : forall s p L M,
  construct s p = Ok L -> snd (get_ABD L) = Ok M ->
  snd (get_A L) = Ok (blkA M) /\ snd (get_B L) = Ok (blkB M) /\ snd (get_D L) = Ok (blkD M) /\ blkC M = blkB M /\
  symmetric (blkA M) /\ symmetric (blkB M) /\ symmetric (blkD M) /\ sym6 M.
Proof.
  intros s p L M HL HM; pose proof (construct_Inv _ _ _ HL) as I.
  assert (Hr : all_readable (layup L)).
  { destruct s as [a|d]; [|rewrite (construct_layup_dict _ _ _ HL); constructor].
    destruct (reads_or (layup L)) as [H|(_&_&_&E&_)]; [exact H|].
    unfold ABD_of in E; rewrite laminate_of_eq in E; simpl in E.
    rewrite <- (construct_angle_eq _ _ _ HL) in E; congruence. }
  pose proof (all_readable_ok _ Hr) as Hok.
  destruct (get_ABD_inv L Hok I) as (L1&E&_); rewrite E in HM; simpl in HM.
  destruct (get_A_inv L Hok I) as (L2&EA&_); rewrite EA; simpl.
  destruct (get_B_inv L Hok I) as (L3&EB&_); rewrite EB; simpl.
  destruct (get_D_inv L Hok I) as (L4&ED&_); rewrite ED; simpl.
  unfold pure_ABD in HM; destruct (pure_A L) as [a|] eqn:PA; simpl in HM; [|discriminate].
  destruct (pure_B L) as [b|] eqn:PB; simpl in HM; [|discriminate].
  destruct (pure_D L) as [d|] eqn:PD; simpl in HM; [|discriminate].
  injection HM as <-; simpl.
  assert (symmetric b) by (unfold pure_B in PB; injection PB as <-; apply Lsum_sym, Hr).
  pose proof (pure_A_sym _ _ Hr PA); pose proof (pure_D_sym _ _ Hr PD).
  unfold sym6; cbn [blkA blkB blkC blkD]; repeat apply conj; auto. all: apply (Lsum_sym wB _ Hr).
Qed.

(*@ C13: for angle laminates the reads of A, B, D, ABD succeed exactly when every Q_0 is readable. @*)
Lemma t_C13_defined : forall l,
  (all_readable l -> exists A B D, A_of l = Ok A /\ B_of l = Ok B /\ D_of l = Ok D /\ ABD_of l = Ok (M6 A B B D)) /\
  (~ all_readable l -> A_of l = Err ZeroDivisionError /\ B_of l = Err ZeroDivisionError /\
      D_of l = Err ZeroDivisionError /\ ABD_of l = Err ZeroDivisionError).
Proof.
  intros l; split; intros H.
  - do 3 eexists; rewrite A_of_eq, B_of_eq, D_of_eq, ABD_of_eq by assumption; auto.
  - apply not_readable in H; tauto.
Qed.

(*@ C13, concrete instance: a laminate whose B is not zero. @*)
Example t_C13_ex : B_of [(0, Ortho ex_mat); (90, Ortho ex_mat)] = Ok (M3 (-1/2) 0 0 0 (1/2) 0 0 0 0).
Proof.
  rewrite B_of_eq by apply ex_all_readable; f_equal; unfold Lsum, z_bottom, hsum, pairs; cbn [map fst snd rsum lsum].
  rewrite ex_Q_0, ex_Q_90; unfold wB, thickness, ex_mat; unmat; simpl; f_equal; field.
Qed.

(* ------------------------------------------------------------------ C14-C17 *)
(*@ C14: a layup that reads the same from both faces has B = 0. @*)
Lemma t_C14_symmetric_no_coupling : forall l B, symmetric_layup l -> B_of l = Ok B -> B = mzero.
Proof.
  intros l B H; reads l Hr; [|rewrite EB; discriminate].
  rewrite B_of_eq by assumption; intros E; injection E as <-; apply Lsum_palindrome, H.
Qed.

(*@ C14, concrete instance. @*)
Example t_C14_ex : symmetric_layup [(0, Ortho ex_mat); (90, Ortho ex_mat); (180, Ortho ex_mat)] /\
  exists B, B_of [(0, Ortho ex_mat); (90, Ortho ex_mat); (180, Ortho ex_mat)] = Ok B.
Proof.
  split.
  - unfold symmetric_layup, ply_equiv; simpl; repeat constructor; simpl.
    + exists 1%Z; lra.
    + exists 0%Z; lra.
    + exists (-1)%Z; lra.
  - eexists; apply B_of_eq; repeat constructor; apply ex_readable.
Qed.

(*@ C15: A does not depend on the stacking order (even the error, when some ply cannot be read). @*)
Lemma t_C15_A_order : forall l l', Permutation l l' -> A_of l = A_of l'.
Proof.
  intros l l' P; destruct (readable_em l) as [H|H].
  - rewrite !A_of_eq by (try apply (all_readable_perm l l' P); assumption); f_equal; apply Lsum_wA_perm, P.
  - assert (H' : ~ all_readable l') by (intros C; apply H, (all_readable_perm l' l); [apply Permutation_sym, P|exact C]).
    apply not_readable in H, H'; destruct H as [-> _], H' as [-> _]; reflexivity.
Qed.
Lemma xsum_wA g l : forall z0, xsum g wA z0 l = rsum (map (fun p => thickness (snd p) * g (fst p)) l).
Proof. induction l as [|p t IH]; intros z0; simpl; [reflexivity|rewrite IH; unfold wA; ring]. Qed.
Lemma total_perm l l' : Permutation l l' -> total l = total l'.
Proof. intros P; unfold total; apply rsum_perm, Permutation_map, P. Qed.
Lemma xi_zero_total f k pw l : total l ^ pw = 0 -> xi_get f k pw (fresh l) = Err NotFinite.
Proof.
  intros HT; unfold xi_get, fresh; simpl; rewrite plies_total.
  unfold z_position; rewrite total_thickness_sum, total_hsum, Rplus_0_l; fold (zb l).
  pose proof (xi_loop_sum f l [] (zb l) 0 0 0 0 0 eq_refl) as E; simpl in E; rewrite E; simpl.
  destruct (Req_EM_T (total l ^ pw) 0); [reflexivity|contradiction].
Qed.

(*@ C15: nor does xiA. @*)
Lemma t_C15_xiA_order : forall l l', Permutation l l' -> xiA_of l = xiA_of l'.
Proof.
  intros l l' P; pose proof (total_perm l l' P) as T.
  destruct (Req_dec (total l) 0) as [Z|N].
  - unfold xiA_of; rewrite !laminate_of_eq; simpl; unfold get_xiA; rewrite !xi_zero_total by (simpl; lra); reflexivity.
  - rewrite !xiA_of_eq by (rewrite <- ?T; assumption); rewrite !xsum_wA, T.
    assert (X : forall g, rsum (map (fun p : R * material => thickness (snd p) * g (fst p)) l) =
                          rsum (map (fun p : R * material => thickness (snd p) * g (fst p)) l'))
      by (intros g; apply rsum_perm, Permutation_map, P).
    rewrite !X; reflexivity.
Qed.

(*@ C15: B and D do depend on the order. @*)
Lemma t_C15_BD_order_refuted :
  (exists l l', Permutation l l' /\ all_readable l /\ B_of l <> B_of l') /\
  (exists l l', Permutation l l' /\ all_readable l /\ D_of l <> D_of l').
Proof.
  split.
  - exists [(0, Ortho ex_mat); (90, Ortho ex_mat)], [(90, Ortho ex_mat); (0, Ortho ex_mat)].
    split; [constructor|split; [apply ex_all_readable|]].
    rewrite !B_of_eq by apply ex_all_readable; intros E; apply Ok_inj in E.
    apply (f_equal a11) in E; revert E; unfold Lsum, z_bottom, hsum, pairs; cbn [map fst snd rsum lsum].
    rewrite ex_Q_0, ex_Q_90; unfold wB, thickness, ex_mat; unmat; simpl; lra.
  - exists [(0, Ortho ex_mat); (0, Ortho ex_mat); (90, Ortho ex_mat)], [(0, Ortho ex_mat); (90, Ortho ex_mat); (0, Ortho ex_mat)].
    assert (R3 : forall a b c, all_readable [(a, Ortho ex_mat); (b, Ortho ex_mat); (c, Ortho ex_mat)])
      by (intros; repeat constructor; apply ex_readable).
    split; [constructor; constructor|split; [apply R3|]].
    rewrite !D_of_eq by apply R3; intros E; apply Ok_inj in E.
    apply (f_equal a11) in E; revert E; unfold Lsum, z_bottom, hsum, pairs; cbn [map fst snd rsum lsum].
    rewrite ex_Q_0, ex_Q_90; unfold wD, thickness, ex_mat; unmat; simpl; lra.
Qed.

(*@ C16: turning the laminate upside down keeps A and D and negates B. @*)
Lemma t_C16_flip : forall l,
  A_of (rev l) = A_of l /\ D_of (rev l) = D_of l /\ B_of (rev l) = (B <- B_of l ;; Ok (mneg B)).
Proof.
  intros l; destruct (readable_em l) as [H|H].
  - pose proof (all_readable_rev l H) as H'; rewrite !A_of_eq, !B_of_eq, !D_of_eq by assumption; simpl.
    rewrite (Lsum_flip wA 1 l wA_flip), (Lsum_flip wB (-1) l wB_flip), (Lsum_flip wD 1 l wD_flip), !mscale_1; auto.
  - assert (H' : ~ all_readable (rev l)) by (intros C; apply H; rewrite <- (rev_involutive l); apply all_readable_rev, C).
    apply not_readable in H, H'; destruct H as (->&->&->&_), H' as (->&->&->&_); auto.
Qed.
(*@ C16, concrete instance: B is not zero here (see C13_ex), so the sign matters. @*)
Example t_C16_ex : B_of (rev [(0, Ortho ex_mat); (90, Ortho ex_mat)]) = Ok (mneg (M3 (-1/2) 0 0 0 (1/2) 0 0 0 0)).
Proof. destruct (t_C16_flip [(0, Ortho ex_mat); (90, Ortho ex_mat)]) as (_&_&->); rewrite t_C13_ex; reflexivity. Qed.

(*@ C17: balanced layups have no shear-extension coupling. @*)
Lemma t_C17_balanced : forall l A, balanced l -> A_of l = Ok A ->
  a13 A = 0 /\ a23 A = 0 /\ a31 A = 0 /\ a32 A = 0.
Proof.
  intros l A H; reads l Hr; [|rewrite EA; discriminate].
  rewrite A_of_eq by assumption; intros E; injection E as <-.
  pose proof (balanced_A l Hr H) as E.
  pose proof (f_equal a13 E) as E1; pose proof (f_equal a23 E) as E2; pose proof (f_equal a31 E) as E3; pose proof (f_equal a32 E) as E4.
  unfold flip16 in *; cbn [a13 a23 a31 a32] in *; repeat split; lra.
Qed.
Lemma period_Z (g : R -> R) : (forall x, g (x + 2*PI) = g x) -> forall x (k : Z), g (x + 2*PI * IZR k) = g x.
Proof.
  intros Hg; assert (N : forall (k : nat) x, g (x + 2*PI * INR k) = g x).
  { induction k as [|k IH]; intros x; [simpl; f_equal; ring|].
    rewrite S_INR; replace (x + 2*PI*(INR k + 1)) with (x + 2*PI*INR k + 2*PI) by ring; rewrite Hg; apply IH. }
  intros x k; destruct (Z_le_gt_dec 0 k) as [H|H].
  - rewrite <- (Z2Nat.id k H), <- INR_IZR_INZ; apply N.
  - rewrite <- (N (Z.to_nat (-k)) (x + 2*PI*IZR k)); f_equal; rewrite INR_IZR_INZ, Z2Nat.id, opp_IZR by lia; ring.
Qed.
Lemma sin_2PI x : sin (x + 2*PI) = sin x.
Proof. replace (x + 2*PI) with (x + 2 * INR 1 * PI) by (simpl; ring); apply sin_period. Qed.
Lemma s2_neg th k : s2 (- th + 180 * IZR k) = - s2 th.
Proof.
  unfold s2; replace (2 * ((- th + 180 * IZR k) * (PI/180))) with (- (2 * (th * (PI/180))) + 2*PI*IZR k) by field.
  rewrite (period_Z sin sin_2PI), sin_neg; reflexivity.
Qed.
Lemma s4_neg th k : s4 (- th + 180 * IZR k) = - s4 th.
Proof.
  unfold s4; replace (4 * ((- th + 180 * IZR k) * (PI/180))) with (- (4 * (th * (PI/180))) + 2*PI*IZR (2*k)) by (rewrite mult_IZR; field).
  rewrite (period_Z sin sin_2PI), sin_neg; reflexivity.
Qed.
Lemma balanced_xsum g l : (forall th k, g (- th + 180 * IZR k) = - g th) -> balanced l -> forall z0, xsum g wA z0 l = 0.
Proof.
  intros Hg (l' & P & F) z0; rewrite xsum_wA.
  assert (E1 : rsum (map (fun p : R * material => thickness (snd p) * g (fst p)) l) =
               rsum (map (fun p : R * material => thickness (snd p) * g (fst p)) l')) by apply rsum_perm, Permutation_map, P.
  assert (E2 : rsum (map (fun p : R * material => thickness (snd p) * g (fst p)) l') =
              - rsum (map (fun p : R * material => thickness (snd p) * g (fst p)) l)).
  { clear -F Hg; induction F as [|p q l l' (Ht & _ & k & Hk) _ IH]; simpl; [ring|].
    simpl in *; rewrite IH, Ht, Hk, Hg; ring. }
  lra.
Qed.

(*@ C17: and the sine lamination parameters of xiA vanish. @*)
Lemma t_C17_balanced_xiA : forall l x1 x2 x3 x4, balanced l -> xiA_of l = Ok (x1, x2, x3, x4) -> x2 = 0 /\ x4 = 0.
Proof.
  intros l x1 x2 x3 x4 H; destruct (Req_dec (total l) 0) as [Z|N].
  - unfold xiA_of; rewrite laminate_of_eq; simpl; unfold get_xiA; rewrite xi_zero_total by (simpl; lra); discriminate.
  - rewrite xiA_of_eq by assumption; intros E; injection E as _ <- _ <-.
    rewrite (balanced_xsum s2 l s2_neg H), (balanced_xsum s4 l s4_neg H); unfold Rdiv; split; ring.
Qed.
(*@ C17, concrete instance with a 45/-45/90 layup. @*)
Example t_C17_ex : let l := [(45, Ortho ex_mat); (-45, Ortho ex_mat); (90, Ortho ex_mat)] in
  balanced l /\ (exists A, A_of l = Ok A) /\ exists x, xiA_of l = Ok x.
Proof.
  intros l; split; [|split].
  - exists [(-45, Ortho ex_mat); (45, Ortho ex_mat); (90, Ortho ex_mat)]; split; [constructor|].
    unfold ply_equiv; repeat constructor; simpl.
    + exists 0%Z; lra.
    + exists 0%Z; lra.
    + exists 1%Z; lra.
  - eexists; apply A_of_eq; repeat constructor; apply ex_readable.
  - eexists; apply xiA_of_eq; unfold total, l, ex_mat; simpl; lra.
Qed.

(* ------------------------------------------------------------------ C18 *)
(*@ C18: the laminate built from the lamination parameters of a one-material layup has the same A and D, and the same
    ABD when the layup is symmetric. (All plies have the elastic constants of the orthotropic material o;
    thicknesses may vary.) @*)
Lemma t_C18_round_trip : forall o l xa xd,
  readable (Ortho o) -> Forall (fun p => same_stiffness (snd p) (Ortho o)) l -> total l <> 0 ->
  xiA_of l = Ok xa -> xiD_of l = Ok xd ->
  let '(a1, a2, a3, a4) := xa in let '(d1, d2, d3, d4) := xd in
  exists L, construct (SDict [("xiA", DVec [a1; a2; a3; a4]); ("xiD", DVec [d1; d2; d3; d4]); ("T", DNum (total l))]%string)
                      (POne (Ortho o)) = Ok L /\
    snd (get_A L) = A_of l /\ snd (get_D L) = D_of l /\ (symmetric_layup l -> snd (get_ABD L) = ABD_of l).
Proof.
  intros o l [[[a1 a2] a3] a4] [[[d1 d2] d3] d4] Hm Hs HT HA HD.
  assert (Hr : all_readable l).
  { revert Hs; unfold all_readable; apply Forall_impl; intros p E; unfold same_stiffness in E; unfold readable; rewrite E; exact Hm. }
  pose proof (A_xi _ l _ Hm Hs HT HA) as EA; pose proof (D_xi _ l _ Hm Hs HT HD) as ED.
  destruct Hm as [q Hq]; assert (Eq : Q0p (Ortho o) = q) by (unfold Q0p; rewrite Hq; reflexivity).
  rewrite Eq in EA, ED; simpl in Hq.
  eexists; split; [reflexivity|].
  assert (FA : forall L0, p_xiA L0 = DVec [a1;a2;a3;a4] -> plies L0 = POne (Ortho o) -> p_T L0 = DNum (total l) -> get_A L0 = (set_A L0 (Lsum wA l), Ok (Lsum wA l))).
  { intros L0 E1 E2 E3; unfold get_A; rewrite E1, E2, E3; simpl; rewrite Hq; cbn [bind unpack4 as_num]; rewrite EA; reflexivity. }
  assert (FD : forall L0, p_xiD L0 = DVec [d1;d2;d3;d4] -> plies L0 = POne (Ortho o) -> p_T L0 = DNum (total l) -> get_D L0 = (set_D L0 (Lsum wD l), Ok (Lsum wD l))).
  { intros L0 E1 E2 E3; unfold get_D; rewrite E1, E2, E3; simpl; rewrite Hq; cbn [bind unpack4 as_num]; rewrite ED; reflexivity. }
  rewrite A_of_eq, D_of_eq, ABD_of_eq by assumption.
  split; [|split].
  - rewrite FA by reflexivity; reflexivity.
  - rewrite FD by reflexivity; reflexivity.
  - intros Sy; rewrite (Lsum_palindrome l Sy).
    unfold get_ABD; rewrite FA by reflexivity.
    set (L1 := set_A _ _).
    assert (E1 : exists L2, get_B L1 = (L2, Ok mzero) /\ p_xiD L2 = DVec [d1;d2;d3;d4] /\ p_xiA L2 = DVec [a1;a2;a3;a4] /\ plies L2 = POne (Ortho o) /\ p_T L2 = DNum (total l) /\ layup L2 = [] /\ c_B L2 = Some mzero).
    { eexists; split; [reflexivity|]; simpl; auto 10. }
    destruct E1 as (L2 & -> & X1 & X2 & X3 & X4 & X5 & X6).
    assert (E2 : exists L3, get_B L2 = (L3, Ok mzero) /\ p_xiD L3 = DVec [d1;d2;d3;d4] /\ plies L3 = POne (Ortho o) /\ p_T L3 = DNum (total l)).
    { unfold get_B; rewrite X1, X2; unfold from_layup; cbn [c_B set_A]; rewrite X6; eexists; split; [reflexivity|]; simpl; auto 10. }
    destruct E2 as (L3 & -> & Y1 & Y2 & Y3).
    rewrite (FD L3 Y1 Y2 Y3); reflexivity.
Qed.
(*@ C18, concrete instance: a symmetric 0/90/0 laminate. @*)
Example t_C18_ex : let l := [(0, Ortho ex_mat); (90, Ortho ex_mat); (0, Ortho ex_mat)] in
  readable (Ortho ex_mat) /\ Forall (fun p => same_stiffness (snd p) (Ortho ex_mat)) l /\ total l <> 0 /\
  symmetric_layup l /\ exists xa xd, xiA_of l = Ok xa /\ xiD_of l = Ok xd.
Proof.
  intros l; assert (T : total l <> 0) by (unfold total, l, ex_mat; simpl; lra).
  split; [apply ex_readable|split; [repeat constructor|split; [exact T|split]]].
  - unfold symmetric_layup, ply_equiv; simpl; repeat constructor; simpl; exists 0%Z; lra.
  - do 2 eexists; split; [apply xiA_of_eq, T|apply xiD_of_eq, T].
Qed.

(* ------------------------------------------------------------------ C19 *)
(*@ C19: ABD of every non-empty layup of admissible plies is positive definite, hence injective. @*)
Lemma t_C19_ABD_pos_def : forall l, l <> [] -> all_admissible l ->
  exists M, ABD_of l = Ok M /\ pos_def6 M /\ forall x, mvec6 M x = (vzero, vzero) -> x = (vzero, vzero).
Proof.
  intros l Hne HA; eexists; split; [apply ABD_of_eq, admissible_readable, HA|].
  pose proof (ABD_pos_def l Hne HA) as P; split; [exact P|].
  intros [e k] E; destruct (vec3_eq_dec e vzero) as [->|Ne]; [destruct (vec3_eq_dec k vzero) as [->|Nk]; [reflexivity|]|];
  exfalso; match goal with E : mvec6 _ ?x = _ |- _ => assert (N : x <> (vzero, vzero)) by congruence; specialize (P x N); rewrite E in P end;
  revert P; unfold dot6, dot, vzero; simpl; lra.
Qed.
Lemma ex_pos_def : pos_def (M3 2 0 0 0 1 0 0 0 1).
Proof. apply pd_block; lra. Qed.
Lemma ex_admissible : admissible (Ortho ex_mat).
Proof. split; [eexists; split; [apply ex_Q0|apply ex_pos_def]|simpl; lra]. Qed.
(*@ C19, concrete instance. @*)
Example t_C19_ex : all_admissible [(0, Ortho ex_mat); (37, Ortho ex_mat)].
Proof. repeat constructor; try apply ex_admissible. Qed.

(*@ C19: shear modulus 0 or thickness 0, both accepted by the constructor, give a singular ABD. @*)
Lemma t_C19_degenerate :
  (exists l M, ABD_of l = Ok M /\ l = [(0, Ortho (OMat 2 1 0 0 1 0 0 0 0 0))] /\ exists x, x <> (vzero, vzero) /\ mvec6 M x = (vzero, vzero)) /\
  (exists l M, ABD_of l = Ok M /\ l = [(0, Ortho (OMat 2 1 0 1 0 0 0 0 0 0))] /\ exists x, x <> (vzero, vzero) /\ mvec6 M x = (vzero, vzero)).
Proof.
  assert (R : forall g t, Q_0 (Ortho (OMat 2 1 0 g t 0 0 0 0 0)) = Ok (M3 2 0 0 0 1 0 0 0 g)).
  { intros g t; simpl; rewrite o_Q0_spec; set (m := OMat 2 1 0 g t 0 0 0 0 0).
    assert (D : o_den m = 1) by (unfold o_den, o_v21, m; simpl; lra).
    destruct (Req_EM_T (o_den m) 0) as [E|N]; [lra|].
    f_equal; unfold o_Qval; rewrite D; unfold m; simpl; f_equal; lra. }
  assert (Q : forall g t, Qbar 0 (Ortho (OMat 2 1 0 g t 0 0 0 0 0)) = M3 2 0 0 0 1 0 0 0 g).
  { intros g t; rewrite Qbar_textbook_ok by (eexists; apply R); unfold Q0p; rewrite R, cdeg_0, sdeg_0.
    unfold Qbar_textbook; simpl; f_equal; ring. }
  split.
  - exists [(0, Ortho (OMat 2 1 0 0 1 0 0 0 0 0))]; eexists; split; [apply ABD_of_eq; repeat constructor; eexists; apply R|].
    split; [reflexivity|]; exists (V3 0 0 1, vzero); split; [intros E; injection E; lra|].
    unfold Lsum, z_bottom, hsum, pairs; cbn [map fst snd rsum lsum]; rewrite Q.
    unfold mvec6; simpl; unfold wA, wB, wD; unmat; f_equal; f_equal; lra.
  - exists [(0, Ortho (OMat 2 1 0 1 0 0 0 0 0 0))]; eexists; split; [apply ABD_of_eq; repeat constructor; eexists; apply R|].
    split; [reflexivity|]; exists (V3 0 0 1, vzero); split; [intros E; injection E; lra|].
    unfold Lsum, z_bottom, hsum, pairs; cbn [map fst snd rsum lsum]; rewrite Q.
    unfold mvec6; simpl; unfold wA, wB, wD; unmat; f_equal; f_equal; lra.
Qed.

(* ------------------------------------------------------------------ C20 *)
(*@ C20: lamination parameters of every non-empty layup of positive-thickness plies lie in [-1,1] and satisfy
    xi3 >= 2 xi1^2 - 1; for 0/45/-45/90 layups also xi3 >= 2|xi1| - 1. @*)
Lemma t_C20_feasible : forall l x1 x2 x3 x4,
  l <> [] -> Forall (fun p => 0 < thickness (snd p)) l ->
  xiA_of l = Ok (x1, x2, x3, x4) \/ xiD_of l = Ok (x1, x2, x3, x4) ->
  (-1 <= x1 <= 1) /\ (-1 <= x2 <= 1) /\ (-1 <= x3 <= 1) /\ (-1 <= x4 <= 1) /\
  x3 >= 2 * x1 ^ 2 - 1 /\
  (Forall (fun p => standard_angle (fst p)) l -> x3 >= 2 * Rabs x1 - 1).
Proof.
  intros l x1 x2 x3 x4 Hne Ht Hx.
  destruct (feasible_gen l _ Hne Ht Hx) as (f & W & Hf & HW & H1 & E); injection E as -> -> -> ->.
  repeat apply conj; try (apply (xavg_bound f l W Hf Ht HW H1); intros a; apply trig_bound; tauto).
  - apply (xavg_jensen f l W Hf Ht HW H1).
  - intros Hs; apply (xavg_std f l W Hf Ht HW H1 Hs).
Qed.
(*@ C20: the reads succeed for every such layup. @*)
Lemma t_C20_defined : forall l, l <> [] -> Forall (fun p => 0 < thickness (snd p)) l ->
  (exists x, xiA_of l = Ok x) /\ (exists x, xiD_of l = Ok x).
Proof.
  intros l Hne Ht; pose proof (total_pos l Hne Ht); split; eexists; [apply xiA_of_eq|apply xiD_of_eq]; lra.
Qed.
(*@ C20, concrete instance: the 0/45 layup meets the hypotheses of both parts. @*)
Example t_C20_ex : let l := [(0, Ortho ex_mat); (45, Ortho ex_mat)] in
  l <> [] /\ Forall (fun p => 0 < thickness (snd p)) l /\ Forall (fun p => standard_angle (fst p)) l.
Proof.
  split; [discriminate|split; repeat constructor; simpl; try lra].
  - exists 0%Z; left; lra.
  - exists 0%Z; right; right; left; lra.
Qed.

(* ------------------------------------------------------------------ C23, C24 *)
(*@ C23: replacing a ply by plies of the same angle and elastic constants whose thicknesses add up to it changes
    neither A nor B nor D. @*)
Lemma t_C23_split : forall l1 th m l2 sub, all_readable (l1 ++ (th, m) :: l2) ->
  Forall (fun p => fst p = th /\ same_stiffness (snd p) m) sub -> total sub = thickness m ->
  A_of (l1 ++ sub ++ l2) = A_of (l1 ++ (th, m) :: l2) /\
  B_of (l1 ++ sub ++ l2) = B_of (l1 ++ (th, m) :: l2) /\
  D_of (l1 ++ sub ++ l2) = D_of (l1 ++ (th, m) :: l2).
Proof.
  intros l1 th m l2 sub Hr Hs Ht; pose proof (readable_split _ _ _ _ _ Hs Hr) as Hr'.
  rewrite !A_of_eq, !B_of_eq, !D_of_eq by assumption.
  rewrite (Lsum_split wA l1 th m l2 sub wA_tele Hs Ht), (Lsum_split wB l1 th m l2 sub wB_tele Hs Ht),
          (Lsum_split wD l1 th m l2 sub wD_tele Hs Ht); auto.
Qed.
Lemma total_app a b : total (a ++ b) = total a + total b.
Proof. unfold total; rewrite map_app, rsum_app; reflexivity. Qed.
Lemma total_cons p t : total (p :: t) = thickness (snd p) + total t.
Proof. reflexivity. Qed.
(*@ C23: the interfaces below and above the split ply stay where they were. @*)
Lemma t_C23_interfaces : forall l1 th m l2 sub, total sub = thickness m ->
  (forall k, (k <= List.length l1)%nat ->
     nth_error (z_position (l1 ++ sub ++ l2)) k = nth_error (z_position (l1 ++ (th, m) :: l2)) k) /\
  (forall k, (k <= List.length l2)%nat ->
     nth_error (z_position (l1 ++ sub ++ l2)) (List.length l1 + List.length sub + k) =
     nth_error (z_position (l1 ++ (th, m) :: l2)) (List.length l1 + 1 + k)).
Proof.
  intros l1 th m l2 sub Ht.
  assert (T : total (l1 ++ sub ++ l2) = total (l1 ++ (th, m) :: l2)).
  { rewrite !total_app, total_cons, Ht; reflexivity. }
  split; intros k Hk.
  - rewrite !(proj2 (t_C10_interfaces _)) by (rewrite !app_length; lia); rewrite T.
    rewrite !firstn_app; replace (k - List.length l1)%nat with 0%nat by lia; simpl; reflexivity.
  - rewrite !(proj2 (t_C10_interfaces _)) by (rewrite !app_length; simpl; lia); rewrite T.
    f_equal; f_equal. rewrite !firstn_app.
    rewrite (firstn_all2 (n := (List.length l1 + List.length sub + k)%nat) l1) by lia.
    rewrite (firstn_all2 (n := (List.length l1 + List.length sub + k - List.length l1)%nat) sub) by lia.
    rewrite (firstn_all2 (n := (List.length l1 + 1 + k)%nat) l1) by lia.
    replace (List.length l1 + List.length sub + k - List.length l1 - List.length sub)%nat with k by lia.
    replace (List.length l1 + 1 + k - List.length l1)%nat with (S k) by lia.
    rewrite firstn_cons, !total_app, total_cons, Ht; reflexivity.
Qed.
(*@ C23, concrete instance: one ply of thickness 1 replaced by two of 1/4 and 3/4. @*)
Example t_C23_ex : let sub := [(30, Ortho (OMat 2 1 0 1 (1/4) 0 0 0 0 0)); (30, Ortho (OMat 2 1 0 1 (3/4) 0 0 0 0 0))] in
  Forall (fun p => fst p = 30 /\ same_stiffness (snd p) (Ortho (OMat 2 1 0 1 1 0 0 0 0 0))) sub /\
  total sub = thickness (Ortho (OMat 2 1 0 1 1 0 0 0 0 0)).
Proof. split; [repeat constructor|unfold total; simpl; lra]. Qed.

Lemma lift_rotate f phi l : Lsum f (rotate_all phi l) =
  mmul (mmul (T_real_inv (cdeg phi) (sdeg phi)) (Lsum f l)) (T_engineering (cdeg phi) (sdeg phi)).
Proof. rewrite Lsum_rotate; reflexivity. Qed.
(*@ C24: adding phi to all angles transforms A, B and D by the same fourth-order tensor rotation:
    M' = T_real(phi)^-1 M T_engineering(phi). @*)
Lemma t_C24_rotation : forall phi l Ti, inv3 (T_real (cdeg phi) (sdeg phi)) = Ok Ti ->
  let turn (M : res mat3) := (M <- M ;; Ok (mmul (mmul Ti M) (T_engineering (cdeg phi) (sdeg phi)))) in
  A_of (rotate_all phi l) = turn (A_of l) /\ B_of (rotate_all phi l) = turn (B_of l) /\ D_of (rotate_all phi l) = turn (D_of l).
Proof.
  intros phi l Ti HT turn; rewrite inv3_T_real in HT by apply cs1; injection HT as <-; unfold turn.
  destruct (readable_em l) as [H|H].
  - pose proof (rotate_readable phi l H) as H'; rewrite !A_of_eq, !B_of_eq, !D_of_eq by assumption; simpl.
    rewrite !lift_rotate; auto.
  - assert (H' : ~ all_readable (rotate_all phi l)).
    { intros C; apply H; unfold all_readable, rotate_all in *; rewrite Forall_map in C; exact C. }
    apply not_readable in H, H'; destruct H as (->&->&->&_), H' as (->&->&->&_); auto.
Qed.
(*@ C24: A is the stiffness seen in rotated axes: for every strain, the rotated laminate's A e is the membrane force
    obtained by expressing e in the axes of the unrotated laminate, applying its A and rotating back. @*)
Lemma t_C24_tensor : forall phi l A A', A_of l = Ok A -> A_of (rotate_all phi l) = Ok A' ->
  forall e, mvec A' e = ply_stress (cdeg phi) (sdeg phi) A e.
Proof.
  intros phi l A A' HA HA' e.
  destruct (t_C24_rotation phi l _ (inv3_T_real _ _ (cs1 phi))) as (E & _); rewrite HA, HA' in E; simpl in E; injection E as ->.
  unfold ply_stress; destruct A as [x11 x12 x13 x21 x22 x23 x31 x32 x33]; destruct e as [e1 e2 e3].
  unfold rotate_tensor, tensor_strain, eng_strain, mvec, mmul, T_real_inv, T_engineering; simpl; f_equal; field.
Qed.
(*@ C24: rotations compose, and rotating back restores the matrices. @*)
Lemma t_C24_group : forall phi psi l,
  rotate_all psi (rotate_all phi l) = rotate_all (phi + psi) l /\
  A_of (rotate_all (- phi) (rotate_all phi l)) = A_of l /\
  B_of (rotate_all (- phi) (rotate_all phi l)) = B_of l /\
  D_of (rotate_all (- phi) (rotate_all phi l)) = D_of l.
Proof.
  intros phi psi l.
  assert (C : forall x y, rotate_all y (rotate_all x l) = rotate_all (x + y) l).
  { intros x y; unfold rotate_all; rewrite map_map; apply map_ext; intros [th m]; simpl; f_equal; ring. }
  rewrite !C; split; [reflexivity|].
  assert (Z : rotate_all (phi + - phi) l = l).
  { unfold rotate_all; rewrite <- (map_id l) at 2; apply map_ext; intros [th m]; simpl; f_equal; ring. }
  rewrite Z; auto.
Qed.
(*@ C24, concrete instance. @*)
Example t_C24_ex : exists A A', A_of [(0, Ortho ex_mat)] = Ok A /\ A_of (rotate_all 90 [(0, Ortho ex_mat)]) = Ok A' /\ A <> A'.
Proof.
  do 2 eexists; split; [apply A_of_eq; repeat constructor; apply ex_readable|split; [apply A_of_eq; repeat constructor; apply ex_readable|]].
  intros E; apply (f_equal a11) in E; revert E; unfold Lsum, rotate_all, z_bottom, hsum, pairs; cbn [map fst snd rsum lsum].
  rewrite Rplus_0_l, ex_Q_0, ex_Q_90; unfold wA, thickness, ex_mat; unmat; simpl; lra.
Qed.
