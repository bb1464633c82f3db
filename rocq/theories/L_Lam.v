(** The pure content of the LaminateProperty getters, as sums over (thickness, stiffness) pairs. *)
From Coq Require Import Reals List Lra Psatz Lia Permutation String.
From Verif Require Import M_Py S_Mat M_Material M_Laminate L_Mat.
Import ListNotations.
Open Scope R_scope.

(** Trigonometric facts *)
Lemma cs1 theta : cdeg theta ^ 2 + sdeg theta ^ 2 = 1.
Proof.
  unfold cdeg, sdeg; pose proof (sin2_cos2 (theta * PI / 180)) as H; unfold Rsqr in H; nra.
Qed.

Lemma det_T_real c s : det3 (T_real c s) = (c^2 + s^2)^3.
Proof. unfold det3, T_real; simpl; ring. Qed.

Definition T_real_inv (c s : R) : mat3 :=
  M3 (c^2) (s^2) (-2*c*s)
     (s^2) (c^2) (2*c*s)
     (c*s) (-c*s) (c^2-s^2).

Lemma inv3_T_real c s : c^2 + s^2 = 1 -> inv3 (T_real c s) = Ok (T_real_inv c s).
Proof.
  intros H; unfold inv3; rewrite det_T_real, H, pow1.
  destruct (Req_EM_T 1 0) as [E|_]; [lra|].
  rewrite Rinv_1; f_equal; unfold T_real, T_real_inv, adj3, mscale; simpl; apply mat3_ext; simpl;
  assert (Hs : s^2 = 1 - c^2) by lra; simpl in Hs; try nra.
  all: ring_simplify; replace (s^4) with ((s*s)*(s*s)) by ring; replace (s^3) with (s*(s*s)) by ring; replace (s^2) with (s*s) by ring;
       replace (s*s) with (1 - c^2) by (simpl; lra); ring.
Qed.

(** Plies whose Q_0 can be read without an exception *)
Definition ply_ok (m : material) : Prop := is_ok (Q_0 m) = true.
Definition Q0p (m : material) : mat3 := match Q_0 m with Ok q => q | Err _ => mzero end.
Lemma Q_0_ok m : ply_ok m -> Q_0 m = Ok (Q0p m).
Proof. unfold ply_ok, Q0p; destruct (Q_0 m); simpl; congruence. Qed.

Definition rot (c s : R) (q : mat3) : mat3 := mmul (mmul (T_real_inv c s) q) (T_engineering c s).
Definition Qbar (theta : R) (m : material) : mat3 := rot (cdeg theta) (sdeg theta) (Q0p m).

Lemma Q_ply_ok theta m : ply_ok m -> Q_ply theta m = Ok (Qbar theta m).
Proof.
  intros H; unfold Q_ply; rewrite inv3_T_real by apply cs1; simpl.
  rewrite (Q_0_ok m H); reflexivity.
Qed.

Definition layup_ok (l : list (R * material)) : Prop := Forall (fun p => ply_ok (snd p)) l.
Definition Qs_of (l : list (R * material)) : list mat3 := map (fun p => Qbar (fst p) (snd p)) l.

Lemma Q_loop_ok l acc : layup_ok l -> Q_loop l acc = (acc ++ Qs_of l, None)%list.
Proof.
  intros H; revert acc; induction H as [|[th m] t Hp _ IH]; intros acc; simpl.
  - now rewrite app_nil_r.
  - simpl in Hp; rewrite (Q_ply_ok th m Hp), IH, <- app_assoc; reflexivity.
Qed.

(** (thickness, stiffness) pairs and the three weighted sums *)
Definition pairs (l : list (R * material)) : list (R * mat3) :=
  map (fun p => (thickness (snd p), Qbar (fst p) (snd p))) l.
Fixpoint lsum (f : R -> R -> R) (z0 : R) (pl : list (R * mat3)) : mat3 :=
  match pl with
  | [] => mzero
  | (h, Q) :: t => madd (mscale (f (z0 + h) z0) Q) (lsum f (z0 + h) t)
  end.
Definition hsum (pl : list (R * mat3)) : R := rsum (map fst pl).

Lemma total_thickness_sum l acc : total_thickness l acc = acc + hsum (pairs l).
Proof.
  revert acc; induction l as [|p t IH]; intros acc; unfold hsum; simpl; [ring|].
  rewrite IH; unfold hsum; simpl; ring.
Qed.

Lemma nth_error_mid {A} (pre : list A) x post : nth_error (pre ++ x :: post) (List.length pre) = Some x.
Proof. rewrite nth_error_app2 by lia; rewrite Nat.sub_diag; reflexivity. Qed.

Lemma accumulate_lsum f l : forall pre z0 i acc, List.length pre = i ->
  accumulate f (pre ++ z0 :: z_loop l z0)%list (Qs_of l) i acc = (madd acc (lsum f z0 (pairs l)), None).
Proof.
  induction l as [|[th m] t IH]; intros pre z0 i acc Hi; simpl.
  - now rewrite madd_0_r.
  - assert (E0 : get (pre ++ z0 :: (z0 + thickness m) :: z_loop t (z0 + thickness m))%list i = Ok z0).
    { unfold get; rewrite <- Hi, nth_error_mid; reflexivity. }
    assert (E1 : get (pre ++ z0 :: (z0 + thickness m) :: z_loop t (z0 + thickness m))%list (i+1) = Ok (z0 + thickness m)).
    { unfold get; replace (pre ++ z0 :: (z0 + thickness m) :: z_loop t (z0 + thickness m))%list
        with ((pre ++ [z0]) ++ (z0 + thickness m) :: z_loop t (z0 + thickness m))%list by (rewrite <- app_assoc; reflexivity).
      replace (i+1)%nat with (List.length (pre ++ [z0])%list) by (rewrite app_length; simpl; lia).
      rewrite nth_error_mid; reflexivity. }
    rewrite E1; simpl; rewrite E0; simpl.
    replace (pre ++ z0 :: (z0 + thickness m) :: z_loop t (z0 + thickness m))%list
        with ((pre ++ [z0]) ++ (z0 + thickness m) :: z_loop t (z0 + thickness m))%list by (rewrite <- app_assoc; reflexivity).
    rewrite IH by (rewrite app_length; simpl; lia).
    f_equal; rewrite madd_assoc; reflexivity.
Qed.

Definition z_bottom (pl : list (R * mat3)) : R := - hsum pl / 2.
Definition Lsum f l := lsum f (z_bottom (pairs l)) (pairs l).

Lemma accumulate_z f l :
  accumulate f (z_position l) (Qs_of l) 0 mzero = (Lsum f l, None).
Proof.
  unfold z_position, Lsum, z_bottom; rewrite total_thickness_sum, Rplus_0_l.
  etransitivity; [exact (accumulate_lsum f l [] _ 0 mzero eq_refl)|].
  now rewrite madd_0_l.
Qed.

(** Reads on laminates built from angles. [angle_lam] holds of every object the constructor returns for angles,
    and of its later states. *)
Definition angle_lam (L : lam) : Prop :=
  p_xiA L = DNone /\ p_xiD L = DNone.
Definition caches_sound (L : lam) : Prop :=
  (c_Q L = None \/ c_Q L = Some (Qs_of (layup L))) /\
  (c_A L = None \/ c_A L = Some (Lsum wA (layup L))) /\
  (c_B L = None \/ c_B L = Some (Lsum wB (layup L))) /\
  (c_D L = None \/ c_D L = Some (Lsum wD (layup L))).

Lemma construct_angles angles p L : construct (SAngles angles) p = Ok L ->
  angle_lam L /\ caches_sound L /\ stacking L = SAngles angles /\
  exists pl, plies L = PMany pl /\ layup L = combine angles pl /\ List.length pl = List.length angles /\
    match p with POne m => pl = repeat m (List.length angles) | PMany l => pl = l end.
Proof.
  unfold construct; intros H.
  assert (Hgen : forall pl, List.length pl = List.length angles ->
     Ok (Lam (SAngles angles) (PMany pl) (combine angles pl) None None None None None DNone DNone DNone DNone) = Ok L ->
     match p with POne m => pl = repeat m (List.length angles) | PMany l => pl = l end ->
     angle_lam L /\ caches_sound L /\ stacking L = SAngles angles /\
  exists pl, plies L = PMany pl /\ layup L = combine angles pl /\ List.length pl = List.length angles /\
    match p with POne m => pl = repeat m (List.length angles) | PMany l => pl = l end).
  { intros pl Hl E Hm; injection E as <-; unfold angle_lam, caches_sound; simpl; intuition.
    exists pl; auto. }
  destruct p as [m|l]; simpl in H.
  - eapply Hgen in H; auto using repeat_length.
  - destruct (Nat.eqb_spec (List.length l) (List.length angles)) as [E|E]; simpl in H; [|discriminate].
    eapply Hgen in H; auto.
Qed.

Lemma get_Q_sound L : layup_ok (layup L) -> caches_sound L ->
  exists L', get_Q_layup L = (L', Ok (Qs_of (layup L))) /\ caches_sound L' /\ layup L' = layup L /\
   angle_lam L' = angle_lam L /\ stacking L' = stacking L /\ plies L' = plies L /\
   c_A L' = c_A L /\ c_B L' = c_B L /\ c_D L' = c_D L /\ c_T L' = c_T L.
Proof.
  intros Hok [HQ [HA [HB HD]]]; unfold get_Q_layup; destruct (c_Q L) as [q|] eqn:E.
  - destruct HQ as [HQ|HQ]; [discriminate|injection HQ as ->].
    exists L; unfold caches_sound; rewrite E; auto 15.
  - rewrite (Q_loop_ok _ [] Hok); simpl. eexists; split; [reflexivity|].
    unfold caches_sound, angle_lam; simpl; auto 15.
Qed.

(** ** Soundness of the caches over histories of reads *)
Definition T_pure (l : list (R * material)) : list (mat3 * mat3) :=
  map (fun th => (T_real (cdeg (fst th)) (sdeg (fst th)), T_engineering (cdeg (fst th)) (sdeg (fst th)))) l.
Definition Inv (L : lam) : Prop :=
  (c_Q L = None \/ c_Q L = Some (Qs_of (layup L))) /\
  (c_T L = None \/ c_T L = Some (T_pure (layup L))) /\
  (p_xiA L = DNone -> c_A L = None \/ c_A L = Some (Lsum wA (layup L))) /\
  (c_B L = None \/ c_B L = Some (Lsum wB (layup L))) /\
  (p_xiD L = DNone -> c_D L = None \/ c_D L = Some (Lsum wD (layup L))).
(** same constructor arguments *)
Definition same (L L' : lam) : Prop :=
  stacking L' = stacking L /\ plies L' = plies L /\ layup L' = layup L /\
  p_xiA L' = p_xiA L /\ p_xiB L' = p_xiB L /\ p_xiD L' = p_xiD L /\ p_T L' = p_T L.
Lemma same_refl L : same L L. Proof. unfold same; auto 10. Qed.
Lemma same_trans L1 L2 L3 : same L1 L2 -> same L2 L3 -> same L1 L3.
Proof. unfold same; intuition congruence. Qed.

Definition xi_value (build : R*R*R*R*R -> R*R*R*R -> R -> mat3) (xi : dval) (L : lam) : res mat3 :=
  U <- the_invariants (plies L) ;; x <- unpack4 xi ;; T <- as_num (p_T L) ;; Ok (build U x T).
Definition pure_A (L : lam) : res mat3 :=
  match p_xiA L with DNone => Ok (Lsum wA (layup L)) | xi => xi_value A_from_xi xi L end.
Definition pure_B (L : lam) : res mat3 := Ok (Lsum wB (layup L)).
Definition pure_D (L : lam) : res mat3 :=
  match p_xiD L with DNone => Ok (Lsum wD (layup L)) | xi => xi_value D_from_xi xi L end.

Lemma same_pure L L' : same L L' -> pure_A L' = pure_A L /\ pure_B L' = pure_B L /\ pure_D L' = pure_D L.
Proof.
  unfold same, pure_A, pure_B, pure_D, xi_value; intros (E1&E2&E3&E4&E5&E6&E7).
  rewrite E2, E3, E4, E6, E7; auto.
Qed.

Lemma get_Q_inv L : layup_ok (layup L) -> Inv L ->
  exists L', get_Q_layup L = (L', Ok (Qs_of (layup L))) /\ Inv L' /\ same L L' /\
    c_A L' = c_A L /\ c_B L' = c_B L /\ c_D L' = c_D L.
Proof.
  intros Hok (HQ&HT&HA&HB&HD); unfold get_Q_layup; destruct (c_Q L) as [q|] eqn:E.
  - destruct HQ as [HQ|HQ]; [discriminate|injection HQ as ->].
    exists L; unfold Inv, same; rewrite E; auto 20.
  - rewrite (Q_loop_ok _ [] Hok); simpl; eexists; split; [reflexivity|].
    unfold Inv, same; simpl; auto 20.
Qed.

Lemma get_T_inv L : Inv L ->
  exists L', get_T_layup L = (L', Ok (T_pure (layup L))) /\ Inv L' /\ same L L'.
Proof.
  intros (HQ&HT&HA&HB&HD); unfold get_T_layup; destruct (c_T L) as [q|] eqn:E.
  - destruct HT as [HT|HT]; [discriminate|injection HT as ->].
    exists L; unfold Inv, same; rewrite E; auto 20.
  - eexists; split; [reflexivity|]. unfold Inv, same; simpl; auto 20.
Qed.

(* Inv minus the requirement on one cache, to describe the intermediate state of a getter *)
Lemma Inv_set_A L a : Inv L -> (p_xiA L = DNone -> a = Lsum wA (layup L)) -> Inv (set_A L a).
Proof. unfold Inv; simpl; intros (HQ&HT&HA&HB&HD) H; repeat split; auto. intros E; right; f_equal; auto. Qed.

Lemma from_layup_A L : layup_ok (layup L) -> Inv L -> p_xiA L = DNone ->
  exists L', from_layup c_A set_A wA L = (L', Ok (Lsum wA (layup L))) /\ Inv L' /\ same L L'.
Proof.
  intros Hok HI Hx; unfold from_layup; destruct (c_A L) as [a|] eqn:E.
  - destruct HI as (HQ&HT&HA&HB&HD); destruct (HA Hx) as [H|H]; [congruence|].
    exists L; rewrite H in E; injection E as <-.
    split; [reflexivity|split; [unfold Inv; auto 10|apply same_refl]].
  - destruct HI as (HQ&HT&HA&HB&HD).
    unfold get_Q_layup; cbn [c_Q set_A layup].
    destruct (c_Q L) as [q|] eqn:EQ.
    + destruct HQ as [HQ|HQ]; [discriminate|injection HQ as ->].
      cbn [layup set_A]; rewrite accumulate_z; eexists; split; [reflexivity|].
      unfold Inv, same; cbn; rewrite ?EQ; intuition.
    + rewrite (Q_loop_ok _ [] Hok); cbn [app layup set_A set_Q]; rewrite accumulate_z; eexists; split; [reflexivity|].
      unfold Inv, same; cbn; intuition.
Qed.
Lemma from_layup_B L : layup_ok (layup L) -> Inv L ->
  exists L', from_layup c_B set_B wB L = (L', Ok (Lsum wB (layup L))) /\ Inv L' /\ same L L'.
Proof.
  intros Hok HI; unfold from_layup; destruct (c_B L) as [a|] eqn:E.
  - destruct HI as (HQ&HT&HA&HB&HD); destruct HB as [H|H]; [congruence|].
    exists L; rewrite H in E; injection E as <-.
    split; [reflexivity|split; [unfold Inv; auto 10|apply same_refl]].
  - destruct HI as (HQ&HT&HA&HB&HD).
    unfold get_Q_layup; cbn [c_Q set_B layup].
    destruct (c_Q L) as [q|] eqn:EQ.
    + destruct HQ as [HQ|HQ]; [discriminate|injection HQ as ->].
      cbn [layup set_B]; rewrite accumulate_z; eexists; split; [reflexivity|].
      unfold Inv, same; cbn; rewrite ?EQ; intuition.
    + rewrite (Q_loop_ok _ [] Hok); cbn [app layup set_B set_Q]; rewrite accumulate_z; eexists; split; [reflexivity|].
      unfold Inv, same; cbn; intuition.
Qed.
Lemma from_layup_D L : layup_ok (layup L) -> Inv L -> p_xiD L = DNone ->
  exists L', from_layup c_D set_D wD L = (L', Ok (Lsum wD (layup L))) /\ Inv L' /\ same L L'.
Proof.
  intros Hok HI Hx; unfold from_layup; destruct (c_D L) as [a|] eqn:E.
  - destruct HI as (HQ&HT&HA&HB&HD); destruct (HD Hx) as [H|H]; [congruence|].
    exists L; rewrite H in E; injection E as <-.
    split; [reflexivity|split; [unfold Inv; auto 10|apply same_refl]].
  - destruct HI as (HQ&HT&HA&HB&HD).
    unfold get_Q_layup; cbn [c_Q set_D layup].
    destruct (c_Q L) as [q|] eqn:EQ.
    + destruct HQ as [HQ|HQ]; [discriminate|injection HQ as ->].
      cbn [layup set_D]; rewrite accumulate_z; eexists; split; [reflexivity|].
      unfold Inv, same; cbn; rewrite ?EQ; intuition.
    + rewrite (Q_loop_ok _ [] Hok); cbn [app layup set_D set_Q]; rewrite accumulate_z; eexists; split; [reflexivity|].
      unfold Inv, same; cbn; intuition.
Qed.

Lemma get_A_inv L : layup_ok (layup L) -> Inv L ->
  exists L', get_A L = (L', pure_A L) /\ Inv L' /\ same L L'.
Proof.
  intros Hok HI; unfold get_A, pure_A, xi_value.
  destruct (p_xiA L) as [v|r|] eqn:Hx; [| |apply from_layup_A; auto].
  all: match goal with |- exists L', match ?e with _ => _ end = _ /\ _ => destruct e as [a|e'] end;
    (eexists; split; [reflexivity|split]).
  all: try apply same_refl; try assumption; try (apply Inv_set_A; [assumption|congruence]).
  all: unfold same; cbn; auto 10.
Qed.
Lemma get_B_inv L : layup_ok (layup L) -> Inv L ->
  exists L', get_B L = (L', pure_B L) /\ Inv L' /\ same L L'.
Proof.
  intros Hok HI; unfold get_B, pure_B.
  set (L1 := match p_xiA L, p_xiD L with DNone, _ => L | _, DNone => L | _, _ => set_A L mzero end).
  assert (H1 : Inv L1 /\ same L L1).
  { unfold L1; destruct (p_xiA L) eqn:EA; destruct (p_xiD L) eqn:ED; split; auto using same_refl;
    try (apply Inv_set_A; [assumption|congruence]); unfold same; cbn; auto 10. }
  destruct H1 as [HI1 Hs1]; assert (El : layup L1 = layup L) by apply Hs1.
  destruct (from_layup_B L1) as (L' & E & HI' & Hs'); [rewrite El; assumption|assumption|].
  exists L'; rewrite E, El; split; [reflexivity|split; [assumption|eapply same_trans; eauto]].
Qed.
Lemma get_D_inv L : layup_ok (layup L) -> Inv L ->
  exists L', get_D L = (L', pure_D L) /\ Inv L' /\ same L L'.
Proof.
  intros Hok HI; unfold get_D, pure_D, xi_value.
  destruct (p_xiD L) as [v|r|] eqn:Hx; [| |apply from_layup_D; auto].
  all: match goal with |- exists L', match ?e with _ => _ end = _ /\ _ => destruct e as [a|e'] end;
    (eexists; split; [reflexivity|split]).
  all: try apply same_refl; try assumption.
  all: destruct HI as (HQ&HT&HA&HB&HD); unfold Inv, same; cbn; rewrite ?Hx; intuition congruence.
Qed.

Definition pure_ABD (L : lam) : res mat6 :=
  a <- pure_A L ;; b <- pure_B L ;; d <- pure_D L ;; Ok (M6 a b b d).
Lemma get_ABD_inv L : layup_ok (layup L) -> Inv L ->
  exists L', get_ABD L = (L', pure_ABD L) /\ Inv L' /\ same L L'.
Proof.
  intros Hok HI; unfold get_ABD, pure_ABD.
  destruct (get_A_inv L Hok HI) as (L1&EA&HI1&Hs1); rewrite EA; clear EA.
  destruct (pure_A L) as [a|e]; cbn [bind]; [|eauto].
  assert (Hok1 : layup_ok (layup L1)) by (destruct Hs1 as (_&_&->&_); exact Hok).
  destruct (get_B_inv L1 Hok1 HI1) as (L2&EB&HI2&Hs2); rewrite EB; clear EB; unfold pure_B; cbn [bind].
  assert (Hok2 : layup_ok (layup L2)) by (destruct Hs2 as (_&_&->&_); exact Hok1).
  destruct (get_B_inv L2 Hok2 HI2) as (L3&EB&HI3&Hs3); rewrite EB; clear EB; unfold pure_B; cbn [bind].
  assert (Hok3 : layup_ok (layup L3)) by (destruct Hs3 as (_&_&->&_); exact Hok2).
  destruct (get_D_inv L3 Hok3 HI3) as (L4&ED&HI4&Hs4); rewrite ED; clear ED.
  assert (S13 : same L L3) by (eapply same_trans; [|eauto]; eapply same_trans; eauto).
  destruct (same_pure L L3 S13) as (_&_&->).
  destruct Hs1 as (_&_&El1&_), Hs2 as (_&_&El2&_) ; rewrite El2, El1.
  destruct (pure_D L); cbn [bind]; eexists; (split; [reflexivity|split; [assumption|eapply same_trans; eauto]]).
Qed.

From Verif Require Import M_LamHistory.

Definition pure_read (L : lam) (r : read) : res value :=
  match r with
  | RdA => v <- pure_A L ;; Ok (VMat v)
  | RdB => v <- pure_B L ;; Ok (VMat v)
  | RdD => v <- pure_D L ;; Ok (VMat v)
  | RdABD => v <- pure_ABD L ;; Ok (VMat6 v)
  | RdQ_layup => Ok (VMats (Qs_of (layup L)))
  | RdT_layup => Ok (VTs (T_pure (layup L)))
  | RdZ => Ok (VZs (z_position (layup L)))
  | RdXiA => v <- get_xiA L ;; Ok (VXi v)
  | RdXiD => v <- get_xiD L ;; Ok (VXi v)
  end.

Lemma same_pure_read L L' r : same L L' -> pure_read L' r = pure_read L r.
Proof.
  intros H; pose proof (same_pure L L' H) as (EA&EB&ED).
  destruct H as (E1&E2&E3&E4&E5&E6&E7).
  destruct r; simpl; unfold pure_ABD, get_xiA, get_xiD, xi_get; rewrite ?EA, ?EB, ?ED, ?E1, ?E2, ?E3; reflexivity.
Qed.

Lemma do_read_inv L r : layup_ok (layup L) -> Inv L ->
  exists L', do_read L r = (L', pure_read L r) /\ Inv L' /\ same L L'.
Proof.
  intros Hok HI; destruct r; simpl; unfold wrap; cbn [fst snd];
  try (exists L; split; [reflexivity|split; [assumption|apply same_refl]]).
  - destruct (get_A_inv L Hok HI) as (L1&E&H1&H2); rewrite E; eauto.
  - destruct (get_B_inv L Hok HI) as (L1&E&H1&H2); rewrite E; eauto.
  - destruct (get_D_inv L Hok HI) as (L1&E&H1&H2); rewrite E; eauto.
  - destruct (get_ABD_inv L Hok HI) as (L1&E&H1&H2); rewrite E; eauto.
  - destruct (get_Q_inv L Hok HI) as (L1&E&H1&H2&_); rewrite E; eauto.
  - destruct (get_T_inv L HI) as (L1&E&H1&H2); rewrite E; eauto.
Qed.

Lemma run_pure L rs : layup_ok (layup L) -> Inv L -> run L rs = map (pure_read L) rs.
Proof.
  intros Hok HI; revert L Hok HI; induction rs as [|r t IH]; intros L Hok HI; simpl; [reflexivity|].
  destruct (do_read_inv L r Hok HI) as (L1&E&H1&H2); rewrite E.
  assert (El : layup L1 = layup L) by apply H2.
  rewrite IH by (rewrite ?El; assumption); f_equal.
  apply map_ext; intros r'; apply same_pure_read, H2.
Qed.

Lemma construct_Inv s p L : construct s p = Ok L -> Inv L.
Proof.
  unfold construct; intros H; destruct s as [angles|d].
  - destruct p as [m|l]; simpl in H; [|destruct (Nat.eqb _ _); simpl in H; [|discriminate]];
    injection H as <-; unfold Inv; simpl; auto 10.
  - destruct (lookup d "xiD"); simpl in H; [|discriminate].
    destruct (lookup d "T"); simpl in H; [|discriminate].
    injection H as <-; unfold Inv; simpl; auto 10.
Qed.
