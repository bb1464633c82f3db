(** Proofs of the failure envelope and the reserve to failure *)
From Coq Require Import Reals List Lra Lia String.
From Flocq Require Import Core.Core IEEE754.BinarySingleNaN.
From Verif Require Import M_Py M_Float S_Mat M_Material M_Laminate M_LamHistory M_Linalg S_Laminate S_Validate S_Round M_Margin M_Strength S_Strength S_Mirror S_Reserve L_Mat L_Lam L_LamAlg L_LamSums L_LamEnergy L_Linalg L_Strength L_Float L_Round L_LamRound T_Laminate T_Strength T_Mirror.
Import ListNotations.
Open Scope string_scope.
Open Scope list_scope.
Open Scope R_scope.

(* ---------------------------------------------------------------- the rows of the table *)
Definition allow_of (o : omat) : allow := Allow (o_t1 o) (o_c1 o) (o_t2 o) (o_c2 o) (o_s o).
(* the entries of a table: one for each face of each ply *)
Definition entry (l : list (R * material)) (e0 : vec3 * vec3) (p : allow * vec3) : Prop :=
  exists k th o z0 z1 z, nth_error (X l) k = Some ((th, Ortho o), (z0, z1)) /\ (z = z0 \/ z = z1) /\
    p = (allow_of o, f_stress12 e0 ((th, Ortho o), (z0, z1)) z).
Lemma table_some l N rows : table l N = Ok rows -> exists e0, all_readable l /\ sol l N = Ok e0 /\ (forall th i, ~ In (th, Iso i) l) /\
  forall p, In p (map mr_margins rows) <-> entry l e0 p.
Proof.
  intros H. destruct (readable_em l) as [Hr|Hr]; [|exfalso; exact (margin_err _ l N Hr rows H)].
  assert (Hm := H). unfold table in H. rewrite margin_of_eq in H by assumption. unfold pure_margin in H.
  assert (Hi : forall th i, ~ In (th, Iso i) l).
  { intros th i I. destruct (t_C61_isotropic_margin _ (fun a s => (a, s)) l N) as [E _]. unfold table in Hm. rewrite E in Hm by eauto. discriminate. }
  destruct (mapM_allow l) as [(al & E & Hl & Hal)|[E _]]; rewrite E in H; cbn [bind] in H; [|discriminate].
  destruct (sol l N) as [e0|] eqn:S1; [|discriminate]. clear H.
  exists e0. split; [exact Hr|]. split; [reflexivity|]. split; [exact Hi|].
  assert (Hs : stress_of l N = Ok (L_Strength.rows (f_stress e0) (f_stress12 e0) 0 (X l))) by (rewrite stress_of_eq by exact Hr; rewrite S1; reflexivity).
  destruct (t_C32_position_swapped _ _ l N _ _ Hm Hs) as [Len Pair].
  intros p. rewrite in_map_iff. split.
  - intros (r & <- & I). destruct (In_nth_error _ _ I) as [j Hj].
    destruct (nth_error (L_Strength.rows (f_stress e0) (f_stress12 e0) 0 (X l)) j) as [rs|] eqn:Es;
      [|apply nth_error_None in Es; rewrite <- Len in Es; apply nth_error_None in Es; congruence].
    destruct (Pair j r rs Hj Es) as (_ & _ & (o & Ho & ->) & _).
    destruct (rows_idx _ _ _ _ _ _ Es) as (q & th & m & z0 & z1 & Hq & HA).
    destruct (X_nth_inv _ _ _ _ _ Hq) as (Hlq & _ & _).
    destruct HA as [[_ ->]|[_ ->]]; cbn [r_ply r_angle r_12] in *; replace (0 + q + 1 - 1)%nat with q in Ho by lia; rewrite Hlq in Ho; injection Ho as ->;
      exists q, th, o, z0, z1; eexists; (split; [exact Hq|]); (split; [|reflexivity]); auto.
  - intros (q & th & o & z0 & z1 & z & Hq & Hz & ->).
    destruct (rows_nth (f_stress e0) (f_stress12 e0) (X l) 0 q _ _ _ _ Hq) as [B T].
    destruct (X_nth_inv _ _ _ _ _ Hq) as (Hlq & _ & _).
    assert (G : forall j rs, nth_error (L_Strength.rows (f_stress e0) (f_stress12 e0) 0 (X l)) j = Some rs -> r_ply rs = (0 + q + 1)%nat ->
       exists r, mr_margins r = (allow_of o, r_12 rs) /\ In r rows).
    { intros j rs Es Ep. destruct (nth_error rows j) as [r|] eqn:Ej; [|apply nth_error_None in Ej; rewrite Len in Ej; apply nth_error_None in Ej; congruence].
      exists r. split; [|apply nth_error_In with j; exact Ej].
      destruct (Pair j r rs Ej Es) as (_ & _ & (o' & Ho & ->) & _). rewrite Ep in Ho.
      replace (0 + q + 1 - 1)%nat with q in Ho by lia. rewrite Hlq in Ho. injection Ho as _ ->. reflexivity. }
    destruct Hz as [-> | ->]; [apply (G _ _ B)|apply (G _ _ T)]; reflexivity.
Qed.
Lemma table_exists l N e0 : all_readable l -> sol l N = Ok e0 -> (forall th i, ~ In (th, Iso i) l) -> exists rows, table l N = Ok rows.
Proof.
  intros Hr Hs Hi. destruct (t_C61_isotropic_margin _ (fun a s => (a, s)) l N) as [_ E].
  apply (E Hi (rows (f_stress e0) (f_stress12 e0) 0 (X l))). rewrite stress_of_eq by exact Hr. rewrite Hs. reflexivity.
Qed.
Lemma safe_iff l N e0 : all_readable l -> sol l N = Ok e0 -> (forall th i, ~ In (th, Iso i) l) ->
  (safe l N <-> forall p, entry l e0 p -> survives (fst p) (snd p)).
Proof.
  intros Hr Hs Hi. destruct (table_exists l N e0 Hr Hs Hi) as [rows T].
  destruct (table_some l N rows T) as (e1 & _ & Hs1 & _ & P). rewrite Hs in Hs1. apply Ok_inj in Hs1. subst e1. split.
  - intros (rows' & T' & F) p E. rewrite T in T'. apply Ok_inj in T'. subst rows'. apply P, in_map_iff in E. destruct E as (r & <- & I). apply F, I.
  - intros F. exists rows. split; [exact T|]. intros r I. apply F, P, in_map, I.
Qed.
Lemma safe_some l N : safe l N -> exists e0, all_readable l /\ sol l N = Ok e0 /\ (forall th i, ~ In (th, Iso i) l).
Proof. intros (rows & T & _). destruct (table_some l N rows T) as (e0 & A & B & Cc & _). eauto. Qed.

(* ---------------------------------------------------------------- stresses are linear in the loads *)
Lemma f12_add e1 e2 x z : f_stress12 (add6 e1 e2) x z = vadd (f_stress12 e1 x z) (f_stress12 e2 x z).
Proof. unfold f_stress12, f_stress, ep, add6. cbn [fst snd]. rewrite <- !mvec_vadd. f_equal. f_equal. destruct e1 as [[? ? ?] [? ? ?]], e2 as [[? ? ?] [? ? ?]]. unmat. f_equal; ring. Qed.
Lemma f12_scale k e x z : f_stress12 (scale6 k e) x z = vscale k (f_stress12 e x z).
Proof. unfold f_stress12, f_stress, ep, scale6. cbn [fst snd]. rewrite <- !mvec_vscale. f_equal. f_equal. destruct e as [[? ? ?] [? ? ?]]. unmat. f_equal; ring. Qed.
Lemma sol_comb l N1 N2 k e1 e2 : all_readable l -> sol l N1 = Ok e1 -> sol l N2 = Ok e2 -> sol l (add6 N1 (scale6 k N2)) = Ok (add6 e1 (scale6 k e2)).
Proof.
  intros Hr H1 H2. rewrite <- !epsilon0_of_eq in * by exact Hr. apply (t_C25_linear l N1 N2 k e1 e2 H1 H2).
Qed.
Lemma scale_1 N : scale6 1 N = N.
Proof. destruct N as [[? ? ?] [? ? ?]]. unfold scale6. cbn [fst snd]. f_equal; unmat; f_equal; ring. Qed.
Lemma comb_zero k N : add6 zero6 (scale6 k N) = scale6 k N.
Proof. destruct N as [[? ? ?] [? ? ?]]. unfold scale6, add6, zero6. cbn [fst snd]. f_equal; unmat; f_equal; ring. Qed.
Lemma sol_zero l N e : all_readable l -> sol l N = Ok e -> sol l zero6 = Ok zero6.
Proof. intros Hr H. rewrite <- epsilon0_of_eq in * by exact Hr. apply (t_C25_linear l N N 0 e e H H). Qed.
Lemma sol_scale l N k e : all_readable l -> sol l N = Ok e -> sol l (scale6 k N) = Ok (scale6 k e).
Proof. intros Hr H. rewrite <- comb_zero, <- (comb_zero k e). apply sol_comb; [exact Hr|exact (sol_zero l N e Hr H)|exact H]. Qed.

Lemma f12_zero x z : f_stress12 zero6 x z = vzero.
Proof.
  replace zero6 with (scale6 0 zero6) by (unfold scale6, zero6; cbn [fst snd]; f_equal; unmat; f_equal; ring).
  rewrite f12_scale. unmat. f_equal; ring.
Qed.
Lemma survives_mix a s1 s2 t : 0 <= t <= 1 -> survives a s1 -> survives a s2 -> survives a (vadd (vscale (1 - t) s1) (vscale t s2)).
Proof.
  intros [T0 T1] (A1 & A2 & A3) (B1 & B2 & B3). apply Rabs_le_inv in A3, B3. unfold survives. unmat.
  split; [|split; [|apply Rabs_le]]; nra.
Qed.

(*@ C81. The set of loads a laminate survives is convex: a weighted mean of two load cases that are both safe is safe. @*)
Lemma t_C81_convex : forall l N1 N2 t, safe l N1 -> safe l N2 -> 0 <= t <= 1 -> safe l (add6 (scale6 (1 - t) N1) (scale6 t N2)).
Proof.
  intros l N1 N2 t S1 S2 T. destruct (safe_some _ _ S1) as (e1 & Hr & E1 & Hi), (safe_some _ _ S2) as (e2 & _ & E2 & _).
  rewrite (safe_iff l N1 e1 Hr E1 Hi) in S1. rewrite (safe_iff l N2 e2 Hr E2 Hi) in S2.
  pose proof (sol_comb l _ _ t _ _ Hr (sol_scale l N1 (1 - t) e1 Hr E1) E2) as E.
  rewrite (safe_iff l _ _ Hr E Hi). intros p (k & th & o & z0 & z1 & z & Hk & Hz & ->). cbn [fst snd].
  rewrite f12_add, !f12_scale. apply survives_mix; [exact T| |].
  - apply (S1 (allow_of o, f_stress12 e1 ((th, Ortho o), (z0, z1)) z)). exists k, th, o, z0, z1, z. auto.
  - apply (S2 (allow_of o, f_stress12 e2 ((th, Ortho o), (z0, z1)) z)). exists k, th, o, z0, z1, z. auto.
Qed.

Lemma entry_allow l e0 p : entry l e0 p -> allowables_ok l ->
  0 <= al_t1 (fst p) /\ 0 <= al_c1 (fst p) /\ 0 <= al_t2 (fst p) /\ 0 <= al_c2 (fst p) /\ 0 <= al_s (fst p).
Proof.
  intros (k & th & o & z0 & z1 & z & Hk & Hz & ->) A. destruct (X_nth_inv _ _ _ _ _ Hk) as (Hl & _ & _). exact (A th o (nth_error_In _ _ Hl)).
Qed.

Lemma div_le t x k : 0 < x -> (k * x <= t <-> k <= 1 + (t / x - 1)).
Proof.
  intros P. replace (1 + (t / x - 1)) with (t / x) by ring. split; intros H.
  - apply (Rmult_le_reg_r x); [exact P|]. replace (t / x * x) with t by (field; lra). exact H.
  - apply (Rmult_le_compat_r x) in H; [|lra]. replace (t / x * x) with t in H by (field; lra). exact H.
Qed.
Lemma survives_scaled a s k : 0 <= al_t1 a -> 0 <= al_c1 a -> 0 <= al_t2 a -> 0 <= al_c2 a -> 0 <= al_s a -> 0 <= k ->
  (survives a (vscale k s) <-> forall m, row_margin a s m -> k <= 1 + m).
Proof.
  intros P1 P2 P3 P4 P5 K. destruct a as [t1 c1 t2 c2 sh], s as [x y z]. unfold survives. unmat. cbn [al_t1 al_c1 al_t2 al_c2 al_s] in *. split.
  - intros ((A1 & A2) & (A3 & A4) & A5) m Hm. rewrite Rabs_mult, (Rabs_pos_eq k) in A5 by exact K.
    destruct Hm as [Q|Q|Q|Q|Q]; cbn [vx vy vz al_t1 al_c1 al_t2 al_c2 al_s] in *; apply div_le; try lra; [apply Rabs_pos_lt, Q].
  - intros H.
    assert (HX : - c1 <= k * x <= t1).
    { destruct (Rtotal_order x 0) as [Q|[-> | Q]]; [|lra|].
      - pose proof (H _ (rm_c1 (Allow t1 c1 t2 c2 sh) (V3 x y z) Q)) as E. cbn in E. apply div_le in E; [|lra]. nra.
      - pose proof (H _ (rm_t1 (Allow t1 c1 t2 c2 sh) (V3 x y z) Q)) as E. cbn in E. apply div_le in E; [|lra]. nra. }
    assert (HY : - c2 <= k * y <= t2).
    { destruct (Rtotal_order y 0) as [Q|[-> | Q]]; [|lra|].
      - pose proof (H _ (rm_c2 (Allow t1 c1 t2 c2 sh) (V3 x y z) Q)) as E. cbn in E. apply div_le in E; [|lra]. nra.
      - pose proof (H _ (rm_t2 (Allow t1 c1 t2 c2 sh) (V3 x y z) Q)) as E. cbn in E. apply div_le in E; [|lra]. nra. }
    split; [exact HX|]. split; [exact HY|]. rewrite Rabs_mult, (Rabs_pos_eq k) by exact K.
    destruct (Req_dec z 0) as [-> | Q]; [rewrite Rabs_R0; lra|].
    pose proof (H _ (rm_s (Allow t1 c1 t2 c2 sh) (V3 x y z) Q)) as E. cbn in E. apply div_le in E; [exact E|apply Rabs_pos_lt, Q].
Qed.

(*@ C81. The reserve: from the margins of one load case alone one knows which multiples of it are safe, namely exactly the
    multiples that are at most one plus every margin of the table. @*)
Lemma t_C81_reserve : forall l N rows k, table l N = Ok rows -> allowables_ok l -> 0 <= k ->
  (safe l (scale6 k N) <-> forall m, table_margin rows m -> k <= 1 + m).
Proof.
  intros l N rows k T A K. destruct (table_some l N rows T) as (e0 & Hr & Hs & Hi & P).
  rewrite (safe_iff l _ _ Hr (sol_scale l N k e0 Hr Hs) Hi). split.
  - intros S m (r & I & Hm). assert (E : entry l e0 (mr_margins r)) by (apply P, in_map, I).
    destruct (entry_allow _ _ _ E A) as (P1 & P2 & P3 & P4 & P5).
    revert m Hm. apply (survives_scaled _ _ k); try assumption.
    destruct E as (q & th & o & z0 & z1 & z & Hq & Hz & Ep). rewrite Ep. cbn [fst snd]. rewrite <- f12_scale.
    apply (S (allow_of o, f_stress12 (scale6 k e0) ((th, Ortho o), (z0, z1)) z)). exists q, th, o, z0, z1, z. auto.
  - intros H p (q & th & o & z0 & z1 & z & Hq & Hz & ->). cbn [fst snd]. rewrite f12_scale.
    assert (E : entry l e0 (allow_of o, f_stress12 e0 ((th, Ortho o), (z0, z1)) z)) by (exists q, th, o, z0, z1, z; auto).
    destruct (entry_allow _ _ _ E A) as (P1 & P2 & P3 & P4 & P5). apply survives_scaled; try assumption.
    intros m Hm. apply H. apply P, in_map_iff in E. destruct E as (r & Er & I). exists r. rewrite Er. auto.
Qed.

(*@ C81. So the largest safe multiple of a load is one plus the smallest margin of its table, and the load itself is safe
    exactly when that margin is not negative. @*)
Lemma t_C81_multiplier : forall l N rows m, table l N = Ok rows -> allowables_ok l -> smallest_margin rows m ->
  (forall k, 0 <= k -> (safe l (scale6 k N) <-> k <= 1 + m)) /\ (safe l N <-> 0 <= m).
Proof.
  intros l N rows m T A [M1 M2].
  assert (G : forall k, 0 <= k -> (safe l (scale6 k N) <-> k <= 1 + m)).
  { intros k K. rewrite (t_C81_reserve l N rows k T A K). split; [intros H; apply H, M1|]. intros H m' Hm'. specialize (M2 m' Hm'). lra. }
  split; [exact G|]. rewrite <- (scale_1 N), (G 1) by lra. split; lra.
Qed.

(*@ C81. No load at all is safe, reducing a safe load keeps it safe, and a load whose table shows no margin that is a number
    can be increased without bound. @*)
Lemma t_C81_reduce : forall l N rows, table l N = Ok rows -> allowables_ok l ->
  safe l zero6 /\ (forall k, 0 <= k <= 1 -> safe l N -> safe l (scale6 k N)) /\
  ((forall m, ~ table_margin rows m) -> forall k, 0 <= k -> safe l (scale6 k N)).
Proof.
  intros l N rows T A.
  assert (Z : safe l zero6).
  { destruct (table_some l N rows T) as (e0 & Hr & Hs & Hi & P). apply (safe_iff l zero6 zero6 Hr (sol_zero l N e0 Hr Hs) Hi).
    intros p E. destruct (entry_allow _ _ _ E A) as (P1 & P2 & P3 & P4 & P5).
    destruct E as (q & th & o & z0 & z1 & z & Hq & Hz & ->). cbn [fst snd] in *.
    replace (f_stress12 zero6 ((th, Ortho o), (z0, z1)) z) with vzero
      by (rewrite <- (f12_zero ((th, Ortho o), (z0, z1)) z); reflexivity).
    unfold survives, vzero. cbn [vx vy vz]. rewrite Rabs_R0. lra. }
  split; [exact Z|]. split.
  - intros k K S. replace (scale6 k N) with (add6 (scale6 (1 - k) zero6) (scale6 k N)); [apply t_C81_convex; assumption|].
    destruct N as [[? ? ?] [? ? ?]]. unfold add6, scale6, zero6. cbn [fst snd]. f_equal; unmat; f_equal; ring.
  - intros H k K. apply (t_C81_reserve l N rows k T A K). intros m Hm. destruct (H m Hm).
Qed.

(*@ C81. Checking the two faces of every ply suffices: if a load is safe, the stress in material directions at every height
    inside every ply, computed from the strains of epsilon0, respects the allowables of that ply. @*)
Lemma t_C81_inside : forall l N e k i th o z0 z1 z, safe l N -> epsilon0_of l N = Ok (e, k) ->
  nth_error l i = Some (th, Ortho o) -> nth_error (z_position l) i = Some z0 -> nth_error (z_position l) (i+1) = Some z1 -> z0 <= z <= z1 ->
  exists q, Q_0 (Ortho o) = Ok q /\
    survives (Allow (o_t1 o) (o_c1 o) (o_t2 o) (o_c2 o) (o_s o))
      (mvec q (eng_strain (rotate_tensor (cdeg th) (sdeg th) (tensor_strain (vadd e (vscale z k)))))).
Proof.
  intros l N e k i th o z0 z1 z S E Hl H0 H1 Hz.
  destruct (safe_some _ _ S) as (e0 & Hr & Hs & Hi). rewrite epsilon0_of_eq in E by exact Hr.
  rewrite Hs in E. apply Ok_inj in E. subst e0. rewrite (safe_iff l N _ Hr Hs Hi) in S.
  assert (Rd : readable (Ortho o)). { unfold all_readable in Hr. rewrite Forall_forall in Hr. apply (Hr _ (nth_error_In _ _ Hl)). }
  exists (Q0p (Ortho o)). split; [apply readable_Q0p, Rd|].
  destruct (X_nth l i _ Hl) as (za & zc & HX & Ha & Hc). rewrite H0 in Ha. rewrite H1 in Hc. injection Ha as <-. injection Hc as <-.
  assert (F : forall w, w = z0 \/ w = z1 -> survives (allow_of o) (f_stress12 (e, k) ((th, Ortho o), (z0, z1)) w)).
  { intros w Hw. apply (S (allow_of o, f_stress12 (e, k) ((th, Ortho o), (z0, z1)) w)). exists i, th, o, z0, z1, w. auto. }
  assert (Q : mvec (Q0p (Ortho o)) (eng_strain (rotate_tensor (cdeg th) (sdeg th) (tensor_strain (vadd e (vscale z k)))))
            = f_stress12 (e, k) ((th, Ortho o), (z0, z1)) z).
  { unfold f_stress12, f_stress. rewrite stress12_Q0. unfold theta_of, mat_of, ep. cbn [fst snd]. f_equal.
    unfold eng_strain, rotate_tensor, tensor_strain, double3, halve3, T_real. unmat. f_equal; field. }
  rewrite Q. destruct (Req_dec z0 z1) as [<- | N0]; [replace z with z0 by lra; apply F; auto|].
  set (t := (z - z0) / (z1 - z0)).
  assert (T : 0 <= t <= 1). { unfold t. split; [apply Rle_mult_inv_pos; lra|]. apply (Rmult_le_reg_r (z1 - z0)); [lra|]. unfold Rdiv. rewrite Rmult_assoc, Rinv_l by lra. lra. }
  replace (f_stress12 (e, k) ((th, Ortho o), (z0, z1)) z)
    with (vadd (vscale (1 - t) (f_stress12 (e, k) ((th, Ortho o), (z0, z1)) z0)) (vscale t (f_stress12 (e, k) ((th, Ortho o), (z0, z1)) z1)));
    [apply survives_mix; [exact T| |]; apply F; auto|].
  unfold f_stress12, f_stress. rewrite <- !mvec_vscale, <- !mvec_vadd. f_equal. f_equal.
  assert (Z : z = (1 - t) * z0 + t * z1) by (unfold t; field; lra). rewrite Z at 1. unfold ep. cbn [fst snd]. destruct e, k. unmat. f_equal; ring.
Qed.

(* ---------------------------------------------------------------- other axes *)
Definition both (A : mat3) (x : vec3 * vec3) : vec3 * vec3 := (mvec A (fst x), mvec A (snd x)).
Definition renamed (h : R -> R) (l : list (R * material)) : list (R * material) := map (fun p => (h (fst p), snd p)) l.
Lemma both_inv A B x : mmul A B = mid -> both A (both B x) = x.
Proof. intros E. destruct x as [u v]. unfold both. cbn [fst snd]. rewrite <- !mvec_mmul, E, !mvec_mid. reflexivity. Qed.
Lemma both_zero A : both A (vzero, vzero) = (vzero, vzero).
Proof. unfold both. cbn [fst snd]. assert (E : mvec A vzero = vzero) by (destruct A; unmat; f_equal; ring). rewrite E. reflexivity. Qed.
Lemma ABDp_change l l' H G y : (forall f, Lsum f l' = mmul (mmul H (Lsum f l)) G) -> mvec6 (ABDp l') y = both H (mvec6 (ABDp l) (both G y)).
Proof.
  intros E. unfold ABDp, mvec6, both. cbn [fst snd blkA blkB blkC blkD]. rewrite !E, !mvec_mmul, !mvec_vadd. reflexivity.
Qed.
Lemma sol_change l l' H H' G G' N x : mmul H' H = mid -> mmul G G' = mid -> mmul G' G = mid ->
  (forall f, Lsum f l' = mmul (mmul H (Lsum f l)) G) -> sol l N = Ok x -> sol l' (both H N) = Ok (both G' x).
Proof.
  intros HH GG GG' E S. destruct (sol_inv l N x S) as [S1 _].
  assert (Reg : ~ singular6 (ABDp l')).
  { intros (y & Ny & Hy). rewrite (ABDp_change l l' H G y E) in Hy.
    assert (Hz : mvec6 (ABDp l) (both G y) = (vzero, vzero)) by (rewrite <- (both_inv H' H (mvec6 (ABDp l) (both G y)) HH), Hy; apply both_zero).
    assert (R0 : ~ singular6 (ABDp l)).
    { unfold sol in S. destruct (inv6 (ABDp l)) as [abd|] eqn:Ei; [|discriminate]. exact (inv6_regular _ _ Ei). }
    apply R0. exists (both G y). split; [|exact Hz]. intros B. apply Ny. rewrite <- (both_inv G' G y GG'), B. apply both_zero. }
  destruct (inv6_total _ Reg) as [abd Ei]. assert (S' : sol l' (both H N) = Ok (mvec6 abd (both H N))) by (unfold sol; rewrite Ei; reflexivity).
  rewrite S'. f_equal. destruct (sol_inv _ _ _ S') as [_ U]. symmetry. apply U.
  rewrite (ABDp_change l l' H G _ E), (both_inv G G' x GG), S1. reflexivity.
Qed.
Lemma zl_renamed h l : forall z0, zl z0 (renamed h l) = map (fun x => ((h (theta_of x), mat_of x), snd x)) (zl z0 l).
Proof. unfold theta_of, mat_of. induction l as [|[th m] t IH]; intros z0; [reflexivity|]. cbn [renamed map zl fst snd]. f_equal. apply IH. Qed.
Lemma total_renamed h l : zb (renamed h l) = zb l.
Proof. unfold zb, total, renamed. rewrite map_map. reflexivity. Qed.
Lemma mapM_renamed h l : mapM (fun p : R * material => allowable (snd p)) (renamed h l) = mapM (fun p : R * material => allowable (snd p)) l.
Proof. induction l as [|[th m] t IH]; [reflexivity|]. cbn [renamed map mapM fst snd]. fold (renamed h t). rewrite IH. reflexivity. Qed.
Lemma mg_renamed {M} (mg : allow -> vec3 -> M) (F : M -> M) h (f g f' g' : plyz -> R -> vec3) (l : list (R * material)) : all_readable l ->
  (forall a th m zs z, readable m -> mg a (g' ((h th, m), zs) z) = F (mg a (g ((th, m), zs) z))) ->
  forall al i z0, same_but_angle F (mg_rows mg (allow_loop i (combine al (map fst l))) (rows f g i (zl z0 l)))
    (mg_rows mg (allow_loop i (combine al (map fst (renamed h l)))) (rows f' g' i (zl z0 (renamed h l)))).
Proof.
  intros Hr E. unfold same_but_angle, mg_rows. induction l as [|[th m] t IH]; intros al i z0.
  - destruct al; constructor.
  - inversion_clear Hr as [|? ? Rm Rt]. cbn [snd] in Rm. destruct al as [|a al]; [constructor|].
    cbn [renamed map combine allow_loop zl rows two_rows List.app fst snd ar_ply ar_position ar_angle ar_allow r_12].
    constructor; [cbn [mr_ply mr_position mr_margins]; auto|]. constructor; [cbn [mr_ply mr_position mr_margins]; auto|].
    exact (IH Rt al (i + 1)%nat (z0 + thickness m)).
Qed.
Lemma margin_renamed {M} (mg : allow -> vec3 -> M) (F : M -> M) h H H' G G' (Sg : vec3 -> vec3) l N margins :
  mmul H' H = mid -> mmul G G' = mid -> mmul G' G = mid ->
  (forall f, all_readable l -> Lsum f (renamed h l) = mmul (mmul H (Lsum f l)) G) ->
  (forall th m e, readable m -> mvec (Q0p m) (mvec (T_engineering (cdeg (h th)) (sdeg (h th))) (mvec G' e)) = Sg (mvec (Q0p m) (mvec (T_engineering (cdeg th) (sdeg th)) e))) ->
  (forall a s, mg a (Sg s) = F (mg a s)) ->
  margin_of mg l N = Ok margins -> exists margins', margin_of mg (renamed h l) (both H N) = Ok margins' /\ same_but_angle F margins margins'.
Proof.
  intros HH GG GG' E ES EF Hm. destruct (readable_em l) as [Hr|Hr]; [|exfalso; exact (margin_err mg l N Hr margins Hm)].
  assert (Hr' : all_readable (renamed h l)) by (apply readable_map, Hr).
  rewrite margin_of_eq in Hm by exact Hr. rewrite margin_of_eq by exact Hr'. unfold pure_margin in *. rewrite mapM_renamed.
  destruct (mapM (fun p : R * material => allowable (snd p)) l) as [al|]; [|discriminate]. cbn [bind] in *.
  destruct (sol l N) as [e0|] eqn:S1; [|discriminate]. cbn [bind] in Hm. apply Ok_inj in Hm. subst margins.
  rewrite (sol_change l (renamed h l) H H' G G' N e0 HH GG GG' (fun f => E f Hr) S1). cbn [bind].
  eexists. split; [reflexivity|]. unfold X. rewrite total_renamed. apply mg_renamed; [exact Hr|].
  intros a th m zs z Rm. rewrite <- EF. f_equal.
  unfold f_stress12, f_stress. rewrite !stress12_Q0. unfold theta_of, mat_of. cbn [fst snd]. rewrite !double_halve, <- ES by exact Rm.
  f_equal. f_equal. unfold ep, both. cbn [fst snd]. rewrite mvec_vadd, mvec_vscale. reflexivity.
Qed.

(*@ C81. Turning the plate axes: with all angles increased by phi and the loads expressed in the correspondingly turned axes, the
    margin table is the same except for its angle column, whatever the margin formula. @*)
Lemma t_C81_frame : forall M (mg : allow -> vec3 -> M) l phi N margins, margin_of mg l (turn_loads (cdeg phi) (sdeg phi) N) = Ok margins ->
  exists margins', margin_of mg (rotate_all phi l) N = Ok margins' /\ same_but_angle (fun m => m) margins margins'.
Proof.
  intros M mg l phi N margins Hm. pose proof (cs1 phi) as C1.
  assert (EN : N = both (T_real_inv (cdeg phi) (sdeg phi)) (turn_loads (cdeg phi) (sdeg phi) N)).
  { assert (ET : forall v, rotate_tensor (cdeg phi) (sdeg phi) v = mvec (T_real (cdeg phi) (sdeg phi)) v).
    { intros [x y z]. unfold rotate_tensor, T_real. unmat. f_equal; ring. }
    destruct N as [u v]. unfold both, turn_loads. cbn [fst snd]. rewrite !ET, <- !mvec_mmul.
    assert (Ti : mmul (T_real_inv (cdeg phi) (sdeg phi)) (T_real (cdeg phi) (sdeg phi)) = mid).
    { revert C1. generalize (cdeg phi) (sdeg phi). intros c s C1. assert (S2 : s^2 = 1 - c^2) by lra. destruct (poly_mod_c c s S2) as [S4 S3].
      unfold T_real_inv, T_real. unmat. apply mat3_ext; cbn [a11 a12 a13 a21 a22 a23 a31 a32 a33]; ring_simplify; rewrite ?S4, ?S3, ?S2; ring. }
    rewrite Ti, !mvec_mid. reflexivity. }
  rewrite EN. change (rotate_all phi l) with (renamed (fun t => t + phi) l).
  revert C1 Hm EN. intros C1 Hm _.
  apply (margin_renamed mg (fun m => m) (fun t => t + phi) (T_real_inv (cdeg phi) (sdeg phi)) (T_real (cdeg phi) (sdeg phi))
    (T_engineering (cdeg phi) (sdeg phi)) (T_engineering (cdeg phi) (- sdeg phi)) (fun s => s) l _ margins).
  - apply T_real_inv_r, C1.
  - revert C1. generalize (cdeg phi) (sdeg phi). intros c s C1. assert (S2 : s^2 = 1 - c^2) by lra. destruct (poly_mod_c c s S2) as [S4 S3].
    unfold T_engineering. unmat. apply mat3_ext; cbn [a11 a12 a13 a21 a22 a23 a31 a32 a33]; ring_simplify; rewrite ?S4, ?S3, ?S2; ring.
  - revert C1. generalize (cdeg phi) (sdeg phi). intros c s C1. assert (S2 : s^2 = 1 - c^2) by lra. destruct (poly_mod_c c s S2) as [S4 S3].
    unfold T_engineering. unmat. apply mat3_ext; cbn [a11 a12 a13 a21 a22 a23 a31 a32 a33]; ring_simplify; rewrite ?S4, ?S3, ?S2; ring.
  - intros f _. exact (Lsum_rotate f phi l).
  - intros th m e Rm. f_equal. rewrite <- mvec_mmul. f_equal. rewrite cdeg_add, sdeg_add.
    revert C1. generalize (cdeg phi) (sdeg phi) (cdeg th) (sdeg th). intros c s c' s' C1. assert (S2 : s^2 = 1 - c^2) by lra. destruct (poly_mod_c c s S2) as [S4 S3].
    unfold T_engineering. unmat. apply mat3_ext; cbn [a11 a12 a13 a21 a22 a23 a31 a32 a33]; ring_simplify; rewrite ?S4, ?S3, ?S2; ring.
  - reflexivity.
  - exact Hm.
Qed.

Definition diag3 (x y z : R) : mat3 := M3 x 0 0 0 y 0 0 0 z.
Definition swap3 : mat3 := M3 0 1 0 1 0 0 0 0 1.
Lemma Q0_shear m v : readable m -> mvec (Q0p m) (V3 (vx v) (vy v) (- vz v)) = let w := mvec (Q0p m) v in V3 (vx w) (vy w) (- vz w).
Proof. intros H. destruct (Q0p_shape m H) as (q1 & q2 & q3 & q4 & ->). destruct v. unmat. f_equal; ring. Qed.

(*@ C81. Mirror images and exchanged axes: with all angles reversed and the shear load and twisting moment reversed, or with every angle t replaced by
    90 - t and the two directions of the loads exchanged, every row keeps its allowables and its normal stresses in material directions, and the shear
    stress changes sign. @*)
Lemma t_C81_mirror : forall l N rows, table l N = Ok rows ->
  (exists rows', table (opposite_angles l) (reverse_shear N) = Ok rows' /\ same_but_angle reverse_tau rows rows') /\
  (exists rows', table (complementary_angles l) (exchange_axes N) = Ok rows' /\ same_but_angle reverse_tau rows rows').
Proof.
  intros l N rows T. split.
  - replace (reverse_shear N) with (both (diag3 1 1 (-1)) N)
      by (destruct N as [[? ? ?] [? ? ?]]; unfold both, reverse_shear, diag3; cbn [fst snd]; f_equal; unmat; f_equal; ring).
    apply (margin_renamed (fun a s => (a, s)) reverse_tau (fun t => - t) (diag3 1 1 (-1)) (diag3 1 1 (-1)) (diag3 1 1 (-1)) (diag3 1 1 (-1))
      (fun s => V3 (vx s) (vy s) (- vz s)) l N rows); try (unfold diag3; mat_ring); try reflexivity; [| |exact T].
    + intros f Hr. destruct mirrored_lin as (X1 & X2 & X3). unfold renamed. rewrite (Lsum_map f mirrored (fun t => - t) l X1 X2 X3) by (try exact Hr; intros; apply Qbar_neg; assumption).
      destruct (Lsum f l). unfold mirrored, diag3. mat_ring.
    + intros th m e Rm. rewrite cdeg_neg, sdeg_neg. rewrite <- (Q0_shear m _ Rm). f_equal. destruct e. unfold T_engineering, diag3. unmat. f_equal; ring.
  - replace (exchange_axes N) with (both swap3 N)
      by (destruct N as [[? ? ?] [? ? ?]]; unfold both, exchange_axes, swap3; cbn [fst snd]; f_equal; unmat; f_equal; ring).
    apply (margin_renamed (fun a s => (a, s)) reverse_tau (fun t => 90 - t) swap3 swap3 swap3 swap3
      (fun s => V3 (vx s) (vy s) (- vz s)) l N rows); try (unfold swap3; mat_ring); try reflexivity; [| |exact T].
    + intros f Hr. destruct exchanged_lin as (X1 & X2 & X3). unfold renamed.
      rewrite (Lsum_map f exchanged (fun t => 90 - t) l X1 X2 X3);
        [|intros th m H; replace (90 - th) with (- th + 90) by ring; rewrite Qbar_90, Qbar_neg by exact H; unfold swap12, flip16, exchanged; cbn; f_equal; ring|exact Hr].
      destruct (Lsum f l). unfold exchanged, swap3. mat_ring.
    + intros th m e Rm. replace (90 - th) with (- th + 90) by ring. rewrite cdeg_90, sdeg_90, cdeg_neg, sdeg_neg.
      rewrite <- (Q0_shear m _ Rm). f_equal. destruct e. unfold T_engineering, swap3. unmat. f_equal; ring.
Qed.
(*@ C81. Hence the mirror image is as safe as the laminate. @*)
Lemma t_C81_mirror_safe : forall l N, safe l N -> safe (opposite_angles l) (reverse_shear N) /\ safe (complementary_angles l) (exchange_axes N).
Proof.
  intros l N (rows & T & F).
  assert (G : forall rows' : list (mrow (allow * vec3)), same_but_angle reverse_tau rows rows' -> forall r, In r rows' -> survives (fst (mr_margins r)) (snd (mr_margins r))).
  { clear T. intros rows' S. unfold same_but_angle in S. induction S as [|r r' t t' (_ & _ & E) S IH]; intros q I; [destruct I|].
    destruct I as [<-|I]; [|apply IH; [intros; apply F; right; assumption|exact I]].
    rewrite E. specialize (F r (or_introl eq_refl)). unfold survives, reverse_tau in *. cbn [fst snd vx vy vz]. rewrite Rabs_Ropp. exact F. }
  destruct (t_C81_mirror l N rows T) as [(r1 & T1 & S1) (r2 & T2 & S2)]. split; [exists r1; split; [exact T1|exact (G r1 S1)]|exists r2; split; [exact T2|exact (G r2 S2)]].
Qed.

(* ---------------------------------------------------------------- accuracy of the margins *)
Lemma quot_err (t d : f64) : is_finite t = true -> is_finite d = true -> 0 < B2R d -> bpow radix2 (-1022) <= B2R t / B2R d <= bpow radix2 1021 ->
  exists v, denotes (fsub (fdiv t d) fone) v /\ Rabs (v - (B2R t / B2R d - 1)) <= 3 * bpow radix2 (-53) * (1 + B2R t / B2R d).
Proof.
  intros Ft Fd Pd [Lo Hi]. set (x := B2R t / B2R d) in *.
  assert (B0 : 0 < bpow radix2 (-1022)) by apply bpow_gt_0.
  assert (Bx : bpow radix2 1021 <= bpow radix2 1023) by (apply bpow_le; lia).
  assert (Bt : bpow radix2 1023 = 4 * bpow radix2 1021) by (change 4 with (bpow radix2 2); rewrite <- bpow_plus; reflexivity).
  assert (B1 : 1 <= bpow radix2 1021) by (change 1 with (bpow radix2 0); apply bpow_le; lia).
  assert (Ax : Rabs x = x) by (apply Rabs_pos_eq; lra).
  destruct (div_rnd t d Ft (Rgt_not_eq _ _ Pd)) as [Fq Eq]; [fold x; rewrite Ax; lra|]. fold x in Eq.
  assert (Q := rnd_rel x (or_intror (eq_ind_r (fun v => bp (-1022) <= v) Lo Ax))). rewrite <- Eq, Ax in Q.
  assert (U := unit_val). assert (U2 : bpow radix2 (-53) = unit) by (rewrite unit_bp; reflexivity).
  assert (F1 : B2R fone = 1) by (destruct fone_denotes; assumption). assert (F1' : is_finite fone = true) by (destruct fone_denotes; assumption).
  set (q := B2R (fdiv t d)) in *. assert (Hq : Rabs (q - 1) <= Rabs (x - 1) + unit * x).
  { replace (q - 1) with ((q - x) + (x - 1)) by ring. eapply Rle_trans; [apply Rabs_triang|]. lra. }
  assert (Hq' : Rabs (q - 1) <= bp 1023).
  { eapply Rle_trans; [exact Hq|]. assert (Rabs (x - 1) <= x + 1) by (apply Rabs_le; lra).
    assert (unit * x <= / 2 * x) by (apply Rmult_le_compat_r; lra).
    unfold bp in *. lra. }
  destruct (sub_err (fdiv t d) fone Fq F1') as [Fs Es]; [rewrite F1; exact Hq'|]. rewrite F1 in Es. fold q in Es.
  exists (B2R (fsub (fdiv t d) fone)). split; [split; [exact Fs|reflexivity]|].
  rewrite U2. replace (B2R (fsub (fdiv t d) fone) - (x - 1)) with ((B2R (fsub (fdiv t d) fone) - (q - 1)) + (q - x)) by ring.
  eapply Rle_trans; [apply Rabs_triang|].
  assert (unit * Rabs (q - 1) <= unit * (Rabs (x - 1) + unit * x)) by (apply Rmult_le_compat_l; lra).
  assert (unit * (unit * x) <= unit * (/ 2 * x)) by (apply Rmult_le_compat_l; [lra|]; apply Rmult_le_compat_r; lra).
  assert (W : unit * Rabs (x - 1) <= unit * (1 + x)) by (apply Rmult_le_compat_l; [lra|]; apply Rabs_le; lra).
  assert (W2 : 0 <= unit * x) by (apply Rmult_le_pos; lra). lra.
Qed.

(*@ C81. Rounding of a margin: for a finite allowable and a finite stress of the sign checked, whose quotient is between 2^-1022 and 2^1021, the margin returned is the
    exact margin up to 3 * 2^-53 times one plus the quotient. @*)
Lemma t_C81_accuracy : forall t sigma r x, denotes t r -> denotes sigma x ->
  let near (m : f64) (q : R) := bpow radix2 (-1022) <= q <= bpow radix2 1021 -> exists v, denotes m v /\ Rabs (v - (q - 1)) <= 3 * bpow radix2 (-53) * (1 + q) in
  (0 < x -> near (margin_t t sigma) (r / x)) /\
  (x < 0 -> near (margin_c t sigma) (r / - x)) /\
  (x <> 0 -> near (margin_s t sigma) (r / Rabs x)).
Proof.
  intros t sigma r x [Ft <-] [Fs <-] near. unfold near.
  assert (C : forall y : f64, is_finite y = true -> (flt y fzero = true <-> B2R y < 0) /\ (fgt y fzero = true <-> 0 < B2R y)).
  { intros y Fy. split; [apply (flt_fin y fzero)|unfold fgt; apply (flt_fin fzero y)]; solve [assumption | reflexivity]. }
  destruct (C sigma Fs) as [C1 C2].
  assert (FA : is_finite (fabs sigma) = true) by (unfold fabs; rewrite is_finite_Babs; exact Fs).
  assert (EA : B2R (fabs sigma) = Rabs (B2R sigma)) by (unfold fabs; apply B2R_Babs).
  split; [|split]; intros P B.
  - unfold margin_t, mask_negative. destruct (flt sigma fzero); [exfalso; destruct C1 as [C1 _]; specialize (C1 eq_refl); lra|]. apply quot_err; assumption.
  - unfold margin_c, mask_positive. destruct (fgt sigma fzero); [exfalso; destruct C2 as [C2 _]; specialize (C2 eq_refl); lra|].
    rewrite <- (Rabs_left (B2R sigma) P), <- EA in *. apply quot_err; try assumption. rewrite EA. apply Rabs_pos_lt. lra.
  - unfold margin_s. rewrite <- EA in *. apply quot_err; try assumption. rewrite EA. apply Rabs_pos_lt, P.
Qed.

Lemma ex_strong_Q : Q_0 (Ortho (OMat 2 1 0 1 1 6 6 3 3 2)) = Ok (M3 2 0 0 0 1 0 0 0 1).
Proof.
  simpl; rewrite o_Q0_spec. assert (D : o_den (OMat 2 1 0 1 1 6 6 3 3 2) = 1) by (unfold o_den, o_v21; simpl; lra).
  rewrite D. destruct (Req_EM_T 1 0) as [E|_]; [lra|]. f_equal. unfold o_Qval. rewrite D. simpl. f_equal; lra.
Qed.
Lemma ex_strong_readable : all_readable ex_strong.
Proof. constructor; [|constructor]. eexists. apply ex_strong_Q. Qed.
Lemma ex_strong_Q0p : Q0p (Ortho (OMat 2 1 0 1 1 6 6 3 3 2)) = M3 2 0 0 0 1 0 0 0 1.
Proof. assert (X := ex_strong_readable). inversion_clear X as [|? ? H _]. apply readable_Q0p in H. cbn [snd] in H. rewrite ex_strong_Q in H. congruence. Qed.
Lemma ex_strong_sol : sol ex_strong (V3 2 (-1) 0, vzero) = Ok (V3 1 (-1) 0, vzero).
Proof.
  destruct (sol_exists ex_strong (V3 2 (-1) 0, vzero)) as [x Hs]; [discriminate| |].
  - constructor; [|constructor]. split; [exists (M3 2 0 0 0 1 0 0 0 1); split; [apply ex_strong_Q|]|simpl; lra].
    intros [x y z] N. unfold dot. unmat. destruct (Req_dec x 0), (Req_dec y 0), (Req_dec z 0); subst; try (exfalso; apply N; reflexivity); nra.
  - rewrite Hs. f_equal. symmetry. apply (sol_inv _ _ _ Hs).
    assert (E : forall f, Lsum f ex_strong = mscale (f (/ 2) (- / 2)) (M3 2 0 0 0 1 0 0 0 1)).
    { intros f. unfold Lsum, ex_strong, pairs. cbn [map fst snd lsum thickness o_thickness]. unfold z_bottom, hsum. cbn [map fst].
      replace (- rsum [1] / 2) with (- / 2) by (unfold rsum; cbn; field). replace (- / 2 + 1) with (/ 2) by field.
      unfold Qbar, rot. rewrite cdeg_0, sdeg_0, ex_strong_Q0p.
      replace (mmul (mmul (T_real_inv 1 0) (M3 2 0 0 0 1 0 0 0 1)) (T_engineering 1 0)) with (M3 2 0 0 0 1 0 0 0 1);
        [unfold madd, mscale, mzero; cbn [a11 a12 a13 a21 a22 a23 a31 a32 a33]; f_equal; ring|].
      replace (T_real_inv 1 0) with mid by (unfold T_real_inv, mid; f_equal; ring). replace (T_engineering 1 0) with mid by (unfold T_engineering, mid; f_equal; ring).
      rewrite mmul_mid_l, mmul_mid_r. reflexivity. }
    unfold ABDp, mvec6. rewrite !E. cbn [blkA blkB blkC blkD fst snd]. rewrite !mvec_mscale.
    replace (mvec (M3 2 0 0 0 1 0 0 0 1) (V3 1 (-1) 0)) with (V3 2 (-1) 0) by (unmat; f_equal; ring).
    replace (mvec (M3 2 0 0 0 1 0 0 0 1) vzero) with vzero by (unmat; f_equal; ring).
    unfold vadd, vscale, vzero, wA, wB, wD. cbn [vx vy vz]. f_equal; f_equal; field.
Qed.
(*@ C81, example: a ply with allowables 6, 6, 3, 3, 2 under Nxx = 2, Nyy = -1 has smallest margin 2: three times the load is safe, four times is not. @*)
Example t_C81_ex : exists rows, table ex_strong (V3 2 (-1) 0, vzero) = Ok rows /\ allowables_ok ex_strong /\ smallest_margin rows 2 /\
  safe ex_strong (scale6 3 (V3 2 (-1) 0, vzero)) /\ ~ safe ex_strong (scale6 4 (V3 2 (-1) 0, vzero)).
Proof.
  assert (A : allowables_ok ex_strong). { intros th o [E|[]]. injection E as _ <-. cbn. lra. }
  assert (Hi : forall th i, ~ In (th, Iso i) ex_strong). { intros th i [E|[]]. discriminate. }
  destruct (table_exists ex_strong _ _ ex_strong_readable ex_strong_sol Hi) as [rows T]. exists rows. split; [exact T|]. split; [exact A|].
  destruct (table_some _ _ _ T) as (e0 & Hr & Hs & _ & P). rewrite ex_strong_sol in Hs. apply Ok_inj in Hs. subst e0.
  assert (F : forall zs z, f_stress12 (V3 1 (-1) 0, vzero) ((0, Ortho (OMat 2 1 0 1 1 6 6 3 3 2)), zs) z = V3 2 (-1) 0).
  { intros zs z. unfold f_stress12, f_stress. rewrite stress12_Q0. unfold theta_of, mat_of. cbn [fst snd]. rewrite double_halve, cdeg_0, sdeg_0, ex_strong_Q0p.
    unfold ep, T_engineering, vzero. cbn [fst snd]. unmat. f_equal; ring. }
  assert (G : forall p, In p (map mr_margins rows) -> p = (Allow 6 6 3 3 2, V3 2 (-1) 0)).
  { intros p I. apply P in I. destruct I as (k & th & o & z0 & z1 & z & Hk & _ & ->). destruct k as [|k]; [|destruct k; discriminate].
    cbn in Hk. injection Hk as <- <- _ _. rewrite F. reflexivity. }
  assert (Sm : smallest_margin rows 2).
  { split.
    - assert (I : In (Allow 6 6 3 3 2, V3 2 (-1) 0) (map mr_margins rows)).
      { apply P. exists 0%nat. do 4 eexists. exists (zb ex_strong). split; [reflexivity|]. split; [left; reflexivity|]. rewrite F. reflexivity. }
      apply in_map_iff in I. destruct I as (r & E & I). exists r. split; [exact I|]. rewrite E. cbn [fst snd].
      refine (eq_ind _ (row_margin _ _) (rm_t1 (Allow 6 6 3 3 2) (V3 2 (-1) 0) _) _ _); cbn; [lra|field].
    - intros m (r & I & Hm). rewrite (G (mr_margins r)) in Hm by (apply in_map, I). cbn [fst snd] in Hm.
      inversion Hm as [Q E|Q E|Q E|Q E|Q E]; subst m; cbn in *; try lra.
      replace (3 / - -1) with 3 by field. lra. }
  split; [exact Sm|]. destruct (t_C81_multiplier _ _ _ _ T A Sm) as [K _]. rewrite !K by lra. split; lra.
Qed.
