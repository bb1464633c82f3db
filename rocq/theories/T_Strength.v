(** Proofs of properties C25-C30, C32, C61, C62 (LaminateStrength, exact arithmetic). *)
From Coquelicot Require Import Coquelicot.
From Coq Require Import Reals List Lra Lia String.
From Verif Require Import M_Py S_Mat M_Material M_Laminate M_LamHistory M_Linalg S_Laminate M_Strength S_Strength L_Mat L_Lam L_LamAlg L_LamSums L_LamEnergy L_Linalg L_Strength T_Laminate.
Import ListNotations.
Open Scope string_scope.
Open Scope list_scope.
Open Scope R_scope.

(* ---------------------------------------------------------------- preliminaries *)
Lemma strain_of_eq l N : all_readable l -> strain_of l N = (e0 <- sol l N ;; Ok (rows (f_strain e0) (f_strain12 e0) 0 (X l))).
Proof.
  intros Hr; unfold strain_of; rewrite laminate_of_eq; cbn [bind].
  destruct (calculate_strain_run l N (fresh l) [] Hr (GoodL_fresh l)) as (L' & h' & _ & E); unfold start; rewrite E; reflexivity.
Qed.
Lemma stress_of_eq l N : all_readable l -> stress_of l N = (e0 <- sol l N ;; Ok (rows (f_stress e0) (f_stress12 e0) 0 (X l))).
Proof.
  intros Hr; unfold stress_of; rewrite laminate_of_eq; cbn [bind].
  destruct (calculate_stress_run l N (fresh l) [] Hr (GoodL_fresh l)) as (L' & h' & _ & E); unfold start; rewrite E; reflexivity.
Qed.
Lemma epsilon0_of_eq l N : all_readable l -> epsilon0_of l N = sol l N.
Proof.
  intros Hr; unfold epsilon0_of; rewrite laminate_of_eq; cbn [bind].
  destruct (epsilon0_run l N (fresh l) [] Hr (GoodL_fresh l)) as (L' & E & _); unfold start; rewrite E; reflexivity.
Qed.
Lemma abd_err l L : laminate_of l = Ok L -> ~ all_readable l -> snd (get_ABD L) = Err ZeroDivisionError.
Proof.
  intros EL N; destruct (not_readable l N) as (_ & _ & _ & E & _); unfold ABD_of in E; rewrite EL in E; exact E.
Qed.
Lemma epsilon0_err l N : ~ all_readable l -> epsilon0_of l N = Err ZeroDivisionError.
Proof.
  intros Nr; unfold epsilon0_of; rewrite laminate_of_eq; cbn [bind].
  pose proof (abd_err l (fresh l) (laminate_of_eq l) Nr) as E.
  unfold epsilon0, sbind, on_lam, start; cbn [w_lam].
  destruct (get_ABD (fresh l)) as [L' r]; simpl in E; subst r; reflexivity.
Qed.
Lemma zmid_fresh l : mapM (fun i => zi <- get (z_position l) i ;; zj <- get (z_position l) (i+1) ;; Ok (zi, zj)) (seq 0 (List.length (map fst l))) = Ok (map snd (X l)).
Proof.
  rewrite map_length, z_position_zb; exact (zmid_eq l [] (zb l)).
Qed.
Lemma strain_err l N : ~ all_readable l -> strain_of l N = Err ZeroDivisionError.
Proof.
  intros Nr; unfold strain_of; rewrite laminate_of_eq; cbn [bind].
  pose proof (abd_err l (fresh l) (laminate_of_eq l) Nr) as E.
  unfold calculate_strain, epsilonk, epsilon0, sbind, on_lam, lam_get, lift, start; cbn [w_lam w_heap stacking layup fresh stacking_len].
  change (layup (fresh l)) with l. change (stacking (fresh l)) with (SAngles (map fst l)). cbn [stacking_len].
  rewrite zmid_fresh. destruct (get_ABD _) as [L' r]; simpl in E; subst r; reflexivity.
Qed.
Lemma stress_err l N : ~ all_readable l -> stress_of l N = Err ZeroDivisionError.
Proof.
  intros Nr; unfold stress_of; rewrite laminate_of_eq; cbn [bind].
  destruct (not_readable l Nr) as (_ & _ & _ & _ & E); unfold Q_layup_of in E; rewrite laminate_of_eq in E; cbn [bind] in E.
  unfold calculate_stress, stressk, sbind, on_lam, start; cbn [w_lam w_heap].
  destruct (get_Q_layup _) as [L' r]; simpl in E; subst r; reflexivity.
Qed.
Lemma sol_inv l N x : sol l N = Ok x -> mvec6 (ABDp l) x = N /\ forall y, mvec6 (ABDp l) y = N -> y = x.
Proof.
  unfold sol; destruct (inv6 (ABDp l)) as [abd|] eqn:E; simpl; [|discriminate]; intros H; apply Ok_inj in H; subst x.
  split; [apply (inv6_sound _ _ E)|]; intros y Hy.
  pose proof (inv6_regular _ _ E) as Hn.
  set (d := vadd6 y (vscale6 (-1) (mvec6 abd N))).
  assert (Hd : mvec6 (ABDp l) d = (vzero, vzero)).
  { unfold d; rewrite mvec6_add, mvec6_scale, Hy, (inv6_sound _ _ E).
    destruct N as [[? ? ?] [? ? ?]]; unfold vadd6, vscale6; cbn [fst snd]; f_equal; unmat; f_equal; ring. }
  assert (D0 : d = (vzero, vzero)).
  { destruct d as [d1 d2]; destruct (vec3_eq_dec d1 vzero) as [->|N1], (vec3_eq_dec d2 vzero) as [->|N2]; auto;
    exfalso; apply Hn; eexists; (split; [|exact Hd]); congruence. }
  unfold d in D0; destruct y as [[y1 y2 y3] [y4 y5 y6]], (mvec6 abd N) as [[n1 n2 n3] [n4 n5 n6]].
  unfold vadd6, vscale6, vadd, vscale, vzero in D0; cbn [fst snd vx vy vz] in D0; injection D0; intros; f_equal; f_equal; lra.
Qed.
Lemma sol_some l N x : epsilon0_of l N = Ok x -> all_readable l /\ sol l N = Ok x.
Proof.
  intros H; destruct (readable_em l) as [Hr|Hr]; [rewrite epsilon0_of_eq in H by assumption; auto|].
  rewrite epsilon0_err in H by assumption; discriminate.
Qed.
Lemma pd_regular M : pos_def6 M -> ~ singular6 M.
Proof.
  intros Hp (x & Nx & Hx); specialize (Hp x Nx); rewrite Hx in Hp; destruct x as [[? ? ?] [? ? ?]]; unfold dot6 in Hp; unmat; simpl in Hp; lra.
Qed.
Lemma sol_exists l N : l <> [] -> all_admissible l -> exists x, sol l N = Ok x.
Proof.
  intros Hne Ha; destruct (inv6_total (ABDp l) (pd_regular _ (ABD_pos_def l Hne Ha))) as [abd E].
  unfold sol; rewrite E; simpl; eauto.
Qed.
Lemma inv6_cases M : (exists N, inv6 M = Ok N) \/ inv6 M = Err LinAlgError.
Proof.
  destruct (Classical_Prop.classic (singular6 M)) as [Hs|Hs]; [right; apply inv6_singular, Hs|left; apply inv6_total, Hs].
Qed.
Lemma ABDp_of l M : ABD_of l = Ok M -> all_readable l /\ M = ABDp l.
Proof.
  intros H; reads l Hr; [|rewrite EABD in H; discriminate].
  rewrite ABD_of_eq in H by assumption; apply Ok_inj in H; auto.
Qed.

(* ---------------------------------------------------------------- C25 *)
(*@ C25: epsilon0() is the one and only solution of ABD x = (Nxx,Nyy,Nxy,Mxx,Myy,Mxy). @*)
Lemma t_C25_solves : forall l N x, epsilon0_of l N = Ok x ->
  exists M, ABD_of l = Ok M /\ mvec6 M x = N /\ forall y, mvec6 M y = N -> y = x.
Proof.
  intros l N x H; destruct (sol_some l N x H) as [Hr Hs]; exists (ABDp l); split; [apply ABD_of_eq, Hr|].
  apply sol_inv, Hs.
Qed.

(*@ C25: it exists for every non-empty admissible laminate and every load. @*)
Lemma t_C25_exists : forall l N, l <> [] -> all_admissible l -> exists x, epsilon0_of l N = Ok x.
Proof.
  intros l N Hne Ha; rewrite epsilon0_of_eq by (apply admissible_readable, Ha); apply sol_exists; assumption.
Qed.

(*@ C25: the only exceptions are LinAlgError, raised exactly when ABD is singular (whatever the load), and
    ZeroDivisionError, raised exactly when some Q_0 cannot be read. @*)
Lemma t_C25_errors : forall l N,
  (epsilon0_of l N = Err ZeroDivisionError <-> ~ all_readable l) /\
  (forall M, ABD_of l = Ok M -> (epsilon0_of l N = Err LinAlgError <-> singular M)) /\
  (forall e, epsilon0_of l N = Err e -> e = LinAlgError \/ e = ZeroDivisionError).
Proof.
  intros l N; split; [|split].
  - split; [|apply epsilon0_err]; intros H Hr; rewrite epsilon0_of_eq in H by assumption; unfold sol in H.
    destruct (inv6_cases (ABDp l)) as [[abd E]|E]; rewrite E in H; discriminate.
  - intros M HM; destruct (ABDp_of l M HM) as [Hr ->]; rewrite epsilon0_of_eq by assumption; unfold sol; split.
    + intros H; destruct (inv6 (ABDp l)) as [abd|e] eqn:E; [discriminate|].
      destruct (Classical_Prop.classic (singular6 (ABDp l))) as [Hs|Hs]; [exact Hs|].
      destruct (inv6_total _ Hs) as [abd E']; congruence.
    + intros Hs; rewrite inv6_singular by exact Hs; reflexivity.
  - intros e H; destruct (readable_em l) as [Hr|Hr]; [|rewrite epsilon0_err in H by assumption; injection H; auto].
    rewrite epsilon0_of_eq in H by assumption; unfold sol in H.
    destruct (inv6_cases (ABDp l)) as [[abd E]|E]; rewrite E in H; cbn [bind] in H; [discriminate|injection H; auto].
Qed.

(*@ C25: superposition and scaling of loads; zero load gives zero strain. @*)
Lemma t_C25_linear : forall l N1 N2 k x1 x2, epsilon0_of l N1 = Ok x1 -> epsilon0_of l N2 = Ok x2 ->
  epsilon0_of l (add6 N1 (scale6 k N2)) = Ok (add6 x1 (scale6 k x2)) /\ epsilon0_of l zero6 = Ok zero6.
Proof.
  intros l N1 N2 k x1 x2 H1 H2; destruct (sol_some _ _ _ H1) as [Hr S1]; destruct (sol_some _ _ _ H2) as [_ S2].
  rewrite !epsilon0_of_eq by assumption; unfold sol in *; destruct (inv6 (ABDp l)) as [abd|]; [|discriminate]; cbn [bind] in *.
  apply Ok_inj in S1; apply Ok_inj in S2; subst; split; f_equal.
  - change (add6 N1 (scale6 k N2)) with (vadd6 N1 (vscale6 k N2)); rewrite mvec6_add, mvec6_scale; reflexivity.
  - unfold zero6, mvec6; cbn [fst snd]; f_equal; mat_ring.
Qed.

(*@ C25: the loads do positive work (compliance), and the reciprocity theorem of Betti holds. @*)
Lemma t_C25_energy : forall l N1 N2 x1 x2, epsilon0_of l N1 = Ok x1 -> epsilon0_of l N2 = Ok x2 ->
  dot6 N1 x2 = dot6 N2 x1 /\
  (l <> [] -> all_admissible l -> N1 <> zero6 -> 0 < dot6 N1 x1).
Proof.
  intros l N1 N2 x1 x2 H1 H2; destruct (sol_some _ _ _ H1) as [Hr S1]; destruct (sol_some _ _ _ H2) as [_ S2].
  destruct (sol_inv _ _ _ S1) as [E1 _]; destruct (sol_inv _ _ _ S2) as [E2 _]; split.
  - rewrite <- E1, <- E2; unfold dot6, mvec6, ABDp; cbn [fst snd blkA blkB blkC blkD].
    rewrite !dot_vadd_l.
    pose proof (Lsum_sym wA l Hr) as SA; pose proof (Lsum_sym wB l Hr) as SB; pose proof (Lsum_sym wD l Hr) as SD.
    destruct x1 as [p1 q1], x2 as [p2 q2]; cbn [fst snd].
    rewrite (dot_comm (mvec (Lsum wA l) p1) p2), (dot_comm (mvec (Lsum wB l) q1) p2), (dot_comm (mvec (Lsum wB l) p1) q2), (dot_comm (mvec (Lsum wD l) q1) q2).
    rewrite (dot_comm (mvec (Lsum wA l) p2) p1), (dot_comm (mvec (Lsum wB l) q2) p1), (dot_comm (mvec (Lsum wB l) p2) q1), (dot_comm (mvec (Lsum wD l) q2) q1).
    rewrite (sym_dot _ p2 p1 SA), (sym_dot _ p2 q1 SB), (sym_dot _ q2 p1 SB), (sym_dot _ q2 q1 SD); ring.
  - intros Hne Ha HN; rewrite <- E1.
    assert (Nx : x1 <> (vzero, vzero)).
    { intros ->; apply HN; rewrite <- E1; unfold mvec6, zero6; cbn [fst snd]; f_equal; mat_ring. }
    pose proof (ABD_pos_def l Hne Ha x1 Nx) as P.
    replace (dot6 (mvec6 (ABDp l) x1) x1) with (dot6 x1 (mvec6 (ABDp l) x1)); [exact P|].
    unfold dot6; rewrite (dot_comm (fst x1)), (dot_comm (snd x1)); reflexivity.
Qed.

Lemma ex_lam_admissible : all_admissible ex_lam.
Proof. repeat constructor; apply ex_admissible. Qed.
(*@ C25, concrete instance: the cross-ply [0/90] laminate meets the hypotheses; a laminate without plies is singular. @*)
Example t_C25_ex : (exists x, epsilon0_of ex_lam (V3 1 0 0, V3 0 0 0) = Ok x /\ 0 < dot6 (V3 1 0 0, V3 0 0 0) x) /\
  epsilon0_of [] (V3 1 0 0, V3 0 0 0) = Err LinAlgError.
Proof.
  split.
  - destruct (t_C25_exists ex_lam (V3 1 0 0, V3 0 0 0) ltac:(discriminate) ex_lam_admissible) as [x H].
    exists x; split; [exact H|]; apply (t_C25_energy ex_lam _ _ x x H H); [discriminate|apply ex_lam_admissible|].
    unfold zero6, vzero; intros E; injection E; lra.
  - destruct (t_C25_errors [] (V3 1 0 0, V3 0 0 0)) as (_ & H & _).
    apply (H (M6 mzero mzero mzero mzero)).
    + rewrite ABD_of_eq by constructor; reflexivity.
    + exists (V3 1 0 0, V3 0 0 0); split; [unfold zero6, vzero; intros E; injection E; lra|].
      unfold mvec6, zero6; cbn [fst snd blkA blkB blkC blkD]; f_equal; mat_ring.
Qed.

(* ---------------------------------------------------------------- C26 *)
Lemma RInt_lin0 a b z0 z1 : RInt (fun z => 1 * (a + z * b)) z0 z1 = a * (z1 - z0) + b * (1/2 * (z1^2 - z0^2)).
Proof.
  apply is_RInt_unique.
  replace (a * (z1 - z0) + b * (1/2 * (z1^2 - z0^2))) with (minus (a * z1 + b * (z1^2/2)) (a * z0 + b * (z0^2/2)))
    by (unfold minus, plus, opp; simpl; field).
  apply (is_RInt_derive (fun z => a * z + b * (z^2/2)) (fun z => 1 * (a + z * b))).
  - intros z _; auto_derive; [auto|field].
  - intros z _; apply (ex_derive_continuous (fun z => 1 * (a + z * b))); auto_derive; auto.
Qed.
Lemma RInt_lin1 a b z0 z1 : RInt (fun z => z * (a + z * b)) z0 z1 = a * (1/2 * (z1^2 - z0^2)) + b * (1/3 * (z1^3 - z0^3)).
Proof.
  apply is_RInt_unique.
  replace (a * (1/2 * (z1^2 - z0^2)) + b * (1/3 * (z1^3 - z0^3))) with (minus (a * (z1^2/2) + b * (z1^3/3)) (a * (z0^2/2) + b * (z0^3/3)))
    by (unfold minus, plus, opp; simpl; field).
  apply (is_RInt_derive (fun z => a * (z^2/2) + b * (z^3/3)) (fun z => z * (a + z * b))).
  - intros z _; auto_derive; [auto|field].
  - intros z _; apply (ex_derive_continuous (fun z => z * (a + z * b))); auto_derive; auto.
Qed.
Lemma RInt_interp w a b z0 z1 :
  RInt (fun z => w z * interp z0 z1 (a + z0 * b) (a + z1 * b) z) z0 z1 = RInt (fun z => w z * (a + z * b)) z0 z1.
Proof.
  destruct (Req_dec z0 z1) as [->|N]; [rewrite !RInt_point; reflexivity|].
  apply RInt_ext; intros z _; unfold interp; f_equal; field; lra.
Qed.

Definition comp_lin (col : vec3 -> R) := forall u v k, col (vadd u (vscale k v)) = col u + k * col v.
Lemma vx_lin : comp_lin vx. Proof. intros u v k; reflexivity. Qed.
Lemma vy_lin : comp_lin vy. Proof. intros u v k; reflexivity. Qed.
Lemma vz_lin : comp_lin vz. Proof. intros u v k; reflexivity. Qed.

Fixpoint tsum (f : R -> R -> R) (c : mat3 -> R) (z0 : R) (pl : list (R * mat3)) : R :=
  match pl with [] => 0 | (h, Q) :: t => f (z0 + h) z0 * c Q + tsum f c (z0 + h) t end.
Lemma tsum_lsum f v col pl : comp_lin col -> forall z0,
  tsum f (fun Q => col (mvec Q v)) z0 pl = col (mvec (lsum f z0 pl) v).
Proof.
  intros Hc; induction pl as [|[h Q] t IH]; intros z0; cbn [tsum lsum].
  - rewrite mvec_mzero. pose proof (Hc vzero vzero 1) as E.
    replace (vadd vzero (vscale 1 vzero)) with vzero in E by mat_ring; lra.
  - rewrite IH, mvec_madd, mvec_mscale, vadd_comm, Hc; ring.
Qed.
Lemma thick_rows w0 w1 (w : R -> R) col e k : comp_lin col ->
  (forall a b z0 z1, RInt (fun z => w z * (a + z * b)) z0 z1 = a * w0 z1 z0 + b * w1 z1 z0) ->
  forall l z0 i, through_thickness w col (rows (f_stress (e, k)) (f_stress12 (e, k)) i (zl z0 l)) =
  tsum w0 (fun Q => col (mvec Q e)) z0 (pairs l) + tsum w1 (fun Q => col (mvec Q k)) z0 (pairs l).
Proof.
  intros Hc Hw; induction l as [|[th m] t IH]; intros z0 i; cbn [zl rows two_rows app through_thickness pairs map tsum fst snd].
  - ring.
  - cbn [r_z r_xy]. unfold f_stress at 1 2; unfold theta_of, mat_of, ep; cbn [fst snd].
    rewrite !mvec_vadd, !mvec_vscale, !Hc, RInt_interp, Hw.
    fold (pairs t). rewrite IH; ring.
Qed.
Lemma stress_some l N rs : stress_of l N = Ok rs -> exists e0, all_readable l /\ sol l N = Ok e0 /\ rs = rows (f_stress e0) (f_stress12 e0) 0 (X l).
Proof.
  intros H; destruct (readable_em l) as [Hr|Hr]; [|rewrite stress_err in H by assumption; discriminate].
  rewrite stress_of_eq in H by assumption; destruct (sol l N) as [e0|]; [|discriminate]; apply Ok_inj in H; eauto.
Qed.
Lemma strain_some l N rs : strain_of l N = Ok rs -> exists e0, all_readable l /\ sol l N = Ok e0 /\ rs = rows (f_strain e0) (f_strain12 e0) 0 (X l).
Proof.
  intros H; destruct (readable_em l) as [Hr|Hr]; [|rewrite strain_err in H by assumption; discriminate].
  rewrite strain_of_eq in H by assumption; destruct (sol l N) as [e0|]; [|discriminate]; apply Ok_inj in H; eauto.
Qed.

(*@ C26: integrating the reported plate-direction stresses through the thickness gives back the applied membrane
    loads, and integrating stress times z gives back the applied moments, for every laminate and load for which
    a table is returned. @*)
Lemma t_C26_equilibrium : forall l N rows, stress_of l N = Ok rows ->
  resultant (fun _ => 1) rows = fst N /\ resultant (fun z => z) rows = snd N.
Proof.
  intros l N rs H; destruct (stress_some l N rs H) as ([e k] & Hr & Hs & ->).
  destruct (sol_inv _ _ _ Hs) as [E _]; rewrite <- E; unfold mvec6, ABDp; cbn [fst snd blkA blkB blkC blkD].
  unfold resultant, X.
  assert (Ez : zb l = z_bottom (pairs l)) by (unfold zb, z_bottom; rewrite total_hsum; reflexivity).
  split.
  - rewrite !(thick_rows wA wB) by first [exact vx_lin|exact vy_lin|exact vz_lin|exact RInt_lin0].
    rewrite !tsum_lsum by (auto using vx_lin, vy_lin, vz_lin); rewrite Ez; unfold Lsum, vadd; reflexivity.
  - rewrite !(thick_rows wB wD) by first [exact vx_lin|exact vy_lin|exact vz_lin|exact RInt_lin1].
    rewrite !tsum_lsum by (auto using vx_lin, vy_lin, vz_lin); rewrite Ez; unfold Lsum, vadd; reflexivity.
Qed.

(*@ C26, concrete instance: the unsymmetric [0/90] laminate under Nxx = 1, Mxy = 2 has such a table. @*)
Example t_C26_ex : exists rows, stress_of ex_lam (V3 1 0 0, V3 0 0 2) = Ok rows /\
  resultant (fun _ => 1) rows = V3 1 0 0 /\ resultant (fun z => z) rows = V3 0 0 2.
Proof.
  destruct (sol_exists ex_lam (V3 1 0 0, V3 0 0 2) ltac:(discriminate) ex_lam_admissible) as [x Hs].
  assert (E : stress_of ex_lam (V3 1 0 0, V3 0 0 2) = Ok (rows (f_stress x) (f_stress12 x) 0 (X ex_lam))).
  { rewrite stress_of_eq by (apply admissible_readable, ex_lam_admissible); rewrite Hs; reflexivity. }
  eexists; split; [exact E|]; exact (t_C26_equilibrium ex_lam (V3 1 0 0, V3 0 0 2) _ E).
Qed.

(* ---------------------------------------------------------------- rows *)
Lemma rows_length f g xs : forall i, List.length (rows f g i xs) = (2 * List.length xs)%nat.
Proof. induction xs as [|[[? ?] [? ?]] t IH]; intros i; simpl; [reflexivity|]; rewrite IH; lia. Qed.
Lemma rows_nth f g xs : forall i k th m z0 z1, nth_error xs k = Some ((th, m), (z0, z1)) ->
  nth_error (rows f g i xs) (2*k) = Some (Row (i+k+1) z0 "bot" th (f ((th, m), (z0, z1)) z0) (g ((th, m), (z0, z1)) z0)) /\
  nth_error (rows f g i xs) (2*k+1) = Some (Row (i+k+1) z1 "top" th (f ((th, m), (z0, z1)) z1) (g ((th, m), (z0, z1)) z1)).
Proof.
  induction xs as [|[[th' m'] [z0' z1']] t IH]; intros i [|k] th m z0 z1 H; simpl in H; try discriminate.
  - injection H as -> -> -> ->; rewrite Nat.add_0_r; split; reflexivity.
  - destruct (IH (i+1)%nat k th m z0 z1 H) as [H1 H2].
    replace (2 * S k)%nat with (S (S (2*k))) by lia; replace (S (S (2*k)) + 1)%nat with (S (S (2*k+1))) by lia.
    cbn [rows two_rows app nth_error]; rewrite H1, H2; replace (i + S k + 1)%nat with (i + 1 + k + 1)%nat by lia; auto.
Qed.
Lemma rows_idx f g xs i j r : nth_error (rows f g i xs) j = Some r ->
  exists k th m z0 z1, nth_error xs k = Some ((th, m), (z0, z1)) /\
   (j = (2*k)%nat /\ r = Row (i+k+1) z0 "bot" th (f ((th, m), (z0, z1)) z0) (g ((th, m), (z0, z1)) z0) \/
    j = (2*k+1)%nat /\ r = Row (i+k+1) z1 "top" th (f ((th, m), (z0, z1)) z1) (g ((th, m), (z0, z1)) z1)).
Proof.
  intros H.
  assert (Hj : (j < 2 * List.length xs)%nat) by (rewrite <- (rows_length f g xs i); apply nth_error_Some; congruence).
  assert (Hk : (Nat.div2 j < List.length xs)%nat) by (pose proof (Nat.div2_odd j); destruct (Nat.odd j); unfold Nat.b2n in *; lia).
  destruct (nth_error xs (Nat.div2 j)) as [[[th m] [z0 z1]]|] eqn:E; [|apply nth_error_None in E; lia].
  exists (Nat.div2 j), th, m, z0, z1; split; [exact E|].
  destruct (rows_nth f g xs i _ _ _ _ _ E) as [H1 H2].
  pose proof (Nat.div2_odd j) as Ej; destruct (Nat.odd j); simpl Nat.b2n in Ej.
  - right; split; [lia|]; rewrite <- Ej in H2; congruence.
  - left; split; [lia|]; rewrite Nat.add_0_r in Ej; rewrite <- Ej in H1; congruence.
Qed.
Lemma zl_nth l : forall z0 k p, nth_error l k = Some p ->
  exists za, nth_error (zl z0 l) k = Some (p, (za, za + thickness (snd p))) /\
   nth_error (z0 :: z_loop l z0) k = Some za /\ nth_error (z0 :: z_loop l z0) (k+1) = Some (za + thickness (snd p)).
Proof.
  induction l as [|q t IH]; intros z0 [|k] p H; simpl in H; try discriminate.
  - injection H as ->; exists z0; auto.
  - destruct (IH (z0 + thickness (snd q)) k p H) as (za & H1 & H2 & H3); exists za; auto.
Qed.
Lemma X_nth_inv l k p z0 z1 : nth_error (X l) k = Some (p, (z0, z1)) ->
  nth_error l k = Some p /\ nth_error (z_position l) k = Some z0 /\ nth_error (z_position l) (k+1) = Some z1.
Proof.
  intros H; assert (Hp : nth_error l k = Some p).
  { replace (nth_error l k) with (nth_error (map fst (X l)) k) by (f_equal; apply zl_fst).
    rewrite nth_error_map, H; reflexivity. }
  split; [exact Hp|]; destruct (zl_nth l (zb l) k p Hp) as (za & H1 & H2 & H3).
  unfold X in H; rewrite H1 in H; injection H as <- <-; rewrite z_position_zb; auto.
Qed.
Lemma X_nth l k p : nth_error l k = Some p -> exists z0 z1, nth_error (X l) k = Some (p, (z0, z1)) /\
  nth_error (z_position l) k = Some z0 /\ nth_error (z_position l) (k+1) = Some z1.
Proof.
  intros H; destruct (zl_nth l (zb l) k p H) as (za & H1 & H2 & H3); exists za, (za + thickness (snd p)); rewrite z_position_zb; auto.
Qed.

(* ---------------------------------------------------------------- C27 *)
(*@ C27: in every row of calculate_strain the plate-direction strain is the mid-plane strain plus z times the
    curvature (both from epsilon0), for the z of the same row. @*)
Lemma t_C27_linear : forall l N rows, strain_of l N = Ok rows ->
  exists e k, epsilon0_of l N = Ok (e, k) /\ Forall (fun r => r_xy r = vadd e (vscale (r_z r) k)) rows.
Proof.
  intros l N rs H; destruct (strain_some l N rs H) as ([e k] & Hr & Hs & ->).
  exists e, k; split; [rewrite epsilon0_of_eq; assumption|].
  apply Forall_forall; intros r Hin; apply In_nth_error in Hin; destruct Hin as [j Hj].
  destruct (rows_idx _ _ _ _ _ _ Hj) as (q & th & m & z0 & z1 & _ & [[_ ->]|[_ ->]]); reflexivity.
Qed.

(*@ C27: strains are continuous: the top row of a ply and the bottom row of the next ply have the same z and the same
    plate-direction strains. @*)
Lemma t_C27_continuous : forall l N rows i r r', strain_of l N = Ok rows ->
  nth_error rows (2*i+1) = Some r -> nth_error rows (2*i+2) = Some r' -> r_z r = r_z r' /\ r_xy r = r_xy r'.
Proof.
  intros l N rs i r r' H Hr' Hr''; destruct (strain_some l N rs H) as ([e k] & Hr & Hs & ->).
  destruct (rows_idx _ _ _ _ _ _ Hr') as (q & th & m & z0 & z1 & Hq & [[? _]|[Eq ->]]); [lia|].
  destruct (rows_idx _ _ _ _ _ _ Hr'') as (q' & th' & m' & z0' & z1' & Hq' & [[Eq' ->]|[? _]]); [|lia].
  assert (q = i) by lia; assert (q' = (i+1)%nat) by lia; subst.
  destruct (X_nth_inv _ _ _ _ _ Hq) as (_ & _ & E1); destruct (X_nth_inv _ _ _ _ _ Hq') as (_ & E2 & _).
  rewrite E1 in E2; injection E2 as ->; split; reflexivity.
Qed.

(*@ C27, concrete instance: the [0/90] laminate has a table whose rows 1 and 2 are the common face of the two plies. @*)
Example t_C27_ex : exists rows r r', strain_of ex_lam (V3 1 0 0, V3 0 0 2) = Ok rows /\
  nth_error rows 1 = Some r /\ nth_error rows 2 = Some r' /\ r_ply r = 1%nat /\ r_ply r' = 2%nat.
Proof.
  destruct (sol_exists ex_lam (V3 1 0 0, V3 0 0 2) ltac:(discriminate) ex_lam_admissible) as [x Hs].
  do 3 eexists; split; [rewrite strain_of_eq by (apply admissible_readable, ex_lam_admissible); rewrite Hs; reflexivity|].
  repeat split.
Qed.

(* ---------------------------------------------------------------- C28 *)
Lemma double_halve th e : double3 (mvec (T_real (cdeg th) (sdeg th)) (halve3 e)) = mvec (T_engineering (cdeg th) (sdeg th)) e.
Proof.
  destruct e as [x y z]; unfold double3, halve3, mvec, T_real, T_engineering; cbn [vx vy vz a11 a12 a13 a21 a22 a23 a31 a32 a33].
  f_equal; field.
Qed.
Lemma T_real_inv_r c s : c^2 + s^2 = 1 -> mmul (T_real c s) (T_real_inv c s) = mid.
Proof.
  intros H; assert (H2 : s^2 = 1 - c^2) by lra; destruct (poly_mod_c c s H2) as [H4 H3].
  unfold mmul, T_real, T_real_inv, mid; cbn [a11 a12 a13 a21 a22 a23 a31 a32 a33]; f_equal; ring_simplify; rewrite ?H4, ?H3, ?H2; ring.
Qed.
Lemma stress12_Q0 x e : 
  mvec (T_real (cdeg (theta_of x)) (sdeg (theta_of x))) (mvec (Qbar (theta_of x) (mat_of x)) e)
  = mvec (Q0p (mat_of x)) (double3 (mvec (T_real (cdeg (theta_of x)) (sdeg (theta_of x))) (halve3 e))).
Proof.
  rewrite double_halve; unfold Qbar, rot; rewrite <- !mvec_mmul, !mmul_assoc, T_real_inv_r, mmul_mid_l by apply cs1; reflexivity.
Qed.
Lemma rotated_dot th s e :
  dot (mvec (T_real (cdeg th) (sdeg th)) s) (double3 (mvec (T_real (cdeg th) (sdeg th)) (halve3 e))) = dot s e.
Proof.
  pose proof (cs1 th) as H; set (c := cdeg th) in *; set (q := sdeg th) in *; clearbody c q.
  assert (H2 : q^2 = 1 - c^2) by lra; destruct (poly_mod_c c q H2) as [H4 H3].
  destruct s as [s1 s2 s3], e as [e1 e2 e3]; unfold dot, double3, halve3, mvec, T_real; cbn [vx vy vz a11 a12 a13 a21 a22 a23 a31 a32 a33].
  field_simplify; rewrite ?H4, ?H3, ?H2; field.
Qed.

(*@ C28: row by row, the material-direction stress is Q_0 of that ply times the material-direction strain; the strain
    energy density is the same in both axis systems; and the traces of stress and strain are invariant. The two
    tables agree in ply, z, position and angle. @*)
Lemma t_C28_consistent : forall l N strains stresses j re rs, strain_of l N = Ok strains -> stress_of l N = Ok stresses ->
  nth_error strains j = Some re -> nth_error stresses j = Some rs ->
  r_ply rs = r_ply re /\ r_z rs = r_z re /\ r_position rs = r_position re /\ r_angle rs = r_angle re /\
  (exists m q, nth_error l (r_ply re - 1) = Some (r_angle re, m) /\ Q_0 m = Ok q /\ r_12 rs = mvec q (r_12 re)) /\
  dot (r_12 rs) (r_12 re) = dot (r_xy rs) (r_xy re) /\
  vx (r_12 rs) + vy (r_12 rs) = vx (r_xy rs) + vy (r_xy rs) /\
  vx (r_12 re) + vy (r_12 re) = vx (r_xy re) + vy (r_xy re).
Proof.
  intros l N es ss j re rs He Hs Hje Hjs.
  destruct (strain_some l N es He) as (e0 & Hr & S1 & ->); destruct (stress_some l N ss Hs) as (e0' & _ & S2 & ->).
  rewrite S1 in S2; apply Ok_inj in S2; subst e0'.
  destruct (rows_idx _ _ _ _ _ _ Hje) as (q & th & m & z0 & z1 & Hq & HA).
  destruct (rows_idx _ _ _ _ _ _ Hjs) as (q' & th' & m' & z0' & z1' & Hq' & HB).
  assert (q' = q) by lia; subst q'; rewrite Hq in Hq'; injection Hq' as <- <- <- <-.
  destruct (X_nth_inv _ _ _ _ _ Hq) as (Hl & _ & _).
  assert (Hm : readable m) by (apply (proj1 (Forall_forall _ _) Hr (th, m)), (nth_error_In _ _ Hl)).
  assert (T : forall v w, mvec (T_real (cdeg th) (sdeg th)) v = w -> vx w + vy w = vx v + vy v).
  { intros v w <-; destruct v as [v1 v2 v3]; unfold mvec, T_real; cbn [vx vy vz a11 a12 a13 a21 a22 a23].
    pose proof (cs1 th) as H1; replace (sdeg th ^ 2) with (1 - cdeg th ^ 2) by lra; ring. }
  assert (T' : forall e, vx (double3 (mvec (T_real (cdeg th) (sdeg th)) (halve3 e))) + vy (double3 (mvec (T_real (cdeg th) (sdeg th)) (halve3 e))) = vx e + vy e).
  { intros e; pose proof (T (halve3 e) _ eq_refl) as E; destruct e; exact E. }
  destruct HA as [[Ej ->]|[Ej ->]]; destruct HB as [[Ej' ->]|[Ej' ->]]; try lia;
    cbn [r_ply r_z r_position r_angle r_xy r_12]; rewrite ?Nat.add_0_l;
    (repeat split; [|apply rotated_dot|apply T; reflexivity|apply T']);
    exists m, (Q0p m); replace (q + 1 - 1)%nat with q by lia;
    (split; [exact Hl|split; [apply readable_Q0p, Hm|]]);
    [apply (stress12_Q0 ((th, m), (z0, z1)) (ep e0 z0))|apply (stress12_Q0 ((th, m), (z0, z1)) (ep e0 z1))].
Qed.

(*@ C28: the plate-direction stress is what a ply at that angle produces (strain rotated as a tensor into ply axes,
    multiplied by Q_0, rotated back), and material-direction strains are the rotated plate-direction strains. @*)
Lemma t_C28_rotation : forall l N strains stresses j re rs, strain_of l N = Ok strains -> stress_of l N = Ok stresses ->
  nth_error strains j = Some re -> nth_error stresses j = Some rs ->
  exists m q, nth_error l (r_ply re - 1) = Some (r_angle re, m) /\ Q_0 m = Ok q /\
  let c := cos (r_angle re * PI / 180) in let s := sin (r_angle re * PI / 180) in
  r_12 re = eng_strain (rotate_tensor c s (tensor_strain (r_xy re))) /\
  r_xy rs = ply_stress c s q (r_xy re) /\ r_12 rs = rotate_tensor c s (r_xy rs).
Proof.
  intros l N es ss j re rs He Hs Hje Hjs.
  destruct (strain_some l N es He) as (e0 & Hr & S1 & ->); destruct (stress_some l N ss Hs) as (e0' & _ & S2 & ->).
  rewrite S1 in S2; apply Ok_inj in S2; subst e0'.
  destruct (rows_idx _ _ _ _ _ _ Hje) as (q & th & m & z0 & z1 & Hq & HA).
  destruct (rows_idx _ _ _ _ _ _ Hjs) as (q' & th' & m' & z0' & z1' & Hq' & HB).
  assert (q' = q) by lia; subst q'; rewrite Hq in Hq'; injection Hq' as <- <- <- <-.
  destruct (X_nth_inv _ _ _ _ _ Hq) as (Hl & _ & _).
  assert (Hm : readable m) by (apply (proj1 (Forall_forall _ _) Hr (th, m)), (nth_error_In _ _ Hl)).
  exists m, (Q0p m).
  assert (T1 : forall e, double3 (mvec (T_real (cdeg th) (sdeg th)) (halve3 e)) = eng_strain (rotate_tensor (cdeg th) (sdeg th) (tensor_strain e))).
  { intros [x y z]; unfold double3, mvec, T_real, halve3, eng_strain, rotate_tensor, tensor_strain; cbn [vx vy vz a11 a12 a13 a21 a22 a23 a31 a32 a33]; f_equal; field. }
  assert (T2 : forall v, mvec (T_real (cdeg th) (sdeg th)) v = rotate_tensor (cdeg th) (sdeg th) v).
  { intros [x y z]; unfold mvec, T_real, rotate_tensor; cbn [vx vy vz a11 a12 a13 a21 a22 a23 a31 a32 a33]; f_equal; ring. }
  destruct HA as [[Ej ->]|[Ej ->]]; destruct HB as [[Ej' ->]|[Ej' ->]]; try lia;
    cbn [r_ply r_z r_position r_angle r_xy r_12]; rewrite ?Nat.add_0_l; replace (q + 1 - 1)%nat with q by lia;
    (split; [exact Hl|split; [apply readable_Q0p, Hm|]]); cbn zeta; fold (cdeg th); fold (sdeg th);
    (split; [apply T1|split; [|apply T2]]); apply Qbar_stress, Hm.
Qed.

(*@ C28, concrete instance: both tables of the [0/90] laminate exist and have a row number 3. @*)
Example t_C28_ex : exists strains stresses re rs, strain_of ex_lam (V3 1 0 0, V3 0 0 2) = Ok strains /\
  stress_of ex_lam (V3 1 0 0, V3 0 0 2) = Ok stresses /\ nth_error strains 3 = Some re /\ nth_error stresses 3 = Some rs /\ r_angle re = 90.
Proof.
  destruct (sol_exists ex_lam (V3 1 0 0, V3 0 0 2) ltac:(discriminate) ex_lam_admissible) as [x Hs].
  pose proof (admissible_readable _ ex_lam_admissible) as Hr.
  do 4 eexists; split; [rewrite strain_of_eq by exact Hr; rewrite Hs; reflexivity|].
  split; [rewrite stress_of_eq by exact Hr; rewrite Hs; reflexivity|].
  repeat split.
Qed.

(* ---------------------------------------------------------------- C29 *)
(*@ C29: the tables have two rows per ply, from bottom to top; rows 2i and 2i+1 carry ply number i+1, positions bot and
    top, the angle of ply i, and z_position[i] and z_position[i+1]. @*)
Lemma t_C29_shape : forall l N rows, strain_of l N = Ok rows \/ stress_of l N = Ok rows ->
  List.length rows = (2 * List.length l)%nat /\
  forall i th m, nth_error l i = Some (th, m) ->
    exists b t, nth_error rows (2*i) = Some b /\ nth_error rows (2*i+1) = Some t /\
      r_ply b = (i+1)%nat /\ r_ply t = (i+1)%nat /\ r_position b = "bot" /\ r_position t = "top" /\
      r_angle b = th /\ r_angle t = th /\
      nth_error (z_position l) i = Some (r_z b) /\ nth_error (z_position l) (i+1) = Some (r_z t).
Proof.
  intros l N rs H.
  assert (E : exists f g, rs = rows f g 0 (X l)).
  { destruct H as [H|H]; [destruct (strain_some l N rs H) as (e0 & _ & _ & ->)|destruct (stress_some l N rs H) as (e0 & _ & _ & ->)]; eauto. }
  destruct E as (f & g & ->); split.
  - rewrite rows_length; unfold X; rewrite zl_length; reflexivity.
  - intros i th m Hi; destruct (X_nth l i _ Hi) as (z0 & z1 & HX & HZ0 & HZ1).
    destruct (rows_nth f g (X l) 0 i th m z0 z1 HX) as [H1 H2].
    do 2 eexists; split; [exact H1|split; [exact H2|]]; cbn [r_ply r_position r_angle r_z]; auto 10.
Qed.

(* ---------------------------------------------------------------- C30 *)
Definition GoodW l w := GoodL l (w_lam w).
Lemma allowables_run l L h : GoodL l L ->
  calculate_maxstressallowable (World L h) = (World L h, al <- mapM (fun p => allowable (snd p)) l ;; Ok (allow_loop 0 (combine al (map fst l)))).
Proof.
  intros HG; destruct (GoodL_layup l L HG) as [El Es].
  unfold calculate_maxstressallowable, sbind, lam_get, lift, ret; cbn [w_lam]; rewrite El, Es.
  destruct (mapM _ l); reflexivity.
Qed.
Definition mg_rows {M} (mg : allow -> vec3 -> M) (al : list arow) (st : list row) : list (mrow M) :=
  map (fun p => MRow (ar_ply (fst p)) (ar_position (fst p)) (ar_angle (fst p)) (mg (ar_allow (fst p)) (r_12 (snd p)))) (combine al st).
Definition pure_margin {M} (mg : allow -> vec3 -> M) l N : res (list (mrow M)) :=
  al <- mapM (fun p => allowable (snd p)) l ;;
  e0 <- sol l N ;;
  Ok (mg_rows mg (allow_loop 0 (combine al (map fst l))) (rows (f_stress e0) (f_stress12 e0) 0 (X l))).
Lemma margin_run {M} (mg : allow -> vec3 -> M) l N L h : all_readable l -> GoodL l L ->
  exists L' h', GoodL l L' /\ calculate_maxstressmargin mg N (World L h) = (World L' (h ++ h'), pure_margin mg l N).
Proof.
  intros Hr HG; unfold calculate_maxstressmargin, pure_margin; unfold sbind at 1; rewrite (allowables_run l L h HG).
  destruct (mapM (fun p => allowable (snd p)) l) as [al|e]; cbn [bind].
  - destruct (calculate_stress_run l N L h Hr HG) as (L' & h' & HG' & E); exists L', h'; split; [assumption|].
    unfold sbind; rewrite E; destruct (sol l N); reflexivity.
  - exists L, []; rewrite app_nil_r; auto.
Qed.
Definition pure_call l N (c : call) : res answer :=
  match c with
  | CEps0 => x <- sol l N ;; Ok (AVec x)
  | CStrain => e0 <- sol l N ;; Ok (ATable (rows (f_strain e0) (f_strain12 e0) 0 (X l)))
  | CStress => e0 <- sol l N ;; Ok (ATable (rows (f_stress e0) (f_stress12 e0) 0 (X l)))
  | CMargin => x <- pure_margin (fun a s => (a, s)) l N ;; Ok (AMargin x)
  | CRead r => v <- pure_read (fresh l) r ;; Ok (ARead v)
  end.
Lemma do_call_run l N c L h : all_readable l -> GoodL l L ->
  exists L' h', GoodL l L' /\ do_call N c (World L h) = (World L' (h ++ h'), pure_call l N c).
Proof.
  intros Hr HG; destruct c; cbn [do_call pure_call]; unfold sbind at 1.
  - destruct (epsilon0_run l N L h Hr HG) as (L' & E & HG'); exists L', []; rewrite app_nil_r; split; [assumption|].
    rewrite E; destruct (sol l N); reflexivity.
  - destruct (calculate_strain_run l N L h Hr HG) as (L' & h' & HG' & E); exists L', h'; split; [assumption|].
    rewrite E; destruct (sol l N); reflexivity.
  - destruct (calculate_stress_run l N L h Hr HG) as (L' & h' & HG' & E); exists L', h'; split; [assumption|].
    rewrite E; destruct (sol l N); reflexivity.
  - destruct (margin_run (fun a s => (a, s)) l N L h Hr HG) as (L' & h' & HG' & E); exists L', h'; split; [assumption|].
    rewrite E; destruct (pure_margin (fun a s => (a, s)) l N); reflexivity.
  - destruct (GoodL_layup l L HG) as [El _]; destruct HG as [Hs HI].
    assert (Hok : layup_ok (layup L)) by (rewrite El; apply all_readable_ok, Hr).
    destruct (do_read_inv L r Hok HI) as (L' & E & HI' & Hs').
    exists L', []; rewrite app_nil_r; split; [split; [eapply same_trans; eassumption|assumption]|].
    unfold on_lam; cbn [w_lam w_heap]; rewrite E, (same_pure_read _ _ r Hs); destruct (pure_read (fresh l) r); reflexivity.
Qed.
Lemma run_calls_pure l N cs : all_readable l -> forall L h, GoodL l L -> run_calls N (World L h) cs = map (pure_call l N) cs.
Proof.
  intros Hr; induction cs as [|c t IH]; intros L h HG; [reflexivity|]; cbn [run_calls map].
  destruct (do_call_run l N c L h Hr HG) as (L' & h' & HG' & E); rewrite E, IH by assumption; reflexivity.
Qed.

(*@ C30: any sequence of calls (epsilon0, calculate_strain, calculate_stress, calculate_maxstressmargin, and reads of the
    laminate's attributes) on one object returns, call by call, what that call returns on a fresh object: the
    in-place halving of shear strains is never visible. @*)
Lemma t_C30_calls_independent : forall l L N calls, laminate_of l = Ok L -> all_readable l ->
  run_calls N (start L) calls = map (fun c => snd (do_call N c (start L))) calls.
Proof.
  intros l L N calls HL Hr; rewrite laminate_of_eq in HL; apply Ok_inj in HL; subst L.
  unfold start; rewrite (run_calls_pure l) by (auto using GoodL_fresh); apply map_ext; intros c.
  destruct (do_call_run l N c (fresh l) [] Hr (GoodL_fresh l)) as (L' & h' & _ & E); rewrite E; reflexivity.
Qed.

(*@ C30: in particular the shear column of calculate_strain is the full engineering shear strain, although
    calculate_strain itself runs the halving before it reads that column. @*)
Lemma t_C30_gamma_not_halved : forall l L N e k r1 r2, laminate_of l = Ok L -> epsilon0_of l N = Ok (e, k) ->
  run_calls N (start L) [CStrain; CStrain] = [Ok (ATable r1); Ok (ATable r2)] ->
  r1 = r2 /\ Forall (fun r => vz (r_xy r) = vz e + r_z r * vz k) r1.
Proof.
  intros l L N e k r1 r2 HL He Hrun; destruct (sol_some _ _ _ He) as [Hr Hs].
  rewrite laminate_of_eq in HL; apply Ok_inj in HL; subst L.
  unfold start in Hrun; rewrite (run_calls_pure l) in Hrun by (auto using GoodL_fresh); cbn [map pure_call] in Hrun.
  rewrite Hs in Hrun; cbn [bind] in Hrun; injection Hrun as H1 H2; split; [congruence|].
  destruct (t_C27_linear l N r1) as (e' & k' & E' & F).
  { rewrite strain_of_eq, Hs by assumption; cbn [bind]; rewrite H1; reflexivity. }
  rewrite He in E'; apply Ok_inj in E'; injection E' as <- <-.
  revert F; apply Forall_impl; intros r ->; reflexivity.
Qed.

(*@ C30: on laminates built from lamination parameters the tables are not available: calculate_strain, calculate_stress
    and calculate_maxstressmargin raise IndexError. @*)
Lemma t_C30_lamination_parameters : forall d p L N, construct (SDict d) p = Ok L ->
  snd (calculate_strain N (start L)) = Err IndexError /\ snd (calculate_stress N (start L)) = Err IndexError /\
  forall M (mg : allow -> vec3 -> M), snd (calculate_maxstressmargin mg N (start L)) = Err IndexError.
Proof.
  intros d p L N H; unfold construct in H.
  destruct (lookup d "xiD") as [xd|] eqn:E1; [|discriminate]; cbn [bind] in H.
  destruct (lookup d "T") as [xt|] eqn:E2; [|discriminate]; cbn [bind] in H; apply Ok_inj in H.
  assert (Hlen : exists n, stacking_len (SDict d) = S n) by (destruct d; [discriminate|eexists; reflexivity]).
  destruct Hlen as [n Hn].
  assert (Ek : forall L', stacking L' = SDict d -> layup L' = [] -> forall h, snd (epsilonk N (World L' h)) = Err IndexError).
  { intros L' Hst Hly h; unfold epsilonk, sbind, lam_get, lift; cbn [w_lam]; rewrite Hst, Hly, Hn; cbn [seq mapM].
    unfold z_position; simpl; reflexivity. }
  assert (Es : stacking L = SDict d) by (subst L; reflexivity).
  assert (El : layup L = []) by (subst L; reflexivity).
  assert (Eq : get_Q_layup L = (set_Q L [], Ok [])) by (subst L; reflexivity).
  assert (Hstress : forall h, snd (calculate_stress N (World L h)) = Err IndexError).
  { intros h; unfold calculate_stress, stressk, sbind, on_lam; cbn [w_lam w_heap]; rewrite Eq.
    specialize (Ek (set_Q L []) ltac:(rewrite <- Es; reflexivity) ltac:(rewrite <- El; reflexivity) h).
    destruct (epsilonk N _) as [w r]; simpl in Ek; subst r; reflexivity. }
  split; [|split].
  - unfold calculate_strain, sbind, start; specialize (Ek L Es El []).
    destruct (epsilonk N _) as [w r]; simpl in Ek; subst r; reflexivity.
  - apply Hstress.
  - intros M mg; unfold calculate_maxstressmargin, calculate_maxstressallowable, sbind, lam_get, lift, ret, start; cbn [w_lam].
    rewrite El; cbn [mapM]. specialize (Hstress []). destruct (calculate_stress N _) as [w r]; simpl in Hstress; subst r; reflexivity.
Qed.

(*@ C30, concrete instance: the hypotheses hold for the [0/90] laminate, and two strain tables computed one after the
    other are really obtained. @*)
Example t_C30_ex : exists L r, laminate_of ex_lam = Ok L /\ all_readable ex_lam /\
  run_calls (V3 1 0 0, V3 0 0 2) (start L) [CStrain; CStrain] = [Ok (ATable r); Ok (ATable r)] /\ List.length r = 4%nat.
Proof.
  destruct (sol_exists ex_lam (V3 1 0 0, V3 0 0 2) ltac:(discriminate) ex_lam_admissible) as [x Hs].
  pose proof (admissible_readable _ ex_lam_admissible) as Hr.
  exists (fresh ex_lam), (rows (f_strain x) (f_strain12 x) 0 (X ex_lam)); split; [apply laminate_of_eq|split; [exact Hr|split; [|apply rows_length]]].
  unfold start; rewrite (run_calls_pure ex_lam) by (auto using GoodL_fresh); cbn [map pure_call]; rewrite Hs; reflexivity.
Qed.

(* ---------------------------------------------------------------- C32, C61 *)
Lemma mapM_allow l : (exists al, mapM (fun p : R * material => allowable (snd p)) l = Ok al /\ List.length al = List.length l /\
     forall i th m, nth_error l i = Some (th, m) -> exists a, nth_error al i = Some a /\ allowable m = Ok a) \/
  (mapM (fun p : R * material => allowable (snd p)) l = Err AttributeError /\ exists th i, In (th, Iso i) l).
Proof.
  induction l as [|[th m] t IH]; cbn [mapM snd].
  - left; exists []; split; [reflexivity|split; [reflexivity|]]; intros [|i]; discriminate.
  - destruct m as [o|i]; cbn [allowable bind].
    + destruct IH as [(al & E & Hl & H)|[E (th' & i & Hin)]]; rewrite E; cbn [bind].
      * left; eexists; split; [reflexivity|split; [simpl; congruence|]]; intros [|j] th' m' Hj; simpl in *; [injection Hj as <- <-; eauto|eauto].
      * right; split; [reflexivity|]; exists th', i; right; exact Hin.
    + right; split; [reflexivity|]; exists th, i; left; reflexivity.
Qed.
Lemma allow_nth al : forall i k a th, nth_error al k = Some (a, th) ->
  nth_error (allow_loop i al) (2*k) = Some (ARow (i+k+1) "top" th a) /\ nth_error (allow_loop i al) (2*k+1) = Some (ARow (i+k+1) "bot" th a).
Proof.
  induction al as [|[a' th'] t IH]; intros i [|k] a th H; simpl in H; try discriminate.
  - injection H as -> ->; rewrite Nat.add_0_r; split; reflexivity.
  - destruct (IH (i+1)%nat k a th H) as [H1 H2].
    replace (2 * S k)%nat with (S (S (2*k))) by lia; replace (S (S (2*k)) + 1)%nat with (S (S (2*k+1))) by lia.
    cbn [allow_loop nth_error]; rewrite H1, H2; replace (i + S k + 1)%nat with (i + 1 + k + 1)%nat by lia; auto.
Qed.
Lemma allow_length al : forall i, List.length (allow_loop i al) = (2 * List.length al)%nat.
Proof. induction al as [|[? ?] t IH]; intros i; simpl; [reflexivity|]; rewrite IH; lia. Qed.
Lemma nth_combine {A B} (u : list A) (v : list B) k x y : nth_error u k = Some x -> nth_error v k = Some y -> nth_error (combine u v) k = Some (x, y).
Proof. revert v k; induction u as [|a u IH]; intros [|b v] [|k]; simpl; try discriminate; [congruence|apply IH]. Qed.
Lemma margin_of_eq {M} (mg : allow -> vec3 -> M) l N : all_readable l -> margin_of mg l N = pure_margin mg l N.
Proof.
  intros Hr; unfold margin_of; rewrite laminate_of_eq; cbn [bind].
  destruct (margin_run mg l N (fresh l) [] Hr (GoodL_fresh l)) as (L' & h' & _ & E); unfold start; rewrite E; reflexivity.
Qed.
Lemma margin_err {M} (mg : allow -> vec3 -> M) l N : ~ all_readable l -> forall t, margin_of mg l N <> Ok t.
Proof.
  intros Nr t; unfold margin_of; rewrite laminate_of_eq; cbn [bind].
  unfold calculate_maxstressmargin, sbind, start; rewrite (allowables_run l _ _ (GoodL_fresh l)).
  destruct (mapM _ l) as [al|e]; cbn [bind]; [|discriminate].
  pose proof (stress_err l N Nr) as E; unfold stress_of in E; rewrite laminate_of_eq in E; cbn [bind] in E; unfold start in E.
  destruct (calculate_stress N _) as [w r]; simpl in E; subst r; discriminate.
Qed.

(*@ C32: row j of the margin table is computed from row j of the stress table and from the allowables of the same ply,
    and agrees with it in ply and angle, but the face named in its position column is always the other one. @*)
Lemma t_C32_position_swapped : forall M (mg : allow -> vec3 -> M) l N margins stresses,
  margin_of mg l N = Ok margins -> stress_of l N = Ok stresses ->
  List.length margins = List.length stresses /\
  forall j rm rs, nth_error margins j = Some rm -> nth_error stresses j = Some rs ->
    mr_ply rm = r_ply rs /\ mr_angle rm = r_angle rs /\
    (exists o, nth_error l (r_ply rs - 1) = Some (r_angle rs, Ortho o) /\
       mr_margins rm = mg (Allow (o_t1 o) (o_c1 o) (o_t2 o) (o_c2 o) (o_s o)) (r_12 rs)) /\
    (r_position rs = "bot" /\ mr_position rm = "top" \/ r_position rs = "top" /\ mr_position rm = "bot").
Proof.
  intros M mg l N ms ss Hm Hs; destruct (stress_some l N ss Hs) as (e0 & Hr & S1 & ->).
  rewrite margin_of_eq in Hm by assumption; unfold pure_margin in Hm.
  destruct (mapM_allow l) as [(al & E & Hl & Hal)|[E _]]; rewrite E in Hm; cbn [bind] in Hm; [|discriminate].
  rewrite S1 in Hm; cbn [bind] in Hm; apply Ok_inj in Hm; subst ms; split.
  - unfold mg_rows; rewrite map_length, combine_length, allow_length, combine_length, map_length, Hl, rows_length; unfold X; rewrite zl_length; lia.
  - intros j rm rs Hrm Hrs; destruct (rows_idx _ _ _ _ _ _ Hrs) as (q & th & m & z0 & z1 & Hq & HA).
    destruct (X_nth_inv _ _ _ _ _ Hq) as (Hlq & _ & _).
    destruct (Hal _ _ _ Hlq) as (a & Ha1 & Ha2); destruct m as [o|i]; [|discriminate]; apply Ok_inj in Ha2; subst a.
    assert (Hc : nth_error (combine al (map fst l)) q = Some (Allow (o_t1 o) (o_c1 o) (o_t2 o) (o_c2 o) (o_s o), th)).
    { apply nth_combine; [exact Ha1|]; rewrite nth_error_map, Hlq; reflexivity. }
    destruct (allow_nth _ 0 q _ _ Hc) as [A1 A2].
    unfold mg_rows in Hrm; rewrite nth_error_map in Hrm.
    destruct HA as [[Ej ->]|[Ej ->]]; subst j; [rewrite (nth_combine _ _ _ _ _ A1 Hrs) in Hrm|rewrite (nth_combine _ _ _ _ _ A2 Hrs) in Hrm];
      simpl in Hrm; injection Hrm as <-; cbn [r_ply r_angle r_position r_12 mr_ply mr_angle mr_position mr_margins]; rewrite Nat.add_0_l;
      replace (q + 1 - 1)%nat with q by lia; (split; [reflexivity|split; [reflexivity|split; [exists o; auto|auto]]]).
Qed.

(*@ C32: hence the two tables disagree on the position of every row. @*)
Lemma t_C32_never_agrees : forall M (mg : allow -> vec3 -> M) l N margins stresses j rm rs,
  margin_of mg l N = Ok margins -> stress_of l N = Ok stresses ->
  nth_error margins j = Some rm -> nth_error stresses j = Some rs -> mr_position rm <> r_position rs.
Proof.
  intros M mg l N ms ss j rm rs Hm Hs Hrm Hrs; destruct (t_C32_position_swapped M mg l N ms ss Hm Hs) as [_ H].
  destruct (H j rm rs Hrm Hrs) as (_ & _ & _ & [[-> ->]|[-> ->]]); discriminate.
Qed.

(*@ C32, concrete instance: the [0/90] laminate has both tables; the bottom of the first ply is labelled top. @*)
Example t_C32_ex : exists margins stresses rm rs, margin_of (fun a s => (a, s)) ex_lam (V3 1 0 0, V3 0 0 2) = Ok margins /\
  stress_of ex_lam (V3 1 0 0, V3 0 0 2) = Ok stresses /\ nth_error margins 0 = Some rm /\ nth_error stresses 0 = Some rs /\
  mr_position rm = "top" /\ r_position rs = "bot" /\ r_z rs = -1.
Proof.
  destruct (sol_exists ex_lam (V3 1 0 0, V3 0 0 2) ltac:(discriminate) ex_lam_admissible) as [x Hs].
  pose proof (admissible_readable _ ex_lam_admissible) as Hr.
  do 4 eexists; split; [rewrite margin_of_eq by exact Hr; unfold pure_margin; cbn [mapM ex_lam snd allowable bind]; fold ex_lam; rewrite Hs; cbn [bind]; reflexivity|].
  split; [rewrite stress_of_eq by exact Hr; rewrite Hs; reflexivity|].
  repeat split. cbn [r_z]; unfold zb, total; simpl; lra.
Qed.

(*@ C61: the margin table needs orthotropic plies only: with at least one isotropic ply the call raises AttributeError,
    and without any it succeeds whenever the stress table can be computed. @*)
Lemma t_C61_isotropic_margin : forall M (mg : allow -> vec3 -> M) l N,
  ((exists th i, In (th, Iso i) l) -> margin_of mg l N = Err AttributeError) /\
  ((forall th i, ~ In (th, Iso i) l) -> forall stresses, stress_of l N = Ok stresses -> exists margins, margin_of mg l N = Ok margins).
Proof.
  intros M mg l N; split.
  - intros (th & i & Hin); unfold margin_of; rewrite laminate_of_eq; cbn [bind].
    unfold calculate_maxstressmargin, sbind, start; rewrite (allowables_run l _ _ (GoodL_fresh l)).
    destruct (mapM_allow l) as [(al & E & _ & H)|[E _]]; rewrite E; cbn [bind]; [|reflexivity].
    apply In_nth_error in Hin; destruct Hin as [j Hj]; destruct (H j th (Iso i) Hj) as (a & _ & Ha); discriminate.
  - intros Hno ss Hs; destruct (stress_some l N ss Hs) as (e0 & Hr & S1 & ->).
    rewrite margin_of_eq by assumption; unfold pure_margin.
    destruct (mapM_allow l) as [(al & E & _ & _)|[_ (th & i & Hin)]]; [|exfalso; eapply Hno; eassumption].
    rewrite E, S1; cbn [bind]; eauto.
Qed.

(*@ C61, concrete instance: an isotropic ply whose stress table exists has no margin table. @*)
Example t_C61_ex : exists i stresses, stress_of [(0, Iso i)] (V3 1 0 0, V3 0 0 2) = Ok stresses /\
  margin_of (fun a s => (a, s)) [(0, Iso i)] (V3 1 0 0, V3 0 0 2) = Err AttributeError.
Proof.
  set (i := IMat 1 0 1 1 0 0 0).
  assert (Q : Q_0 (Iso i) = Ok (M3 1 0 0 0 1 0 0 0 1)).
  { simpl; unfold i_Q0, pydiv, i; simpl; destruct (Req_EM_T (1 - 0 * 0) 0); [lra|]; simpl; f_equal; f_equal; field. }
  assert (Ha : all_admissible [(0, Iso i)]).
  { constructor; [|constructor]; split; [|unfold i; simpl; lra]; exists (M3 1 0 0 0 1 0 0 0 1); split; [exact Q|].
    intros [a b c] Hv; unfold quad, mvec, dot; simpl.
    destruct (Req_dec a 0) as [->|]; [destruct (Req_dec b 0) as [->|]; [destruct (Req_dec c 0) as [->|]; [exfalso; apply Hv; reflexivity|]|]|]; nra. }
  destruct (sol_exists [(0, Iso i)] (V3 1 0 0, V3 0 0 2) ltac:(discriminate) Ha) as [x Hs].
  exists i; eexists; split; [rewrite stress_of_eq by (apply admissible_readable, Ha); rewrite Hs; reflexivity|].
  apply t_C61_isotropic_margin; exists 0, i; left; reflexivity.
Qed.

(* ---------------------------------------------------------------- C62 *)
(*@ C62: superposition: every stress and strain column of the tables is linear in the six loads, row by row. @*)
Lemma t_C62_superposition : forall l N1 N2 k (table : loads -> res (list row)) t1 t2,
  table = strain_of l \/ table = stress_of l -> table N1 = Ok t1 -> table N2 = Ok t2 ->
  exists t, table (add6 N1 (scale6 k N2)) = Ok t /\
  forall j r r1 r2, nth_error t j = Some r -> nth_error t1 j = Some r1 -> nth_error t2 j = Some r2 ->
    r_xy r = vadd (r_xy r1) (vscale k (r_xy r2)) /\ r_12 r = vadd (r_12 r1) (vscale k (r_12 r2)) /\
    r_z r = r_z r1 /\ r_z r = r_z r2.
Proof.
  intros l N1 N2 k table t1 t2 Ht H1 H2.
  assert (Hr : all_readable l).
  { destruct (readable_em l) as [Hr|Hr]; [exact Hr|]; destruct Ht; subst table; [rewrite strain_err in H1 by assumption|rewrite stress_err in H1 by assumption]; discriminate. }
  assert (HS : exists x1 x2, sol l N1 = Ok x1 /\ sol l N2 = Ok x2).
  { destruct Ht; subst table; [rewrite strain_of_eq in H1, H2 by assumption|rewrite stress_of_eq in H1, H2 by assumption];
    destruct (sol l N1), (sol l N2); try discriminate; eauto. }
  destruct HS as (x1 & x2 & S1 & S2).
  destruct (t_C25_linear l N1 N2 k x1 x2) as [S12 _]; [rewrite epsilon0_of_eq; assumption|rewrite epsilon0_of_eq; assumption|].
  rewrite epsilon0_of_eq in S12 by assumption.
  assert (Lep : forall z, ep (add6 x1 (scale6 k x2)) z = vadd (ep x1 z) (vscale k (ep x2 z))).
  { intros z; destruct x1 as [[x11 x12 x13] [x14 x15 x16]], x2 as [[x21 x22 x23] [x24 x25 x26]]; unfold ep, add6, scale6, vadd, vscale; cbn [fst snd vx vy vz]; f_equal; ring. }
  assert (L12 : forall T u v, double3 (mvec T (halve3 (vadd u (vscale k v)))) = vadd (double3 (mvec T (halve3 u))) (vscale k (double3 (mvec T (halve3 v))))).
  { intros [m1 m2 m3 m4 m5 m6 m7 m8 m9] [u1 u2 u3] [v1 v2 v3]; unfold double3, halve3, mvec, vadd, vscale; cbn [vx vy vz a11 a12 a13 a21 a22 a23 a31 a32 a33]; f_equal; field. }
  assert (K : exists f g : (vec3 * vec3) -> plyz -> R -> vec3, (forall N x, sol l N = Ok x -> table N = Ok (rows (f x) (g x) 0 (X l))) /\
     (forall p z, f (add6 x1 (scale6 k x2)) p z = vadd (f x1 p z) (vscale k (f x2 p z))) /\
     (forall p z, g (add6 x1 (scale6 k x2)) p z = vadd (g x1 p z) (vscale k (g x2 p z)))).
  { destruct Ht; subst table.
    - exists f_strain, f_strain12; split; [intros N x S; rewrite strain_of_eq, S by assumption; reflexivity|]; split; intros p z.
      + apply Lep. + unfold f_strain12; rewrite Lep, L12; reflexivity.
    - exists f_stress, f_stress12; split; [intros N x S; rewrite stress_of_eq, S by assumption; reflexivity|]; split; intros p z.
      + unfold f_stress; rewrite Lep, mvec_vadd, mvec_vscale; reflexivity.
      + unfold f_stress12, f_stress; rewrite Lep, !mvec_vadd, !mvec_vscale; reflexivity. }
  destruct K as (f & g & HT & Hf & Hg).
  rewrite (HT _ _ S1) in H1; rewrite (HT _ _ S2) in H2; apply Ok_inj in H1; apply Ok_inj in H2; subst t1 t2.
  eexists; split; [apply HT, S12|].
  intros j r r1 r2 J J1 J2.
  destruct (rows_idx _ _ _ _ _ _ J) as (q & th & m & z0 & z1 & Hq & HA).
  destruct (rows_idx _ _ _ _ _ _ J1) as (q1 & th1 & m1 & z01 & z11 & Hq1 & HA1).
  destruct (rows_idx _ _ _ _ _ _ J2) as (q2 & th2 & m2 & z02 & z12 & Hq2 & HA2).
  assert (q1 = q) by lia; assert (q2 = q) by lia; subst q1 q2.
  rewrite Hq in Hq1, Hq2; injection Hq1 as <- <- <- <-; injection Hq2 as <- <- <- <-.
  destruct HA as [[? ->]|[? ->]], HA1 as [[? ->]|[? ->]], HA2 as [[? ->]|[? ->]]; try lia; cbn [r_xy r_12 r_z]; rewrite Hf, Hg; auto.
Qed.

(*@ C62, concrete instance: the [0/90] laminate has stress tables for two different loads. @*)
Example t_C62_ex : exists t1 t2, stress_of ex_lam (V3 1 0 0, V3 0 0 2) = Ok t1 /\ stress_of ex_lam (V3 0 3 0, V3 0 1 0) = Ok t2 /\
  List.length t1 = 4%nat /\ List.length t2 = 4%nat.
Proof.
  destruct (sol_exists ex_lam (V3 1 0 0, V3 0 0 2) ltac:(discriminate) ex_lam_admissible) as [x Hs].
  destruct (sol_exists ex_lam (V3 0 3 0, V3 0 1 0) ltac:(discriminate) ex_lam_admissible) as [y Hy].
  pose proof (admissible_readable _ ex_lam_admissible) as Hr.
  do 2 eexists; split; [rewrite stress_of_eq by exact Hr; rewrite Hs; reflexivity|].
  split; [rewrite stress_of_eq by exact Hr; rewrite Hy; reflexivity|]; split; apply rows_length.
Qed.
