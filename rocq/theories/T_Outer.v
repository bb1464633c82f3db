(** Proofs of the theorems about plies added to the faces of a laminate. *)
From Coq Require Import Reals ZArith Lra Lia List.
From Verif Require Import M_Py M_Material M_Laminate M_Plate M_K M_RealArith S_Mat S_Material S_Laminate S_Plate S_Energy S_K S_Ritz S_Eigen S_Compare S_Outer L_Mat L_Lam L_LamAlg L_LamSums L_LamEnergy T_Laminate T_Compare.
Import ListNotations.
Open Scope R_scope.

Lemma quad_madd A B v : quad (madd A B) v = quad A v + quad B v.
Proof. destruct A, B, v. unmat. ring. Qed.
Lemma energy_shift pl : forall z0 d e k, energy (z0 + d) pl e k = energy z0 pl (vadd e (vscale d k)) k.
Proof.
  induction pl as [|[h Q] t IH]; intros z0 d e k; cbn [energy]; [reflexivity|].
  replace (z0 + d + h) with (z0 + h + d) by ring. rewrite IH. f_equal. f_equal. f_equal. f_equal. destruct e, k. unmat. f_equal; ring.
Qed.
Lemma quad_energy pl z0 k : Forall (fun p => symmetric (snd p)) pl -> quad (lsum wD z0 pl) k = energy z0 pl vzero k.
Proof.
  intros S. rewrite <- (q6_energy pl S). unfold q6, dot6, mvec6. cbn. set (A := lsum wA z0 pl). set (B := lsum wB z0 pl). set (D := lsum wD z0 pl).
  destruct A, B, D, k. unmat. ring.
Qed.
Lemma quad_shift pl z0 d k : Forall (fun p => symmetric (snd p)) pl -> lsum wB z0 pl = mzero ->
  quad (lsum wD (z0 + d) pl) k = quad (lsum wD z0 pl) k + d ^ 2 * quad (lsum wA z0 pl) k.
Proof.
  intros S B0. rewrite (quad_energy pl (z0 + d) k S), energy_shift, <- (q6_energy pl S), B0. unfold q6, dot6, mvec6. cbn.
  set (A := lsum wA z0 pl). set (D := lsum wD z0 pl). destruct A, D, k. unmat. ring.
Qed.
Lemma quad_A pl z0 k : Forall (fun p => symmetric (snd p)) pl -> Forall good_pair pl -> 0 <= quad (lsum wA z0 pl) k.
Proof.
  intros S G. assert (E := energy_nonneg pl k vzero G z0). rewrite <- (q6_energy pl S) in E. unfold q6, dot6, mvec6 in E. cbn in E.
  set (A := lsum wA z0 pl) in *. set (B := lsum wB z0 pl) in *. set (D := lsum wD z0 pl) in *. destruct A, B, D, k. revert E. unmat. intros E. lra.
Qed.
Lemma admissible_app l r : all_admissible l -> all_admissible r -> all_admissible (l ++ r).
Proof. intros A B. apply Forall_app. split; assumption. Qed.

(*@ C69: covering a laminate with plies on its faces never makes its D less stiff when the same thickness goes on both faces, or when
    the laminate has no coupling; the laminate in the middle may be any stack of physical plies. @*)
Lemma t_C69_stiffer : forall bot l top D D', all_admissible bot -> all_admissible l -> all_admissible top ->
  total bot = total top \/ B_of l = Ok mzero -> D_of l = Ok D -> D_of (bot ++ l ++ top) = Ok D' -> no_stiffer D D'.
Proof.
  intros bot l top D D' Ab Al At H HD HD' k.
  assert (Aall := admissible_app _ _ Ab (admissible_app _ _ Al At)).
  rewrite (D_of_eq l (admissible_readable l Al)) in HD. rewrite (D_of_eq _ (admissible_readable _ Aall)) in HD'. injection HD as <-. injection HD' as <-.
  assert (Sb := pairs_sym _ (admissible_readable _ Ab)). assert (Sl := pairs_sym _ (admissible_readable _ Al)). assert (St := pairs_sym _ (admissible_readable _ At)).
  unfold Lsum. set (z := z_bottom (pairs (bot ++ l ++ top))). rewrite !pairs_app, !lsum_app, !quad_madd.
  assert (P1 : 0 <= quad (lsum wD z (pairs bot)) k) by (rewrite (quad_energy _ _ _ Sb); apply energy_nonneg, good_pairs, Ab).
  assert (P3 : 0 <= quad (lsum wD (z + hsum (pairs bot) + hsum (pairs l)) (pairs top)) k) by (rewrite (quad_energy _ _ _ St); apply energy_nonneg, good_pairs, At).
  assert (P2 : quad (lsum wD (z_bottom (pairs l)) (pairs l)) k <= quad (lsum wD (z + hsum (pairs bot)) (pairs l)) k).
  { destruct H as [H|H].
    - right. f_equal. f_equal. unfold z, z_bottom. rewrite !pairs_app, !hsum_app, !total_hsum, H. field.
    - rewrite (B_of_eq l (admissible_readable l Al)) in H. injection H as H.
      replace (z + hsum (pairs bot)) with (z_bottom (pairs l) + (z + hsum (pairs bot) - z_bottom (pairs l))) by ring.
      rewrite (quad_shift _ _ _ k Sl H). assert (Q := quad_A _ (z_bottom (pairs l)) k Sl (good_pairs _ Al)).
      assert (S2 := pow2_ge_0 (z + hsum (pairs bot) - z_bottom (pairs l))). nra. }
  lra.
Qed.
Lemma D_pos l : l <> [] -> all_admissible l -> symmetric (Lsum wD l) /\ pos_def (Lsum wD l).
Proof.
  intros N A. split; [apply Lsum_sym, admissible_readable, A|]. intros v Hv.
  assert (P := ABD_pos_def l N A (vzero, v)). assert (H : (vzero, v) <> (vzero, vzero)) by congruence. specialize (P H).
  set (X := Lsum wA l) in *. set (Y := Lsum wB l) in *. set (Z := Lsum wD l) in *. revert P. unfold dot6, mvec6. cbn. destruct X, Y, Z, v. unmat. intros P. lra.
Qed.
(*@ C69: so covering the laminate of a plate in that way never lowers its critical factor, for every plate size, edge condition and load. @*)
Lemma t_C69_buckling : forall bot l top D D' a b Nxx Nyy Nxy c c0 ca d0 db m n k, all_admissible bot -> all_admissible l -> all_admissible top -> l <> [] ->
  total bot = total top \/ B_of l = Ok mzero -> D_of l = Ok D -> D_of (bot ++ l ++ top) = Ok D' ->
  0 < a -> 0 < b -> specifies c c0 ca d0 db -> restrained c0 ca d0 db ->
  critical D' a b Nxx Nyy Nxy c m n k -> exists j, critical D a b Nxx Nyy Nxy c m n j /\ j <= k.
Proof.
  intros bot l top D D' a b Nxx Nyy Nxy c c0 ca d0 db m n k Ab Al At Ne H HD HD' Ha Hb Sp Rs C.
  assert (NS := t_C69_stiffer bot l top D D' Ab Al At H HD HD').
  assert (Aall := admissible_app _ _ Ab (admissible_app _ _ Al At)).
  rewrite (D_of_eq l (admissible_readable l Al)) in HD. rewrite (D_of_eq _ (admissible_readable _ Aall)) in HD'.
  assert (E : Lsum wD l = D) by congruence. assert (E' : Lsum wD (bot ++ l ++ top) = D') by congruence.
  destruct (D_pos l Ne Al) as [Sy PD]. destruct (D_pos (bot ++ l ++ top)) as [Sy' PD']; [destruct bot; [destruct l; [congruence|discriminate]|discriminate]|exact Aall|].
  rewrite E in Sy, PD. rewrite E' in Sy', PD'.
  apply (t_C66_monotone D D' a b Nxx Nyy Nxy Nxx Nyy Nxy c c0 ca d0 db m n k); [constructor; assumption|constructor; assumption|exact NS| |exact C].
  unfold no_compression. rewrite !Rminus_diag_eq by reflexivity. split; [lra|split; [lra|nra]].
Qed.
Lemma Q0_iso e g h : Q_0 (Iso (IMat e 0 g h 0 0 0)) = Ok (M3 e 0 0 0 e 0 0 0 g).
Proof.
  unfold Q_0, i_Q0, pydiv. cbn [i_e i_v i_g]. destruct (Req_EM_T (1 - 0 * 0) 0); [exfalso; lra|]. cbn [bind]. f_equal. f_equal; field; lra.
Qed.
Lemma iso_admissible e g h : 0 < e -> 0 < g -> 0 < h -> S_Laminate.admissible (Iso (IMat e 0 g h 0 0 0)).
Proof.
  intros He Hg Hh. split; [|exact Hh]. eexists. split; [apply Q0_iso|]. intros [x y z] N. unmat. cbn.
  assert (x <> 0 \/ y <> 0 \/ z <> 0).
  { destruct (Req_dec x 0) as [->|]; [|tauto]. destruct (Req_dec y 0) as [->|]; [|tauto]. destruct (Req_dec z 0) as [->|]; [|tauto]. exfalso. apply N. reflexivity. }
  assert (0 < x * x \/ 0 < y * y \/ 0 < z * z) by (destruct H as [H|[H|H]]; [left|right; left|right; right]; nra).
  assert (0 <= e * (x * x)) by (apply Rmult_le_pos; nra). assert (0 <= e * (y * y)) by (apply Rmult_le_pos; nra). assert (0 <= g * (z * z)) by (apply Rmult_le_pos; nra).
  destruct H0 as [H0|[H0|H0]]; [assert (0 < e * (x * x)) by (apply Rmult_lt_0_compat; assumption)|assert (0 < e * (y * y)) by (apply Rmult_lt_0_compat; assumption)|assert (0 < g * (z * z)) by (apply Rmult_lt_0_compat; assumption)]; lra.
Qed.
Lemma iso_Qbar e g h : Qbar 0 (Iso (IMat e 0 g h 0 0 0)) = M3 e 0 0 0 e 0 0 0 g.
Proof.
  unfold Qbar, Q0p. rewrite Q0_iso. unfold cdeg, sdeg. replace (0 * PI / 180) with 0 by field. rewrite cos_0, sin_0. apply rot_1_0.
Qed.
Lemma foam_ok : S_Laminate.admissible foam. Proof. apply iso_admissible; lra. Qed.
Lemma steel_ok : S_Laminate.admissible steel. Proof. apply iso_admissible; lra. Qed.

Lemma quad_mscale k A v : quad (mscale k A) v = k * quad A v.
Proof. destruct A, v. unmat. ring. Qed.
Lemma quad_iso e g : quad (M3 e 0 0 0 e 0 0 0 g) (V3 1 0 0) = e.
Proof. unmat. ring. Qed.
Lemma quad_zero v : quad mzero v = 0.
Proof. destruct v. unmat. ring. Qed.

(*@ C69: the condition is needed. A sheet of foam glued to one face of a foam-steel pair makes D less stiff, since the code measures
    every D from the middle of the laminate. @*)
Lemma t_C69_one_side_refuted : exists l p D D', all_admissible l /\ S_Laminate.admissible (snd p) /\ D_of l = Ok D /\ D_of (p :: l) = Ok D' /\ ~ no_stiffer D D'.
Proof.
  assert (A : all_admissible [(0, steel); (0, foam)]) by (repeat constructor; cbn; first [apply foam_ok|apply steel_ok]).
  assert (A' : all_admissible [(0, foam); (0, steel); (0, foam)]) by (constructor; [apply foam_ok|exact A]).
  exists [(0, steel); (0, foam)], (0, foam). eexists. eexists.
  split; [exact A|]. split; [apply foam_ok|]. split; [apply D_of_eq, admissible_readable, A|]. split; [apply D_of_eq, admissible_readable, A'|].
  intros N. specialize (N (V3 1 0 0)). revert N. unfold Lsum, z_bottom, hsum, pairs. cbn [map fst snd rsum lsum].
  unfold foam, steel. rewrite !iso_Qbar, !quad_madd, !quad_mscale, !quad_iso, quad_zero. unfold wD. cbn [thickness i_thickness]. lra.
Qed.
(*@ C69 example: steel on both faces of a foam-steel pair; and a foam core between two different faces. @*)
Lemma t_C69_ex : all_admissible [(0, steel)] /\ all_admissible [(0, steel); (0, foam)] /\ total [(0, steel)] = total [(30, foam)] /\
  (exists D D', D_of [(0, steel); (0, foam)] = Ok D /\ D_of ([(0, steel)] ++ [(0, steel); (0, foam)] ++ [(30, foam)]) = Ok D' /\ no_stiffer D D') /\
  B_of [(0, foam)] = Ok mzero /\
  (exists D D', D_of [(0, foam)] = Ok D /\ D_of ([(0, steel)] ++ [(0, foam)] ++ []) = Ok D' /\ no_stiffer D D').
Proof.
  assert (As : all_admissible [(0, steel)]) by (repeat constructor; apply steel_ok).
  assert (Af : all_admissible [(30, foam)]) by (repeat constructor; apply foam_ok).
  assert (Af0 : all_admissible [(0, foam)]) by (repeat constructor; apply foam_ok).
  assert (A : all_admissible [(0, steel); (0, foam)]) by (constructor; [apply steel_ok|exact Af0]).
  assert (T : total [(0, steel)] = total [(30, foam)]) by (unfold total; cbn; ring).
  assert (B : B_of [(0, foam)] = Ok mzero).
  { rewrite B_of_eq by (apply admissible_readable, Af0). f_equal. unfold Lsum, z_bottom, hsum, pairs. cbn [map fst snd rsum lsum]. unfold foam. rewrite iso_Qbar. unfold wB. unmat. cbn. f_equal; field. }
  split; [exact As|]. split; [exact A|]. split; [exact T|]. split; [|split; [exact B|]].
  - assert (A2 : all_admissible ([(0, steel)] ++ [(0, steel); (0, foam)] ++ [(30, foam)])) by (apply admissible_app; [exact As|apply admissible_app; assumption]).
    eexists. eexists. split; [apply D_of_eq, admissible_readable, A|]. split; [apply D_of_eq, admissible_readable, A2|].
    eapply t_C69_stiffer; [exact As|exact A|exact Af|left; exact T|apply D_of_eq, admissible_readable, A|apply D_of_eq, admissible_readable, A2].
  - assert (A2 : all_admissible ([(0, steel)] ++ [(0, foam)] ++ [])) by (apply admissible_app; [exact As|apply admissible_app; [exact Af0|constructor]]).
    eexists. eexists. split; [apply D_of_eq, admissible_readable, Af0|]. split; [apply D_of_eq, admissible_readable, A2|].
    eapply t_C69_stiffer; [exact As|exact Af0|constructor|right; exact B|apply D_of_eq, admissible_readable, Af0|apply D_of_eq, admissible_readable, A2].
Qed.
