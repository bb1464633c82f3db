(** Lemmas about laminates whose arguments have been changed in place *)
From Coq Require Import Reals Lra Lia String List.
From Verif Require Import M_Py S_Mat M_Material M_Laminate M_LamHistory M_Linalg S_Laminate M_Strength S_Strength M_Alias S_Alias L_Mat L_Lam L_LamAlg L_LamSums L_LamEnergy L_Linalg L_Strength.
Import ListNotations.
Open Scope list_scope.
Open Scope R_scope.

(** ** every call keeps the arguments and the soundness of the caches *)
Definition keeps {A} (x : ST A) : Prop := forall L h, layup_ok (layup L) -> Inv L -> Inv (w_lam (fst (x (World L h)))) /\ same L (w_lam (fst (x (World L h)))).
Lemma keeps_pure {A} (x : ST A) : (forall w, w_lam (fst (x w)) = w_lam w) -> keeps x.
Proof. intros H L h _ I. rewrite H. cbn [w_lam]. split; [exact I|apply same_refl]. Qed.
Lemma keeps_bind {A B} (x : ST A) (f : A -> ST B) : keeps x -> (forall a, keeps (f a)) -> keeps (sbind x f).
Proof.
  intros Hx Hf L h Ok_ I. unfold sbind. destruct (Hx L h Ok_ I) as [I1 S1]. destruct (x (World L h)) as [[L1 h1] [a|e]]; cbn [fst w_lam] in *; [|split; assumption].
  assert (El : layup L1 = layup L) by apply S1. destruct (Hf a L1 h1 ltac:(rewrite El; exact Ok_) I1) as [I2 S2]. split; [exact I2|apply (same_trans _ _ _ S1 S2)].
Qed.
Lemma keeps_map {A B} (f : A -> ST B) l : (forall a, keeps (f a)) -> keeps (smapM f l).
Proof. intros H. induction l as [|x t IH]; cbn [smapM]; [apply keeps_pure; reflexivity|]. apply keeps_bind; [apply H|]. intros y. apply keeps_bind; [exact IH|]. intros r. apply keeps_pure. reflexivity. Qed.
Lemma keeps_on {A} (f : lam -> lam * res A) : (forall L, layup_ok (layup L) -> Inv L -> Inv (fst (f L)) /\ same L (fst (f L))) -> keeps (on_lam f).
Proof. intros H L h Ok_ I. unfold on_lam. cbn [w_lam w_heap]. specialize (H L Ok_ I). destruct (f L) as [L' r]. exact H. Qed.
Ltac kept := repeat first [apply keeps_bind; [|intros ?]|apply keeps_map; intros ?|apply keeps_pure; reflexivity].
Lemma keeps_ABD : keeps (on_lam get_ABD).
Proof. apply keeps_on. intros L K I. destruct (get_ABD_inv L K I) as (L' & -> & I' & S'). split; assumption. Qed.
Lemma keeps_Q : keeps (on_lam get_Q_layup).
Proof. apply keeps_on. intros L K I. destruct (get_Q_inv L K I) as (L' & -> & I' & S' & _). split; assumption. Qed.
Lemma keeps_eps N : keeps (epsilon0 N). Proof. unfold epsilon0. apply keeps_bind; [apply keeps_ABD|intros a]. kept. Qed.
Lemma keeps_ek N : keeps (epsilonk N).
Proof. unfold epsilonk. do 3 (apply keeps_bind; [kept|intros ?]). apply keeps_bind; [apply keeps_eps|intros e]. apply keeps_map. intros [p q]. kept. Qed.
Lemma keeps_sk N : keeps (stressk N).
Proof. unfold stressk. apply keeps_bind; [apply keeps_Q|intros q]. apply keeps_bind; [apply keeps_ek|intros e]. apply keeps_map. intros [Q [t b]]. kept. Qed.
Lemma keeps_angles s : keeps (angles s). Proof. destruct s; apply keeps_pure; reflexivity. Qed.
Lemma keeps_e123 N : keeps (epsilonk_123 N).
Proof. unfold epsilonk_123. apply keeps_bind; [kept|intros s]. apply keeps_bind; [apply keeps_ek|intros e]. apply keeps_bind; [apply keeps_angles|intros th]. apply keeps_map. intros [x [t b]]. kept. Qed.
Lemma keeps_s123 N : keeps (stressk_123 N).
Proof. unfold stressk_123. apply keeps_bind; [kept|intros s]. apply keeps_bind; [apply keeps_sk|intros e]. apply keeps_bind; [apply keeps_angles|intros th]. kept. Qed.
Lemma keeps_strain N : keeps (calculate_strain N).
Proof. unfold calculate_strain. apply keeps_bind; [apply keeps_ek|intros e]. apply keeps_bind; [apply keeps_e123|intros f]. do 2 (apply keeps_bind; [kept|intros ?]). apply keeps_bind; [apply keeps_angles|intros th]. apply keeps_bind; [|intros v; kept]. apply keeps_map. intros [t b]. kept. Qed.
Lemma keeps_stress N : keeps (calculate_stress N).
Proof. unfold calculate_stress. apply keeps_bind; [apply keeps_sk|intros e]. apply keeps_bind; [apply keeps_s123|intros f]. do 2 (apply keeps_bind; [kept|intros ?]). apply keeps_bind; [apply keeps_angles|intros th]. kept. Qed.
Lemma keeps_call N c : keeps (do_call N c).
Proof.
  destruct c as [| | | |r]; cbn [do_call].
  - apply keeps_bind; [apply keeps_eps|intros x; kept].
  - apply keeps_bind; [apply keeps_strain|intros x; kept].
  - apply keeps_bind; [apply keeps_stress|intros x; kept].
  - apply keeps_bind; [|intros x; kept]. unfold calculate_maxstressmargin. apply keeps_bind; [unfold calculate_maxstressallowable; kept|intros al]. apply keeps_bind; [apply keeps_stress|intros st; kept].
  - apply keeps_bind; [|intros x; kept]. apply keeps_on. intros L K I. destruct (do_read_inv L r K I) as (L' & -> & I' & S'). split; assumption.
Qed.

(** ** the state of one laminate along a history *)
Definition sound (o : held) : Prop :=
  layup_ok (h_layup o) /\
  (h_Q o = None \/ h_Q o = Some (Qs_of (h_layup o))) /\
  (h_T o = None \/ h_T o = Some (T_pure (h_layup o))) /\
  (h_xiA o = NoneSlot -> h_A o = None \/ h_A o = Some (Lsum wA (h_layup o))) /\
  (h_B o = None \/ h_B o = Some (Lsum wB (h_layup o))) /\
  (h_xiD o = NoneSlot -> h_D o = None \/ h_D o = Some (Lsum wD (h_layup o))).
Definition static (o o' : held) : Prop :=
  h_stacking o' = h_stacking o /\ h_plies o' = h_plies o /\ h_layup o' = h_layup o /\ h_xiA o' = h_xiA o /\ h_xiB o' = h_xiB o /\ h_xiD o' = h_xiD o /\ h_thick o' = h_thick o.
Lemma contents_none h s : contents h s = DNone <-> s = NoneSlot.
Proof. destruct s; cbn; split; intros H; congruence. Qed.
Lemma sound_Inv h o : sound o -> layup_ok (layup (view h o)) /\ Inv (view h o).
Proof.
  intros (K & Q & T & A & B & D). split; [exact K|]. unfold Inv, view. cbn [c_Q c_T c_A c_B c_D layup p_xiA p_xiD]. split; [exact Q|]. split; [exact T|]. split; [intros E; apply A, (contents_none h), E|]. split; [exact B|]. intros E. apply D, (contents_none h), E.
Qed.
Lemma cached_sound h o L : sound o -> Inv L -> same (view h o) L -> sound (cached o L) /\ static o (cached o L).
Proof.
  intros (K & _) (Q & T & A & B & D) (_ & _ & El & Ea & _ & Ed & _). cbn [layup view p_xiA p_xiD] in El, Ea, Ed. split.
  - unfold sound, cached. cbn [h_layup h_Q h_T h_A h_B h_D h_xiA h_xiD]. rewrite El in *. split; [exact K|]. split; [exact Q|]. split; [exact T|]. split; [intros E; apply A; rewrite Ea; apply contents_none, E|]. split; [exact B|]. intros E. apply D. rewrite Ed. apply contents_none, E.
  - unfold static, cached. cbn. auto 10.
Qed.
Lemma put_length {A} (l : list A) : forall k x, List.length (put l k x) = List.length l.
Proof. induction l as [|y t IH]; intros [|k] x; cbn [put List.length]; auto. Qed.
Lemma put_same {A} (l : list A) : forall k x y, nth_error l k = Some y -> nth_error (put l k x) k = Some x.
Proof. induction l as [|z t IH]; intros [|k] x y H; cbn in *; try discriminate; [reflexivity|apply (IH k x y H)]. Qed.
Lemma put_other {A} (l : list A) : forall k j x, k <> j -> nth_error (put l k x) j = nth_error l j.
Proof. induction l as [|z t IH]; intros [|k] [|j] x H; cbn; try reflexivity; [contradiction|]. apply IH. congruence. Qed.
Lemma nth_old {A} (l r : list A) k x : nth_error l k = Some x -> nth_error (l ++ r) k = Some x.
Proof. intros H. rewrite nth_error_app1; [exact H|]. apply nth_error_Some. rewrite H. discriminate. Qed.

Lemma act_lams m o k ob : nth_error (m_lams m) k = Some ob -> sound ob -> exists ob', nth_error (m_lams (fst (act m o))) k = Some ob' /\ sound ob' /\ static ob ob'.
Proof.
  intros H S. assert (St : static ob ob) by (repeat split). destruct o as [c|i c|s p|j N c]; cbn [act].
  - destruct (sound_cell _ _); exists ob; auto.
  - destruct (nth_error (m_heap m) i) as [c0|]; [destruct (andb _ _)|]; exists ob; auto.
  - destruct (init (m_heap m) s p) as [[h [o'|e]]|]; cbn [fst m_lams]; exists ob; auto. split; [apply nth_old, H|auto].
  - destruct (nth_error (m_lams m) j) as [oj|] eqn:Ej; [|exists ob; auto]. destruct (do_call N c (World (view (m_heap m) oj) [])) as [w a] eqn:E. cbn [fst m_lams].
    destruct (Nat.eq_dec j k) as [->|Nq]; [|exists ob; rewrite put_other by exact Nq; auto].
    assert (oj = ob) by congruence. subst oj. destruct (sound_Inv (m_heap m) ob S) as [K I]. destruct (keeps_call N c (view (m_heap m) ob) [] K I) as [I' S']. rewrite E in I', S'. cbn [fst] in I', S'.
    destruct (cached_sound (m_heap m) ob (w_lam w) S I' S') as [S2 T2]. exists (cached ob (w_lam w)). split; [apply (put_same _ _ _ _ H)|auto].
Qed.
Lemma static_trans a b c : static a b -> static b c -> static a c.
Proof. unfold static. intuition congruence. Qed.
Lemma after_lams l : forall m k ob, nth_error (m_lams m) k = Some ob -> sound ob -> exists ob', nth_error (m_lams (after m l)) k = Some ob' /\ sound ob' /\ static ob ob'.
Proof.
  induction l as [|o t IH]; intros m k ob H S; cbn [after]; [exists ob; split; [exact H|split; [exact S|repeat split]]|]. destruct (act_lams m o k ob H S) as (o1 & H1 & S1 & T1). destruct (IH _ _ _ H1 S1) as (o2 & H2 & S2 & T2). exists o2. split; [exact H2|split; [exact S2|apply (static_trans _ _ _ T1 T2)]].
Qed.
(** objects keep their kind *)
Lemma act_heap m o i c : nth_error (m_heap m) i = Some c -> exists c', nth_error (m_heap (fst (act m o))) i = Some c' /\ same_kind c c' = true.
Proof.
  intros H. assert (K : same_kind c c = true) by (destruct c; reflexivity). destruct o as [d|j d|s p|k N d]; cbn [act].
  - destruct (sound_cell _ _); cbn [fst m_heap]; exists c; split; auto. apply nth_old, H.
  - destruct (nth_error (m_heap m) j) as [c0|] eqn:E; [destruct (andb _ _) eqn:B|]; cbn [fst m_heap]; try (exists c; split; auto; fail).
    destruct (Nat.eq_dec j i) as [->|Nq]; [|exists c; rewrite put_other by exact Nq; auto]. apply andb_prop in B. exists d. split; [apply (put_same _ _ _ _ H)|]. assert (c0 = c) by congruence. subst c0. apply B.
  - destruct (init (m_heap m) s p) as [[h r]|] eqn:E; [|exists c; auto].
    assert (E' : nth_error h i = Some c). { unfold init in E. destruct (nth_error (m_heap m) s) as [[a|l|d]|]; try discriminate.
      - destruct p as [mt|q]; [injection E as <- _; apply nth_old, H|]. destruct (nth_error (m_heap m) q) as [[x|l|x]|]; try discriminate. destruct (Nat.eqb _ _); injection E as <- _; exact H.
      - destruct (plies_now (m_heap m) p); [|discriminate]. injection E as <- _. exact H. }
    destruct r as [o'|e]; cbn [fst m_heap]; exists c; auto.
  - destruct (nth_error (m_lams m) k) as [ob|]; [|exists c; auto]. destruct (do_call N d _) as [w a]. cbn [fst m_heap]. exists c. auto.
Qed.
Lemma kind_trans a b c : same_kind a b = true -> same_kind b c = true -> same_kind a c = true.
Proof. destruct a, b, c; cbn; congruence. Qed.
Lemma after_heap l : forall m i c, nth_error (m_heap m) i = Some c -> exists c', nth_error (m_heap (after m l)) i = Some c' /\ same_kind c c' = true.
Proof.
  induction l as [|o t IH]; intros m i c H; cbn [after]; [exists c; split; [exact H|destruct c; reflexivity]|]. destruct (act_heap m o i c H) as (c1 & H1 & K1). destruct (IH _ _ _ H1) as (c2 & H2 & K2). exists c2. split; [exact H2|apply (kind_trans _ _ _ K1 K2)].
Qed.
Lemma ask_eq m k N c o : nth_error (m_lams m) k = Some o -> ask m k N c = Answer (snd (do_call N c (World (view (m_heap m) o) []))).
Proof. intros H. unfold ask, act. rewrite H. destruct (do_call N c _) as [w a]. reflexivity. Qed.
Lemma ask_read m k N r o : nth_error (m_lams m) k = Some o -> sound o -> ask m k N (CRead r) = Answer (v <- pure_read (view (m_heap m) o) r ;; Ok (ARead v)).
Proof.
  intros H S. rewrite (ask_eq m k N (CRead r) o H). cbn [do_call]. unfold sbind, on_lam. cbn [w_lam w_heap]. destruct (sound_Inv (m_heap m) o S) as [K I]. destruct (do_read_inv _ r K I) as (L' & E & _). rewrite E. destruct (pure_read (view (m_heap m) o) r); reflexivity.
Qed.

(** ** lamination parameters *)
Lemma xi_loop_gaps f angles : forall z pre acc, (List.length angles <= List.length (tl z))%nat -> z <> [] ->
  xi_loop f (pre ++ z) angles (List.length pre) acc =
  Ok (let '(x0, x1, x2, x3) := acc in
      (x0 + weighted (gaps f z) (fun x => cos (2 * x)) angles, x1 + weighted (gaps f z) (fun x => sin (2 * x)) angles,
       x2 + weighted (gaps f z) (fun x => cos (4 * x)) angles, x3 + weighted (gaps f z) (fun x => sin (4 * x)) angles)).
Proof.
  induction angles as [|a t IH]; intros z pre acc Hl Hz.
  - destruct acc as [[[x0 x1] x2] x3]. cbn [xi_loop]. unfold weighted, gaps. destruct (map _ (combine z (tl z))); cbn [combine map fold_right]; rewrite !Rplus_0_r; reflexivity.
  - destruct z as [|z0 [|z1 z]]; [contradiction|cbn in Hl; lia|]. cbn [tl List.length] in Hl. cbn [xi_loop].
    assert (E0 : get (pre ++ z0 :: z1 :: z) (List.length pre) = Ok z0) by (apply nth_app_len; reflexivity).
    assert (E1 : get (pre ++ z0 :: z1 :: z) (List.length pre + 1) = Ok z1) by (replace (pre ++ z0 :: z1 :: z) with ((pre ++ [z0]) ++ z1 :: z) by (rewrite <- app_assoc; reflexivity); apply nth_app_len; rewrite app_length; reflexivity).
    rewrite E0, E1. cbn [bind]. destruct acc as [[[x0 x1] x2] x3].
    replace (pre ++ z0 :: z1 :: z) with ((pre ++ [z0]) ++ z1 :: z) by (rewrite <- app_assoc; reflexivity). replace (List.length pre + 1)%nat with (List.length (pre ++ [z0])) by (rewrite app_length; reflexivity).
    rewrite (IH (z1 :: z) (pre ++ [z0]) _ ltac:(cbn [tl]; lia) ltac:(discriminate)). f_equal. unfold weighted, gaps. cbn [tl combine map fold_right fst snd]. rewrite !Rplus_assoc. reflexivity.
Qed.
Lemma xi_loop_long f angles : forall z pre acc, (List.length (tl z) < List.length angles)%nat -> z <> [] -> xi_loop f (pre ++ z) angles (List.length pre) acc = Err IndexError.
Proof.
  induction angles as [|a t IH]; intros z pre acc Hl Hz; [cbn in Hl; lia|]. destruct z as [|z0 z]; [contradiction|]. cbn [xi_loop].
  destruct z as [|z1 z].
  - unfold get at 1. rewrite (proj2 (nth_error_None (pre ++ [z0]) (List.length pre + 1))); [reflexivity|]. rewrite app_length. cbn. lia.
  - assert (E0 : get (pre ++ z0 :: z1 :: z) (List.length pre) = Ok z0) by (apply nth_app_len; reflexivity).
    assert (E1 : get (pre ++ z0 :: z1 :: z) (List.length pre + 1) = Ok z1) by (replace (pre ++ z0 :: z1 :: z) with ((pre ++ [z0]) ++ z1 :: z) by (rewrite <- app_assoc; reflexivity); apply nth_app_len; rewrite app_length; reflexivity).
    rewrite E0, E1. cbn [bind]. destruct acc as [[[x0 x1] x2] x3].
    replace (pre ++ z0 :: z1 :: z) with ((pre ++ [z0]) ++ z1 :: z) by (rewrite <- app_assoc; reflexivity). replace (List.length pre + 1)%nat with (List.length (pre ++ [z0])) by (rewrite app_length; reflexivity).
    apply IH; [cbn [tl List.length] in *; lia|discriminate].
Qed.
Lemma fold_thick l : forall acc, fold_left (fun a m => a + thickness m) l acc = acc + thickness_of l.
Proof. induction l as [|m t IH]; intros acc; cbn [fold_left]; unfold thickness_of in *; cbn [map fold_right]; [ring|]. rewrite IH. ring. Qed.
Lemma xi_now f k pw L angles l : stacking L = SAngles angles -> plies L = PMany l -> xi_get f k pw L = parameters f k pw (z_position (layup L)) angles (thickness_of l).
Proof.
  intros Es Ep. unfold xi_get, parameters. rewrite Ep, Es. unfold plies_thickness. rewrite fold_thick, Rplus_0_l. cbn [bind].
  assert (Lz : List.length (z_position (layup L)) = Datatypes.S (List.length (tl (z_position (layup L))))) by reflexivity.
  destruct (Nat.ltb (List.length angles) (List.length (z_position (layup L)))) eqn:E.
  - apply Nat.ltb_lt in E. pose proof (xi_loop_gaps f angles (z_position (layup L)) [] (0, 0, 0, 0) ltac:(lia) ltac:(discriminate)) as E'. cbn [app List.length] in E'. rewrite E'. cbn [bind]. destruct (Req_EM_T _ 0); [reflexivity|]. rewrite !Rplus_0_l. reflexivity.
  - apply Nat.ltb_ge in E. pose proof (xi_loop_long f angles (z_position (layup L)) [] (0, 0, 0, 0) ltac:(lia) ltac:(discriminate)) as E'. cbn [app List.length] in E'. rewrite E'. reflexivity.
Qed.

(** ** strains and stresses: the plies [l], the angles [th] *)
Record mixed (l : list (R * material)) (th : list R) (L : lam) : Prop := {
  mx_layup : layup L = l; mx_stacking : stacking L = SAngles th; mx_A : p_xiA L = DNone; mx_D : p_xiD L = DNone; mx_inv : Inv L }.
Lemma mixed_same l th L L' : mixed l th L -> same L L' -> Inv L' -> mixed l th L'.
Proof. intros [E1 E2 E3 E4 _] (S1 & S2 & S3 & S4 & S5 & S6 & S7) I. constructor; congruence. Qed.
Lemma mixed_ok l th L : all_readable l -> mixed l th L -> layup_ok (layup L).
Proof. intros Hr M. rewrite (mx_layup _ _ _ M). apply all_readable_ok, Hr. Qed.
Lemma eps0_mixed l th N L h : all_readable l -> mixed l th L -> exists L', epsilon0 N (World L h) = (World L' h, sol l N) /\ mixed l th L'.
Proof.
  intros Hr M. destruct (get_ABD_inv L (mixed_ok _ _ _ Hr M) (mx_inv _ _ _ M)) as (L' & E & I' & S'). exists L'. split; [|apply (mixed_same _ _ _ _ M S' I')].
  unfold epsilon0, sbind, on_lam, sol. cbn [w_lam w_heap]. rewrite E. unfold pure_ABD, pure_A, pure_B, pure_D. rewrite (mx_A _ _ _ M), (mx_D _ _ _ M), (mx_layup _ _ _ M). cbn [bind]. unfold ABDp, lift, ret. destruct (inv6 _); reflexivity.
Qed.
(** the plies with an angle *)
Definition Y (l : list (R * material)) (th : list R) : list (R * ((R * material) * (R * R))) := combine th (X l).
Lemma zmid_some t : forall pre z0 n, (n <= List.length t)%nat -> mapM (fun i => zi <- get (pre ++ z0 :: z_loop t z0) i ;; zj <- get (pre ++ z0 :: z_loop t z0) (i+1) ;; Ok (zi, zj))
  (seq (List.length pre) n) = Ok (firstn n (map snd (zl z0 t))).
Proof.
  induction t as [|p t IH]; intros pre z0 [|n] Hn; cbn [List.length] in Hn; try lia; try reflexivity.
  cbn [seq mapM z_loop zl map snd firstn]. set (z1 := z0 + thickness (snd p)).
  assert (Eq : pre ++ z0 :: z1 :: z_loop t z1 = (pre ++ [z0]) ++ z1 :: z_loop t z1) by (rewrite <- app_assoc; reflexivity).
  rewrite (nth_app_len pre z0 _ _ eq_refl). rewrite Eq. rewrite (nth_app_len (pre ++ [z0]) z1) by (rewrite app_length; reflexivity). cbn [bind].
  replace (Datatypes.S (List.length pre)) with (List.length (pre ++ [z0])) by (rewrite app_length; cbn; lia). rewrite (IH (pre ++ [z0]) z1 n ltac:(lia)). reflexivity.
Qed.
Lemma zmid_long t : forall pre z0 n, (List.length t < n)%nat -> mapM (fun i => zi <- get (pre ++ z0 :: z_loop t z0) i ;; zj <- get (pre ++ z0 :: z_loop t z0) (i+1) ;; Ok (zi, zj))
  (seq (List.length pre) n) = Err IndexError.
Proof.
  induction t as [|p t IH]; intros pre z0 [|n] Hn; cbn [List.length] in Hn; try lia.
  - cbn [seq mapM z_loop]. rewrite (nth_app_len pre z0 _ _ eq_refl). cbn [bind]. unfold get. rewrite (proj2 (nth_error_None (pre ++ [z0]) (List.length pre + 1))); [reflexivity|]. rewrite app_length. cbn. lia.
  - cbn [seq mapM z_loop]. set (z1 := z0 + thickness (snd p)).
    assert (Eq : pre ++ z0 :: z1 :: z_loop t z1 = (pre ++ [z0]) ++ z1 :: z_loop t z1) by (rewrite <- app_assoc; reflexivity).
    rewrite (nth_app_len pre z0 _ _ eq_refl). rewrite Eq. rewrite (nth_app_len (pre ++ [z0]) z1) by (rewrite app_length; reflexivity). cbn [bind].
    replace (Datatypes.S (List.length pre)) with (List.length (pre ++ [z0])) by (rewrite app_length; cbn; lia). rewrite (IH (pre ++ [z0]) z1 n ltac:(lia)). reflexivity.
Qed.
Lemma combine_firstn {A B} (a : list A) : forall (b : list B), (List.length a <= List.length b)%nat -> map snd (combine a b) = firstn (List.length a) b.
Proof. induction a as [|x a IH]; intros [|y b] H; cbn in *; try lia; try reflexivity. rewrite IH by lia. reflexivity. Qed.
Lemma combine_fst {A B} (a : list A) : forall (b : list B), (List.length a <= List.length b)%nat -> map fst (combine a b) = a.
Proof. induction a as [|x a IH]; intros [|y b] H; cbn in *; try lia; try reflexivity. rewrite IH by lia. reflexivity. Qed.
Lemma X_length l : List.length (X l) = List.length l. Proof. apply zl_length. Qed.
Lemma Y_length l th : (List.length th <= List.length l)%nat -> List.length (Y l th) = List.length th.
Proof. intros H. unfold Y. rewrite combine_length, X_length. lia. Qed.
Lemma Y_fst l th : (List.length th <= List.length l)%nat -> map fst (Y l th) = th.
Proof. intros H. apply combine_fst. rewrite X_length. exact H. Qed.
Lemma Y_snd l th : (List.length th <= List.length l)%nat -> map snd (Y l th) = firstn (List.length th) (X l).
Proof. intros H. apply combine_firstn. rewrite X_length. exact H. Qed.
Definition eky e0 (xs : list (R * ((R * material) * (R * R)))) : list (vec3 * vec3) := map (fun x => (ep e0 (fst (snd (snd x))), ep e0 (snd (snd (snd x))))) xs.
Lemma ek_mixed l th N L h : all_readable l -> mixed l th L -> (List.length th <= List.length l)%nat -> exists L', mixed l th L' /\
  epsilonk N (World L h) = match sol l N with Ok e0 => (World L' (h ++ flat (eky e0 (Y l th))), Ok (addrs (List.length h) (List.length (Y l th)))) | Err e => (World L' h, Err e) end.
Proof.
  intros Hr M Hl. destruct (eps0_mixed l th N L h Hr M) as (L' & E & M'). exists L'. split; [exact M'|]. unfold epsilonk. unfold sbind at 1. unfold lam_get at 1; cbn [w_lam]. unfold sbind at 1. unfold lam_get at 1; cbn [w_lam].
  rewrite (mx_layup _ _ _ M), (mx_stacking _ _ _ M). cbn [stacking_len]. rewrite z_position_zb. unfold sbind at 1. unfold lift at 1. pose proof (zmid_some l [] (zb l) (List.length th) Hl) as Ez; cbn [app List.length] in Ez; rewrite Ez; clear Ez.
  unfold sbind at 1. rewrite E. destruct (sol l N) as [e0|e]; [|reflexivity].
  rewrite alloc_run. rewrite firstn_map. fold (X l). rewrite <- (Y_snd l th Hl), map_map, !map_length, <- surjective_pairing. unfold eky. rewrite map_map. reflexivity.
Qed.
Lemma ek_long l th N L h : all_readable l -> mixed l th L -> (List.length l < List.length th)%nat -> epsilonk N (World L h) = (World L h, Err IndexError).
Proof.
  intros Hr M Hl. unfold epsilonk. unfold sbind at 1. unfold lam_get at 1; cbn [w_lam]. unfold sbind at 1. unfold lam_get at 1; cbn [w_lam].
  rewrite (mx_layup _ _ _ M), (mx_stacking _ _ _ M). cbn [stacking_len]. rewrite z_position_zb. unfold sbind at 1. unfold lift at 1. pose proof (zmid_long l [] (zb l) (List.length th) Hl) as Ez; cbn [app List.length] in Ez; rewrite Ez. reflexivity.
Qed.
Definition my_stress e0 (x : R * ((R * material) * (R * R))) (z : R) : vec3 := f_stress e0 (snd x) z.
Definition my_stress12 e0 (x : R * ((R * material) * (R * R))) (z : R) : vec3 := mvec (T_real (cdeg (fst x)) (sdeg (fst x))) (f_stress e0 (snd x) z).
Definition my_strain12 e0 (x : R * ((R * material) * (R * R))) (z : R) : vec3 := double3 (mvec (T_real (cdeg (fst x)) (sdeg (fst x))) (halve3 (ep e0 z))).
Definition yends {A} (f : R * ((R * material) * (R * R)) -> R -> A) x : A * A := (f x (fst (snd (snd x))), f x (snd (snd (snd x)))).
Lemma combine_short {A B} (a : list A) : forall (b : list B), combine a b = combine (firstn (List.length b) a) b.
Proof. induction a as [|x a IH]; intros [|y b]; cbn; try reflexivity. rewrite IH. reflexivity. Qed.
Lemma addrs_length k : forall n, List.length (addrs n k) = k. Proof. induction k as [|k IH]; intros n; cbn; [reflexivity|now rewrite IH]. Qed.
Lemma sk_mixed l th N L h : all_readable l -> mixed l th L -> (List.length th <= List.length l)%nat -> exists L' h', mixed l th L' /\
  stressk N (World L h) = (World L' (h ++ h'), e0 <- sol l N ;; Ok (map (yends (my_stress e0)) (Y l th))).
Proof.
  intros Hr M Hl. destruct (get_Q_inv L (mixed_ok _ _ _ Hr M) (mx_inv _ _ _ M)) as (L1 & E1 & I1 & S1 & _). assert (M1 := mixed_same _ _ _ _ M S1 I1). rewrite (mx_layup _ _ _ M) in E1.
  destruct (ek_mixed l th N L1 h Hr M1 Hl) as (L2 & M2 & E2). unfold stressk. unfold sbind at 1; unfold on_lam at 1; cbn [w_lam w_heap]; rewrite E1. unfold sbind at 1. rewrite E2. destruct (sol l N) as [e0|e].
  - exists L2, (flat (eky e0 (Y l th))). split; [exact M2|]. rewrite Qs_X. rewrite combine_short, addrs_length, (Y_length l th Hl), firstn_map, <- (Y_snd l th Hl), map_map. rewrite <- (Y_length l th Hl).
    pose proof (load_run (fun Q et eb => (mvec Q et, mvec Q eb)) (fun x : R * ((R * material) * (R * R)) => Qbar (theta_of (snd x)) (mat_of (snd x))) (fun x => (ep e0 (fst (snd (snd x))), ep e0 (snd (snd (snd x))))) L2 (Y l th) h []) as E.
    rewrite app_nil_r in E; etransitivity; [|exact E]. apply smapM_ext; intros [Q [t b]] w; reflexivity.
  - exists L2, []. rewrite app_nil_r. split; [exact M2|reflexivity].
Qed.
Lemma e123_mixed l th N L h : all_readable l -> mixed l th L -> (List.length th <= List.length l)%nat -> exists L' h', mixed l th L' /\
  epsilonk_123 N (World L h) = (World L' (h ++ h'), e0 <- sol l N ;; Ok (map (yends (my_strain12 e0)) (Y l th))).
Proof.
  intros Hr M Hl. destruct (ek_mixed l th N L h Hr M Hl) as (L2 & M2 & E2). unfold epsilonk_123; unfold sbind at 1; unfold lam_get at 1; cbn [w_lam]; rewrite (mx_stacking _ _ _ M).
  unfold sbind at 1; rewrite E2; destruct (sol l N) as [e0|e].
  - exists L2. eexists. split; [exact M2|]. unfold sbind at 1; unfold angles, ret at 1. unfold eky. pose proof (halve_run (P := R * ((R * material) * (R * R))) fst (fun x => (ep e0 (fst (snd (snd x))), ep e0 (snd (snd (snd x))))) L2 (Y l th) h) as E. rewrite (Y_fst l th Hl) in E. etransitivity; [exact E|reflexivity].
  - exists L2, []. rewrite app_nil_r. split; [exact M2|reflexivity].
Qed.
Lemma combine_self {A B C} (f : A -> B) (g : A -> C) (l : list A) (b : list B) : map f l = b -> combine b (map g l) = map (fun x => (f x, g x)) l.
Proof. intros <-. apply combine_map. Qed.
Lemma s123_mixed l th N L h : all_readable l -> mixed l th L -> (List.length th <= List.length l)%nat -> exists L' h', mixed l th L' /\
  stressk_123 N (World L h) = (World L' (h ++ h'), e0 <- sol l N ;; Ok (map (yends (my_stress12 e0)) (Y l th))).
Proof.
  intros Hr M Hl. destruct (sk_mixed l th N L h Hr M Hl) as (L2 & h' & M2 & E2). exists L2, h'. split; [exact M2|]. unfold stressk_123; unfold sbind at 1; unfold lam_get at 1; cbn [w_lam]; rewrite (mx_stacking _ _ _ M).
  unfold sbind at 1; rewrite E2; destruct (sol l N) as [e0|e]; [|reflexivity]; cbn [bind]. unfold sbind at 1; unfold angles, ret at 1. rewrite (combine_self fst _ _ _ (Y_fst l th Hl)). unfold ret. rewrite map_map. reflexivity.
Qed.
(** the rows *)
Definition yrow2 (f g : R * ((R * material) * (R * R)) -> R -> vec3) (i : nat) x : list row :=
  [Row (i+1) (fst (snd (snd x))) "bot" (fst x) (f x (fst (snd (snd x)))) (g x (fst (snd (snd x)))); Row (i+1) (snd (snd (snd x))) "top" (fst x) (f x (snd (snd (snd x)))) (g x (snd (snd (snd x))))].
Fixpoint yrows f g (i : nat) xs : list row := match xs with [] => [] | x :: t => yrow2 f g i x ++ yrows f g (i+1)%nat t end.
Lemma row_loop_mixed f g t : forall th pre z0, (List.length th <= List.length t)%nat ->
  row_loop (pre ++ z0 :: z_loop t z0) (List.length pre) (combine (map (yends f) (combine th (zl z0 t))) (combine (map (yends g) (combine th (zl z0 t))) th))
  = Ok (yrows f g (List.length pre) (combine th (zl z0 t))).
Proof.
  induction t as [|[a m] t IH]; intros [|x th] pre z0 Hl; cbn [List.length] in Hl; try lia; try reflexivity.
  cbn [zl z_loop map combine row_loop snd]. set (z1 := z0 + thickness m).
  assert (Eq : pre ++ z0 :: z1 :: z_loop t z1 = (pre ++ [z0]) ++ z1 :: z_loop t z1) by (rewrite <- app_assoc; reflexivity).
  unfold yends at 1 2; cbn [fst snd]. rewrite nth_app_len by reflexivity; cbn [bind]. rewrite Eq, nth_app_len by (rewrite app_length; reflexivity); cbn [bind].
  replace (List.length pre + 1)%nat with (List.length (pre ++ [z0])) by (rewrite app_length; reflexivity).
  rewrite IH by lia. cbn [bind yrows yrow2 app fst snd]. rewrite app_length; cbn [List.length]; reflexivity.
Qed.
Lemma stress_mixed l th N L h : all_readable l -> mixed l th L -> (List.length th <= List.length l)%nat -> exists L' h', mixed l th L' /\
  calculate_stress N (World L h) = (World L' (h ++ h'), e0 <- sol l N ;; Ok (yrows (my_stress e0) (my_stress12 e0) 0 (Y l th))).
Proof.
  intros Hr M Hl. destruct (sk_mixed l th N L h Hr M Hl) as (L1 & h1 & M1 & E1). destruct (s123_mixed l th N L1 (h ++ h1) Hr M1 Hl) as (L2 & h2 & M2 & E2).
  unfold calculate_stress; unfold sbind at 1; rewrite E1; destruct (sol l N) as [e0|e]; cbn [bind]; [|eauto]. unfold sbind at 1; rewrite E2; cbn [bind].
  exists L2, (h1 ++ h2). rewrite app_assoc. split; [exact M2|]. unfold sbind at 1; unfold lam_get at 1; cbn [w_lam]; rewrite (mx_stacking _ _ _ M2). unfold sbind at 1; unfold lam_get at 1; cbn [w_lam]; rewrite (mx_layup _ _ _ M2).
  unfold sbind at 1; unfold angles, ret at 1; unfold lift; rewrite z_position_zb; f_equal. apply (row_loop_mixed _ _ l th [] (zb l) Hl).
Qed.
Lemma loads_back {P} (L : lam) (v : P -> vec3 * vec3) (xs : list P) pre post :
  smapM (fun p : addr * addr => let (t, b) := p in et <~ load t ;; eb <~ load b ;; ret (et, eb)) (addrs (List.length pre) (List.length xs)) (World L (pre ++ flat (map v xs) ++ post))
  = (World L (pre ++ flat (map v xs) ++ post), Ok (map v xs)).
Proof.
  pose proof (load_run (fun (_ : unit) (et eb : vec3) => (et, eb)) (fun _ : P => tt) v L xs pre post) as E.
  assert (Em : forall n w, smapM (fun p : addr * addr => let (t, b) := p in et <~ load t ;; eb <~ load b ;; ret (et, eb)) (addrs n (List.length xs)) w =
     smapM (fun p : unit * (addr * addr) => et <~ load (fst (snd p)) ;; eb <~ load (snd (snd p)) ;; ret (et, eb)) (combine (map (fun _ : P => tt) xs) (addrs n (List.length xs))) w).
  { clear E. induction xs as [|x t IH]; intros n w; [reflexivity|]. cbn [List.length addrs map combine smapM fst snd]; generalize (et <~ load n ;; eb <~ load (Datatypes.S n) ;; ret (et, eb)); intros y.
    unfold sbind; destruct (y w) as [w' [z|e]]; [|reflexivity]; rewrite IH; reflexivity. }
  rewrite Em, E. f_equal. f_equal. apply map_ext. intros x. symmetry. apply surjective_pairing.
Qed.
Lemma strain_mixed l th N L h : all_readable l -> mixed l th L -> (List.length th <= List.length l)%nat -> exists L' h', mixed l th L' /\
  calculate_strain N (World L h) = (World L' (h ++ h'), e0 <- sol l N ;; Ok (yrows (fun _ z => ep e0 z) (my_strain12 e0) 0 (Y l th))).
Proof.
  intros Hr M Hl. destruct (ek_mixed l th N L h Hr M Hl) as (L1 & M1 & E1). unfold calculate_strain; unfold sbind at 1; rewrite E1; destruct (sol l N) as [e0|e] eqn:Es; cbn [bind]; [|exists L1, []; rewrite app_nil_r; auto].
  destruct (e123_mixed l th N L1 (h ++ flat (eky e0 (Y l th))) Hr M1 Hl) as (L2 & h2 & M2 & E2). rewrite Es in E2. unfold sbind at 1; rewrite E2; cbn [bind].
  exists L2, (flat (eky e0 (Y l th)) ++ h2). rewrite app_assoc. split; [exact M2|]. unfold sbind at 1; unfold lam_get at 1; cbn [w_lam]; rewrite (mx_stacking _ _ _ M2). unfold sbind at 1; unfold lam_get at 1; cbn [w_lam]; rewrite (mx_layup _ _ _ M2).
  unfold sbind at 1; unfold angles, ret at 1. unfold sbind at 1. rewrite <- (app_assoc h). unfold eky. rewrite (loads_back L2 (fun x : R * ((R * material) * (R * R)) => (ep e0 (fst (snd (snd x))), ep e0 (snd (snd (snd x))))) (Y l th) h h2).
  unfold lift; rewrite z_position_zb. f_equal. exact (row_loop_mixed (fun _ z => ep e0 z) (my_strain12 e0) l th [] (zb l) Hl).
Qed.
