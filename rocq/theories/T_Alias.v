(** Proofs of laminates and the lists they were built from *)
From Coq Require Import Reals Lra Lia String List.
From Verif Require Import M_Py S_Mat M_Material M_Laminate M_LamHistory M_Linalg S_Laminate M_Strength S_Strength M_Alias S_Alias L_Mat L_Lam L_LamAlg L_LamSums L_LamEnergy L_Linalg L_Strength L_Alias T_Strength T_Laminate.
Import ListNotations.
Open Scope string_scope.
Open Scope list_scope.
Open Scope R_scope.

(** ** construction *)
Lemma find_lookup h d k : lookup (dict_now h d) k = match find_slot d k with Some v => Some (contents h v) | None => None end.
Proof. induction d as [|[k' v] t IH]; cbn; [reflexivity|]. destruct (String.eqb k k'); [reflexivity|exact IH]. Qed.
Lemma contents_or h (x : option slot) : match match x with Some v => Some (contents h v) | None => None end with Some v => v | None => DNone end = contents h (match x with Some v => v | None => NoneSlot end).
Proof. destruct x; reflexivity. Qed.
(** what init leaves behind *)
Lemma init_ok m s p L : arguments m s p L -> exists h o, init (m_heap m) s p = Some (h, Ok o) /\ view h o = L /\ h_stacking o = s /\ h_plies o = (match stacking L with SAngles _ => MaterialList (plies_list m p) | SDict _ => p end) /\
  (forall i c, nth_error (m_heap m) i = Some c -> nth_error h i = Some c) /\ (forall a, stacking L = SAngles a -> h_xiA o = NoneSlot /\ h_xiB o = NoneSlot /\ h_xiD o = NoneSlot /\ h_thick o = NoneSlot /\ exists l, nth_error h (plies_list m p) = Some (Mats l)) /\
  (forall d, nth_error (m_heap m) s = Some (Entries d) -> h = m_heap m /\ h_layup o = [] /\ h_xiA o = match find_slot d "xiA" with Some v => v | None => NoneSlot end /\ h_xiB o = match find_slot d "xiB" with Some v => v | None => NoneSlot end /\ find_slot d "xiD" = Some (h_xiD o) /\ find_slot d "T" = Some (h_thick o)) /\
  h_Q o = None /\ h_T o = None /\ h_A o = None /\ h_B o = None /\ h_D o = None.
Proof.
  intros (st & pl & Es & Ep & Ec). unfold init. unfold stacking_now in Es. destruct (nth_error (m_heap m) s) as [[a|l|d]|] eqn:E; try discriminate; injection Es as <-.
  - cbn [construct] in Ec. destruct p as [mt|i]; cbn [plies_now] in Ep.
    + injection Ep as <-. cbn [bind] in Ec. apply Ok_inj in Ec. subst L.
      eexists _, _. split; [reflexivity|]. cbn [view h_stacking h_plies h_layup h_Q h_T h_A h_B h_D h_xiA h_xiB h_xiD h_thick contents stacking plies_list].
      assert (E' : nth_error (m_heap m ++ [Mats (repeat mt (List.length a))]) s = Some (Nums a)) by (apply nth_old, E).
      assert (F : nth_error (m_heap m ++ [Mats (repeat mt (List.length a))]) (List.length (m_heap m)) = Some (Mats (repeat mt (List.length a)))) by (rewrite nth_error_app2, Nat.sub_diag by lia; reflexivity).
      split; [unfold view, stacking_now, plies_now; cbn [h_stacking h_plies]; rewrite E', F; reflexivity|]. split; [reflexivity|]. split; [reflexivity|]. split; [intros j c H; apply nth_old, H|]. split; [intros a' _; repeat split; eauto|]. split; [intros d H; congruence|repeat split].
    + destruct (nth_error (m_heap m) i) as [[x|l|x]|] eqn:Ei; try discriminate. injection Ep as <-. destruct (Nat.eqb (List.length l) (List.length a)); cbn [bind] in Ec; [|discriminate]. apply Ok_inj in Ec. subst L.
      eexists _, _. split; [reflexivity|]. cbn [h_stacking h_plies h_layup h_Q h_T h_A h_B h_D h_xiA h_xiB h_xiD h_thick stacking plies_list].
      split; [unfold view, stacking_now, plies_now; cbn [h_stacking h_plies]; rewrite E, Ei; reflexivity|]. split; [reflexivity|]. split; [reflexivity|]. split; [auto|]. split; [intros a' _; repeat split; eauto|]. split; [intros d H; congruence|repeat split].
  - rewrite Ep. cbn [construct] in Ec. rewrite !find_lookup in Ec. destruct (find_slot d "xiD") as [xd|] eqn:Exd; cbn [bind] in Ec; [|discriminate]. destruct (find_slot d "T") as [xt|] eqn:Ext; cbn [bind] in Ec; [|discriminate]. apply Ok_inj in Ec. subst L.
    eexists _, _. split; [reflexivity|]. cbn [h_stacking h_plies h_layup h_Q h_T h_A h_B h_D h_xiA h_xiB h_xiD h_thick stacking].
    split. { unfold view, stacking_now. cbn [h_stacking h_plies h_layup h_Q h_T h_A h_B h_D h_xiA h_xiB h_xiD h_thick]. rewrite E, Ep, <- !contents_or. destruct d as [|e d]; [discriminate|reflexivity]. }
    split; [reflexivity|]. split; [reflexivity|]. split; [auto|]. split; [intros a' H; discriminate|]. split; [|repeat split]. intros d' H. injection H as <-. repeat split; reflexivity || assumption.
Qed.
Lemma init_err m s p st pl e : stacking_now (m_heap m) s = Some st -> plies_now (m_heap m) p = Some pl -> construct st pl = Err e -> exists h, init (m_heap m) s p = Some (h, Err e) /\ h = m_heap m.
Proof.
  intros Es Ep Ec. unfold init. unfold stacking_now in Es. destruct (nth_error (m_heap m) s) as [[a|l|d]|] eqn:E; try discriminate; injection Es as <-.
  - cbn [construct] in Ec. destruct p as [mt|i]; cbn [plies_now] in Ep.
    + injection Ep as <-. discriminate.
    + destruct (nth_error (m_heap m) i) as [[x|l|x]|] eqn:Ei; try discriminate. injection Ep as <-. destruct (Nat.eqb (List.length l) (List.length a)); cbn [bind] in Ec; [discriminate|]. eexists. split; [|reflexivity]. congruence.
  - rewrite Ep. cbn [construct] in Ec. rewrite !find_lookup in Ec. eexists. split; [|reflexivity]. destruct (find_slot d "xiD") as [xd|]; cbn [bind] in *; [|congruence]. destruct (find_slot d "T") as [xt|]; cbn [bind] in *; [discriminate|congruence].
Qed.
Lemma since_next m s p h o : init (m_heap m) s p = Some (h, Ok o) -> fst (act m (Build s p)) = Mem h (m_lams m ++ [o]) /\ nth_error (m_lams (fst (act m (Build s p)))) (next m) = Some o.
Proof. intros E. cbn [act]. rewrite E. cbn [fst m_lams]. split; [reflexivity|]. unfold next. rewrite nth_error_app2, Nat.sub_diag by lia. reflexivity. Qed.
(*@ C85: a laminate built from lists and dictionaries answers, at first, as the laminate made of their contents; the constructor raises for the same contents. @*)
Lemma t_C85_build : forall m s p st pl, stacking_now (m_heap m) s = Some st -> plies_now (m_heap m) p = Some pl ->
  match construct st pl with
  | Ok L => snd (act m (Build s p)) = Done /\ forall N c, ask (since m s p []) (next m) N c = Answer (snd (do_call N c (start L)))
  | Err e => act m (Build s p) = (m, Raised e)
  end.
Proof.
  intros m s p st pl Es Ep. destruct (construct st pl) as [L|e] eqn:Ec.
  - destruct (init_ok m s p L (ex_intro _ st (ex_intro _ pl (conj Es (conj Ep Ec))))) as (h & o & E & V & _). split; [cbn [act]; rewrite E; reflexivity|]. intros N c. destruct (since_next m s p h o E) as [F G].
    unfold since. cbn [after]. rewrite (ask_eq _ _ N c o G), F. cbn [m_heap]. rewrite V. reflexivity.
  - destruct (init_err m s p st pl e Es Ep Ec) as (h & E & ->). cbn [act]. rewrite E. destruct m; reflexivity.
Qed.
(** the state of the laminate after anything *)
Lemma later m s p L rest : arguments m s p L -> all_readable (layup L) -> exists o0 o, nth_error (m_lams (since m s p rest)) (next m) = Some o /\ sound o /\ static o0 o /\
  h_stacking o0 = s /\ h_layup o0 = layup L /\ h_plies o0 = (match stacking L with SAngles _ => MaterialList (plies_list m p) | SDict _ => p end) /\
  (forall i c, nth_error (m_heap m) i = Some c -> exists c', nth_error (m_heap (since m s p rest)) i = Some c' /\ same_kind c c' = true) /\
  (forall a, stacking L = SAngles a -> h_xiA o0 = NoneSlot /\ h_xiB o0 = NoneSlot /\ h_xiD o0 = NoneSlot /\ h_thick o0 = NoneSlot /\ exists l, nth_error (m_heap (since m s p rest)) (plies_list m p) = Some (Mats l)) /\
  (forall d, nth_error (m_heap m) s = Some (Entries d) -> h_xiA o0 = match find_slot d "xiA" with Some v => v | None => NoneSlot end /\ h_xiB o0 = match find_slot d "xiB" with Some v => v | None => NoneSlot end /\ find_slot d "xiD" = Some (h_xiD o0) /\ find_slot d "T" = Some (h_thick o0)).
Proof.
  intros Ar Hr. destruct (init_ok m s p L Ar) as (h & o & E & V & Hs & Hp & Hh & Ha & Hd & Q1 & Q2 & Q3 & Q4 & Q5). destruct (since_next m s p h o E) as [F G].
  assert (El : h_layup o = layup L) by (rewrite <- V; reflexivity).
  assert (So : sound o). { unfold sound. rewrite El, Q1, Q2, Q3, Q4, Q5. split; [apply all_readable_ok, Hr|]. repeat split; auto. }
  destruct (after_lams rest _ _ _ G So) as (o' & G' & S' & T'). exists o, o'. unfold since. cbn [after]. split; [exact G'|]. split; [exact S'|]. split; [exact T'|]. split; [exact Hs|]. split; [exact El|]. split; [exact Hp|].
  split; [intros i c H; apply after_heap; rewrite F; apply Hh, H|]. split.
  - intros a Ea. destruct (Ha a Ea) as (X1 & X2 & X3 & X4 & l & Hl). repeat split; auto. destruct (after_heap rest (fst (act m (Build s p))) (plies_list m p) (Mats l)) as (c & Hc & K); [rewrite F; exact Hl|]. destruct c as [x|l'|x]; try discriminate. exists l'. exact Hc.
  - intros d Ed. destruct (Hd d Ed) as (_ & _ & X). exact X.
Qed.
(*@ C85: whatever happens later to the lists and to any laminate, A, B, D, ABD, Q_layup, T_layup and z_position of a laminate with angles answer for the angles
    and plies it was built from. @*)
Lemma t_C85_matrices : forall m s p L angles rest N r, arguments m s p L -> stacking L = SAngles angles -> all_readable (layup L) -> r <> RdXiA -> r <> RdXiD ->
  ask (since m s p rest) (next m) N (CRead r) = Answer (v <- snd (do_read L r) ;; Ok (ARead v)).
Proof.
  intros m s p L angles rest N r Ar Ea Hr N1 N2. destruct (later m s p L rest Ar Hr) as (o0 & o & G & S & (T1 & T2 & T3 & T4 & T5 & T6 & T7) & _ & El & _ & _ & Ha & _). destruct (Ha angles Ea) as (X1 & _ & X3 & _).
  rewrite (ask_read _ _ N r o G S). assert (Ar' := Ar). destruct Ar' as (st & pl & _ & _ & Ec). assert (I := construct_Inv _ _ _ Ec). destruct (do_read_inv L r (all_readable_ok _ Hr) I) as (L' & -> & _). cbn [snd]. do 2 f_equal.
  assert (PA : p_xiA L = DNone /\ p_xiD L = DNone). { destruct st as [a|d]; cbn [construct] in Ec.
    - destruct pl as [mt|l]; cbn [bind] in Ec; [|destruct (Nat.eqb _ _); cbn [bind] in Ec; [|discriminate]]; apply Ok_inj in Ec; subst L; split; reflexivity.
    - destruct (lookup d "xiD"); cbn [bind] in Ec; [|discriminate]. destruct (lookup d "T"); cbn [bind] in Ec; [|discriminate]. apply Ok_inj in Ec. subst L. discriminate. }
  destruct PA as [PA PD]. destruct r; try contradiction; cbn [pure_read]; unfold pure_ABD, pure_A, pure_B, pure_D; cbn [view p_xiA p_xiD layup]; rewrite ?PA, ?PD, ?T4, ?T6, ?X1, ?X3; cbn [contents]; rewrite T3, El; reflexivity.
Qed.
(*@ C85: so does the attribute layup, which decides the comparison of laminates (C22). @*)
Lemma t_C85_layup : forall m s p L angles rest, arguments m s p L -> stacking L = SAngles angles -> all_readable (layup L) ->
  exists o, nth_error (m_lams (since m s p rest)) (next m) = Some o /\ h_layup o = layup L.
Proof. intros m s p L angles rest Ar Ea Hr. destruct (later m s p L rest Ar Hr) as (o0 & o & G & _ & (_ & _ & T3 & _) & _ & El & _). exists o. split; [exact G|congruence]. Qed.
(** what the lists hold later *)
Lemma now m s p L angles rest : arguments m s p L -> stacking L = SAngles angles -> all_readable (layup L) -> exists o th pl, nth_error (m_lams (since m s p rest)) (next m) = Some o /\ sound o /\
  stacking_now (m_heap (since m s p rest)) s = Some (SAngles th) /\ plies_now (m_heap (since m s p rest)) (MaterialList (plies_list m p)) = Some (PMany pl) /\
  mixed (layup L) th (view (m_heap (since m s p rest)) o) /\ plies (view (m_heap (since m s p rest)) o) = PMany pl.
Proof.
  intros Ar Ea Hr. destruct (later m s p L rest Ar Hr) as (o0 & o & G & S & (T1 & T2 & T3 & T4 & T5 & T6 & T7) & Hs & El & Hp & Hh & Ha & _). destruct (Ha angles Ea) as (X1 & _ & X3 & _ & pl & Hl).
  assert (Hn : exists th, nth_error (m_heap (since m s p rest)) s = Some (Nums th)). { destruct Ar as (st & pl' & Es & _ & Ec). unfold stacking_now in Es. destruct (nth_error (m_heap m) s) as [[a|l|d]|] eqn:E; try discriminate; injection Es as <-.
    - destruct (Hh s _ E) as ([a'|l|d] & H & K); try discriminate. eauto.
    - exfalso. cbn [construct] in Ec. destruct (lookup _ "xiD"); cbn [bind] in Ec; [|discriminate]. destruct (lookup _ "T"); cbn [bind] in Ec; [|discriminate]. apply Ok_inj in Ec. subst L. discriminate. }
  destruct Hn as [th Hn]. exists o, th, pl. assert (E1 : stacking_now (m_heap (since m s p rest)) s = Some (SAngles th)) by (unfold stacking_now; rewrite Hn; reflexivity).
  assert (E2 : plies_now (m_heap (since m s p rest)) (MaterialList (plies_list m p)) = Some (PMany pl)) by (cbn [plies_now]; rewrite Hl; reflexivity).
  rewrite Ea in Hp. destruct (sound_Inv (m_heap (since m s p rest)) o S) as [_ I]. split; [exact G|]. split; [exact S|]. split; [exact E1|]. split; [exact E2|]. split.
  - constructor; [cbn; congruence|cbn [view stacking]; rewrite T1, Hs, E1; reflexivity|cbn; rewrite T4, X1; reflexivity|cbn; rewrite T6, X3; reflexivity|exact I].
  - cbn [view plies]. rewrite T2, Hp, E2. reflexivity.
Qed.
(*@ C85: xiA and xiD, in contrast, are computed from the list of angles and the list of plies as they are now, with the heights of the plies the laminate was built
    from: an angle more raises IndexError, an angle less leaves its ply out, and the total thickness is that of the present list of plies. @*)
Lemma t_C85_xi : forall m s p L angles rest N, arguments m s p L -> stacking L = SAngles angles -> all_readable (layup L) -> exists th pl,
  stacking_now (m_heap (since m s p rest)) s = Some (SAngles th) /\ plies_now (m_heap (since m s p rest)) (MaterialList (plies_list m p)) = Some (PMany pl) /\
  ask (since m s p rest) (next m) N (CRead RdXiA) = Answer (v <- parameters (fun z1 z0 => z1 - z0) 1 1 (z_position (layup L)) th (thickness_of pl) ;; Ok (ARead (VXi v))) /\
  ask (since m s p rest) (next m) N (CRead RdXiD) = Answer (v <- parameters (fun z1 z0 => z1 ^ 3 - z0 ^ 3) 4 3 (z_position (layup L)) th (thickness_of pl) ;; Ok (ARead (VXi v))).
Proof.
  intros m s p L angles rest N Ar Ea Hr. destruct (now m s p L angles rest Ar Ea Hr) as (o & th & pl & G & S & E1 & E2 & M & Ep). exists th, pl. split; [exact E1|]. split; [exact E2|].
  rewrite !(ask_read _ _ N _ o G S). cbn [pure_read]. unfold get_xiA, get_xiD. rewrite !(xi_now _ _ _ _ th pl (mx_stacking _ _ _ M) Ep), (mx_layup _ _ _ M). unfold wA, wX.
  split; f_equal; match goal with |- context [parameters ?a ?b ?c ?d ?e ?f] => destruct (parameters a b c d e f) end; reflexivity.
Qed.
Lemma T_turn c s v : mvec (T_real c s) v = rotate_tensor c s v.
Proof. destruct v as [x y z]. unfold mvec, T_real, rotate_tensor, dot. cbn [vx vy vz a11 a12 a13 a21 a22 a23 a31 a32 a33]. f_equal; ring. Qed.
Lemma strain_turn c s v : double3 (mvec (T_real c s) (halve3 v)) = turn_strain c s v.
Proof. rewrite T_turn. reflexivity. Qed.
Lemma yrows_returned turn f g f0 g0 xs : (forall t x z, f (t, x) z = f0 x z) -> (forall t x z, g (t, x) z = turn (cos (t * PI / 180)) (sin (t * PI / 180)) (f0 x z)) -> forall th i, (List.length th <= List.length xs)%nat ->
  returned turn th (yrows f g i (combine th xs)) (rows f0 g0 i xs).
Proof.
  intros Hf Hg. induction xs as [|[[a mt] [z0 z1]] xs IH]; intros [|t th] i Hl; cbn [List.length] in Hl; try lia; try (split; [reflexivity|constructor]).
  destruct (IH th (i + 1)%nat ltac:(lia)) as [IA IB]. cbn [combine yrows yrow2 rows two_rows app]. split; [cbn [map r_angle flat_map app fst]; rewrite IA; reflexivity|].
  cbn [List.length]. replace (2 * Datatypes.S (List.length th))%nat with (Datatypes.S (Datatypes.S (2 * List.length th))) by lia. cbn [firstn].
  constructor; [|constructor; [|exact IB]]; cbn [r_ply r_z r_position r_xy r_12 r_angle fst snd]; rewrite Hf, Hg; auto.
Qed.
(*@ C85: the tables of strains and stresses: the plate-direction columns belong to the laminate as built, but the angle of a ply and the material directions follow the
    present list; with fewer angles the last plies are missing, with more angles the tables raise IndexError. @*)
Lemma t_C85_tables : forall m s p L angles rest N, arguments m s p L -> stacking L = SAngles angles -> all_readable (layup L) -> exists th,
  stacking_now (m_heap (since m s p rest)) s = Some (SAngles th) /\
  ((List.length th <= List.length (layup L))%nat ->
   match strain_of (layup L) N with
   | Ok true_rows => exists rows, ask (since m s p rest) (next m) N CStrain = Answer (Ok (ATable rows)) /\ returned turn_strain th rows true_rows
   | Err e => ask (since m s p rest) (next m) N CStrain = Answer (Err e)
   end /\
   match stress_of (layup L) N with
   | Ok true_rows => exists rows, ask (since m s p rest) (next m) N CStress = Answer (Ok (ATable rows)) /\ returned turn_stress th rows true_rows
   | Err e => ask (since m s p rest) (next m) N CStress = Answer (Err e)
   end) /\
  ((List.length (layup L) < List.length th)%nat ->
   ask (since m s p rest) (next m) N CStrain = Answer (Err IndexError) /\ ask (since m s p rest) (next m) N CStress = Answer (Err IndexError)).
Proof.
  intros m s p L angles rest N Ar Ea Hr. destruct (now m s p L angles rest Ar Ea Hr) as (o & th & pl & G & S & E1 & E2 & M & Ep). exists th. split; [exact E1|]. rewrite !(ask_eq _ _ N _ o G). cbn [do_call]. split.
  - intros Hl. rewrite strain_of_eq, stress_of_eq by exact Hr. split.
    + destruct (strain_mixed (layup L) th N _ [] Hr M Hl) as (L' & h' & _ & E). unfold sbind. rewrite E. destruct (sol (layup L) N) as [e0|e]; cbn [bind]; [|reflexivity]. eexists. split; [reflexivity|].
      apply (yrows_returned turn_strain (fun _ z => ep e0 z) (my_strain12 e0) (f_strain e0) (f_strain12 e0)); [reflexivity|intros t x z; apply strain_turn|rewrite X_length; exact Hl].
    + destruct (stress_mixed (layup L) th N _ [] Hr M Hl) as (L' & h' & _ & E). unfold sbind. rewrite E. destruct (sol (layup L) N) as [e0|e]; cbn [bind]; [|reflexivity]. eexists. split; [reflexivity|].
      apply (yrows_returned turn_stress (my_stress e0) (my_stress12 e0) (f_stress e0) (f_stress12 e0)); [reflexivity|intros t x z; apply T_turn|rewrite X_length; exact Hl].
  - intros Hl. split.
    + unfold calculate_strain, sbind. rewrite (ek_long (layup L) th N _ [] Hr M Hl). reflexivity.
    + unfold calculate_stress, stressk, sbind, on_lam. cbn [w_lam w_heap]. destruct (get_Q_inv _ (mixed_ok _ _ _ Hr M) (mx_inv _ _ _ M)) as (L1 & -> & I1 & S1 & _). assert (M1 := mixed_same _ _ _ _ M S1 I1). rewrite (ek_long (layup L) th N L1 [] Hr M1 Hl). reflexivity.
Qed.
Lemma allow_loop_fst : forall x i, map ar_allow (allow_loop i x) = flat_map (fun p => [fst p; fst p]) x.
Proof. induction x as [|[a t] x IH]; intros i; cbn [allow_loop map flat_map app ar_allow fst]; [reflexivity|]. rewrite IH. reflexivity. Qed.
Lemma combine_2 {A B C D} (f : A -> C) (g : B -> D) : forall (a : list A) (b : list B), List.length a = List.length b -> map (fun p => f (fst p)) (combine a b) = map f a /\ map (fun p => g (snd p)) (combine a b) = map g b.
Proof. induction a as [|x a IH]; intros [|y b] H; cbn in *; try discriminate; [auto|]. destruct (IH b) as [E F]; [lia|]. rewrite E, F. auto. Qed.
Lemma mapM_length {A B} (f : A -> res B) : forall l r, mapM f l = Ok r -> List.length r = List.length l.
Proof. induction l as [|x l IH]; intros r H; cbn [mapM] in H; [injection H as <-; reflexivity|]. destruct (f x); cbn [bind] in H; [|discriminate]. destruct (mapM f l) as [t|]; cbn [bind] in H; [|discriminate]. injection H as <-. cbn. rewrite (IH t eq_refl). reflexivity. Qed.
Lemma flat2_length {A B} (f : A -> B) l : List.length (flat_map (fun p => [f p; f p]) l) = (2 * List.length l)%nat.
Proof. induction l as [|x l IH]; cbn [flat_map app List.length]; [reflexivity|]. rewrite IH. lia. Qed.
Lemma yrows_length f g xs : forall i, List.length (yrows f g i xs) = (2 * List.length xs)%nat.
Proof. induction xs as [|x xs IH]; intros i; cbn [yrows yrow2 app List.length]; [reflexivity|]. rewrite IH. lia. Qed.
Lemma flat2_fst {A B} (a : list A) : forall (b : list B), (List.length b <= List.length a)%nat -> flat_map (fun p => [fst p; fst p]) (combine a b) = flat_map (fun x => [x; x]) (firstn (List.length b) a).
Proof. induction a as [|x a IH]; intros [|y b] H; cbn in *; try lia; try reflexivity. rewrite IH by lia. reflexivity. Qed.
(*@ C85: the margins use the allowables of the plies as built and those turned stresses. @*)
Lemma t_C85_margin : forall m s p L angles rest N al, arguments m s p L -> stacking L = SAngles angles -> all_readable (layup L) ->
  mapM (fun q => allowable (snd q)) (layup L) = Ok al -> exists th, stacking_now (m_heap (since m s p rest)) s = Some (SAngles th) /\
  forall rows, ask (since m s p rest) (next m) N CStress = Answer (Ok (ATable rows)) ->
  exists t, ask (since m s p rest) (next m) N CMargin = Answer (Ok (AMargin t)) /\ map (fun r => snd (mr_margins r)) t = map r_12 rows /\
    map (fun r => fst (mr_margins r)) t = flat_map (fun a => [a; a]) (firstn (List.length th) al).
Proof.
  intros m s p L angles rest N al Ar Ea Hr Hal. destruct (now m s p L angles rest Ar Ea Hr) as (o & th & pl & G & S & E1 & E2 & M & Ep). exists th. split; [exact E1|]. intros rows. rewrite !(ask_eq _ _ N _ o G). cbn [do_call]. intros HS.
  destruct (Nat.le_gt_cases (List.length th) (List.length (layup L))) as [Hl|Hl].
  - destruct (stress_mixed (layup L) th N (view (m_heap (since m s p rest)) o) [] Hr M Hl) as (L' & h' & _ & E). unfold sbind in HS. rewrite E in HS. destruct (sol (layup L) N) as [e0|e]; cbn [bind snd ret] in HS; [|discriminate]. injection HS as <-.
    unfold calculate_maxstressmargin, calculate_maxstressallowable, sbind, lam_get, lift, ret. cbn [w_lam]. rewrite (mx_layup _ _ _ M), Hal, (mx_stacking _ _ _ M), E. cbn [bind snd]. eexists. split; [reflexivity|].
    rewrite !map_map. cbn [mr_margins fst snd]. assert (Ll : List.length (allow_loop 0 (combine al th)) = List.length (yrows (my_stress e0) (my_stress12 e0) 0 (Y (layup L) th))).
    { rewrite <- (map_length ar_allow), allow_loop_fst, flat2_length, yrows_length, combine_length, (Y_length _ _ Hl), (mapM_length _ _ _ Hal). lia. }
    destruct (combine_2 ar_allow r_12 _ _ Ll) as [F1 F2]. split; [exact F2|]. rewrite F1, allow_loop_fst. apply flat2_fst. rewrite (mapM_length _ _ _ Hal). exact Hl.
  - unfold calculate_stress, stressk, sbind, on_lam in HS. cbn [w_lam w_heap] in HS. destruct (get_Q_inv _ (mixed_ok _ _ _ Hr M) (mx_inv _ _ _ M)) as (L1 & EQ & I1 & S1 & _). rewrite EQ in HS. assert (M1 := mixed_same _ _ _ _ M S1 I1). rewrite (ek_long (layup L) th N L1 [] Hr M1 Hl) in HS. discriminate.
Qed.
(*@ C85: a laminate built from a dictionary of lamination parameters answers, for every attribute but xiA and xiD, as the laminate of the present contents of the lists
    that were in the dictionary; entries assigned to the dictionary later have no effect. @*)
Lemma t_C85_dict : forall m s p d L rest N r, arguments m s p L -> nth_error (m_heap m) s = Some (Entries d) -> r <> RdXiA -> r <> RdXiD -> exists pl L',
  plies_now (m_heap (since m s p rest)) p = Some pl /\ construct (SDict (dict_now (m_heap (since m s p rest)) d)) pl = Ok L' /\
  ask (since m s p rest) (next m) N (CRead r) = Answer (v <- snd (do_read L' r) ;; Ok (ARead v)).
Proof.
  intros m s p d L rest N r Ar Ed N1 N2. set (h' := m_heap (since m s p rest)).
  assert (St : stacking L = SDict (dict_now (m_heap m) d) /\ layup L = [] /\ exists pl0, plies_now (m_heap m) p = Some pl0).
  { destruct Ar as (st & pl & Es & Ep & Ec). unfold stacking_now in Es. rewrite Ed in Es. injection Es as <-. cbn [construct] in Ec. destruct (lookup _ "xiD"); cbn [bind] in Ec; [|discriminate]. destruct (lookup _ "T"); cbn [bind] in Ec; [|discriminate]. apply Ok_inj in Ec. subst L. eauto. }
  destruct St as (St & El0 & pl0 & Ep0). assert (Hr : all_readable (layup L)) by (rewrite El0; constructor).
  destruct (later m s p L rest Ar Hr) as (o0 & o & G & S & (T1 & T2 & T3 & T4 & T5 & T6 & T7) & Hs & El & Hp & Hh & _ & Hd). destruct (Hd d Ed) as (D1 & D2 & D3 & D4). rewrite St in Hp. fold h' in Hh.
  assert (Pn : exists pl, plies_now h' p = Some pl). { destruct p as [mt|i]; cbn [plies_now] in *; [eauto|]. destruct (nth_error (m_heap m) i) as [[x|l|x]|] eqn:Ei; try discriminate. destruct (Hh i _ Ei) as ([x|l'|x] & H & K); try discriminate. rewrite H. eauto. }
  destruct Pn as [pl Pn]. exists pl. cbn [construct]. rewrite !find_lookup, D3, D4, !contents_or, <- D1, <- D2. cbn [bind]. eexists. split; [exact Pn|]. split; [reflexivity|].
  rewrite (ask_read _ _ N r o G S). fold h'. set (L' := Lam _ _ _ _ _ _ _ _ _ _ _ _).
  assert (I : Inv L') by (unfold Inv, L'; cbn; auto 10). destruct (do_read_inv L' r ltac:(unfold L'; cbn; constructor) I) as (L2 & -> & _). cbn [snd]. do 2 f_equal.
  assert (Epl : plies (view h' o) = pl) by (cbn [view plies]; rewrite T2, Hp, Pn; reflexivity).
  destruct r; try contradiction; cbn [pure_read]; unfold pure_ABD, pure_A, pure_B, pure_D, xi_value; rewrite ?Epl; unfold L'; cbn [view p_xiA p_xiD p_T plies layup]; rewrite ?T3, ?El, ?El0, ?T4, ?T6, ?T7; reflexivity.
Qed.
(** ** examples *)
Definition lam90 : lam := Lam (SAngles [90]) (PMany [soft_ply]) [(90, soft_ply)] None None None None None DNone DNone DNone DNone.
Lemma setup_args : arguments setup 0 (MaterialList 1) lam90.
Proof. exists (SAngles [90]), (PMany [soft_ply]). repeat split. Qed.
Lemma soft_Q0 : Q_0 soft_ply = Ok (M3 2 0 0 0 1 0 0 0 1).
Proof.
  unfold soft_ply. cbn [Q_0]. rewrite o_Q0_spec. set (om := OMat _ _ _ _ _ _ _ _ _ _). assert (D : o_den om = 1) by (unfold o_den, o_v21, om; simpl; lra).
  destruct (Req_EM_T (o_den om) 0) as [E|N]; [lra|]. f_equal; unfold o_Qval; rewrite D; unfold om; simpl; f_equal; lra.
Qed.
Lemma soft_adm : all_admissible [(90, soft_ply)].
Proof. constructor; [|constructor]. split; [eexists; split; [apply soft_Q0|apply ex_pos_def]|simpl; lra]. Qed.
Lemma soft_Qbar : Qbar 90 soft_ply = M3 1 0 0 0 2 0 0 0 1.
Proof. rewrite Qbar_textbook_ok by (eexists; apply soft_Q0). unfold Q0p. rewrite soft_Q0, cdeg_90', sdeg_90'. unfold Qbar_textbook. simpl. f_equal; ring. Qed.
Lemma soft_Lsum f : Lsum f [(90, soft_ply)] = let w := f (1 / 2) (- (1 / 2)) in M3 w 0 0 0 (2 * w) 0 0 0 w.
Proof.
  unfold Lsum, z_bottom, pairs, hsum. cbn [map fst snd lsum rsum fold_right]. rewrite soft_Qbar. unfold soft_ply. cbn [thickness o_thickness]. replace (- (1 + 0) / 2 + 1) with (1 / 2) by field. replace (- (1 + 0) / 2) with (- (1 / 2)) by field.
  generalize (f (1 / 2) (- (1 / 2))). intros w. unfold madd, mscale, mzero. cbn [a11 a12 a13 a21 a22 a23 a31 a32 a33]. f_equal; ring.
Qed.
Lemma soft_sol : sol [(90, soft_ply)] (V3 1 0 0, vzero) = Ok (V3 1 0 0, vzero).
Proof.
  destruct (sol_exists [(90, soft_ply)] (V3 1 0 0, vzero) ltac:(discriminate) soft_adm) as [x Hx]. rewrite Hx. f_equal. symmetry. apply (proj2 (sol_inv _ _ _ Hx)).
  unfold ABDp. rewrite !soft_Lsum. replace (wA (1 / 2) (- (1 / 2))) with 1 by (unfold wA; field). replace (wB (1 / 2) (- (1 / 2))) with 0 by (unfold wB; field). generalize (wD (1 / 2) (- (1 / 2))). intros w.
  unfold mvec6, mvec, vadd, vzero. cbn [a11 a12 a13 a21 a22 a23 a31 a32 a33 vx vy vz fst snd blkA blkB blkC blkD]. f_equal; f_equal; ring.
Qed.
Lemma soft_rows (th : R) : yrows (my_stress (V3 1 0 0, vzero)) (my_stress12 (V3 1 0 0, vzero)) 0 (Y [(90, soft_ply)] [th])
  = let v := mvec (T_real (cdeg th) (sdeg th)) (V3 1 0 0) in [Row 1 (zb [(90, soft_ply)]) "bot" th (V3 1 0 0) v; Row 1 (zb [(90, soft_ply)] + 1) "top" th (V3 1 0 0) v].
Proof.
  unfold Y, X. cbn [zl combine yrows yrow2 app fst snd thickness soft_ply]. assert (F : forall z x, f_stress (V3 1 0 0, vzero) ((90, soft_ply), x) z = V3 1 0 0).
  { intros z x. unfold f_stress, ep. cbn [theta_of mat_of fst snd]. rewrite soft_Qbar. unfold mvec, vadd, vscale, vzero. cbn. f_equal; lra. }
  unfold my_stress, my_stress12. cbn [fst snd]. change (Ortho _) with soft_ply. rewrite !F. reflexivity.
Qed.
(*@ C85: so the margins can miss a failure. One ply at 90 degrees under a tension of 1: the stress across its fibres is 1, twice what it carries. After the caller has changed
    the angle in the list, A, B and D are the same and the margins report a stress of 1 along the fibres, half of what it carries. @*)
Lemma t_C85_margin_refuted : exists N, (exists rows, ask (since setup 0 (MaterialList 1) []) 0 N CStress = Answer (Ok (ATable rows)) /\ rows <> [] /\ Forall (fun r => r_12 r = V3 0 1 0) rows) /\
  (exists t, ask (since setup 0 (MaterialList 1) [Overwrite 0 (Nums [0])]) 0 N CMargin = Answer (Ok (AMargin t)) /\ t <> [] /\ Forall (fun r => mr_margins r = (Allow 2 2 (1 / 2) (1 / 2) 1, V3 1 0 0)) t) /\
  ask (since setup 0 (MaterialList 1) [Overwrite 0 (Nums [0])]) 0 N (CRead RdABD) = ask (since setup 0 (MaterialList 1) []) 0 N (CRead RdABD).
Proof.
  exists (V3 1 0 0, vzero). assert (Hr : all_readable (layup lam90)) by (apply admissible_readable, soft_adm).
  assert (St : forall rest th, stacking_now (m_heap (since setup 0 (MaterialList 1) rest)) 0 = Some (SAngles [th]) -> let v := mvec (T_real (cdeg th) (sdeg th)) (V3 1 0 0) in
    ask (since setup 0 (MaterialList 1) rest) 0 (V3 1 0 0, vzero) CStress = Answer (Ok (ATable [Row 1 (zb [(90, soft_ply)]) "bot" th (V3 1 0 0) v; Row 1 (zb [(90, soft_ply)] + 1) "top" th (V3 1 0 0) v]))).
  { intros rest th Hs v. destruct (now setup 0 (MaterialList 1) lam90 [90] rest setup_args eq_refl Hr) as (o & th' & pl & G & S & E1 & E2 & M & Ep). change (next setup) with 0%nat in G. rewrite E1 in Hs. assert (th' = [th]) by congruence. subst th'.
    rewrite (ask_eq _ _ _ _ o G). cbn [do_call]. destruct (stress_mixed (layup lam90) [th] (V3 1 0 0, vzero) _ [] Hr M (le_n _)) as (L' & h' & _ & E). unfold sbind. rewrite E. cbn [lam90 layup]. rewrite soft_sol. cbn [bind]. rewrite soft_rows. reflexivity. }
  split; [|split].
  - eexists. split; [apply (St [] 90); reflexivity|]. split; [discriminate|]. assert (V : mvec (T_real (cdeg 90) (sdeg 90)) (V3 1 0 0) = V3 0 1 0) by (rewrite cdeg_90', sdeg_90'; unfold mvec, T_real; cbn; f_equal; ring). rewrite V. repeat constructor.
  - destruct (t_C85_margin setup 0 (MaterialList 1) lam90 [90] [Overwrite 0 (Nums [0])] (V3 1 0 0, vzero) [Allow 2 2 (1 / 2) (1 / 2) 1] setup_args eq_refl Hr eq_refl) as (th & Eth & H). assert (th = [0]) by (cbn in Eth; congruence). subst th.
    destruct (H _ (St [Overwrite 0 (Nums [0])] 0 eq_refl)) as (t & Et & F1 & F2). exists t. split; [exact Et|]. cbn [map r_12] in F1. cbn [List.length firstn flat_map app] in F2.
    assert (V : mvec (T_real (cdeg 0) (sdeg 0)) (V3 1 0 0) = V3 1 0 0) by (rewrite cdeg_0, sdeg_0; unfold mvec, T_real; cbn; f_equal; ring). rewrite V in F1.
    destruct t as [|[q1 q2 q3 [x1 y1]] [|[r1 r2 r3 [x2 y2]] [|? ?]]]; try discriminate. split; [discriminate|]. cbn [map mr_margins fst snd] in F1, F2. repeat constructor; cbn [mr_margins]; congruence.
  - etransitivity; [apply (t_C85_matrices setup 0 (MaterialList 1) lam90 [90]); try assumption; try discriminate; [apply setup_args|reflexivity]|].
    symmetry. apply (t_C85_matrices setup 0 (MaterialList 1) lam90 [90]); try assumption; try discriminate; [apply setup_args|reflexivity].
Qed.
Lemma one_parameter (z0 : R) th : parameters (fun z1 z0 => z1 - z0) 1 1 [z0; z0 + 1] [th] 1 = Ok (cos (2 * (th * (PI / 180))), sin (2 * (th * (PI / 180))), cos (4 * (th * (PI / 180))), sin (4 * (th * (PI / 180)))).
Proof. unfold parameters, gaps, weighted. cbn [List.length Nat.ltb Nat.leb tl combine map fold_right fst snd]. destruct (Req_EM_T (1 ^ 1) 0) as [E|_]; [simpl in E; lra|]. f_equal. f_equal; [f_equal; [f_equal|]|]; field. Qed.
(*@ C85: the lamination parameter xiA follows the list of angles while A, B and D do not, so the two contradict each other; with one more angle in the list the attribute raises. @*)
Lemma t_C85_xi_refuted : forall N, let x rest := ask (since setup 0 (MaterialList 1) rest) 0 N (CRead RdXiA) in
  x [] = Answer (Ok (ARead (VXi (-1, 0, 1, 0)))) /\ x [Overwrite 0 (Nums [0])] = Answer (Ok (ARead (VXi (1, 0, 1, 0)))) /\ x [Overwrite 0 (Nums [90; 0])] = Answer (Err IndexError) /\
  forall rest, ask (since setup 0 (MaterialList 1) rest) 0 N (CRead RdA) = Answer (Ok (ARead (VMat (M3 1 0 0 0 2 0 0 0 1)))).
Proof.
  intros N x. assert (Hr : all_readable (layup lam90)) by (apply admissible_readable, soft_adm).
  assert (Z : z_position (layup lam90) = [- (0 + 1) / 2; - (0 + 1) / 2 + 1]) by reflexivity.
  assert (P2 : PI = PI) by reflexivity.
  assert (St : forall rest th, stacking_now (m_heap (since setup 0 (MaterialList 1) rest)) 0 = Some (SAngles th) -> plies_now (m_heap (since setup 0 (MaterialList 1) rest)) (MaterialList 1) = Some (PMany [soft_ply]) ->
    x rest = Answer (v <- parameters (fun z1 z0 => z1 - z0) 1 1 [- (0 + 1) / 2; - (0 + 1) / 2 + 1] th 1 ;; Ok (ARead (VXi v)))).
  { intros rest th Hs Hp. destruct (t_C85_xi setup 0 (MaterialList 1) lam90 [90] rest N setup_args eq_refl Hr) as (th' & pl & E1 & E2 & E3 & _). cbn [plies_list] in E2. assert (th' = th) by congruence. assert (pl = [soft_ply]) by congruence. subst. rewrite Z in E3.
    unfold x. etransitivity; [exact E3|]. replace (thickness_of [soft_ply]) with 1 by (unfold thickness_of, soft_ply; cbn; lra). reflexivity. }
  split; [|split; [|split]].
  - rewrite (St [] [90] eq_refl eq_refl), one_parameter. replace (2 * (90 * (PI / 180))) with PI by field. replace (4 * (90 * (PI / 180))) with (2 * PI) by field. rewrite cos_PI, sin_PI, Rtrigo1.cos_2PI, Rtrigo1.sin_2PI. reflexivity.
  - rewrite (St [Overwrite 0 (Nums [0])] [0] eq_refl eq_refl), one_parameter. replace (2 * (0 * (PI / 180))) with 0 by field. replace (4 * (0 * (PI / 180))) with 0 by field. rewrite cos_0, sin_0. reflexivity.
  - rewrite (St [Overwrite 0 (Nums [90; 0])] [90; 0] eq_refl eq_refl). reflexivity.
  - intros rest. etransitivity; [apply (t_C85_matrices setup 0 (MaterialList 1) lam90 [90]); try assumption; try discriminate; [apply setup_args|reflexivity]|].
    assert (I : Inv lam90) by (apply (construct_Inv (SAngles [90]) (PMany [soft_ply]) lam90 eq_refl)). destruct (do_read_inv lam90 RdA (all_readable_ok _ Hr) I) as (L' & -> & _). cbn [snd pure_read]. unfold pure_A. cbn [lam90 p_xiA layup].
    rewrite soft_Lsum. replace (wA (1 / 2) (- (1 / 2))) with 1 by (unfold wA; field). cbn [bind]. do 4 apply f_equal. cbv zeta. f_equal. ring.
Qed.
(*@ C85, concrete instance: a laminate given by lamination parameters follows changes of the list xiA, but not a new entry of the dictionary. @*)
Example t_C85_ex_dict : forall N, let build := [Create (Nums [0; 0; 0; 0]); Create (Entries [("xiA", ToList 0); ("xiD", ToList 0); ("T", Num 1)])] in let m := after empty_memory build in
  (exists L, arguments m 1 (OneMaterial soft_ply) L) /\
  ask (since m 1 (OneMaterial soft_ply) [Overwrite 0 (Nums [1; 0; 1; 0])]) 0 N (CRead RdA) <> ask (since m 1 (OneMaterial soft_ply) []) 0 N (CRead RdA) /\
  ask (since m 1 (OneMaterial soft_ply) [Create (Nums [1; 0; 1; 0]); Overwrite 1 (Entries [("xiA", ToList 2); ("xiD", ToList 0); ("T", Num 1)])]) 0 N (CRead RdA) = ask (since m 1 (OneMaterial soft_ply) []) 0 N (CRead RdA).
Proof.
  intros N build m. assert (Ar : exists L, arguments m 1 (OneMaterial soft_ply) L) by (eexists; do 2 eexists; repeat split). split; [exact Ar|]. destruct Ar as [L Ar].
  assert (V : forall rest xs, nth_error (m_heap (since m 1 (OneMaterial soft_ply) rest)) 0 = Some (Nums xs) -> exists L',
    construct (SDict [("xiA", DVec xs); ("xiD", DVec xs); ("T", DNum 1)]) (POne soft_ply) = Ok L' /\ ask (since m 1 (OneMaterial soft_ply) rest) 0 N (CRead RdA) = Answer (v <- snd (do_read L' RdA) ;; Ok (ARead v))).
  { intros rest xs Hx. destruct (t_C85_dict m 1 (OneMaterial soft_ply) _ L rest N RdA Ar eq_refl ltac:(discriminate) ltac:(discriminate)) as (pl & L1 & P1 & C1 & E). change (next m) with 0%nat in E.
    exists L1. split; [|exact E]. cbn [plies_now] in P1. assert (pl = POne soft_ply) by congruence. subst pl. rewrite <- C1. unfold dict_now. cbn [map fst snd contents]. rewrite Hx. reflexivity. }
  destruct (V [Overwrite 0 (Nums [1; 0; 1; 0])] _ eq_refl) as (L1 & C1 & ->). destruct (V [] _ eq_refl) as (L2 & C2 & ->). destruct (V [Create (Nums [1; 0; 1; 0]); Overwrite 1 (Entries [("xiA", ToList 2); ("xiD", ToList 0); ("T", Num 1)])] _ eq_refl) as (L3 & C3 & ->).
  split; [|congruence]. assert (I1 := construct_Inv _ _ _ C1). assert (I2 := construct_Inv _ _ _ C2). cbn in C1, C2. apply Ok_inj in C1, C2. subst L1 L2.
  match goal with |- context [do_read ?l RdA] => destruct (do_read_inv l RdA ltac:(constructor) I1) as (? & -> & _) end. match goal with |- context [do_read ?l RdA] => destruct (do_read_inv l RdA ltac:(constructor) I2) as (? & -> & _) end.
  cbn [snd pure_read]. unfold pure_A. cbn [p_xiA p_T plies]. unfold xi_value. cbn [p_T plies unpack4 as_num the_invariants bind].
  assert (Q := soft_Q0). unfold soft_ply in Q |- *. cbn [Q_0 Invariants] in Q |- *. rewrite Q. cbn [bind]. unfold A_from_xi, invariants_of_Q. intros E. assert (F : forall a b, Answer (Ok (ARead (VMat a))) = Answer (Ok (ARead (VMat b))) -> a11 a = a11 b) by (intros a b H; congruence).
  apply F in E. cbn [a11 a12 a13 a21 a22 a23 a31 a32 a33] in E. lra.
Qed.

