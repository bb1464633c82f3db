(** Proofs of the texts of materials and laminates *)
From Coq Require Import Reals ZArith Bool Ascii String Lia Decimal DecimalString DecimalZ DecimalNat.
From Coq Require Import List.
From Flocq Require Import IEEE754.BinarySingleNaN.
From Verif Require Import M_Py M_Float M_Validate M_MatObj M_Repr S_Validate S_MatObj S_Repr L_Float T_Names.
Import ListNotations.
Open Scope string_scope.
Open Scope list_scope.
Open Scope nat_scope.

Notation txt := list_ascii_of_string.
Lemma txt_app (a b : string) : txt (a ++ b)%string = (txt a ++ txt b)%list.
Proof. induction a as [|c a IH]; [reflexivity|]. cbn. rewrite IH. reflexivity. Qed.
Lemma txt_inj (a b : string) : txt a = txt b -> a = b.
Proof. intros H. rewrite <- (string_of_list_ascii_of_string a), <- (string_of_list_ascii_of_string b), H. reflexivity. Qed.
Lemma first_sep {X} (s : X) a : forall b u v, ~ In s a -> ~ In s b -> a ++ s :: u = b ++ s :: v -> a = b /\ u = v.
Proof.
  induction a as [|x a IH]; intros [|y b] u v Na Nb H; cbn in H.
  - injection H as ->. split; reflexivity.
  - injection H as -> _. destruct Nb. left. reflexivity.
  - injection H as -> _. destruct Na. left. reflexivity.
  - injection H as -> H. destruct (IH b u v) as [-> ->]; [intros Q; apply Na; right; exact Q|intros Q; apply Nb; right; exact Q|exact H|]. split; reflexivity.
Qed.
Lemma last_sep {X} (s : X) a b u v : ~ In s a -> ~ In s b -> u ++ s :: a = v ++ s :: b -> u = v /\ a = b.
Proof.
  intros Na Nb H. apply (f_equal (@rev X)) in H. rewrite !rev_app_distr in H. cbn [rev] in H. rewrite <- !app_assoc in H. cbn [app] in H.
  apply first_sep in H; [|rewrite <- in_rev; exact Na|rewrite <- in_rev; exact Nb]. destruct H as [Ha Hu]. apply (f_equal (@rev X)) in Ha, Hu. rewrite !rev_involutive in Ha, Hu. split; assumption.
Qed.
Lemma same_tail (p a b : string) : (a ++ p = b ++ p)%string -> a = b.
Proof. intros H. apply (f_equal txt) in H. rewrite !txt_app in H. apply app_inv_tail in H. apply txt_inj, H. Qed.
Lemma sapp_assoc (a b c : string) : ((a ++ b) ++ c = a ++ b ++ c)%string.
Proof. apply txt_inj. rewrite !txt_app, app_assoc. reflexivity. Qed.
Lemma sapp_nil (a : string) : (a ++ "" = a)%string. Proof. apply txt_inj. rewrite txt_app, app_nil_r. reflexivity. Qed.
Lemma fields_app fmt l r : fields fmt (l ++ r) = (fields fmt l ++ fields fmt r)%string.
Proof. induction l as [|[p x] l IH]; [reflexivity|]. cbn [fields app]. rewrite IH, !sapp_assoc. reflexivity. Qed.
(** a label ends with a space *)
Definition spaced (p : string) : Prop := exists q, p = (q ++ " ")%string.
Lemma fields_inj fmt : prints fmt -> forall labels xs ys u v, Forall spaced labels -> List.length xs = List.length labels -> List.length ys = List.length labels ->
  (u ++ fields fmt (combine labels xs) = v ++ fields fmt (combine labels ys))%string -> u = v /\ xs = ys.
Proof.
  intros Pf labels. induction labels as [|p labels IH] using rev_ind; intros xs ys u v Sp Lx Ly H.
  - destruct xs, ys; try discriminate. cbn in H. rewrite !sapp_nil in H. split; [exact H|reflexivity].
  - apply Forall_app in Sp. destruct Sp as [Sl Sp]. inversion Sp as [|? ? [q ->] _]; subst. rewrite app_length in Lx, Ly. cbn in Lx, Ly.
    destruct xs as [|x xs _] using rev_ind; [cbn in Lx; lia|]. destruct ys as [|y ys _] using rev_ind; [cbn in Ly; lia|]. rewrite app_length in Lx, Ly. cbn in Lx, Ly.
    assert (C : forall zs (z : f64), List.length zs = List.length labels -> combine (labels ++ [(q ++ " ")%string]) (zs ++ [z]) = combine labels zs ++ [((q ++ " ")%string, z)]).
    { clear. induction labels as [|a labels IH]; intros [|b zs] z L; try discriminate; [reflexivity|]. cbn. f_equal. apply IH. cbn in L. lia. }
    rewrite !C, !fields_app in H by lia. cbn [fields] in H. rewrite !sapp_nil in H. apply (f_equal txt) in H. rewrite !txt_app in H. change (txt " ") with [" "%char] in H. rewrite <- !app_assoc in H. cbn [app] in H.
    rewrite !app_assoc in H. apply last_sep in H; [|intros Q; destruct (pr_plain fmt Pf _ _ Q) as [Z _]; apply Z; reflexivity|intros Q; destruct (pr_plain fmt Pf _ _ Q) as [Z _]; apply Z; reflexivity].
    destruct H as [H E]. apply txt_inj, (pr_inj fmt Pf) in E. subst y. apply app_inv_tail in H. rewrite <- !txt_app in H. apply txt_inj in H.
    destruct (IH xs ys u v Sl ltac:(lia) ltac:(lia) H) as [-> ->]. split; reflexivity.
Qed.
Definition ortho_labels : list string := [", E1 = "; ", E2 = "; (", " ++ nl ++ "v12 = ")%string; ", G12 = "; ", thickness = "; (", " ++ nl ++ "T1 = ")%string; ", C1 = "; ", T2 = "; ", C2 = "; ", S = "].
Definition iso_labels : list string := [", E = "; (", " ++ nl ++ "v = ")%string; ", G = "; ", thickness = "; (", " ++ nl ++ "T = ")%string; ", C = "; ", S = "].
Ltac sp q := exists q; reflexivity.
Lemma ortho_spaced : Forall spaced ortho_labels.
Proof. repeat constructor; [sp ", E1 ="|sp ", E2 ="|sp (", " ++ nl ++ "v12 =")%string|sp ", G12 ="|sp ", thickness ="|sp (", " ++ nl ++ "T1 =")%string|sp ", C1 ="|sp ", T2 ="|sp ", C2 ="|sp ", S ="]. Qed.
Lemma iso_spaced : Forall spaced iso_labels.
Proof. repeat constructor; [sp ", E ="|sp (", " ++ nl ++ "v =")%string|sp ", G ="|sp ", thickness ="|sp (", " ++ nl ++ "T =")%string|sp ", C ="|sp ", S ="]. Qed.
(*@ C90: the text of a material determines its class, its name and every number it prints, whatever the name contains (commas, digits or a
    whole text of another material). @*)
Lemma t_C90_material : forall fmt n n' d d', prints fmt -> mat_text fmt n d = mat_text fmt n' d' -> same_class d d' /\ n = n' /\ numbers d = numbers d'.
Proof.
  intros fmt n n' [m|m] [m'|m'] Pf H; try discriminate H; unfold mat_text in H.
  - unfold ortho_text in H. apply string_app_inj in H. rewrite <- !sapp_assoc in H. apply same_tail in H.
    destruct (fields_inj fmt Pf ortho_labels (ortho_numbers m) (ortho_numbers m') n n' ortho_spaced eq_refl eq_refl H) as [-> E]. repeat split. exact E.
  - unfold iso_text in H. apply string_app_inj in H. rewrite <- !sapp_assoc in H. apply same_tail in H.
    destruct (fields_inj fmt Pf iso_labels (iso_numbers m) (iso_numbers m') n n' iso_spaced eq_refl eq_refl H) as [-> E]. repeat split. exact E.
Qed.
(*@ C90: so two materials with the same text compare equal, unless one of the numbers is NaN; then they never do. @*)
Lemma t_C90_equal : forall fmt n n' d d', prints fmt -> mat_text fmt n d = mat_text fmt n' d' -> (mat_eq d (OpMat d') = Ok true <-> ~ In fnan (numbers d)).
Proof.
  intros fmt n n' d d' Pf H. destruct (t_C90_material fmt n n' d d' Pf H) as (Sc & _ & E). rewrite t_C07_exact, <- t_C07_reflexive, t_C07_exact. unfold same_material. rewrite E. split; intros [_ F]; (split; [|exact F]); [|exact Sc]. destruct d; exact I.
Qed.
(*@ C90: the converse fails: a material with v12 = 0.0 and one with v12 = -0.0, otherwise equal and with the same name, compare equal and show
    different texts, as do two equal materials with different names. @*)
Lemma t_C90_equal_refuted : forall fmt, prints fmt -> exists a b c d d',
  ortho_init ex_parse a = Ok d /\ ortho_init ex_parse b = Ok d' /\ ortho_init ex_parse c = Ok d /\
  mat_eq (DOrtho d) (OpMat (DOrtho d')) = Ok true /\ (forall n, mat_text fmt n (DOrtho d) <> mat_text fmt n (DOrtho d')) /\ (forall n n', n <> n' -> mat_text fmt n (DOrtho d) <> mat_text fmt n' (DOrtho d)).
Proof.
  intros fmt Pf.
  exists (oargs5 (PInt 4) (PInt 2) (PFloat fzero) (PInt 1) (PInt 1)), (oargs5 (PInt 4) (PInt 2) (PFloat (fopp fzero)) (PInt 1) (PInt 1)), (oargs5 (PInt 4) (PInt 2) (PFloat fzero) (PInt 1) (PInt 1)).
  eexists. eexists. split; [reflexivity|]. split; [reflexivity|]. split; [reflexivity|]. split; [reflexivity|]. split.
  - intros n H. destruct (t_C90_material fmt n n _ _ Pf H) as (_ & _ & E). apply (f_equal (fun l => match nth 2 l fzero with B754_zero b => b | _ => false end)) in E. discriminate E.
  - intros n n' N H. destruct (t_C90_material fmt n n' _ _ Pf H) as (_ & E & _). exact (N E).
Qed.

(** ** histories *)
Lemma rstep_st fmt parse st o : fst (rstep fmt parse st o) = fst (mstep parse st (match o with RCall o => o | RRepr k => ReadName k end)).
Proof.
  destruct o as [o|k]; cbn [rstep]; [destruct (mstep parse st o); reflexivity|]. destruct (mstep parse st (ReadName k)) as [st' [|e|s|]]; try reflexivity. destruct (nth_error (objs st') k); reflexivity.
Qed.
Lemma rrun_cons fmt parse st o t : rrun fmt parse st (o :: t) = (fst (rrun fmt parse (fst (rstep fmt parse st o)) t), snd (rstep fmt parse st o) :: snd (rrun fmt parse (fst (rstep fmt parse st o)) t)).
Proof. cbn [rrun]. destruct (rstep fmt parse st o) as [s1 o1]. cbn [fst snd]. destruct (rrun fmt parse s1 t). reflexivity. Qed.
Lemma mrun_cons parse st o t : mrun parse st (o :: t) = (fst (mrun parse (fst (mstep parse st o)) t), snd (mstep parse st o) :: snd (mrun parse (fst (mstep parse st o)) t)).
Proof. cbn [mrun]. destruct (mstep parse st o) as [s1 o1]. cbn [fst snd]. destruct (mrun parse s1 t). reflexivity. Qed.
Lemma rrun_nth fmt parse l : forall st i k, nth_error l i = Some (RRepr k) ->
  nth_error (snd (rrun fmt parse st l)) i = match nth_error (snd (mrun parse st (only_names l))) i with
    | Some (Name s) => match nth_error (objs (fst (mrun parse st (firstn (S i) (only_names l))))) k with Some x => Some (RText (mat_text fmt s (in_data x))) | None => Some (ROut NoSuch) end
    | Some out => Some (ROut out) | None => None end.
Proof.
  induction l as [|o l IH]; intros st i k H; [destruct i; discriminate|]. rewrite rrun_cons. unfold only_names. cbn [map]. fold (only_names l). rewrite mrun_cons. destruct i as [|i]; cbn [nth_error snd firstn].
  - injection H as ->. cbn [rstep mrun]. destruct (mstep parse st (ReadName k)) as [st' [|e|s|]]; try reflexivity. cbn [fst snd]. destruct (nth_error (objs st') k); reflexivity.
  - rewrite (IH _ i k H), rstep_st. rewrite (mrun_cons _ _ _ (match only_names l with nil => nil | a :: l0 => a :: firstn i l0 end)). cbn [fst]. reflexivity.
Qed.
Lemma run_state parse l : forall cs st, Inv cs st -> Inv (cs ++ constructions parse l) (fst (mrun parse st l)).
Proof.
  induction l as [|o l IH]; intros cs st H; [cbn; rewrite app_nil_r; exact H|]. rewrite mrun_cons. cbn [fst]. change (o :: l) with ([o] ++ l). rewrite constructions_app, app_assoc. apply IH.
  destruct (mstep parse st o) as [s1 out] eqn:E. exact (Inv_step _ _ _ _ _ _ H E).
Qed.
(*@ C90: in every history repr() of a material shows the name that reading .name in its place would give, and the numbers the material was
    constructed with; names read later are the same as if every repr() had been a read of the name. @*)
Lemma t_C90_history : forall fmt parse l i k, nth_error l i = Some (RRepr k) -> forall s,
  (shown fmt parse l i k s <-> exists n name d, reported parse (only_names l) i k n /\ constructed parse (only_names l) k name d /\ s = mat_text fmt n d).
Proof.
  intros fmt parse l i k Hi s. assert (Hm : nth_error (only_names l) i = Some (ReadName k)) by (unfold only_names; rewrite nth_error_map, Hi; reflexivity).
  assert (R := rrun_nth fmt parse l mstate0 i k Hi). assert (Q := read_result parse (only_names l) i k Hm).
  destruct (nth_error (constructions parse (firstn i (only_names l))) k) as [[d name]|] eqn:E.
  - rewrite Q in R. set (n := expected (constructions parse (firstn i (only_names l))) k d name) in *. destruct (prefix_nth _ _ _ _ _ E) as [E1 _].
    assert (I1 := run_state parse (firstn (S i) (only_names l)) [] mstate0 Inv0). cbn [app] in I1. destruct I1 as (_ & _ & _ & HN).
    assert (E2 : nth_error (constructions parse (firstn (S i) (only_names l))) k = Some (d, name)).
    { assert (X : firstn i (only_names l) = firstn i (firstn (S i) (only_names l))) by (rewrite firstn_firstn; f_equal; lia). rewrite X in E. exact (proj1 (prefix_nth _ _ _ _ _ E)). }
    destruct (HN _ _ _ E2) as (x & Hx & <- & _). rewrite Hx in R. split.
    + intros [_ Ho]. rewrite R in Ho. injection Ho as <-. exists n, name, (in_data x). split; [split; [exact Hm|exact Q]|]. split; [exact E1|reflexivity].
    + intros (n' & name' & d' & [_ Hr] & Hc & ->). rewrite Q in Hr. injection Hr as <-. unfold constructed in Hc. rewrite E1 in Hc. injection Hc as <- <-. split; [exact Hi|exact R].
  - rewrite Q in R. split; [intros [_ Ho]; rewrite R in Ho; discriminate|]. intros (n' & name' & d' & [_ Hr] & _). rewrite Q in Hr. discriminate.
Qed.
(*@ C90: a material shows the same text at any time of its life ... @*)
Lemma t_C90_stable : forall fmt parse l i j k s s', shown fmt parse l i k s -> shown fmt parse l j k s' -> s = s'.
Proof.
  intros fmt parse l i j k s s' H H'. apply (t_C90_history fmt parse l i k (proj1 H)) in H. apply (t_C90_history fmt parse l j k (proj1 H')) in H'.
  destruct H as (n & name & d & Hr & Hc & ->). destruct H' as (n' & name' & d' & Hr' & Hc' & ->). rewrite (t_C06_stable _ _ _ _ _ _ _ Hr Hr'). unfold constructed in Hc, Hc'. rewrite Hc in Hc'. injection Hc' as -> _. reflexivity.
Qed.
(*@ C90: ... and two different materials constructed without a name never show the same text, even if all their numbers are equal. @*)
Lemma t_C90_distinct : forall fmt parse l i j k k' s s' d d', prints fmt -> k <> k' -> constructed parse (only_names l) k None d -> constructed parse (only_names l) k' None d' ->
  shown fmt parse l i k s -> shown fmt parse l j k' s' -> s <> s'.
Proof.
  intros fmt parse l i j k k' s s' d d' Pf N C C' H H' E. apply (t_C90_history fmt parse l i k (proj1 H)) in H. apply (t_C90_history fmt parse l j k' (proj1 H')) in H'.
  destruct H as (n & name & e & Hr & Hc & ->). destruct H' as (n' & name' & e' & Hr' & Hc' & ->). destruct (t_C90_material fmt n n' e e' Pf E) as (Sc & En & _).
  unfold constructed in *. rewrite C in Hc. rewrite C' in Hc'. injection Hc as <- <-. injection Hc' as <- <-. exact (t_C06_unique parse (only_names l) i j k k' n n' d d' N Sc C C' Hr Hr' En).
Qed.

(** ** laminates *)
Lemma uint_plain d c : In c (txt (NilZero.string_of_uint d)) -> c <> " "%char /\ c <> ","%char.
Proof.
  assert (G : forall d c, In c (txt (NilEmpty.string_of_uint d)) -> c <> " "%char /\ c <> ","%char).
  { clear. induction d; cbn [NilEmpty.string_of_uint list_ascii_of_string In]; intros c H; try contradiction; destruct H as [<-|H]; try (split; discriminate); apply IHd, H. }
  destruct d; try (apply (G _ c)). intros H. cbn in H. destruct H as [<-|[]]. split; discriminate.
Qed.
Lemma int_plain z c : In c (txt (int_text z)) -> c <> " "%char /\ c <> ","%char.
Proof.
  unfold int_text. destruct (Z.to_int z) as [d|d]; cbn [NilZero.string_of_int]; [apply uint_plain|]. intros [<-|H]; [split; discriminate|]. apply (uint_plain d), H.
Qed.
Lemma uint_some d : NilZero.string_of_uint d <> "". Proof. destruct d; discriminate. Qed.
Lemma int_some z : int_text z <> "". Proof. unfold int_text. destruct (Z.to_int z); [apply uint_some|discriminate]. Qed.
Lemma int_inj z z' : int_text z = int_text z' -> z = z'.
Proof.
  unfold int_text. intros H. apply (f_equal NilZero.int_of_string) in H.
  assert (N : forall z, Z.to_int z <> Pos Nil /\ Z.to_int z <> Neg Nil).
  { clear. intros z. split; intros H; assert (X := DecimalZ.of_to z); rewrite H in X; cbn in X; subst z; discriminate H. }
  destruct (N z) as [N1 N2]. destruct (N z') as [N3 N4]. rewrite !NilZero.isi in H by assumption. injection H as H. rewrite <- (DecimalZ.of_to z), <- (DecimalZ.of_to z'), H. reflexivity.
Qed.
Lemma num_plain fmt a c : prints fmt -> In c (txt (num_text fmt a)) -> c <> ","%char.
Proof. intros Pf. destruct a; cbn [num_text]; intros H; [apply (int_plain _ _ H)|apply (pr_plain fmt Pf _ _ H)]. Qed.
Lemma num_some fmt a : prints fmt -> num_text fmt a <> "".
Proof. intros Pf. destruct a; [apply int_some|apply (pr_some fmt Pf)]. Qed.
Lemma num_inj fmt a b : prints fmt -> num_text fmt a = num_text fmt b -> a = b.
Proof.
  intros Pf. destruct a as [z|x], b as [z'|y]; cbn [num_text]; intros H.
  - rewrite (int_inj _ _ H). reflexivity.
  - destruct (pr_float fmt Pf y z (eq_sym H)).
  - destruct (pr_float fmt Pf x z' H).
  - rewrite (pr_inj fmt Pf _ _ H). reflexivity.
Qed.
Lemma concat_cons s x y t : String.concat s (x :: y :: t) = (x ++ s ++ String.concat s (y :: t))%string. Proof. reflexivity. Qed.
Lemma concat_inj fmt : prints fmt -> forall l r, String.concat ", " (map (num_text fmt) l) = String.concat ", " (map (num_text fmt) r) -> l = r.
Proof.
  intros Pf. assert (NC : forall a, ~ In ","%char (txt (num_text fmt a))) by (intros a Q; apply (num_plain fmt a _ Pf Q); reflexivity).
  assert (NE : forall x t, String.concat ", " (map (num_text fmt) (x :: t)) <> "").
  { intros x t. destruct t as [|y t]; [apply num_some, Pf|]. cbn [map]. rewrite concat_cons. intros H. apply (num_some fmt x Pf). destruct (num_text fmt x); [reflexivity|discriminate H]. }
  induction l as [|x l IH]; intros [|y r] H; [reflexivity|destruct (NE y r (eq_sym H))|destruct (NE x l H)|].
  destruct l as [|x2 l], r as [|y2 r].
  - cbn in H. rewrite (num_inj fmt x y Pf H). reflexivity.
  - exfalso. cbn [map] in H. rewrite concat_cons in H. cbn [String.concat] in H. apply (NC x). rewrite H, txt_app, in_app_iff. right. left. reflexivity.
  - exfalso. cbn [map] in H. rewrite concat_cons in H. cbn [String.concat] in H. apply (NC y). rewrite <- H, txt_app, in_app_iff. right. left. reflexivity.
  - cbn [map] in H. rewrite !concat_cons in H. apply (f_equal txt) in H. rewrite !txt_app in H. change (txt ", ") with [","%char; " "%char] in H. cbn [app] in H.
    apply first_sep in H; [|apply NC|apply NC]. destruct H as [E H]. apply txt_inj, (num_inj fmt x y Pf) in E. injection H as H. apply txt_inj in H. rewrite (IH (y2 :: r) H), E. reflexivity.
Qed.
(*@ C90: the text of a laminate determines the list of its angles, an int being told from a float, and depends on nothing else. @*)
Lemma t_C90_laminate : forall fmt l l', prints fmt -> (lam_text fmt l = lam_text fmt l' <-> l = l').
Proof.
  intros fmt l l' Pf. split; [|intros ->; reflexivity]. unfold lam_text, list_text. intros H. apply string_app_inj, string_app_inj in H. apply (string_app_inj "[") in H. apply same_tail in H. apply (concat_inj fmt Pf), H.
Qed.
(*@ C90: so the text of a laminate does not tell equal from unequal: two laminates with the same angles and different plies show the same text and
    compare unequal, and [0] and [0.0] on one ply compare equal and show different texts. @*)
Lemma t_C90_laminate_refuted : forall fmt, prints fmt -> exists l l' r r' : list entry,
  lam_text fmt (angles l) = lam_text fmt (angles l') /\ lam_eq l (Some l') = Ok false /\ lam_text fmt (angles r) <> lam_text fmt (angles r') /\ lam_eq r (Some r') = Ok true.
Proof.
  intros fmt Pf. set (m := fun z => DIso (FIMat (f_of_Z z) fzero fone fone fzero fzero fzero)). set (e := fun (i : nat) (a : num) (z : Z) => Obj i (Obj i a, Obj i (m z)) : entry).
  exists [e 1 (NInt 0) 1%Z], [e 2 (NInt 0) 2%Z], [e 1 (NInt 0) 1%Z], [e 2 (NFloat fzero) 1%Z]. split; [reflexivity|]. split; [reflexivity|]. split; [|reflexivity].
  intros H. apply (t_C90_laminate fmt _ _ Pf) in H. discriminate H.
Qed.
Lemma uint_e d c : In c (txt (NilZero.string_of_uint d)) -> c <> "e"%char /\ c <> "."%char /\ c <> "n"%char.
Proof.
  assert (G : forall d c, In c (txt (NilEmpty.string_of_uint d)) -> c <> "e"%char /\ c <> "."%char /\ c <> "n"%char).
  { clear. induction d; cbn [NilEmpty.string_of_uint list_ascii_of_string In]; intros c H; try contradiction; destruct H as [<-|H]; try (repeat split; discriminate); apply IHd, H. }
  destruct d; try (apply (G _ c)). intros H. cbn in H. destruct H as [<-|[]]. repeat split; discriminate.
Qed.
Lemma int_e z c : In c (txt (int_text z)) -> c <> "e"%char /\ c <> "."%char /\ c <> "n"%char.
Proof.
  unfold int_text. destruct (Z.to_int z) as [d|d]; cbn [NilZero.string_of_int]; [apply uint_e|]. intros [<-|H]; [repeat split; discriminate|]. apply (uint_e d), H.
Qed.
Lemma no_e (z : Z) : ~ In "e"%char (txt (int_text z)). Proof. intros H. apply int_e in H. destruct H as [H _]. apply H. reflexivity. Qed.
Lemma fin_has (u v : string) : In "e"%char (txt (u ++ "e" ++ v)%string).
Proof. rewrite !txt_app, !in_app_iff. right. left. left. reflexivity. Qed.
Lemma fin_ne (u v s : string) : ~ In "e"%char (txt s) -> (u ++ "e" ++ v)%string <> s.
Proof. intros N <-. apply N, fin_has. Qed.
(*@ C90: floats can be written so that all these conditions hold. @*)
Example t_C90_prints : prints plain_fmt.
Proof.
  constructor.
  - intros x y H. destruct x as [s|s| |s m e B], y as [s'|s'| |s' m' e' B']; cbn [plain_fmt] in H;
      try (destruct s); try (destruct s'); try reflexivity; try discriminate H;
      try (exfalso; revert H; apply fin_ne; cbn; intuition discriminate);
      try (exfalso; symmetry in H; revert H; apply fin_ne; cbn; intuition discriminate);
      apply (f_equal txt) in H; rewrite !txt_app in H; change (txt "e") with ["e"%char] in H; cbn [app] in H; apply first_sep in H; try apply no_e;
      destruct H as [E1 E2]; apply txt_inj, int_inj in E1; apply txt_inj, int_inj in E2; try discriminate E1; injection E1 as E1; subst m' e'; f_equal; apply Eqdep_dec.UIP_dec, bool_dec.
  - intros [s|s| |s m e B]; cbn [plain_fmt]; try (destruct s; discriminate); try discriminate. intros H. revert H. apply fin_ne. intros [].
  - intros [s|s| |s m e B] c; cbn [plain_fmt]; try (destruct s; cbn; intuition (subst; discriminate)); try (cbn; intuition (subst; discriminate)).
    rewrite !txt_app, !in_app_iff. intros [H|[H|H]]; [apply (int_plain _ _ H)| |apply (int_plain _ _ H)]. cbn in H. destruct H as [<-|[]]. split; discriminate.
  - intros x z H. fold (int_text z) in H. destruct x as [s|s| |s m e B]; cbn [plain_fmt] in H.
    + assert (X : In "."%char (txt (int_text z))) by (rewrite <- H; destruct s; cbn; tauto). apply int_e in X. destruct X as (_ & X & _). apply X. reflexivity.
    + assert (X : In "n"%char (txt (int_text z))) by (rewrite <- H; destruct s; cbn; tauto). apply int_e in X. destruct X as (_ & _ & X). apply X. reflexivity.
    + assert (X : In "n"%char (txt (int_text z))) by (rewrite <- H; cbn; tauto). apply int_e in X. destruct X as (_ & _ & X). apply X. reflexivity.
    + revert H. apply fin_ne, no_e.
Qed.
(*@ C90: a history: two materials with equal numbers show different texts, the same one each time; the texts of three laminates. @*)
Example t_C90_ex :
  let l := [RCall (NewIso ex_iargs None); RCall (NewIso ex_iargs None); RRepr 1; RRepr 0; RCall (NewIso ex_iargs (Some "web")); RRepr 2; RRepr 1; RCall (ReadName 1); RRepr 7] in
  (exists s, shown plain_fmt ex_parse l 2 1 s /\ shown plain_fmt ex_parse l 6 1 s /\ ~ shown plain_fmt ex_parse l 3 0 s) /\
  nth_error (snd (rrun plain_fmt ex_parse mstate0 l)) 7 = Some (ROut (Name "ply_2")) /\
  list_text plain_fmt [NInt 0; NFloat fzero; NInt (-45)] = "[0, 0.0, -45]"%string /\ list_text plain_fmt [] = "[]"%string.
Proof.
  cbv zeta. split; [|split; [vm_compute; reflexivity|split; vm_compute; reflexivity]].
  eexists. split; [split; [reflexivity|vm_compute; reflexivity]|]. split; [split; [reflexivity|vm_compute; reflexivity]|]. intros [_ H]. vm_compute in H. discriminate H.
Qed.
