(** Proofs of automatic names and equality *)
From Coq Require Import Reals ZArith Bool List String Lia Decimal DecimalString DecimalNat.
From Flocq Require Import IEEE754.BinarySingleNaN.
From Verif Require Import M_Py M_Float M_Validate M_MatObj S_Validate S_MatObj L_Float.
Import ListNotations.
Open Scope string_scope.
Open Scope list_scope.
Open Scope nat_scope.

Lemma string_app_inj : forall (p a b : string), (p ++ a = p ++ b)%string -> a = b.
Proof. induction p as [|c p IH]; cbn; intros a b H; [exact H|]. injection H; auto. Qed.

Lemma ply_name_inj : forall a b, ply_name a = ply_name b -> a = b.
Proof.
  unfold ply_name; intros a b H. apply string_app_inj in H.
  assert (N : forall n, Nat.to_uint n <> Nil).
  { intros n C. pose proof (Unsigned.of_to n) as O. rewrite C in O. cbn in O. subst n. discriminate. }
  assert (E : Nat.to_uint a = Nat.to_uint b).
  { pose proof (NilZero.usu (Nat.to_uint a) (N a)). pose proof (NilZero.usu (Nat.to_uint b) (N b)). congruence. }
  apply (f_equal Nat.of_uint) in E. rewrite !Unsigned.of_to in E. exact E.
Qed.

Definition expected (cs : list (matdata * option string)) (k : nat) (d : matdata) (name : option string) : string :=
  match name with
  | Some s => s
  | None => ply_name (S (List.length (filter (fun c => Bool.eqb (class_of (fst c)) (class_of d)) (firstn k cs))))
  end.
Definition cnt (b : bool) (cs : list (matdata * option string)) : nat :=
  List.length (filter (fun c => Bool.eqb (class_of (fst c)) b) cs).

Definition Inv (cs : list (matdata * option string)) (st : mstate) : Prop :=
  List.length (objs st) = List.length cs /\
  next_o st = S (cnt true cs) /\ next_i st = S (cnt false cs) /\
  forall k d name, nth_error cs k = Some (d, name) ->
    exists x, nth_error (objs st) k = Some x /\ in_data x = d /\ in_id x = S (cnt (class_of d) (firstn k cs)) /\
              (in_name x = name \/ (name = None /\ in_name x = Some (ply_name (in_id x)))).

Lemma upd_length : forall A (l : list A) k x, List.length (upd l k x) = List.length l.
Proof. induction l; destruct k; cbn; intros; auto. Qed.
Lemma upd_same : forall A (l : list A) k x y, nth_error l k = Some y -> nth_error (upd l k x) k = Some x.
Proof. induction l; destruct k; cbn; intros; try discriminate; eauto. Qed.
Lemma upd_other : forall A (l : list A) k j x, j <> k -> nth_error (upd l k x) j = nth_error l j.
Proof. induction l; destruct k, j; cbn; intros; auto; try congruence. Qed.

Lemma cnt_app : forall b l c, cnt b (l ++ [c]) = if Bool.eqb (class_of (fst c)) b then S (cnt b l) else cnt b l.
Proof.
  intros b l c. unfold cnt. rewrite filter_app, app_length. cbn [filter].
  destruct (Bool.eqb _ _); cbn; lia.
Qed.

Lemma Inv_new : forall cs st d name st',
  Inv cs st ->
  st' = MState (if class_of d then S (next_o st) else next_o st) (if class_of d then next_i st else S (next_i st))
               (objs st ++ [Inst d (if class_of d then next_o st else next_i st) name]) ->
  Inv (cs ++ [(d, name)]) st'.
Proof.
  intros cs st d name st' [HL [HO [HI HN]]] ->. unfold Inv; cbn [objs next_o next_i].
  rewrite !app_length, !cnt_app; cbn [fst List.length].
  split; [lia|]. split; [destruct (class_of d); cbn; lia|]. split; [destruct (class_of d); cbn; lia|].
  intros k d0 name0 Hk.
  destruct (Nat.lt_ge_cases k (List.length cs)) as [Lt|Ge].
  - rewrite nth_error_app1 in Hk by exact Lt. destruct (HN _ _ _ Hk) as [x [A [B [C D]]]].
    exists x. rewrite nth_error_app1 by lia. rewrite firstn_app.
    replace (k - List.length cs) with 0 by lia. cbn [firstn]. rewrite app_nil_r. auto.
  - rewrite nth_error_app2 in Hk by exact Ge.
    destruct (k - List.length cs) as [|j] eqn:E; cbn in Hk; [|destruct j; discriminate].
    injection Hk as <- <-. assert (k = List.length cs) by lia. subst k.
    rewrite nth_error_app2 by lia. rewrite HL, Nat.sub_diag. cbn.
    eexists; split; [reflexivity|]. cbn. split; [reflexivity|]. split; [|left; reflexivity].
    rewrite firstn_app, Nat.sub_diag, firstn_O, app_nil_r, firstn_all. destruct (class_of d); lia.
Qed.

Lemma Inv_step : forall parse cs st o st' out,
  Inv cs st -> mstep parse st o = (st', out) -> Inv (cs ++ constructions parse [o]) st'.
Proof.
  intros parse cs st o st' out H E. destruct o as [a name|a name|k]; cbn [mstep constructions] in *.
  - destruct (ortho_init parse a) as [m|e].
    + injection E as <- _. apply (Inv_new cs st (DOrtho m) name); auto.
    + injection E as <- _. rewrite app_nil_r. exact H.
  - destruct (iso_init parse a) as [m|e].
    + injection E as <- _. apply (Inv_new cs st (DIso m) name); auto.
    + injection E as <- _. rewrite app_nil_r. exact H.
  - rewrite app_nil_r. destruct (nth_error (objs st) k) as [x|] eqn:Ek.
    2: injection E as <- _; exact H.
    destruct (in_name x) as [s|] eqn:En; injection E as <- _; [exact H|].
    destruct H as [HL [HO [HI HN]]]. unfold Inv; cbn [objs next_o next_i]. rewrite upd_length.
    split; [exact HL|]. split; [exact HO|]. split; [exact HI|].
    intros j d name Hj. destruct (HN _ _ _ Hj) as [y [A [B [C D]]]].
    destruct (Nat.eq_dec j k) as [->|Ne].
    + assert (y = x) by congruence. subst y. eexists. split; [eapply upd_same; eauto|]. cbn.
      split; [exact B|]. split; [exact C|]. right. destruct D as [D|[D _]]; (split; [try congruence|reflexivity]).
    + exists y. rewrite upd_other by exact Ne. auto.
Qed.

Lemma constructions_app : forall parse l1 l2,
  constructions parse (l1 ++ l2) = constructions parse l1 ++ constructions parse l2.
Proof.
  intros parse l1 l2; induction l1 as [|o t IH]; cbn; auto.
  destruct o as [a name|a name|k]; auto.
  - destruct (ortho_init parse a); cbn; rewrite IH; reflexivity.
  - destruct (iso_init parse a); cbn; rewrite IH; reflexivity.
Qed.

Lemma run_inv : forall parse l cs st i o,
  Inv cs st -> nth_error l i = Some o ->
  exists st1 st2 out, Inv (cs ++ constructions parse (firstn i l)) st1 /\
     mstep parse st1 o = (st2, out) /\ nth_error (snd (mrun parse st l)) i = Some out.
Proof.
  intros parse l; induction l as [|o1 t IH]; intros cs st i o H Hi; [destruct i; discriminate|].
  cbn [mrun]. destruct (mstep parse st o1) as [st1 out1] eqn:E.
  destruct (mrun parse st1 t) as [st2 outs] eqn:R.
  destruct i as [|i]; cbn in Hi.
  - injection Hi as ->. exists st, st1, out1. cbn [firstn constructions]. rewrite app_nil_r. auto.
  - pose proof (Inv_step _ _ _ _ _ _ H E) as H1.
    destruct (IH _ st1 i o H1 Hi) as [s1 [s2 [out [A [B C]]]]].
    exists s1, s2, out. cbn [firstn]. change (o1 :: firstn i t) with ([o1] ++ firstn i t).
    rewrite constructions_app, app_assoc. split; [exact A|]. split; [exact B|].
    cbn. rewrite R in C. exact C.
Qed.

Lemma Inv0 : Inv [] mstate0.
Proof. unfold Inv; cbn. repeat split; auto. intros k; destruct k; discriminate. Qed.

Lemma read_result : forall parse l i k,
  nth_error l i = Some (ReadName k) ->
  match nth_error (constructions parse (firstn i l)) k with
  | Some (d, name) => nth_error (snd (mrun parse mstate0 l)) i
        = Some (Name (expected (constructions parse (firstn i l)) k d name))
  | None => nth_error (snd (mrun parse mstate0 l)) i = Some NoSuch
  end.
Proof.
  intros parse l i k Hi.
  destruct (run_inv parse l [] mstate0 i _ Inv0 Hi) as [s1 [s2 [out [I [St Out]]]]].
  change ([] ++ constructions parse (firstn i l)) with (constructions parse (firstn i l)) in I. rewrite Out.
  destruct (nth_error (constructions parse (firstn i l)) k) as [[d name]|] eqn:E; cbn [mstep] in St.
  - destruct I as [HL [HO [HI HN]]]. destruct (HN _ _ _ E) as [x [A [B [C D]]]].
    rewrite A in St. destruct (in_name x) as [s|] eqn:En.
    + injection St as _ <-. do 2 f_equal. unfold expected, cnt in *. destruct D as [D|[D1 D2]].
      * rewrite <- D. reflexivity.
      * rewrite D1. rewrite <- C. congruence.
    + injection St as _ <-. do 2 f_equal. destruct D as [D|[D1 D2]]; [|discriminate].
      rewrite <- D. unfold expected. rewrite C. reflexivity.
  - assert (NE : nth_error (objs s1) k = None).
    { apply nth_error_None in E. apply nth_error_None. destruct I as [HL _]. lia. }
    rewrite NE in St. injection St as _ <-. reflexivity.
Qed.

Lemma prefix_nth : forall parse l i k c,
  nth_error (constructions parse (firstn i l)) k = Some c ->
  nth_error (constructions parse l) k = Some c /\
  firstn k (constructions parse (firstn i l)) = firstn k (constructions parse l).
Proof.
  intros parse l i k c H.
  assert (L : k < List.length (constructions parse (firstn i l))) by (apply nth_error_Some; congruence).
  assert (E : constructions parse l = constructions parse (firstn i l) ++ constructions parse (skipn i l))
    by (rewrite <- constructions_app, firstn_skipn; reflexivity).
  rewrite E.
  rewrite nth_error_app1 by exact L. split; [exact H|].
  rewrite firstn_app. replace (k - List.length _) with 0 by lia. cbn [firstn]. rewrite app_nil_r. reflexivity.
Qed.

(*@ C06. What every read returns: the explicit name, or ply_N where N is one more than the number of earlier
    successful constructions of the same class (failed constructions do not count). @*)
Lemma t_C06_reads : forall parse l i k s,
  reported parse l i k s ->
  exists d name, constructed parse l k name d /\
    s = match name with Some n => n | None => ply_name (S (earlier parse l k d)) end.
Proof.
  intros parse l i k s [Hi Ho]. pose proof (read_result parse l i k Hi) as R.
  destruct (nth_error (constructions parse (firstn i l)) k) as [[d name]|] eqn:E; [|congruence].
  destruct (prefix_nth _ _ _ _ _ E) as [E1 E2].
  exists d, name. split; [exact E1|]. rewrite Ho in R. injection R as ->.
  unfold expected, earlier. rewrite E2. reflexivity.
Qed.

(*@ C06. Reading the name of any instance created before succeeds. @*)
Lemma t_C06_defined : forall parse l i k,
  nth_error l i = Some (ReadName k) -> k < List.length (constructions parse (firstn i l)) ->
  exists s, reported parse l i k s.
Proof.
  intros parse l i k Hi L. pose proof (read_result parse l i k Hi) as R.
  destruct (nth_error (constructions parse (firstn i l)) k) as [[d name]|] eqn:E.
  - eexists; split; eauto.
  - apply nth_error_None in E. lia.
Qed.

(*@ C06. Two instances of one class constructed without a name never report the same name. @*)
Lemma t_C06_unique : forall parse l i j k k' s s' d d',
  k <> k' -> same_class d d' ->
  constructed parse l k None d -> constructed parse l k' None d' ->
  reported parse l i k s -> reported parse l j k' s' -> s <> s'.
Proof.
  intros parse l i j k k' s s' d d' Ne SC Hk Hk' R R' Es.
  destruct (t_C06_reads _ _ _ _ _ R) as [e [n [A B]]].
  destruct (t_C06_reads _ _ _ _ _ R') as [e' [n' [A' B']]].
  unfold constructed in *. assert (e = d /\ n = None) as [-> ->] by (split; congruence).
  assert (e' = d' /\ n' = None) as [-> ->] by (split; congruence).
  rewrite B, B' in Es. apply ply_name_inj in Es. injection Es as Es.
  assert (C : class_of d = class_of d') by (destruct d, d'; cbn in *; tauto).
  unfold earlier in Es. rewrite C in Es.
  assert (G : forall (cs : list (matdata * option string)) k k' d0 n0,
    k < k' -> nth_error cs k = Some (d0, n0) -> class_of d0 = class_of d' ->
    List.length (filter (fun c => Bool.eqb (class_of (fst c)) (class_of d')) (firstn k cs)) <
    List.length (filter (fun c => Bool.eqb (class_of (fst c)) (class_of d')) (firstn k' cs))).
  { clear. induction cs as [|c cs IH]; intros k k' d0 n0 Lt Hk Hc; [destruct k; discriminate|].
    destruct k' as [|k']; [lia|]. destruct k as [|k]; cbn in Hk.
    - injection Hk as ->. cbn [firstn filter fst]. rewrite Hc, Bool.eqb_reflx. cbn. lia.
    - cbn [firstn filter]. assert (IH' := IH k k' d0 n0 ltac:(lia) Hk Hc).
      destruct (Bool.eqb _ _); cbn; lia. }
  destruct (Nat.lt_total k k') as [Lt|[?|Lt]]; [|contradiction|].
  - pose proof (G _ _ _ _ _ Lt Hk C). lia.
  - pose proof (G _ _ _ _ _ Lt Hk' eq_refl). lia.
Qed.

(*@ C06. An instance reports the same name in every read. @*)
Lemma t_C06_stable : forall parse l i j k s s',
  reported parse l i k s -> reported parse l j k s' -> s = s'.
Proof.
  intros parse l i j k s s' R R'.
  destruct (t_C06_reads _ _ _ _ _ R) as [e [n [A B]]].
  destruct (t_C06_reads _ _ _ _ _ R') as [e' [n' [A' B']]].
  unfold constructed in *. assert (e = e' /\ n = n') as [-> ->] by (split; congruence). congruence.
Qed.

(*@ C06. An explicit name is returned unchanged. @*)
Lemma t_C06_explicit : forall parse l i k n d s,
  constructed parse l k (Some n) d -> reported parse l i k s -> s = n.
Proof.
  intros parse l i k n d s H R. destruct (t_C06_reads _ _ _ _ _ R) as [e [n' [A B]]].
  unfold constructed in *. assert (n' = Some n) as -> by congruence. exact B.
Qed.

(*@ C06, example: constructions of both classes, one failing; the first two instances share the name ply_1 (they
    are of different classes), and the second orthotropic one is ply_2 although a construction failed in between. @*)
Example t_C06_example :
  snd (mrun ex_parse mstate0
        [NewOrtho ex_oargs None; NewIso ex_iargs None;
         NewOrtho (oargs5 PNone (PInt 1) (PInt 0) (PInt 1) (PInt 1)) None;
         NewOrtho ex_oargs None; NewOrtho ex_oargs (Some "web"); ReadName 2; ReadName 0; ReadName 1; ReadName 2; ReadName 3])
  = [Created 0; Created 1; Raised ValueError; Created 2; Created 3;
     Name "ply_2"; Name "ply_1"; Name "ply_1"; Name "ply_2"; Name "web"].
Proof. vm_compute. reflexivity. Qed.

(** ** Equality of materials *)

Lemma mat_eq_same : forall x y, same_class x y ->
  exists b, mat_eq x (OpMat y) = Ok b /\ (b = true <-> Forall2 same_number (numbers x) (numbers y)).
Proof.
  intros [x|x] [y|y] SC; cbn in SC; try contradiction; cbn [mat_eq numbers].
  - eexists; split; [reflexivity|]. unfold ortho_eqb, ortho_numbers.
    rewrite !andb_true_iff, !feq_same. split.
    + intros H. repeat first [apply Forall2_nil | apply Forall2_cons; [tauto|]].
    + intros H. repeat match goal with H : Forall2 _ (_ :: _) _ |- _ => inversion H; clear H; subst end. tauto.
  - eexists; split; [reflexivity|]. unfold iso_eqb, iso_numbers.
    rewrite !andb_true_iff, !feq_same. split.
    + intros H. repeat first [apply Forall2_nil | apply Forall2_cons; [tauto|]].
    + intros H. repeat match goal with H : Forall2 _ (_ :: _) _ |- _ => inversion H; clear H; subst end. tauto.
Qed.

(*@ C07. Two materials compare equal exactly when they are of one class and their numeric attributes (ten for
    orthotropic, seven for isotropic) are pairwise equal numbers; the name plays no role. @*)
Lemma t_C07_exact : forall x y, mat_eq x (OpMat y) = Ok true <-> same_material x y.
Proof.
  intros x y. unfold same_material. destruct x as [x|x], y as [y|y]; cbn [same_class].
  2,3: cbn; split; [discriminate|tauto].
  - destruct (mat_eq_same (DOrtho x) (DOrtho y) I) as [b [E H]]. rewrite E, <- H. split; [intros [= ->]; auto|intros [_ ->]; auto].
  - destruct (mat_eq_same (DIso x) (DIso y) I) as [b [E H]]. rewrite E, <- H. split; [intros [= ->]; auto|intros [_ ->]; auto].
Qed.

(*@ C07. The comparison raises ValueError exactly when the other operand is not a material of the same class; it
    never returns False for such an operand. @*)
Lemma t_C07_error : forall x o e,
  mat_eq x o = Err e <-> (e = ValueError /\ match o with OpMat y => ~ same_class x y | OpOther => True end).
Proof.
  intros x o e. destruct x as [x|x], o as [[y|y]|]; cbn; split; try discriminate;
  try (intros [= <-]; auto); try (intros [-> _]; reflexivity); tauto.
Qed.

Lemma Forall2_sym : forall l1 l2, Forall2 same_number l1 l2 -> Forall2 same_number l2 l1.
Proof. intros l1 l2 H; induction H; constructor; auto using same_number_sym. Qed.
Lemma Forall2_tr : forall l1 l2 l3, Forall2 same_number l1 l2 -> Forall2 same_number l2 l3 -> Forall2 same_number l1 l3.
Proof.
  intros l1 l2 l3 H; revert l3; induction H; intros l3 H3; inversion H3; subst; constructor; eauto using same_number_trans.
Qed.

(*@ C07. Equality is symmetric (including the exception) @*)
Lemma t_C07_symmetric : forall x y, mat_eq x (OpMat y) = mat_eq y (OpMat x).
Proof.
  intros x y.
  destruct (mat_eq x (OpMat y)) as [[|]|e] eqn:E; symmetry.
  - apply t_C07_exact. apply t_C07_exact in E. destruct E as [A B]. split; [|apply Forall2_sym; exact B].
    destruct x, y; cbn in *; tauto.
  - destruct (mat_eq y (OpMat x)) as [[|]|e] eqn:E2; auto.
    + apply t_C07_exact in E2. destruct E2 as [A B]. assert (mat_eq x (OpMat y) = Ok true); [|congruence].
      apply t_C07_exact. split; [|apply Forall2_sym; exact B]. destruct x, y; cbn in *; tauto.
    + apply t_C07_error in E2. destruct x, y; cbn in *; try tauto; discriminate.
  - apply t_C07_error in E. destruct E as [-> A]. apply t_C07_error. split; auto. destruct x, y; cbn in *; tauto.
Qed.

(*@ C07. and transitive. @*)
Lemma t_C07_transitive : forall x y z,
  mat_eq x (OpMat y) = Ok true -> mat_eq y (OpMat z) = Ok true -> mat_eq x (OpMat z) = Ok true.
Proof.
  intros x y z A B. apply t_C07_exact in A. apply t_C07_exact in B. apply t_C07_exact.
  destruct A as [A1 A2], B as [B1 B2]. split; [destruct x, y, z; cbn in *; tauto|]. eapply Forall2_tr; eauto.
Qed.

(*@ C07. It is reflexive exactly for materials without a NaN attribute: a material with a NaN is not equal to itself. @*)
Lemma t_C07_reflexive : forall x, mat_eq x (OpMat x) = Ok true <-> ~ In fnan (numbers x).
Proof.
  intros x. rewrite t_C07_exact. unfold same_material.
  assert (G : forall l, Forall2 same_number l l <-> ~ In fnan l).
  { induction l as [|a l IH]; cbn; [split; [tauto|constructor]|]. split.
    - intros H; inversion H; subst. intros [->|C]; [|tauto].
      match goal with H : same_number _ _ |- _ => apply same_number_refl in H; congruence end.
    - intros H. constructor; [apply same_number_refl; intros ->; tauto|tauto]. }
  rewrite G. split; [tauto|]. intros H; split; [destruct x; exact I|exact H].
Qed.

(*@ C07. Zeros of either sign are equal; a material differing only in the sign of a zero allowable is equal. @*)
Example t_C07_example :
  mat_eq (DOrtho (FOMat fone fone fzero fone fone fzero fzero fzero fzero fzero fzero))
         (OpMat (DOrtho (FOMat fone fone fnzero fone fone fnzero fzero fzero fzero fzero fnzero))) = Ok true
  /\ mat_eq (DOrtho (FOMat fone fone fzero fone fone fzero fzero fzero fzero fnan fzero))
         (OpMat (DOrtho (FOMat fone fone fzero fone fone fzero fzero fzero fzero fnan fzero))) = Ok false.
Proof. split; vm_compute; reflexivity. Qed.

(** ** Equality of laminates *)

Lemma num_eq_same : forall a b, num_eq a b = true <-> same_angle a b.
Proof.
  intros [x|x] [y|y]; cbn [num_eq same_angle].
  - apply Z.eqb_eq.
  - unfold int_float_eq. rewrite andb_true_iff, Z.eqb_eq. split.
    + intros [A B]. apply f_is_integer_spec in A. destruct A as [z Hz]. rewrite (f_to_Z_spec _ _ Hz) in B. subst; exact Hz.
    + intros H. split; [apply f_is_integer_spec; eauto|symmetry; apply f_to_Z_spec; exact H].
  - unfold int_float_eq. rewrite andb_true_iff, Z.eqb_eq. split.
    + intros [A B]. apply f_is_integer_spec in A. destruct A as [z Hz]. rewrite (f_to_Z_spec _ _ Hz) in B. subst; exact Hz.
    + intros H. split; [apply f_is_integer_spec; eauto|symmetry; apply f_to_Z_spec; exact H].
  - apply feq_same.
Qed.

Lemma entry_cases : forall x y,
  (rich_eq pair_eq x y = Ok true /\ agree x y /\ ~ incomparable x y)
  \/ (rich_eq pair_eq x y = Ok false /\ ~ agree x y /\ ~ incomparable x y)
  \/ (rich_eq pair_eq x y = Err ValueError /\ incomparable x y /\ ~ agree x y).
Proof.
  intros x y. unfold rich_eq at 1 2 3, agree, incomparable.
  destruct (Nat.eqb_spec (oid x) (oid y)) as [E|E]; [left; tauto|].
  unfold pair_eq, agree_angle, agree_ply.
  set (ax := fst (oval x)); set (ay := fst (oval y)); set (px := snd (oval x)); set (py := snd (oval y)).
  assert (A : (rich_eq angle_eq ax ay = Ok true /\ (oid ax = oid ay \/ same_angle (oval ax) (oval ay)))
           \/ (rich_eq angle_eq ax ay = Ok false /\ ~ (oid ax = oid ay \/ same_angle (oval ax) (oval ay)))).
  { unfold rich_eq, angle_eq. destruct (Nat.eqb_spec (oid ax) (oid ay)) as [F|F]; [tauto|].
    pose proof (num_eq_same (oval ax) (oval ay)) as H. destruct (num_eq _ _).
    - left; tauto.
    - right. split; [reflexivity|]. intros [C|C]; [tauto|]. apply H in C; discriminate. }
  destruct A as [[-> A]|[-> A]]; cbn [bind].
  2: right; left; tauto.
  unfold rich_eq, ply_eq. destruct (Nat.eqb_spec (oid px) (oid py)) as [F|F]; [left; tauto|].
  destruct (mat_eq (oval px) (OpMat (oval py))) as [[|]|e] eqn:M.
  - left. pose proof M as M'. apply t_C07_exact in M. split; [reflexivity|]. split; [tauto|]. intros [_ [_ [_ C]]]. destruct M; tauto.
  - right; left. split; [reflexivity|]. split.
    + intros [C|[_ [C|C]]]; try tauto. apply t_C07_exact in C. congruence.
    + intros [_ [_ [_ C]]]. assert (mat_eq (oval px) (OpMat (oval py)) = Err ValueError); [|congruence].
      apply t_C07_error. auto.
  - right; right. pose proof M as M'. apply t_C07_error in M. destruct M as [-> M]. split; [reflexivity|]. split; [tauto|].
    intros [C|[_ [C|C]]]; try tauto. destruct C; tauto.
Qed.

Lemma entries_cases : forall l1 l2, List.length l1 = List.length l2 ->
  (entries_eq l1 l2 = Ok true <-> Forall2 agree l1 l2) /\
  (forall e, entries_eq l1 l2 = Err e <->
     e = ValueError /\ exists k x y, nth_error l1 k = Some x /\ nth_error l2 k = Some y /\
        Forall2 agree (firstn k l1) (firstn k l2) /\ incomparable x y).
Proof.
  induction l1 as [|x l1 IH]; intros [|y l2] L; try discriminate.
  - cbn. split; [split; [constructor|reflexivity]|].
    intros e; split; [discriminate|]. intros [_ [k [x [y [A _]]]]]. destruct k; discriminate.
  - injection L as L. destruct (IH l2 L) as [I1 I2]. cbn [entries_eq].
    destruct (entry_cases x y) as [[E [A N]]|[[E [A N]]|[E [A N]]]]; rewrite E; cbn [bind].
    + split.
      * rewrite I1. split; [constructor; auto|]. intros H; inversion H; auto.
      * intros e. rewrite I2. split.
        -- intros [-> [k [x' [y' [B [C [D F]]]]]]]. split; auto. exists (S k), x', y'. repeat split; auto. cbn; constructor; auto.
           all: destruct F as [? [? [? ?]]]; assumption.
        -- intros [-> [k [x' [y' [B [C [D F]]]]]]]. split; auto. destruct k as [|k]; cbn in B, C.
           ++ injection B as ->. injection C as ->. tauto.
           ++ exists k, x', y'. cbn in D. inversion D; subst. auto.
    + split.
      * split; [discriminate|]. intros H; inversion H; tauto.
      * intros e. split; [discriminate|]. intros [-> [k [x' [y' [B [C [D F]]]]]]]. destruct k as [|k]; cbn in B, C.
        -- injection B as ->. injection C as ->. tauto.
        -- cbn in D. inversion D; tauto.
    + split.
      * split; [discriminate|]. intros H; inversion H; tauto.
      * intros e. split.
        -- intros [= <-]. split; auto. exists 0, x, y. cbn. repeat split; auto; apply A.
        -- intros [-> _]. reflexivity.
Qed.

(*@ C22. Two laminates compare equal exactly when they have the same number of plies and, ply by ply, the same
    (identical or equal) angle and the same (identical or equal) ply. @*)
Lemma t_C22_exact : forall l1 l2, lam_eq l1 (Some l2) = Ok true <-> Forall2 agree l1 l2.
Proof.
  intros l1 l2. unfold lam_eq, layup_eq. destruct (Nat.eqb_spec (List.length l1) (List.length l2)) as [E|E].
  - apply entries_cases; exact E.
  - split; [discriminate|]. intros H. elim E. clear -H. induction H; cbn; auto.
Qed.

(*@ C22. It raises exactly when, at the first ply where the laminates differ, the angles agree but one ply is
    orthotropic and the other isotropic (and the laminates have equally many plies); the exception is ValueError. @*)
Lemma t_C22_raises : forall l1 l2 e,
  lam_eq l1 (Some l2) = Err e <->
  (e = ValueError /\ List.length l1 = List.length l2 /\
   exists k x y, nth_error l1 k = Some x /\ nth_error l2 k = Some y /\
     Forall2 agree (firstn k l1) (firstn k l2) /\ incomparable x y).
Proof.
  intros l1 l2 e. unfold lam_eq, layup_eq. destruct (Nat.eqb_spec (List.length l1) (List.length l2)) as [E|E].
  - destruct (entries_cases l1 l2 E) as [_ H]. rewrite H. tauto.
  - split; [discriminate|]. tauto.
Qed.

(*@ C22. With plies of one class the comparison always returns a bool. @*)
Lemma t_C22_one_class : forall (l1 l2 : list entry) d,
  Forall (fun x : entry => same_class (oval (snd (oval x))) d) l1 ->
  Forall (fun x : entry => same_class (oval (snd (oval x))) d) l2 ->
  exists b, lam_eq l1 (Some l2) = Ok b /\ (b = true <-> Forall2 agree l1 l2).
Proof.
  intros l1 l2 d H1 H2. destruct (lam_eq l1 (Some l2)) as [b|e] eqn:E.
  - exists b. split; [reflexivity|]. pose proof (t_C22_exact l1 l2) as X. split.
    + intros ->. apply X. exact E.
    + intros H. apply X in H. congruence.
  - apply t_C22_raises in E. destruct E as [_ [_ [k [x [y [A [B [_ [_ [_ [_ C]]]]]]]]]]].
    apply nth_error_In in A, B. rewrite Forall_forall in H1, H2. specialize (H1 _ A). specialize (H2 _ B).
    cbn in H1, H2. elim C. destruct (oval (snd (oval x))), (oval (snd (oval y))), d; cbn in *; tauto.
Qed.

(*@ C22. A laminate always equals itself, even with NaN angles or plies (identity is tested first). @*)
Lemma t_C22_self : forall l, lam_eq l (Some l) = Ok true.
Proof.
  intros l. apply t_C22_exact. induction l; constructor; auto. left; reflexivity.
Qed.

(*@ C22. Laminates built from lamination parameters have an empty layup, so all of them compare equal, whatever
    their parameters and thickness; they equal an angle laminate exactly when that one has no plies. @*)
Lemma t_C22_lamination_parameters : forall l, lam_eq [] (Some l) = Ok (match l with [] => true | _ => false end)
  /\ lam_eq l (Some []) = Ok (match l with [] => true | _ => false end).
Proof. intros [|x l]; split; reflexivity. Qed.

(*@ C22. A laminate is unequal to everything that is not a laminate; no exception. @*)
Lemma t_C22_other : forall l, lam_eq l None = Ok false.
Proof. reflexivity. Qed.

(*@ C22, example: [0, 90] with int and float angles and equal but distinct plies; and a comparison that raises. @*)
Example t_C22_example :
  let o := DOrtho (FOMat fone fone fzero fone fone fzero fzero fzero fzero fzero fzero) in
  let i := DIso (FIMat fone fzero fone fone fzero fzero fzero) in
  lam_eq [Obj 1 (Obj 2 (NInt 0), Obj 3 o); Obj 4 (Obj 5 (NInt 90), Obj 3 o)]
         (Some [Obj 6 (Obj 7 (NFloat fnzero), Obj 8 o); Obj 9 (Obj 10 (NFloat (f_of_Z 90)), Obj 8 o)]) = Ok true
  /\ lam_eq [Obj 1 (Obj 2 (NInt 0), Obj 3 o)] (Some [Obj 6 (Obj 2 (NInt 0), Obj 8 i)]) = Err ValueError
  /\ lam_eq [Obj 1 (Obj 2 (NInt 0), Obj 3 o)] (Some [Obj 6 (Obj 7 (NInt 45), Obj 8 i)]) = Ok false.
Proof. cbv zeta. repeat split; vm_compute; reflexivity. Qed.
