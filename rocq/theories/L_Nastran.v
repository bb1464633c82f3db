(** Lemmas on the layup-string reader. *)
From Coq Require Import ZArith NArith Bool String Ascii DecimalString List DecimalNat Lia.
From Verif Require Import M_Py M_Float M_Nastran S_Nastran.
Import ListNotations.
Open Scope char_scope.
Open Scope list_scope.

Notation rev := List.rev.

(** *** characters *)
Lemma remove_pm_cons c t : c <> "\" -> remove_pm (c :: t) = c :: remove_pm t.
Proof. destruct c as [b0 b1 b2 b3 b4 b5 b6 b7]. intros H.
  destruct b0, b1, b2, b3, b4, b5, b6, b7; try reflexivity. exfalso; apply H; reflexivity. Qed.
Lemma has_pm_cons c t : c <> "\" -> has_pm (c :: t) = has_pm t.
Proof. destruct c as [b0 b1 b2 b3 b4 b5 b6 b7]. intros H.
  destruct b0, b1, b2, b3, b4, b5, b6, b7; try reflexivity. exfalso; apply H; reflexivity. Qed.

Lemma remove_pm_none l : ~ In "\" l -> remove_pm l = l.
Proof. induction l as [|c t IH]; intros H; [reflexivity|].
  rewrite remove_pm_cons; [rewrite IH; [reflexivity|]|]; intros E; apply H; [right; exact E|left; exact E]. Qed.
Lemma has_pm_none l : ~ In "\" l -> has_pm l = false.
Proof. induction l as [|c t IH]; intros H; [reflexivity|].
  rewrite has_pm_cons; [apply IH|]; intros E; apply H; [right; exact E|left; exact E]. Qed.
Lemma remove_pm_one a b : ~ In "\" a -> ~ In "\" b -> remove_pm (a ++ T "\pm" ++ b) = a ++ b.
Proof. induction a as [|c t IH]; intros Ha Hb.
  - cbn. apply remove_pm_none, Hb.
  - cbn [app]. rewrite remove_pm_cons by (intros E; apply Ha; left; exact E).
    f_equal. apply IH; [intros E; apply Ha; right; exact E|exact Hb]. Qed.
Lemma has_pm_one a b : ~ In "\" a -> has_pm (a ++ T "\pm" ++ b) = true.
Proof. induction a as [|c t IH]; intros Ha.
  - reflexivity.
  - cbn [app]. rewrite has_pm_cons by (intros E; apply Ha; left; exact E).
    apply IH; intros E; apply Ha; right; exact E. Qed.

Lemma remove_char_none c l : ~ In c l -> remove_char c l = l.
Proof. unfold remove_char. induction l as [|x t IH]; intros H; [reflexivity|]. cbn.
  destruct (Ascii.eqb_spec x c) as [E|E]; [exfalso; apply H; left; exact E|]. cbn. f_equal. apply IH.
  intros K; apply H; right; exact K. Qed.
Lemma remove_char_app c a b : remove_char c (a ++ b) = remove_char c a ++ remove_char c b.
Proof. apply filter_app. Qed.
Lemma remove_char_in c x l : In x (remove_char c l) <-> In x l /\ x <> c.
Proof. unfold remove_char. rewrite filter_In. destruct (Ascii.eqb_spec x c); cbn; intuition congruence. Qed.

Lemma split_on_none c l : ~ In c l -> split_on c l = [l].
Proof. induction l as [|x t IH]; intros H; [reflexivity|]. cbn.
  destruct (Ascii.eqb_spec x c) as [E|E]; [exfalso; apply H; left; exact E|].
  rewrite IH; [reflexivity|]. intros K; apply H; right; exact K. Qed.
Lemma split_on_app c a b : ~ In c a -> split_on c (a ++ c :: b) = a :: split_on c b.
Proof. induction a as [|x t IH]; intros H; cbn.
  - rewrite Ascii.eqb_refl. reflexivity.
  - destruct (Ascii.eqb_spec x c) as [E|E]; [exfalso; apply H; left; exact E|].
    rewrite IH; [reflexivity|]. intros K; apply H; right; exact K. Qed.
Lemma split_on_nonempty c l : split_on c l <> [].
Proof. induction l as [|x t IH]; cbn; [discriminate|]. destruct (Ascii.eqb x c); [discriminate|].
  destruct (split_on c t); [congruence|discriminate]. Qed.
(** the last piece of a text ending in [x] ends in [x] *)
Lemma split_on_last c l x : x <> c ->
  exists init p, split_on c (l ++ [x]) = init ++ [p ++ [x]].
Proof. intros H. induction l as [|y t IH]; cbn.
  - destruct (Ascii.eqb_spec x c); [contradiction|]. exists [], []. reflexivity.
  - destruct IH as (init & p & E). destruct (Ascii.eqb y c).
    + exists ([] :: init), p. rewrite E. reflexivity.
    + rewrite E. destruct init as [|q init].
      * exists [], (y :: p). reflexivity.
      * exists ((y :: q) :: init), p. reflexivity. Qed.

(** *** strip *)
Lemma lstrip_blank a b : blank a -> lstrip (a ++ b) = lstrip b.
Proof. unfold blank. induction a as [|c t IH]; intros H; [reflexivity|]. cbn in *.
  apply andb_true_iff in H. destruct H as [H1 H2]. rewrite H1. apply IH, H2. Qed.
Lemma lstrip_cons c t : is_space c = false -> lstrip (c :: t) = c :: t.
Proof. intros H. cbn. rewrite H. reflexivity. Qed.
Lemma blank_rev a : blank a -> blank (rev a).
Proof. unfold blank. rewrite !forallb_forall. intros H x Hx. apply H. apply in_rev. exact Hx. Qed.
Lemma blank_app a b : blank a -> blank b -> blank (a ++ b).
Proof. unfold blank. intros H K. rewrite forallb_app, H, K. reflexivity. Qed.

Lemma strip_core a x m y b : blank a -> blank b -> is_space x = false -> is_space y = false ->
  strip (a ++ (x :: m ++ [y]) ++ b) = x :: m ++ [y].
Proof. intros Ha Hb Hx Hy. unfold strip. rewrite lstrip_blank by exact Ha.
  cbn [app]. rewrite lstrip_cons by exact Hx.
  change (x :: (m ++ [y]) ++ b) with ((x :: m ++ [y]) ++ b).
  rewrite rev_app_distr, lstrip_blank by (apply blank_rev, Hb).
  replace (rev (x :: m ++ [y])) with (y :: rev (x :: m)).
  2:{ cbn. rewrite rev_app_distr. reflexivity. }
  rewrite lstrip_cons by exact Hy. cbn. rewrite rev_app_distr, rev_involutive. reflexivity. Qed.
Lemma strip_one a x b : blank a -> blank b -> is_space x = false -> strip (a ++ [x] ++ b) = [x].
Proof. intros Ha Hb Hx. unfold strip. rewrite lstrip_blank by exact Ha. cbn [app]. rewrite lstrip_cons by exact Hx.
  cbn [rev]. rewrite lstrip_blank by (apply blank_rev, Hb). rewrite lstrip_cons by exact Hx. reflexivity. Qed.

(** core texts: first and last characters are not blank *)
Definition tight (t : text) : Prop := t <> [] /\ is_space (hd "a" t) = false /\ is_space (last t "a") = false.
Lemma strip_tight a t b : blank a -> blank b -> tight t -> strip (a ++ t ++ b) = t.
Proof. intros Ha Hb (H1 & H2 & H3). destruct t as [|x m]; [congruence|].
  destruct m as [|z m] using rev_ind.
  - apply strip_one; assumption.
  - clear IHm. apply strip_core; try assumption.
    change (x :: m ++ [z]) with ((x :: m) ++ [z]) in H3. rewrite last_last in H3. exact H3. Qed.
Lemma forall_tight t : t <> [] -> (forall c, In c t -> is_space c = false) -> tight t.
Proof. intros H K. repeat split; [exact H| |].
  - destruct t; [congruence|]. apply K. left. reflexivity.
  - apply K. destruct t as [|z t] using rev_ind; [congruence|]. rewrite last_last. apply in_app_iff. right. left. reflexivity. Qed.
Lemma strip_id t : tight t -> strip t = t.
Proof. intros H. rewrite <- (app_nil_r t) at 1. change (t ++ []) with ([] ++ t ++ []).
  apply strip_tight; [reflexivity|reflexivity|exact H]. Qed.

Lemma lstrip_decomp l : exists a, blank a /\ l = a ++ lstrip l.
Proof. induction l as [|c t (a & Ha & E)].
  - exists []. split; reflexivity.
  - cbn. destruct (is_space c) eqn:K.
    + exists (c :: a). split; [unfold blank in *; cbn; rewrite K; exact Ha|]. cbn. f_equal. exact E.
    + exists []. split; reflexivity. Qed.
Lemma lstrip_hd l : lstrip l = [] \/ is_space (hd "a" (lstrip l)) = false.
Proof. induction l as [|c t IH]; [left; reflexivity|]. cbn. destruct (is_space c) eqn:K; [exact IH|right; exact K]. Qed.
(** a strip removes blanks only, and keeps an end that is not blank *)
Lemma strip_snoc l x : is_space x = false -> exists p, strip (l ++ [x]) = p ++ [x].
Proof. intros H. unfold strip.
  destruct (lstrip_decomp (l ++ [x])) as (a & Ha & E).
  assert (K : exists q, lstrip (l ++ [x]) = q ++ [x]).
  { clear -H. induction l as [|c t (q & IH)]; cbn.
    - rewrite H. exists []. reflexivity.
    - destruct (is_space c); [exists q; exact IH|]. exists (c :: t). reflexivity. }
  destruct K as (q & K). rewrite K, rev_app_distr. cbn [rev app]. rewrite lstrip_cons by exact H.
  cbn. exists (rev (rev q)). reflexivity. Qed.

(** *** decimal numerals *)


Lemma digits_uint d : forall acc : nat,
  digits (Z.of_nat acc) (T (NilEmpty.string_of_uint d)) = Some (Z.of_nat (Nat.of_uint_acc d acc)).
Proof. induction d; intros acc; cbn [NilEmpty.string_of_uint T list_ascii_of_string digits];
  [reflexivity|..];
  match goal with |- context[digit ?c] => let v := eval vm_compute in (digit c) in change (digit c) with v end; cbv iota beta;
  cbn [Nat.of_uint_acc]; rewrite <- IHd; f_equal; rewrite ?Nat2Z.inj_succ, Nat.tail_mul_spec, Nat2Z.inj_mul; lia. Qed.

Lemma unsigned_dec n : unsigned (dec n) = Some (Z.of_nat n).
Proof. unfold dec. rewrite <- (DecimalNat.Unsigned.of_to n) at 2. unfold Nat.of_uint.
  destruct (Nat.to_uint n) as [|d|d|d|d|d|d|d|d|d|d];
  [reflexivity|..]; cbn [NilZero.string_of_uint NilEmpty.string_of_uint T list_ascii_of_string unsigned];
  match goal with |- context[digit ?c] => let v := eval vm_compute in (digit c) in change (digit c) with v end; cbv iota beta;
  cbn [Nat.of_uint_acc];
  match goal with |- _ = Some (Z.of_nat (Nat.of_uint_acc d ?k)) => rewrite <- (digits_uint d k) end; reflexivity. Qed.

Definition is_digit (c : ascii) : bool := match digit c with Some _ => true | None => false end.
Lemma dec_uint_digits d : forallb is_digit (T (NilEmpty.string_of_uint d)) = true.
Proof. induction d; [reflexivity|..]; cbn [NilEmpty.string_of_uint T list_ascii_of_string forallb];
  apply andb_true_iff; (split; [reflexivity|exact IHd]). Qed.
Lemma dec_digits n : forallb is_digit (dec n) = true.
Proof. unfold dec. destruct (Nat.to_uint n); [reflexivity|..]; apply (dec_uint_digits (_ _)). Qed.
Lemma dec_nonempty n : dec n <> [].
Proof. unfold dec. destruct (Nat.to_uint n); discriminate. Qed.

Lemma digit_cases c : is_digit c = true -> In c (T "0123456789").
Proof. destruct c as [b0 b1 b2 b3 b4 b5 b6 b7].
  destruct b0, b1, b2, b3, b4, b5, b6, b7; intros H; vm_compute in H; try discriminate H; vm_compute; intuition. Qed.
Lemma dec_in n c : In c (dec n) -> In c (T "0123456789").
Proof. intros H. apply digit_cases. exact (proj1 (forallb_forall _ _) (dec_digits n) c H). Qed.

Ltac notin_dec := let H := fresh in intros H; apply dec_in in H; vm_compute in H; intuition discriminate.

Lemma dec_tight n : tight (dec n).
Proof. apply forall_tight; [apply dec_nonempty|]. intros c H. apply dec_in in H. cbn in H.
  repeat (destruct H as [<-|H]; [reflexivity|]). destruct H. Qed.

Lemma int_of_blank_dec a n b : blank a -> blank b -> int_of (a ++ dec n ++ b) = Some (Z.of_nat n).
Proof. intros Ha Hb. unfold int_of. rewrite strip_tight by (try assumption; apply dec_tight).
  pose proof (unsigned_dec n) as U. pose proof (dec_in n) as I.
  destruct (dec n) as [|c t]; [discriminate U|].
  assert (Hc : In c (T "0123456789")) by (apply I; left; reflexivity).
  destruct (Ascii.eqb_spec c "+") as [->|_]; [vm_compute in Hc; intuition discriminate|].
  destruct (Ascii.eqb_spec c "-") as [->|_]; [vm_compute in Hc; intuition discriminate|]. exact U. Qed.
Lemma int_of_dec n : int_of (dec n) = Some (Z.of_nat n).
Proof. rewrite <- (int_of_blank_dec [] n []) by reflexivity. rewrite app_nil_r. reflexivity. Qed.

(** *** no digit, no number *)
Lemma digits_bad c l : is_digit c = false -> c <> "_" -> In c l -> forall acc, digits acc l = None.
Proof. intros Hc Hu.
  assert (G : forall n l, (List.length l <= n)%nat -> In c l -> forall acc, digits acc l = None).
  2:{ intros H acc. apply (G (List.length l)); [lia|exact H]. }
  clear l. induction n as [|n IH]; intros l Hl Hin acc.
  - destruct l; [destruct Hin|cbn in Hl; lia].
  - destruct l as [|x t]; [destruct Hin|]. cbn in Hl.
    destruct Hin as [->|Hin].
    + cbn. unfold is_digit in Hc. destruct (digit c); [discriminate|].
      destruct (Ascii.eqb_spec c "_"); [contradiction|reflexivity].
    + cbn [digits]. destruct (digit x) as [d|]; [apply IH; [lia|exact Hin]|].
      destruct (Ascii.eqb x "_"); [|reflexivity].
      destruct t as [|y t]; [destruct Hin|]. destruct Hin as [->|Hin].
      * unfold is_digit in Hc. destruct (digit c); [discriminate|reflexivity].
      * destruct (digit y); [|reflexivity]. apply IH; [cbn in Hl; lia|exact Hin]. Qed.
Lemma unsigned_bad c l : is_digit c = false -> c <> "_" -> In c l -> unsigned l = None.
Proof. intros Hc Hu Hin. destruct l as [|x t]; [destruct Hin|]. cbn.
  destruct Hin as [->|Hin].
  - unfold is_digit in Hc. destruct (digit c); [discriminate|reflexivity].
  - destruct (digit x); [|reflexivity]. apply (digits_bad c); assumption. Qed.
Lemma int_of_S l : int_of (l ++ ["S"]) = None.
Proof. unfold int_of. destruct (strip_snoc l "S" eq_refl) as (p & ->).
  assert (G : forall q, unsigned (q ++ ["S"]) = None).
  { intros q. apply (unsigned_bad "S"); [reflexivity|discriminate|]. apply in_app_iff. right. left. reflexivity. }
  destruct p as [|c p]; [reflexivity|]. cbn [app].
  destruct (Ascii.eqb c "+"); [apply G|]. destruct (Ascii.eqb c "-"); [rewrite G; reflexivity|]. apply (G (c :: p)). Qed.

(** *** characters of printed units *)
Lemma blank_notin c t : is_space c = false -> blank t -> ~ In c t.
Proof. unfold blank. rewrite forallb_forall. intros H K Hin. rewrite (K c Hin) in H. discriminate. Qed.
Lemma plain_notin c t : plain_char c = false -> plain t -> ~ In c t.
Proof. intros H [_ K] Hin. rewrite forallb_forall in K. rewrite (K c Hin) in H. discriminate. Qed.
Lemma count_notin c k : ~ In c (T "_{}0123456789") -> ~ In c (print_count k).
Proof. intros H K. apply H. destruct k as [|n|n]; cbn in K.
  - destruct K.
  - destruct K as [<-|K]; [left; reflexivity|]. apply dec_in in K. right. right. right. exact K.
  - destruct K as [<-|[<-|K]]; [left; reflexivity|right; left; reflexivity|].
    apply in_app_iff in K. destruct K as [K|[<-|[]]]; [|right; right; left; reflexivity].
    apply dec_in in K. right. right. right. exact K. Qed.

Ltac notin_list := let H := fresh in intros H; vm_compute in H; intuition discriminate.

Section Units.
Variable float_of : text -> option f64.

Lemma unit_notin u c : wf_unit float_of u ->
  is_space c = false -> plain_char c = false -> ~ In c (T "_{}0123456789\pm") -> ~ In c (print_unit u).
Proof. intros (H1 & H2 & H3 & _) Hs Hp Hc. unfold print_unit. rewrite !in_app_iff.
  intros [K|[K|[K|[K|K]]]].
  - revert K. apply blank_notin; assumption.
  - destruct (u_pm u); [|destruct K]. apply Hc. apply in_app_iff with (l := T "_{}0123456789") (l' := T "\pm"). right. exact K.
  - revert K. apply plain_notin; assumption.
  - revert K. apply count_notin. intros K. apply Hc. apply in_app_iff with (l := T "_{}0123456789") (l' := T "\pm"). left. exact K.
  - revert K. apply blank_notin; assumption. Qed.

Lemma plain_tight t : plain t -> tight t.
Proof. intros [H K]. apply forall_tight; [exact H|]. intros c Hc. rewrite forallb_forall in K. specialize (K c Hc).
  unfold plain_char in K. destruct (is_space c); [discriminate K|reflexivity]. Qed.

Lemma core_tight t k : plain t -> tight (t ++ print_count k).
Proof. intros [H K]. apply forall_tight.
  - intros E. apply app_eq_nil in E. destruct E; contradiction.
  - intros c Hc. apply in_app_iff in Hc. destruct Hc as [Hc|Hc].
    + rewrite forallb_forall in K. specialize (K c Hc). unfold plain_char in K. destruct (is_space c); [discriminate K|reflexivity].
    + destruct (is_space c) eqn:E; [|reflexivity]. exfalso. revert Hc. apply count_notin.
      intros Hc. vm_compute in Hc. repeat (destruct Hc as [<-|Hc]; [vm_compute in E; discriminate E|]). destruct Hc. Qed.

Lemma rep_concat {A} n (l : list A) : rep (Z.of_nat n) l = concat (repeat l n).
Proof. unfold rep. rewrite Nat2Z.id. induction n as [|n IH]; [reflexivity|]. cbn. f_equal. exact IH. Qed.
Lemma rep_single {A} n (x : A) : rep (Z.of_nat n) [x] = repeat x n.
Proof. unfold rep. rewrite Nat2Z.id. induction n as [|n IH]; [reflexivity|]. cbn. f_equal. exact IH. Qed.
Lemma pm_from_map k x : forall i, pm_from i k x = map (fun i => if Nat.even i then x else fopp x) (seq i k).
Proof. induction k as [|k IH]; intros i; [reflexivity|]. cbn [pm_from seq map]. f_equal. apply IH. Qed.

Lemma braces n : remove_char "}" (remove_char "{" (T "{" ++ dec n ++ T "}")) = dec n.
Proof. rewrite !remove_char_app, (remove_char_none "{" (dec n)) by notin_dec.
  rewrite (remove_char_none "}" (dec n)) by notin_dec. cbn. apply app_nil_r. Qed.
Lemma no_braces n : remove_char "}" (remove_char "{" (dec n)) = dec n.
Proof. rewrite (remove_char_none "{" (dec n)) by notin_dec. apply remove_char_none. notin_dec. Qed.

Lemma build_unit_ok sp u : blank sp -> wf_unit float_of u ->
  build_stack_unit float_of (sp ++ print_unit u) = Ok (unit_plies u).
Proof. intros Hsp (H1 & H2 & H3 & H4). unfold build_stack_unit.
  set (core := u_tok u ++ print_count (u_count u)).
  assert (Hcb : ~ In "\" (core ++ u_right u)).
  { unfold core. rewrite !in_app_iff. intros [[K|K]|K]; revert K;
    [apply plain_notin|apply count_notin; notin_list|apply blank_notin]; trivial. }
  assert (Hlb : ~ In "\" (sp ++ u_left u)).
  { rewrite in_app_iff. intros [K|K]; revert K; apply blank_notin; trivial. }
  assert (E : remove_pm (sp ++ print_unit u) = (sp ++ u_left u) ++ core ++ u_right u /\ has_pm (sp ++ print_unit u) = u_pm u).
  { unfold print_unit. rewrite (app_assoc sp), (app_assoc (u_tok u)). fold core. destruct (u_pm u).
    - split; [apply remove_pm_one|apply has_pm_one]; assumption.
    - cbn [app]. split; [apply remove_pm_none|apply has_pm_none]; rewrite in_app_iff; tauto. }
  destruct E as [-> ->].
  rewrite strip_tight; [|apply blank_app; assumption|assumption|apply core_tight; exact H3].
  unfold core, unit_plies. destruct (u_count u) as [|n|n]; cbn [print_count count_value].
  - rewrite app_nil_r, split_on_none by (apply plain_notin; trivial). rewrite H4. cbn [or_value_error bind].
    destruct (u_pm u); reflexivity.
  - rewrite split_on_app by (apply plain_notin; trivial). rewrite split_on_none by notin_dec.
    rewrite H4. cbn [or_value_error bind]. rewrite no_braces, int_of_dec. cbn [or_value_error bind].
    unfold build_pm_unit. rewrite Nat2Z.id, rep_single, pm_from_map. destruct (u_pm u); reflexivity.
  - change (T "_{" ++ dec n ++ T "}") with ("_" :: (T "{" ++ dec n ++ T "}")).
    rewrite split_on_app by (apply plain_notin; trivial). rewrite split_on_none.
    2:{ rewrite !in_app_iff. intros [K|[K|K]]; revert K; [notin_list|notin_dec|notin_list]. }
    rewrite H4. cbn [or_value_error bind]. rewrite braces, int_of_dec. cbn [or_value_error bind].
    unfold build_pm_unit. rewrite Nat2Z.id, rep_single, pm_from_map. destruct (u_pm u); reflexivity. Qed.

(** *** the loop *)
Lemma bloop_app l1 l2 : forall st, bloop float_of st (l1 ++ l2) = (st' <- bloop float_of st l1 ;; bloop float_of st' l2).
Proof. induction l1 as [|c t IH]; intros st; [reflexivity|]. cbn. destruct (bstep float_of st c); [apply IH|reflexivity]. Qed.

Definition quiet (l : text) : Prop := ~ In "(" l /\ ~ In ")" l /\ ~ In "/" l.
Lemma bloop_quiet l : quiet l -> forall U u b cur i m,
  bloop float_of (BState U u b cur i m) l = Ok (BState U u b (cur ++ l) i m).
Proof. induction l as [|c t IH]; intros (H1 & H2 & H3) U u b cur i m; [rewrite app_nil_r; reflexivity|].
  cbn [bloop]. unfold bstep at 1. cbn [b_unities b_unity b_block b_current b_in_block b_mult].
  destruct (Ascii.eqb_spec c "(") as [E|_]; [exfalso; apply H1; left; exact E|].
  destruct (Ascii.eqb_spec c ")") as [E|_]; [exfalso; apply H2; left; exact E|].
  destruct (Ascii.eqb_spec c "/") as [E|_]; [exfalso; apply H3; left; exact E|].
  cbn [andb bind]. rewrite IH.
  - rewrite <- app_assoc. reflexivity.
  - repeat split; intros K; [apply H1|apply H2|apply H3]; right; exact K. Qed.
Lemma quiet_app a b : quiet a -> quiet b -> quiet (a ++ b).
Proof. unfold quiet. rewrite !in_app_iff. tauto. Qed.
Lemma quiet_blank a : blank a -> quiet a.
Proof. intros H. repeat split; apply blank_notin; trivial. Qed.
Lemma quiet_unit u : wf_unit float_of u -> quiet (print_unit u).
Proof. intros H. repeat split; apply unit_notin; trivial; notin_list. Qed.
Lemma quiet_count k : quiet (print_count k).
Proof. repeat split; apply count_notin; notin_list. Qed.

Lemma times_of_ok k r : k <> CNone -> blank r -> times_of (print_count k ++ r) = Ok (Z.of_nat (count_value k)).
Proof. intros Hk Hr. unfold times_of.
  assert (E : remove_char "}" (remove_char "{" (remove_char "_" (print_count k ++ r))) = [] ++ dec (count_value k) ++ r).
  { rewrite !remove_char_app, !(remove_char_none _ r); try (intros K; revert K; try (rewrite !remove_char_in); apply blank_notin; trivial).
    cbn [app]. f_equal. destruct k as [|n|n]; [congruence|..]; cbn [print_count count_value].
    - change ("_" :: dec n) with (T "_" ++ dec n). rewrite remove_char_app, (remove_char_none "_" (dec n)) by notin_dec.
      change (remove_char "_" (T "_")) with (@nil ascii). apply no_braces.
    - rewrite !(remove_char_app "_"), (remove_char_none "_" (dec n)) by notin_dec.
      change (remove_char "_" (T "_{")) with (T "{"). change (remove_char "_" (T "}")) with (T "}"). apply braces. }
  rewrite E, int_of_blank_dec by (trivial; reflexivity). reflexivity. Qed.

Lemma group_inner us : Forall (wf_unit float_of) us -> forall sp u U x b,
  wf_unit float_of u -> blank sp ->
  exists x', bloop float_of (BState U x b sp true false) (join "/" (map print_unit (u :: us)) ++ [")"])
  = Ok (BState U x' (b ++ concat (map unit_plies (u :: us))) [] true true).
Proof. induction 1 as [|v us Hv Hus IH]; intros sp u U x b Hu Hsp.
  - exists (unit_plies u). cbn [map join]. rewrite bloop_app, bloop_quiet by (apply quiet_unit, Hu). cbn [bind bloop].
    unfold bstep. cbn [Ascii.eqb Bool.eqb b_unities b_unity b_block b_current b_in_block b_mult].
    rewrite build_unit_ok by assumption. cbn [bind concat]. rewrite app_nil_r. reflexivity.
  - cbn [map]. change (join "/" (print_unit u :: print_unit v :: map print_unit us)) with
      (print_unit u ++ "/" :: join "/" (map print_unit (v :: us))).
    rewrite <- app_assoc, bloop_app, bloop_quiet by (apply quiet_unit, Hu). cbn [bind app bloop].
    unfold bstep at 1. cbn [Ascii.eqb Bool.eqb b_unities b_unity b_block b_current b_in_block b_mult andb negb].
    rewrite build_unit_ok by assumption. cbn [bind].
    destruct (IH [] v U (unit_plies u) (b ++ unit_plies u) Hv eq_refl) as (x' & ->).
    exists x'. cbn [map concat]. rewrite !app_assoc. reflexivity. Qed.

Lemma item_loop it : wf_item float_of it -> forall U x, exists x',
  bloop float_of (BState U x [] [] false false) (print_item it ++ ["/"])
  = Ok (BState (U ++ item_plies it) x' [] [] false false).
Proof. destruct it as [u|l u us k r]; cbn [wf_item print_item item_plies].
  - intros Hu U x. exists []. rewrite bloop_app, bloop_quiet by (apply quiet_unit, Hu). cbn [bind bloop app].
    unfold bstep. cbn [Ascii.eqb Bool.eqb b_unities b_unity b_block b_current b_in_block b_mult andb negb].
    change (print_unit u) with ([] ++ print_unit u). rewrite build_unit_ok by (trivial; reflexivity). reflexivity.
  - intros (Hl & Hr & Hk & Hus) U x. inversion Hus as [|? ? Hu Hus']; subst.
    rewrite <- app_assoc, bloop_app, bloop_quiet by (apply quiet_blank, Hl). cbn [bind app bloop].
    unfold bstep at 1. cbn [Ascii.eqb Bool.eqb b_unities b_unity b_block b_current b_in_block b_mult andb negb bind].
    replace ((join "/" (map print_unit (u :: us)) ++ ")" :: print_count k ++ r) ++ ["/"])
      with ((join "/" (map print_unit (u :: us)) ++ [")"]) ++ (print_count k ++ r) ++ ["/"]).
    2:{ repeat (rewrite <- !app_assoc; cbn [app]). reflexivity. }
    rewrite bloop_app.
    destruct (group_inner us Hus' l u U x [] Hu Hl) as (x' & ->). cbn [bind app].
    rewrite bloop_app, bloop_quiet by (apply quiet_app; [apply quiet_count|apply quiet_blank, Hr]). cbn [bind app bloop].
    unfold bstep. cbn [Ascii.eqb Bool.eqb b_unities b_unity b_block b_current b_in_block b_mult andb negb].
    rewrite times_of_ok by assumption. cbn [bind]. rewrite rep_concat. exists []. reflexivity. Qed.

Lemma items_loop its : Forall (wf_item float_of) its -> its <> [] -> forall U x, exists x',
  bloop float_of (BState U x [] [] false false) (join "/" (map print_item its) ++ ["/"])
  = Ok (BState (U ++ concat (map item_plies its)) x' [] [] false false).
Proof. induction 1 as [|i its Hi Hits IH]; intros Hne U x; [congruence|].
  destruct its as [|j its].
  - cbn [map join concat]. rewrite app_nil_r. apply item_loop, Hi.
  - cbn [map]. change (join "/" (print_item i :: print_item j :: map print_item its)) with
      (print_item i ++ "/" :: join "/" (map print_item (j :: its))).
    replace ((print_item i ++ "/" :: join "/" (map print_item (j :: its))) ++ ["/"])
      with ((print_item i ++ ["/"]) ++ (join "/" (map print_item (j :: its)) ++ ["/"])).
    2:{ repeat (rewrite <- !app_assoc; cbn [app]). reflexivity. }
    rewrite bloop_app. destruct (item_loop i Hi U x) as (x1 & ->). cbn [bind].
    destruct (IH ltac:(discriminate) (U ++ item_plies i) x1) as (x2 & ->).
    exists x2. cbn [map concat]. rewrite <- !app_assoc. reflexivity. Qed.

Lemma join_notin c l : c <> "/" -> (forall t, In t l -> ~ In c t) -> ~ In c (join "/" l).
Proof. intros Hc. induction l as [|t l IH]; intros H; [intros []|].
  destruct l as [|t2 l]; [apply H; left; reflexivity|].
  change (join "/" (t :: t2 :: l)) with (t ++ "/" :: join "/" (t2 :: l)). rewrite in_app_iff. intros [K|[K|K]].
  - revert K. apply H. left. reflexivity.
  - congruence.
  - revert K. apply IH. intros t' Ht'. apply H. right. exact Ht'. Qed.

Lemma item_notin it c : wf_item float_of it ->
  is_space c = false -> plain_char c = false -> ~ In c (T "_{}0123456789\pm") -> c <> "/" -> c <> "(" -> c <> ")" ->
  ~ In c (print_item it).
Proof. intros H Hs Hp Hc N1 N2 N3. destruct it as [u|l u us k r]; cbn [print_item wf_item] in *.
  - apply unit_notin; assumption.
  - destruct H as (Hl & Hr & _ & Hus). rewrite in_app_iff. intros [K|[K|K]].
    + revert K. apply blank_notin; assumption.
    + congruence.
    + apply in_app_iff in K. destruct K as [K|[K|K]].
      * revert K. apply join_notin; [exact N1|]. intros t Ht. apply in_map_iff in Ht. destruct Ht as (v & <- & Hv).
        apply unit_notin; try assumption. rewrite Forall_forall in Hus. apply Hus, Hv.
      * congruence.
      * apply in_app_iff in K. destruct K as [K|K]; revert K; [apply count_notin|apply blank_notin; assumption].
        intros K. apply Hc. apply in_app_iff with (l := T "_{}0123456789") (l' := T "\pm"). left. exact K. Qed.

Lemma last_char_snoc l x : last_char (l ++ [x]) = Ok x.
Proof. unfold last_char. rewrite rev_app_distr. reflexivity. Qed.

Lemma layup_ok l : wf_layup float_of l -> build_sequence float_of (print_layup l) = Ok (layup_plies l).
Proof. intros (Hl & Hr & Hne & Hits). unfold build_sequence, print_layup.
  set (body := join "/" (map print_item (l_items l))).
  assert (Hb : forall c, is_space c = false -> plain_char c = false -> ~ In c (T "_{}0123456789\pm") -> c <> "/" -> c <> "(" -> c <> ")" ->
                         ~ In c body).
  { intros c H1 H2 H3 H4 H5 H6. unfold body. apply join_notin; [exact H4|]. intros t Ht. apply in_map_iff in Ht.
    destruct Ht as (i & <- & Hi). apply item_notin; try assumption. rewrite Forall_forall in Hits. apply Hits, Hi. }
  assert (Hs : ~ In "s" body) by (apply Hb; trivial; try discriminate; notin_list).
  assert (Ho : ~ In "[" body) by (apply Hb; trivial; try discriminate; notin_list).
  assert (Hc : ~ In "]" body) by (apply Hb; trivial; try discriminate; notin_list).
  set (tail := if l_sym l then T "s" else []).
  assert (E : strip (l_left l ++ "[" :: body ++ "]" :: tail ++ l_right l) = "[" :: body ++ "]" :: tail).
  { replace (l_left l ++ "[" :: body ++ "]" :: tail ++ l_right l) with (l_left l ++ ("[" :: body ++ "]" :: tail) ++ l_right l).
    2:{ cbn [app]. rewrite <- !app_assoc. reflexivity. }
    apply strip_tight; try assumption. split; [discriminate|]. split; [reflexivity|].
    unfold tail. destruct (l_sym l).
    - change ("[" :: body ++ "]" :: T "s") with (("[" :: body) ++ ["]"] ++ ["s"]). rewrite app_assoc, last_last. reflexivity.
    - change ("[" :: body ++ ["]"]) with (("[" :: body) ++ ["]"]). rewrite last_last. reflexivity. }
  rewrite E.
  assert (E2 : last_char ("[" :: body ++ "]" :: tail) = Ok (if l_sym l then "s" else "]")).
  { unfold tail. destruct (l_sym l).
    - change ("[" :: body ++ "]" :: T "s") with (("[" :: body) ++ ["]"] ++ ["s"]). rewrite app_assoc. apply last_char_snoc.
    - change ("[" :: body ++ ["]"]) with (("[" :: body) ++ ["]"]). apply last_char_snoc. }
  rewrite E2. cbn [bind].
  assert (E3 : remove_char "s" ("[" :: body ++ "]" :: tail) = "[" :: body ++ ["]"]).
  { change ("[" :: body ++ "]" :: tail) with (T "[" ++ body ++ T "]" ++ tail).
    rewrite !remove_char_app, (remove_char_none "s" body) by exact Hs. unfold tail. destruct (l_sym l); reflexivity. }
  rewrite E3. cbn [first_char bind].
  assert (E4 : remove_char "]" (remove_char "[" ("[" :: body ++ ["]"])) = body).
  { change ("[" :: body ++ ["]"]) with (T "[" ++ body ++ T "]").
    rewrite !remove_char_app, (remove_char_none "[" body), (remove_char_none "]" body) by assumption. cbn. apply app_nil_r. }
  rewrite E4. destruct (items_loop (l_items l) Hits Hne [] []) as (x' & H). unfold bstate0. fold body in H. rewrite H.
  cbn [bind b_unities app]. unfold layup_plies. destruct (l_sym l); reflexivity. Qed.
End Units.
