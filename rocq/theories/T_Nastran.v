(** Proofs of layup strings and PCOMP cards *)
From Coq Require Import ZArith Bool String Ascii List Lia.
From Verif Require Import M_Py M_Float M_Nastran S_Nastran L_Float L_Nastran.
Import ListNotations.
Open Scope char_scope.
Open Scope list_scope.

Definition t_wf_example : wf_layup float_of_int_text docstring_layup.
Proof.
  repeat split; try discriminate;
  repeat (constructor; cbn [wf_item u_]); repeat split; try discriminate; try reflexivity. Qed.

(*@ C52: for every well-formed layup, whatever the conversion of number texts, [build_sequence] of its text returns
    exactly the denoted plies. @*)
Lemma t_C52_roundtrip : forall (float_of : text -> option f64) (l : layup),
  wf_layup float_of l -> build_sequence float_of (print_layup l) = Ok (layup_plies l).
Proof. exact layup_ok. Qed.

(*@ Example: the layup of the docstring is well-formed and is written as in the docstring. @*)
Example t_C52_roundtrip_ex : wf_layup float_of_int_text docstring_layup
  /\ print_layup docstring_layup = T "[\pm45_{1}/0_2/90/(0/90)_1]s"
  /\ List.length (layup_plies docstring_layup) = 12.
Proof. split; [exact t_wf_example|]. split; reflexivity. Qed.

(*@ C52: the brackets are optional: a text without blanks at its ends and not ending in s or S is read the same with
    and without them. @*)
Lemma t_C52_brackets_optional : forall float_of (t : text),
  t <> [] -> is_space (hd "a" t) = false -> is_space (last t "a") = false -> is_s (last t "a") = false -> ~ In "s" t ->
  build_sequence float_of (T "[" ++ t ++ T "]") = build_sequence float_of t.
Proof. intros f t H1 H2 H3 H4 H5. unfold build_sequence.
  rewrite (strip_id t) by (repeat split; assumption).
  rewrite (strip_id (T "[" ++ t ++ T "]")).
  2:{ split; [discriminate|]. split; [reflexivity|]. rewrite app_assoc. change (T "]") with ["]"]. rewrite last_last. reflexivity. }
  destruct (exists_last H1) as (p & x & E).
  assert (Hx : last t "a" = x) by (rewrite E; apply last_last). rewrite Hx in H4.
  replace (last_char (T "[" ++ t ++ T "]")) with (Ok "]").
  2:{ rewrite app_assoc. symmetry. apply last_char_snoc. }
  replace (last_char t) with (Ok x) by (rewrite E; symmetry; apply last_char_snoc).
  cbn [bind]. rewrite H4. rewrite !(remove_char_app "s"), (remove_char_none "s" t) by exact H5.
  destruct t as [|c t]; [congruence|]. cbn [first_char bind].
  change (remove_char "s" (T "[")) with (T "["). change (remove_char "s" (T "]")) with (T "]").
  change (T "[" ++ (c :: t) ++ T "]") with ("[" :: (c :: t) ++ T "]"). cbn [first_char bind].
  replace (remove_char "]" (remove_char "[" ("[" :: (c :: t) ++ T "]"))) with (remove_char "]" (remove_char "[" (c :: t))); [reflexivity|].
  change ("[" :: (c :: t) ++ T "]") with (T "[" ++ (c :: t) ++ T "]"). rewrite !remove_char_app.
  change (remove_char "]" (remove_char "[" (T "["))) with (@nil ascii).
  change (remove_char "]" (remove_char "[" (T "]"))) with (@nil ascii). rewrite app_nil_r. reflexivity. Qed.

(*@ Example: a text meeting the conditions. @*)
Example t_C52_brackets_optional_ex :
  let t := T "0_2/90" in
  t <> [] /\ is_space (hd "a" t) = false /\ is_space (last t "a") = false /\ is_s (last t "a") = false /\ ~ In "s" t
  /\ match build_sequence float_of_int_text t with Ok l => List.length l = 3 | Err _ => False end.
Proof. cbn zeta. repeat split; try discriminate.
  notin_list. Qed.

(*@ C52: a group must carry a count: without one the text is rejected with ValueError. @*)
Lemma t_C52_group_needs_count : forall (float_of : text -> option f64) (u : unit_) (us : list unit_),
  Forall (wf_unit float_of) (u :: us) ->
  build_sequence float_of (T "[(" ++ join "/" (map print_unit (u :: us)) ++ T ")]") = Err ValueError.
Proof. intros f u us H. inversion H as [|? ? Hu Hus]; subst.
  set (body := join "/" (map print_unit (u :: us))).
  assert (Hb : forall c, is_space c = false -> plain_char c = false -> ~ In c (T "_{}0123456789\pm") -> c <> "/" -> ~ In c body).
  { intros c H1 H2 H3 H4. unfold body. apply join_notin; [exact H4|]. intros t Ht. apply in_map_iff in Ht.
    destruct Ht as (i & <- & Hi). apply (unit_notin f); try assumption. rewrite Forall_forall in H. apply H, Hi. }
  unfold build_sequence.
  rewrite (strip_id (T "[(" ++ body ++ T ")]")).
  2:{ split; [discriminate|]. split; [reflexivity|].
      change (T ")]") with ([")"] ++ ["]"]). rewrite !app_assoc, last_last. reflexivity. }
  replace (last_char (T "[(" ++ body ++ T ")]")) with (Ok "]").
  2:{ change (T ")]") with ([")"] ++ ["]"]). rewrite !app_assoc. symmetry. apply last_char_snoc. }
  cbn [bind]. rewrite !remove_char_app, !(remove_char_none _ body); try (apply Hb; trivial; try discriminate; notin_list).
  change (remove_char "s" (T "[(")) with (T "[("). change (remove_char "s" (T ")]")) with (T ")]").
  change (first_char (T "[(" ++ body ++ T ")]")) with (Ok "["). cbn [bind].
  change (remove_char "]" (remove_char "[" (T "[("))) with (T "(").
  change (remove_char "]" (remove_char "[" (T ")]"))) with (T ")").
  replace ((T "(" ++ body ++ T ")") ++ ["/"]) with (T "(" ++ (body ++ [")"]) ++ ["/"]).
  2:{ rewrite <- !app_assoc. reflexivity. }
  cbn [T list_ascii_of_string app bloop]. unfold bstep at 1, bstate0. cbn [Ascii.eqb Bool.eqb bind b_unities b_unity b_block b_current b_mult].
  rewrite bloop_app. destruct (group_inner f us Hus [] u [] [] [] Hu eq_refl) as (x' & E). fold body in E. rewrite E. reflexivity. Qed.

(*@ Example: (0/90) without a count. @*)
Example t_C52_group_needs_count_ex : Forall (wf_unit float_of_int_text) [u_ false "0" 0 CNone; u_ false "90" 90 CNone].
Proof. repeat constructor; try discriminate. Qed.

(*@ C53: whenever a text ending (up to blanks) in s or S is accepted, the result is a list followed by its mirror image. @*)
Lemma t_C53_palindrome : forall float_of (t : text) (r : list f64) c,
  last_char (strip t) = Ok c -> is_s c = true -> build_sequence float_of t = Ok r ->
  exists l, r = l ++ List.rev l /\ List.rev r = r.
Proof. intros f t r c Hc Hs. unfold build_sequence. rewrite Hc. cbn [bind]. rewrite Hs.
  destruct (first_char _); [|discriminate]. cbn [bind].
  destruct (bloop _ _ _) as [st|]; [|discriminate]. cbn [bind]. intros [= <-].
  exists (b_unities st). split; [reflexivity|]. rewrite rev_app_distr, rev_involutive. reflexivity. Qed.

(*@ C53: dropping the s from a text without another s gives the first half, and the two texts are rejected together. @*)
Lemma t_C53_half : forall float_of (t u : text),
  strip t = u ++ ["s"] -> u <> [] -> ~ In "s" u -> last u "a" <> "S" ->
  is_space (hd "a" u) = false -> is_space (last u "a") = false ->
  build_sequence float_of t = (l <- build_sequence float_of u ;; Ok (l ++ List.rev l)).
Proof. intros f t u E H1 H2 H3 H4 H5. unfold build_sequence. rewrite E, last_char_snoc.
  rewrite (strip_id u) by (repeat split; assumption).
  destruct (exists_last H1) as (p & x & Ex).
  assert (Hx : last u "a" = x) by (rewrite Ex; apply last_last).
  replace (last_char u) with (Ok x) by (rewrite Ex; symmetry; apply last_char_snoc).
  cbn [bind]. change (is_s "s") with true.
  assert (Hs : is_s x = false).
  { unfold is_s. destruct (Ascii.eqb_spec x "s") as [->|_].
    - exfalso. apply H2. rewrite Ex. apply in_app_iff. right. left. reflexivity.
    - destruct (Ascii.eqb_spec x "S") as [->|_]; [contradiction|reflexivity]. }
  rewrite Hs, remove_char_app, (remove_char_none "s" u) by exact H2.
  change (remove_char "s" ["s"]) with (@nil ascii). rewrite app_nil_r.
  destruct (first_char u); [|reflexivity]. cbn [bind].
  destruct (bloop _ _ _) as [st|]; reflexivity. Qed.

(*@ Example: [0_2/90]s . @*)
Example t_C53_half_ex :
  let u := T "[0_2/90]" in
  strip (T " [0_2/90]s ") = u ++ ["s"] /\ u <> [] /\ ~ In "s" u /\ last u "a" <> "S"
  /\ is_space (hd "a" u) = false /\ is_space (last u "a") = false
  /\ match build_sequence float_of_int_text (T " [0_2/90]s ") with Ok l => List.length l = 6 | Err _ => False end.
Proof. cbn zeta. repeat split; try discriminate.
  notin_list. Qed.

Lemma unit_errors f t e : build_stack_unit f t = Err e -> e = ValueError.
Proof. unfold build_stack_unit. destruct (split_on _ _) as [|a [|b [|]]]; try (intros [= <-]; reflexivity).
  - destruct (f a); cbn; [|intros [= <-]; reflexivity]. discriminate.
  - destruct (f a); cbn; [|intros [= <-]; reflexivity].
    destruct (int_of _); cbn; [discriminate|intros [= <-]; reflexivity]. Qed.
Lemma times_errors t e : times_of t = Err e -> e = ValueError.
Proof. unfold times_of. destruct (int_of _); cbn; [discriminate|intros [= <-]; reflexivity]. Qed.
Lemma bstep_errors f st c e : bstep f st c = Err e -> e = ValueError.
Proof. unfold bstep.
  repeat match goal with
  | |- (if ?b then _ else _) = _ -> _ => destruct b
  | |- Ok _ = _ -> _ => discriminate
  | |- bind (build_stack_unit ?f ?x) _ = _ -> _ => destruct (build_stack_unit f x) eqn:?; cbn [bind]
  | |- bind (times_of ?x) _ = _ -> _ => destruct (times_of x) eqn:?; cbn [bind]
  | |- Err _ = Err _ -> _ => intros [= <-]
  | H : build_stack_unit _ _ = Err ?x |- ?x = ValueError => exact (unit_errors _ _ _ H)
  | H : times_of _ = Err ?x |- ?x = ValueError => exact (times_errors _ _ H)
  end. Qed.
Lemma bloop_errors f l : forall st e, bloop f st l = Err e -> e = ValueError.
Proof. induction l as [|c t IH]; intros st e; cbn; [discriminate|].
  destruct (bstep f st c) eqn:E; cbn; [apply IH|]. intros [= <-]. exact (bstep_errors _ _ _ _ E). Qed.

(*@ C52: apart from a text that is empty (IndexError) the only exception is ValueError. @*)
Lemma t_C52_errors : forall float_of (t : text) e, build_sequence float_of t = Err e ->
  e = ValueError \/ e = IndexError /\ remove_char "s" (strip t) = [].
Proof. intros f t e. unfold build_sequence, last_char.
  destruct (List.rev (strip t)) as [|c r] eqn:E; cbn [bind].
  - intros [= <-]. right. split; [reflexivity|]. apply (f_equal (@List.rev ascii)) in E. rewrite rev_involutive in E. rewrite E. reflexivity.
  - destruct (remove_char "s" (strip t)) as [|c2 r2]; cbn [first_char bind]; [intros [= <-]; right; split; reflexivity|].
    destruct (bloop _ _ _) eqn:B; cbn [bind]; [discriminate|]. intros [= <-]. left. exact (bloop_errors _ _ _ _ B). Qed.

(*@ Example: the text "s" raises IndexError, the text "x" raises ValueError. @*)
Example t_C52_errors_ex : build_sequence float_of_int_text (T " s ") = Err IndexError
  /\ build_sequence float_of_int_text (T "x") = Err ValueError.
Proof. split; reflexivity. Qed.

Lemma unit_S f t : (forall x, In "S" x -> f x = None) -> build_stack_unit f (t ++ ["S"]) = Err ValueError.
Proof. intros Hf. unfold build_stack_unit.
  assert (E : exists q, remove_pm (t ++ ["S"]) = q ++ ["S"]).
  { assert (G : forall n t, (List.length t <= n)%nat -> exists q, remove_pm (t ++ ["S"]) = q ++ ["S"]).
    2:{ apply (G (List.length t)). lia. }
    clear. induction n as [|n IH]; intros t Hl.
    - destruct t; [exists []; reflexivity|cbn in Hl; lia].
    - destruct t as [|c t]; [exists []; reflexivity|]. cbn in Hl.
      destruct (ascii_dec c "\") as [->|Hc].
      + destruct t as [|c2 t]; [exists ["\"]; reflexivity|].
        destruct (ascii_dec c2 "p") as [->|H2].
        * destruct t as [|c3 t]; [exists (T "\p"); reflexivity|].
          destruct (ascii_dec c3 "m") as [->|H3].
          -- cbn [app remove_pm]. apply IH. cbn in Hl. lia.
          -- assert (E3 : remove_pm ((T "\p" ++ c3 :: t) ++ ["S"]) = "\" :: remove_pm (("p" :: c3 :: t) ++ ["S"])).
             { clear -H3. destruct c3 as [b0 b1 b2 b3 b4 b5 b6 b7].
               destruct b0, b1, b2, b3, b4, b5, b6, b7; try reflexivity. exfalso; apply H3; reflexivity. }
             change ("\" :: "p" :: c3 :: t) with (T "\p" ++ c3 :: t). rewrite E3.
             destruct (IH ("p" :: c3 :: t)) as (q & ->); [cbn in *; lia|]. exists ("\" :: q). reflexivity.
        * assert (E3 : remove_pm (("\" :: c2 :: t) ++ ["S"]) = "\" :: remove_pm ((c2 :: t) ++ ["S"])).
          { clear -H2. destruct c2 as [b0 b1 b2 b3 b4 b5 b6 b7].
            destruct b0, b1, b2, b3, b4, b5, b6, b7; try reflexivity. exfalso; apply H2; reflexivity. }
          rewrite E3. destruct (IH (c2 :: t)) as (q & ->); [cbn in *; lia|]. exists ("\" :: q). reflexivity.
      + cbn [app]. rewrite remove_pm_cons by exact Hc. destruct (IH t) as (q & ->); [lia|]. exists (c :: q). reflexivity. }
  destruct E as (q & ->). destruct (strip_snoc q "S" eq_refl) as (p & ->).
  destruct (split_on_last "_" p "S") as (init & y & E); [discriminate|]. rewrite E.
  destruct init as [|a [|b init]]; cbn [app].
  - rewrite Hf by (apply in_app_iff; right; left; reflexivity). reflexivity.
  - destruct (f a); [cbn [or_value_error bind]|reflexivity].
    rewrite !remove_char_app. change (remove_char "}" (remove_char "{" ["S"])) with ["S"]. rewrite int_of_S. reflexivity.
  - destruct init; reflexivity. Qed.

Lemma times_S t : times_of (t ++ ["S"]) = Err ValueError.
Proof. unfold times_of. rewrite !remove_char_app.
  change (remove_char "}" (remove_char "{" (remove_char "_" ["S"]))) with ["S"]. rewrite int_of_S. reflexivity. Qed.

(*@ C54: if number conversion rejects every text containing a capital S (as Python's does), every text ending, up to
    blanks, in a capital S raises ValueError. @*)
Lemma t_C54_capital_s : forall float_of (t : text),
  (forall x, In "S" x -> float_of x = None) ->
  last_char (strip t) = Ok "S" -> build_sequence float_of t = Err ValueError.
Proof. intros f t Hf Hl. destruct (build_sequence f t) as [r|e] eqn:B.
  - exfalso. revert B. unfold build_sequence. rewrite Hl. cbn [bind].
    assert (E : exists p, strip t = p ++ ["S"]).
    { unfold last_char in Hl. destruct (List.rev (strip t)) as [|c r'] eqn:E; [discriminate|]. injection Hl as ->.
      exists (List.rev r'). rewrite <- (rev_involutive (strip t)), E. reflexivity. }
    destruct E as (p & ->). rewrite !remove_char_app.
    change (remove_char "s" ["S"]) with ["S"].
    destruct (first_char _); [|discriminate]. cbn [bind].
    change (remove_char "]" (remove_char "[" ["S"])) with ["S"].
    set (q := remove_char "]" (remove_char "[" (remove_char "s" p))).
    rewrite <- app_assoc, bloop_app. destruct (bloop f bstate0 q) as [st|]; [cbn [bind]|discriminate].
    change (["S"] ++ ["/"]) with ("S" :: "/" :: []). cbn [bloop].
    destruct st as [U u b cur ib mu].
    replace (bstep f (BState U u b cur ib mu) "S") with (Ok (BState U u b (cur ++ ["S"]) ib mu)) by reflexivity.
    cbn [bind]. unfold bstep. cbn [Ascii.eqb Bool.eqb b_unities b_unity b_block b_current b_in_block b_mult].
    destruct ib, mu; cbn [andb negb]; rewrite ?(unit_S f) by exact Hf; rewrite ?times_S; discriminate.
  - destruct (t_C52_errors f t e B) as [->|[_ K]]; [reflexivity|]. exfalso.
    assert (H : In "S" (remove_char "s" (strip t))).
    { apply remove_char_in. split; [|discriminate]. unfold last_char in Hl.
      destruct (List.rev (strip t)) as [|c r'] eqn:E; [discriminate|]. injection Hl as ->.
      apply in_rev. rewrite E. left. reflexivity. }
    rewrite K in H. destruct H. Qed.

(*@ Example: "[0/90]S" ends in S, and the decimal reader rejects texts with S. @*)
Example t_C54_capital_s_ex : last_char (strip (T "[0/90]S")) = Ok "S"
  /\ (forall x, In "S" x -> float_of_int_text x = None)
  /\ is_ok (build_sequence float_of_int_text (T "[0/90]s")) = true.
Proof. split; [reflexivity|]. split; [|reflexivity].
  intros x Hx. unfold float_of_int_text.
  replace (int_of x) with (@None Z); [reflexivity|]. symmetry. unfold int_of.
  assert (G : In "S" (strip x)).
  { unfold strip. apply -> in_rev.
    assert (K : forall l, In "S" l -> In "S" (lstrip l)).
    { induction l as [|c l IH]; intros H; [destruct H|]. cbn. destruct (is_space c) eqn:E; [|exact H].
      apply IH. destruct H as [->|H]; [discriminate E|exact H]. }
    apply K. apply -> in_rev. apply K. exact Hx. }
  destruct (strip x) as [|c l]; [destruct G|].
  destruct (Ascii.eqb_spec c "+") as [->|_].
  { apply (unsigned_bad "S"); [reflexivity|discriminate|]. destruct G as [G|G]; [discriminate G|exact G]. }
  destruct (Ascii.eqb_spec c "-") as [->|_].
  { rewrite (unsigned_bad "S"); [reflexivity|reflexivity|discriminate|]. destruct G as [G|G]; [discriminate G|exact G]. }
  apply (unsigned_bad "S"); [reflexivity|discriminate|exact G]. Qed.

(*@ C55: a plus-minus unit with count n gives n plies of alternating sign, the first one positive. @*)
Lemma t_C55_alternating : forall (float_of : text -> option f64) (tok : text) (x : f64) (n : nat),
  plain tok -> float_of tok = Some x ->
  exists l, build_sequence float_of (T "[\pm" ++ tok ++ T "_" ++ dec n ++ T "]") = Ok l
    /\ List.length l = n
    /\ (forall i, i < n -> nth_error l i = Some (if Nat.even i then x else fopp x)).
Proof. intros f tok x n H1 H2.
  pose (l := Layup [] [IUnit (Unit [] true tok x (CPlain n) [])] false []).
  exists (layup_plies l). split; [|split].
  - assert (W : wf_layup f l). { repeat split; try discriminate; try apply H1. repeat constructor; try apply H1. exact H2. }
    rewrite <- (layup_ok f l W). f_equal. cbn. rewrite !app_nil_r, <- !app_assoc. reflexivity.
  - cbn. rewrite app_nil_r, map_length, seq_length. reflexivity.
  - intros i Hi. cbn. rewrite app_nil_r, nth_error_map.
    rewrite (nth_error_nth' _ 0) by (rewrite seq_length; exact Hi). rewrite seq_nth by exact Hi. reflexivity. Qed.

(*@ Example: the text 45 qualifies. @*)
Example t_C55_alternating_ex : plain (T "45") /\ float_of_int_text (T "45") = Some (f_of_Z 45).
Proof. split; [split; [discriminate|reflexivity]|reflexivity]. Qed.

(*@ C55: without a count the negative ply is missing: one ply. @*)
Lemma t_C55_no_count : forall (float_of : text -> option f64) (tok : text) (x : f64),
  plain tok -> float_of tok = Some x -> build_sequence float_of (T "[\pm" ++ tok ++ T "]") = Ok [x].
Proof. intros f tok x H1 H2.
  pose (l := Layup [] [IUnit (Unit [] true tok x CNone [])] false []).
  assert (W : wf_layup f l). { repeat split; try discriminate; try apply H1. repeat constructor; try apply H1. exact H2. }
  change (Ok [x]) with (Ok (layup_plies l)). rewrite <- (layup_ok f l W). f_equal. cbn. rewrite !app_nil_r. reflexivity. Qed.

(*@ C55: the docstring example does not give the documented sequence; the second ply is 0, not -45. @*)
Lemma t_C55_docstring_refuted : forall float_of : text -> option f64,
  float_of (T "0") = Some (f_of_Z 0) -> float_of (T "45") = Some (f_of_Z 45) -> float_of (T "90") = Some (f_of_Z 90) ->
  build_sequence float_of (T "[\pm45_{1}/0_2/90/(0/90)_1]s") = Ok (map f_of_Z [45; 0; 0; 90; 0; 90; 90; 0; 90; 0; 0; 45]%Z)
  /\ build_sequence float_of (T "[\pm45_{1}/0_2/90/(0/90)_1]s") <> Ok (map f_of_Z docstring_output).
Proof. intros f H0 H45 H90.
  assert (E : build_sequence f (T "[\pm45_{1}/0_2/90/(0/90)_1]s") = Ok (map f_of_Z [45; 0; 0; 90; 0; 90; 90; 0; 90; 0; 0; 45]%Z)).
  { change (T "[\pm45_{1}/0_2/90/(0/90)_1]s") with (print_layup docstring_layup).
    rewrite layup_ok; [reflexivity|].
    repeat split; try discriminate;
    repeat (constructor; cbn [wf_item u_]); repeat split; try discriminate; try reflexivity; cbn [u_tok u_ u_angle]; assumption. }
  split; [exact E|]. rewrite E. intros K.
  assert (G : forall l1 l2 : list f64, Ok l1 = Ok l2 -> flt (nth 1 l1 fnan) (f_of_Z 0) = flt (nth 1 l2 fnan) (f_of_Z 0)).
  { intros l1 l2 [= ->]. reflexivity. }
  apply G in K. vm_compute in K. discriminate K. Qed.

(*@ Example: the decimal reader is such a conversion. @*)
Example t_C55_docstring_refuted_ex :
  float_of_int_text (T "0") = Some (f_of_Z 0) /\ float_of_int_text (T "45") = Some (f_of_Z 45)
  /\ float_of_int_text (T "90") = Some (f_of_Z 90).
Proof. repeat split. Qed.

Ltac bs := cbn [Ascii.eqb Bool.eqb b_unities b_unity b_block b_current b_in_block b_mult andb negb bind app].

(** the loop on [((u/us)_k/v)_k2/] *)
Lemma nested_loop f u us k v k2 U x :
  Forall (wf_unit f) (u :: us) -> wf_unit f v -> k <> CNone -> k2 <> CNone->
  bloop f (BState U x [] [] false false)
    (T "((" ++ join "/" (map print_unit (u :: us)) ++ T ")" ++ print_count k ++ T "/" ++ print_unit v ++ T ")" ++ print_count k2 ++ T "/")
  = Ok (BState (U ++ concat (repeat (concat (map unit_plies (u :: us))) (count_value k))
                  ++ concat (repeat (unit_plies v) (count_value k2))) [] (unit_plies v) [] false false).
Proof. intros Hus Hv Hk Hk2. inversion Hus as [|? ? Hu Hus']; subst.
  change (T "((") with ["("; "("]. cbn [app bloop]. unfold bstep at 1. bs. unfold bstep at 1. bs.
  rewrite app_assoc, bloop_app. change (T ")") with [")"].
  destruct (group_inner f us Hus' [] u U x [] Hu eq_refl) as (x' & ->). bs.
  rewrite bloop_app, bloop_quiet by apply quiet_count. bs.
  change (T "/") with ["/"]. cbn [app bloop]. unfold bstep at 1. bs.
  pose proof (times_of_ok f k [] Hk eq_refl) as Ht. rewrite app_nil_r in Ht. rewrite Ht. bs. rewrite rep_concat.
  rewrite bloop_app, bloop_quiet by (apply (quiet_unit f), Hv). bs. cbn [bloop]. unfold bstep at 1. bs.
  pose proof (build_unit_ok f [] v eq_refl Hv) as Hb. cbn [app] in Hb. rewrite Hb. bs.
  rewrite bloop_app, bloop_quiet by apply quiet_count. bs. cbn [bloop]. unfold bstep at 1. bs.
  pose proof (times_of_ok f k2 [] Hk2 eq_refl) as Ht2. rewrite app_nil_r in Ht2. rewrite Ht2. bs. rewrite rep_concat.
  rewrite <- app_assoc. reflexivity. Qed.

(** reading a bracketed text none of whose characters are s or brackets *)
Lemma bracketed f body : ~ In "s" body -> ~ In "[" body -> ~ In "]" body ->
  build_sequence f (T "[" ++ body ++ T "]") = (st <- bloop f bstate0 (body ++ ["/"]) ;; Ok (b_unities st)).
Proof. intros Hs Ho Hc. unfold build_sequence.
  rewrite (strip_id (T "[" ++ body ++ T "]")).
  2:{ split; [discriminate|]. split; [reflexivity|]. rewrite app_assoc. change (T "]") with ["]"]. rewrite last_last. reflexivity. }
  replace (last_char (T "[" ++ body ++ T "]")) with (Ok "]").
  2:{ rewrite app_assoc. symmetry. apply last_char_snoc. }
  cbn [bind]. rewrite !remove_char_app, !(remove_char_none _ body) by assumption.
  change (first_char _) with (Ok "["). cbn [bind].
  change (remove_char "]" (remove_char "[" (remove_char "s" (T "[")))) with (@nil ascii).
  change (remove_char "]" (remove_char "[" (remove_char "s" (T "]")))) with (@nil ascii). rewrite app_nil_r. cbn [app].
  destruct (bloop _ _ _); reflexivity. Qed.

(** characters of a nested text *)
Lemma nested_notin f u us k v k2 c : Forall (wf_unit f) (u :: us) -> wf_unit f v ->
  is_space c = false -> plain_char c = false -> ~ In c (T "()/_{}0123456789\pm") ->
  ~ In c (T "((" ++ join "/" (map print_unit (u :: us)) ++ T ")" ++ print_count k ++ T "/" ++ print_unit v ++ T ")" ++ print_count k2).
Proof. intros Hus Hv Hs Hp Hc.
  assert (H1 : ~ In c (T "_{}0123456789\pm")). { intros K. apply Hc. right. right. right. exact K. }
  assert (H0 : ~ In c (T "_{}0123456789")). { intros K. apply H1. apply in_app_iff with (l := T "_{}0123456789") (l' := T "\pm"). left. exact K. }
  assert (H2 : c <> "(" /\ c <> ")" /\ c <> "/"). { repeat split; intros ->; apply Hc; cbn; tauto. }
  destruct H2 as (N1 & N2 & N3).
  rewrite !in_app_iff. intros [K|[K|[K|[K|[K|[K|[K|K]]]]]]].
  - cbn in K. intuition congruence.
  - revert K. apply join_notin; [exact N3|]. intros t Ht. apply in_map_iff in Ht. destruct Ht as (w & <- & Hw).
    apply (unit_notin f); try assumption. rewrite Forall_forall in Hus. apply Hus, Hw.
  - cbn in K. intuition congruence.
  - revert K. apply count_notin, H0.
  - cbn in K. intuition congruence.
  - revert K. apply (unit_notin f); assumption.
  - cbn in K. intuition congruence.
  - revert K. apply count_notin, H0. Qed.

(*@ C56: a group nested at the start of a group is accepted, but the outer count is applied to the last unit only. @*)
Lemma t_C56_nested : forall (float_of : text -> option f64) (u : unit_) (us : list unit_) (k : count) (v : unit_) (k2 : count),
  Forall (wf_unit float_of) (u :: us) -> wf_unit float_of v -> k <> CNone -> k2 <> CNone ->
  build_sequence float_of (T "[" ++ print_nitem (NGroup [NGroup (map NUnit (u :: us)) k; NUnit v] k2) ++ T "]")
  = Ok (concat (repeat (concat (map unit_plies (u :: us))) (count_value k)) ++ concat (repeat (unit_plies v) (count_value k2))).
Proof. intros f u us k v k2 Hus Hv Hk Hk2.
  assert (E : print_nitem (NGroup [NGroup (map NUnit (u :: us)) k; NUnit v] k2)
    = T "((" ++ join "/" (map print_unit (u :: us)) ++ T ")" ++ print_count k ++ T "/" ++ print_unit v ++ T ")" ++ print_count k2).
  { change (print_nitem (NGroup [NGroup (map NUnit (u :: us)) k; NUnit v] k2)) with
      ("(" :: (("(" :: join "/" (map print_nitem (map NUnit (u :: us))) ++ ")" :: print_count k) ++ "/" :: print_unit v) ++ ")" :: print_count k2).
    rewrite map_map. change (map (fun x => print_nitem (NUnit x)) (u :: us)) with (map print_unit (u :: us)).
    change (T "((") with ["("; "("]. change (T ")") with [")"]. change (T "/") with ["/"].
    repeat (rewrite <- !app_assoc; cbn [app]). reflexivity. }
  rewrite E, bracketed; try (apply (nested_notin f); trivial; notin_list).
  replace ((T "((" ++ join "/" (map print_unit (u :: us)) ++ T ")" ++ print_count k ++ T "/" ++ print_unit v ++ T ")" ++ print_count k2) ++ ["/"])
    with (T "((" ++ join "/" (map print_unit (u :: us)) ++ T ")" ++ print_count k ++ T "/" ++ print_unit v ++ T ")" ++ print_count k2 ++ T "/").
  2:{ repeat (rewrite <- !app_assoc; cbn [app]). reflexivity. }
  unfold bstate0. rewrite (nested_loop f u us k v k2 [] []) by assumption. reflexivity. Qed.

(*@ C56: so the text ((0/90)_2/45)_2 gives 0,90,0,90,45,45 instead of the denoted ten plies. @*)
Lemma t_C56_nested_refuted : exists (l : nitem) (r : list f64),
  print_nitem l = T "((0/90)_2/45)_2"
  /\ build_sequence float_of_int_text (T "[" ++ print_nitem l ++ T "]") = Ok r
  /\ List.length r = 6 /\ List.length (nitem_plies l) = 10.
Proof.
  set (l := NGroup [NGroup (map NUnit (u_ false "0" 0 CNone :: [u_ false "90" 90 CNone])) (CPlain 2); NUnit (u_ false "45" 45 CNone)] (CPlain 2)).
  exists l. eexists. split; [reflexivity|]. split.
  - unfold l. apply t_C56_nested; try discriminate; repeat constructor; try discriminate.
  - split; reflexivity. Qed.

(*@ C56: the plies of the nested group's last unit leak into the next group. @*)
Lemma t_C56_leak : forall (float_of : text -> option f64) (u v w : unit_),
  wf_unit float_of u -> wf_unit float_of v -> wf_unit float_of w ->
  build_sequence float_of (T "[((" ++ print_unit u ++ T ")_1/" ++ print_unit v ++ T ")_1/(" ++ print_unit w ++ T ")_1]")
  = Ok (unit_plies u ++ unit_plies v ++ unit_plies v ++ unit_plies w).
Proof. intros f u v w Hu Hv Hw.
  replace (T "[((" ++ print_unit u ++ T ")_1/" ++ print_unit v ++ T ")_1/(" ++ print_unit w ++ T ")_1]")
    with (T "[" ++ (print_nitem (NGroup [NGroup (map NUnit (u :: [])) (CPlain 1); NUnit v] (CPlain 1)) ++ T "/(" ++ print_unit w ++ T ")_1") ++ T "]").
  2:{ cbn. rewrite <- !app_assoc. cbn [app]. f_equal. f_equal. f_equal. f_equal. f_equal. f_equal. f_equal. f_equal.
      cbn. repeat (rewrite <- !app_assoc; cbn [app]). reflexivity. }
  assert (E : print_nitem (NGroup [NGroup (map NUnit [u]) (CPlain 1); NUnit v] (CPlain 1))
    = T "((" ++ join "/" (map print_unit [u]) ++ T ")" ++ print_count (CPlain 1) ++ T "/" ++ print_unit v ++ T ")" ++ print_count (CPlain 1)).
  { cbn. repeat (rewrite <- !app_assoc; cbn [app]). reflexivity. }
  rewrite E. clear E.
  assert (Hn : forall c, is_space c = false -> plain_char c = false -> ~ In c (T "()/_{}0123456789\pm") ->
     ~ In c ((T "((" ++ join "/" (map print_unit [u]) ++ T ")" ++ print_count (CPlain 1) ++ T "/" ++ print_unit v ++ T ")" ++ print_count (CPlain 1)) ++ T "/(" ++ print_unit w ++ T ")_1")).
  { intros c H1 H2 H3. assert (H4 : ~ In c (T "_{}0123456789\pm")). { intros K. apply H3. right. right. right. exact K. }
    rewrite in_app_iff. intros [K|K].
    - revert K. apply (nested_notin f); try assumption. repeat constructor; apply Hu.
    - rewrite !in_app_iff in K. destruct K as [K|[K|K]].
      + apply H3. cbn in K |- *. tauto.
      + revert K. apply (unit_notin f); assumption.
      + apply H3. cbn in K |- *. tauto. }
  rewrite bracketed; try (apply Hn; trivial; notin_list).
  match goal with |- context[bloop f bstate0 ?t] => replace t with
    ((T "((" ++ join "/" (map print_unit [u]) ++ T ")" ++ print_count (CPlain 1) ++ T "/" ++ print_unit v ++ T ")" ++ print_count (CPlain 1) ++ T "/")
     ++ T "(" ++ print_unit w ++ T ")" ++ T "_1" ++ T "/") end.
  2:{ repeat (rewrite <- !app_assoc; cbn [app]). reflexivity. }
  rewrite bloop_app. unfold bstate0. rewrite (nested_loop f u [] (CPlain 1) v (CPlain 1) [] []); try assumption; try discriminate.
  2:{ repeat constructor; apply Hu. }
  cbn [bind count_value]. change (T "(") with ["("]. cbn [app bloop]. unfold bstep at 1. bs.
  rewrite bloop_app, bloop_quiet by (apply (quiet_unit f), Hw). bs. change (T ")") with [")"]. cbn [app bloop]. unfold bstep at 1. bs.
  pose proof (build_unit_ok f [] w eq_refl Hw) as Hb. cbn [app] in Hb. rewrite Hb. bs.
  rewrite bloop_app, bloop_quiet by (repeat split; notin_list). bs. change (T "/") with ["/"]. cbn [bloop]. unfold bstep at 1. bs.
  change (times_of (T "_1")) with (Ok 1%Z). bs. unfold rep. change (Z.to_nat 1) with 1. cbn [rep_nat repeat concat map].
  rewrite !app_nil_r, <- !app_assoc. reflexivity. Qed.

(*@ Example: units meeting the hypotheses of the three statements on nesting. @*)
Example t_C56_leak_ex : wf_unit float_of_int_text (u_ false "0" 0 CNone) /\ wf_unit float_of_int_text (u_ true "45" 45 (CPlain 3)).
Proof. repeat split; try discriminate. Qed.

(*@ C56: text before an opening parenthesis is glued to the first number of the group. @*)
Lemma t_C56_glued : forall (float_of : text -> option f64) (a rest : text),
  ~ In "(" a -> ~ In ")" a -> ~ In "/" a ->
  build_sequence float_of (T "[" ++ a ++ T "(" ++ rest ++ T "]") = build_sequence float_of (T "[(" ++ a ++ rest ++ T "]").
Proof. intros f a rest H1 H2 H3. unfold build_sequence.
  assert (S1 : forall p, strip (T "[" ++ p ++ T "]") = T "[" ++ p ++ T "]" /\ last_char (T "[" ++ p ++ T "]") = Ok "]").
  { intros p. split.
    - apply strip_id. split; [discriminate|]. split; [reflexivity|]. rewrite app_assoc. change (T "]") with ["]"]. rewrite last_last. reflexivity.
    - rewrite app_assoc. apply last_char_snoc. }
  replace (T "[" ++ a ++ T "(" ++ rest ++ T "]") with (T "[" ++ (a ++ T "(" ++ rest) ++ T "]").
  2:{ rewrite <- !app_assoc. reflexivity. }
  replace (T "[(" ++ a ++ rest ++ T "]") with (T "[" ++ (T "(" ++ a ++ rest) ++ T "]").
  2:{ rewrite <- !app_assoc. reflexivity. }
  destruct (S1 (a ++ T "(" ++ rest)) as [-> ->]. destruct (S1 (T "(" ++ a ++ rest)) as [-> ->]. cbn [bind].
  rewrite !remove_char_app.
  change (remove_char "s" (T "[")) with (T "["). change (remove_char "s" (T "(")) with (T "(").
  change (first_char (T "[" ++ ?x)) with (Ok "["). cbn [first_char bind T list_ascii_of_string app].
  set (g := fun t => remove_char "]" (remove_char "[" (remove_char "s" t))).
  change (remove_char "]" (remove_char "[" ["["])) with (@nil ascii).
  change (remove_char "]" (remove_char "[" ["("])) with ["("]. cbn [app].
  rewrite <- !app_assoc. fold (g a). fold (g rest).
  assert (Q : quiet (g a)).
  { unfold g. repeat split; rewrite !remove_char_in; tauto. }
  rewrite bloop_app. unfold bstate0 at 1. rewrite bloop_quiet by exact Q. cbn [bind app bloop]. unfold bstep at 1. bs.
  unfold bstep at 1, bstate0 at 1. bs. rewrite (bloop_app f (g a)), (bloop_quiet f (g a)) by exact Q. bs. reflexivity. Qed.

(*@ Example: 90(0/45)_2 is read as (900/45)_2. @*)
Example t_C56_glued_ex :
  build_sequence float_of_int_text (T "[90(0/45)_2]") = Ok (map f_of_Z [900; 45; 900; 45]%Z).
Proof.
  pose (l := Layup [] [IGroup [] (u_ false "900" 900 CNone) [u_ false "45" 45 CNone] (CPlain 2) []] false []).
  change (T "[90(0/45)_2]") with (T "[" ++ T "90" ++ T "(" ++ T "0/45)_2" ++ T "]").
  rewrite t_C56_glued by notin_list.
  change (T "[(" ++ T "90" ++ T "0/45)_2" ++ T "]") with (print_layup l). rewrite layup_ok; [reflexivity|].
  repeat split; try discriminate; repeat (constructor; cbn [wf_item u_]); repeat split; try discriminate; reflexivity. Qed.

(** ** cards *)
Lemma repeat_nth (x : text) n i d : i < n -> nth i (repeat x n) d = x.
Proof. revert i; induction n as [|n IH]; intros [|i] H; try lia; [reflexivity|]. cbn. apply IH. lia. Qed.
Lemma all_nth_repeat n (x : text) l : List.length l = n -> (forall i, i < n -> nth i l [] = x) -> l = repeat x n.
Proof. revert n; induction l as [|y l IH]; intros n Hn H; subst n; [reflexivity|]. cbn. f_equal.
  - apply (H 0). cbn. lia.
  - apply IH; [reflexivity|]. intros i Hi. apply (H (S i)). cbn. lia. Qed.

(*@ C58: what the thickness and material arguments stand for: a value for every ply, or a list of matching length; any
    other list raises ValueError. @*)
Lemma t_C58_values : forall (a : parg) (n : nat) (l : list text),
  (convert_to_list a n = Ok l <-> stands_for n a l)
  /\ (convert_to_list a n = Err ValueError <-> ~ fits n a).
Proof. intros a n l. destruct a as [x|s]; cbn [convert_to_list fits]; split; split.
  - intros [= <-]. constructor; [apply repeat_length|]. intros i Hi. apply repeat_nth, Hi.
  - intros H. inversion H; subst. f_equal. symmetry. apply all_nth_repeat; [reflexivity|assumption].
  - discriminate.
  - tauto.
  - destruct (Nat.eqb_spec (List.length s) n) as [E|E]; [|discriminate]. intros [= <-]. constructor. exact E.
  - intros H. inversion H; subst. rewrite Nat.eqb_refl. reflexivity.
  - destruct (Nat.eqb_spec (List.length s) n) as [E|E]; [discriminate|]. tauto.
  - destruct (Nat.eqb_spec (List.length s) n) as [E|E]; [tauto|reflexivity]. Qed.

Lemma text_eqb_spec a b : text_eqb a b = true <-> a = b.
Proof. unfold text_eqb. destruct (list_eq_dec ascii_dec a b); split; congruence. Qed.
Lemma text_eqb_false a b : text_eqb a b = false <-> a <> b.
Proof. unfold text_eqb. destruct (list_eq_dec ascii_dec a b); split; congruence. Qed.

Lemma set_last_length {A} (l : list A) x : List.length (set_last l x) = List.length l.
Proof. induction l as [|y [|z l] IH]; [reflexivity|reflexivity|]. cbn [set_last]. cbn [List.length]. f_equal. exact IH. Qed.
Lemma set_last_nth {A} (l : list A) x d : forall i, i < List.length l ->
  nth i (set_last l x) d = if Nat.eqb (S i) (List.length l) then x else nth i l d.
Proof. induction l as [|y [|z l] IH]; intros i Hi; cbn in Hi; [lia| |].
  - destruct i; [reflexivity|lia].
  - destruct i as [|i]; [reflexivity|]. change (set_last (y :: z :: l) x) with (y :: set_last (z :: l) x).
    cbn [nth]. rewrite IH by (cbn; lia). reflexivity. Qed.

Lemma fiber_spec n l : 0 < n ->
  (match repeat (T "NO") n with [] => Err IndexError | _ :: t => Ok (set_last (T "YES" :: t) (T "YES")) end = Ok l
   <-> List.length l = n /\
     (forall i, i < n -> nth i l [] = if Nat.eqb i 0 || Nat.eqb (S i) n then T "YES" else T "NO")).
Proof. intros Hn. destruct n as [|n]; [lia|]. cbn [repeat].
  set (r := set_last (T "YES" :: repeat (T "NO") n) (T "YES")).
  assert (Hl : List.length r = S n). { unfold r. rewrite set_last_length. cbn. f_equal. apply repeat_length. }
  assert (Hi : forall i, i < S n -> nth i r [] = if Nat.eqb i 0 || Nat.eqb (S i) (S n) then T "YES" else T "NO").
  { intros i H. unfold r. rewrite set_last_nth by (cbn; rewrite repeat_length; lia). cbn [List.length]. rewrite repeat_length.
    destruct (Nat.eqb (S i) (S n)) eqn:E; [rewrite orb_true_r; reflexivity|]. rewrite orb_false_r.
    destruct i as [|i]; [reflexivity|]. cbn [nth Nat.eqb]. apply repeat_nth. lia. }
  split.
  - intros [= <-]. split; assumption.
  - intros [H1 H2]. f_equal. apply (nth_ext _ _ [] []); [congruence|]. intros i H. rewrite Hl in H. rewrite Hi, H2 by exact H. reflexivity. Qed.

Lemma sout_ok s n l : sout_for n s l -> convert_sout s n = Ok l.
Proof. intros H. unfold convert_sout. destruct H as [l Hn H1 H2|l H1 H2|l H1 H2|l H1|s Hnot H1].
  - change (text_eqb (T "FIBER") (T "FIBER")) with true. cbv iota. apply fiber_spec; [exact Hn|]. split; assumption.
  - change (text_eqb (T "YES") (T "FIBER")) with false. change (text_eqb (T "YES") (T "NO")) with false.
    change (text_eqb (T "YES") (T "YES")) with true. cbv iota. f_equal. symmetry. apply all_nth_repeat; assumption.
  - change (text_eqb (T "NO") (T "FIBER")) with false. change (text_eqb (T "NO") (T "NO")) with true. cbv iota.
    f_equal. symmetry. apply all_nth_repeat; assumption.
  - rewrite H1, Nat.eqb_refl. reflexivity.
  - unfold named_sout in Hnot.
    assert (E1 : text_eqb s (T "FIBER") = false) by (apply text_eqb_false; tauto).
    assert (E2 : text_eqb s (T "NO") = false) by (apply text_eqb_false; tauto).
    assert (E3 : text_eqb s (T "YES") = false) by (apply text_eqb_false; tauto).
    rewrite E1, E2, E3, H1, Nat.eqb_refl. reflexivity. Qed.

(*@ C58: the output requests: FIBER marks exactly the first and the last ply, YES and NO all plies, another sized
    argument of matching length is used as it is, a text by its characters. @*)
Lemma t_C58_sout : forall (s : sarg) (n : nat) (l : list text),
  convert_sout s n = Ok l <-> sout_for n s l.
Proof. intros s n l. unfold convert_sout. destruct s as [s|s|]; split.
  - destruct (text_eqb s (T "FIBER")) eqn:E1.
    { apply text_eqb_spec in E1. subst s. intros H. destruct n as [|n]; [discriminate H|].
      apply fiber_spec in H; [|lia]. destruct H. constructor; [lia|assumption|assumption]. }
    destruct (text_eqb s (T "NO")) eqn:E2.
    { apply text_eqb_spec in E2. subst s. intros [= <-]. apply SoNo; [apply repeat_length|]. intros i Hi. apply repeat_nth, Hi. }
    destruct (text_eqb s (T "YES")) eqn:E3.
    { apply text_eqb_spec in E3. subst s. intros [= <-]. apply SoYes; [apply repeat_length|]. intros i Hi. apply repeat_nth, Hi. }
    destruct (Nat.eqb_spec (List.length s) n) as [E|E]; [|discriminate]. intros [= <-]. apply SoChars; [|exact E].
    apply text_eqb_false in E1, E2, E3. unfold named_sout. tauto.
  - apply sout_ok.
  - destruct (Nat.eqb_spec (List.length s) n) as [E|E]; [|discriminate]. intros [= <-]. constructor. exact E.
  - intros H. inversion H; subst. rewrite Nat.eqb_refl. reflexivity.
  - discriminate.
  - intros H. inversion H. Qed.

(*@ C58: the exceptions for output requests: IndexError exactly for FIBER with an empty sequence, ValueError for
    everything else that is not accepted. @*)
Lemma t_C58_sout_errors : forall (s : sarg) (n : nat) (e : exn), convert_sout s n = Err e ->
  (e = IndexError /\ s = SoutStr (T "FIBER") /\ n = 0) \/ (e = ValueError /\ ~ (s = SoutStr (T "FIBER") /\ n = 0)).
Proof. intros s n e. unfold convert_sout. destruct s as [s|s|].
  - destruct (text_eqb s (T "FIBER")) eqn:E1.
    { apply text_eqb_spec in E1. subst s. destruct n as [|n]; [|discriminate]. intros [= <-]. left. repeat split. }
    apply text_eqb_false in E1.
    destruct (text_eqb s (T "NO")); [discriminate|]. destruct (text_eqb s (T "YES")); [discriminate|].
    destruct (Nat.eqb (List.length s) n); [discriminate|]. intros [= <-]. right. split; [reflexivity|]. intros [[= H] _]. contradiction.
  - destruct (Nat.eqb (List.length s) n); [discriminate|]. intros [= <-]. right. split; [reflexivity|]. intros [[=] _].
  - intros [= <-]. right. split; [reflexivity|]. intros [[=] _]. Qed.

(*@ Example: with five plies the text MAYBE is accepted, character by character; an empty sequence with FIBER is not. @*)
Example t_C58_sout_ex : convert_sout (SoutStr (T "MAYBE")) 5 = Ok [T "M"; T "A"; T "Y"; T "B"; T "E"]
  /\ convert_sout (SoutStr (T "FIBER")) 3 = Ok [T "YES"; T "NO"; T "YES"]
  /\ convert_sout (SoutStr (T "FIBER")) 0 = Err IndexError /\ convert_sout (SoutStr (T "ALL")) 5 = Err ValueError.
Proof. repeat split. Qed.

Definition pair_text (p q : ply) : text :=
  first_half (p_mid p) (p_t p) (p_angle p) (p_sout p) ++ second_half (p_mid q) (p_t q) (p_angle q) (p_sout q).
Fixpoint body_text (l : list ply) : text :=
  match l with
  | [] => []
  | [p] => removelast (first_half (p_mid p) (p_t p) (p_angle p) (p_sout p))
  | p :: q :: r => pair_text p q ++ body_text r
  end.

Lemma get_app {A} (l1 l2 : list A) i : i = List.length l1 -> get (l1 ++ l2) i = match l2 with x :: _ => Ok x | [] => Err IndexError end.
Proof. intros ->. unfold get. rewrite nth_error_app2, Nat.sub_diag by lia. destruct l2; reflexivity. Qed.
Lemma get_app1 {A} (l1 l2 : list A) i x : i = List.length l1 ->
  get (l1 ++ x :: l2) (S i) = match l2 with y :: _ => Ok y | [] => Err IndexError end.
Proof. intros ->. unfold get. rewrite nth_error_app2 by lia. replace (S (List.length l1) - List.length l1) with 1 by lia.
  destruct l2; reflexivity. Qed.

Lemma zip4_cons m t a s ms ts as_ ss : zip4 (m :: ms) (t :: ts) (a :: as_) (s :: ss) = Ply m t a s :: zip4 ms ts as_ ss.
Proof. reflexivity. Qed.

Lemma removelast_snoc {A} (l : list A) x : removelast (l ++ [x]) = l.
Proof. rewrite removelast_app by discriminate. cbn. apply app_nil_r. Qed.

Lemma pcomp_body_ok : forall fuel m1 t1 a1 s1 m2 t2 a2 s2 body,
  List.length a2 <= fuel ->
  List.length t2 = List.length a2 -> List.length m2 = List.length a2 -> List.length s2 = List.length a2 ->
  List.length t1 = List.length a1 -> List.length m1 = List.length a1 -> List.length s1 = List.length a1 ->
  pcomp_body fuel (List.length a1) (List.length a1 + List.length a2) (m1 ++ m2) (t1 ++ t2) (a1 ++ a2) (s1 ++ s2) body
  = Ok (body ++ body_text (zip4 m2 t2 a2 s2)).
Proof. induction fuel as [fuel IH] using (well_founded_induction Wf_nat.lt_wf).
  intros m1 t1 a1 s1 m2 t2 a2 s2 body Hf Ht Hm Hs Ht1 Hm1 Hs1.
  destruct a2 as [|a a2].
  - destruct m2; [|discriminate]. destruct t2; [|discriminate]. destruct s2; [|discriminate].
    change (body_text (zip4 [] [] [] [])) with (@nil ascii). rewrite (app_nil_r body).
    destruct fuel; [reflexivity|]. cbn [pcomp_body]. replace (List.length a1 + List.length (@nil text)) with (List.length a1) by (cbn; lia).
    rewrite Nat.ltb_irrefl. reflexivity.
  - destruct m2 as [|m m2]; [discriminate|]. destruct t2 as [|t t2]; [discriminate|]. destruct s2 as [|s s2]; [discriminate|].
    cbn in Ht, Hm, Hs, Hf. destruct fuel as [|fuel]; [lia|]. cbn [pcomp_body].
    assert (L : Nat.ltb (List.length a1) (List.length a1 + List.length (a :: a2)) = true) by (apply Nat.ltb_lt; cbn; lia).
    rewrite L. rewrite !get_app by (symmetry; assumption || reflexivity). cbn [bind].
    rewrite (get_app1 m1), (get_app1 t1), (get_app1 a1), (get_app1 s1) by (symmetry; assumption || reflexivity).
    destruct a2 as [|a' a2].
    + destruct m2; [|discriminate]. destruct t2; [|discriminate]. destruct s2; [|discriminate]. cbn [bind].
      replace (removelast (body ++ first_half m t a s)) with (body ++ body_text (zip4 [m] [t] [a] [s])).
      2:{ cbn [zip4 combine map body_text p_mid p_t p_angle p_sout]. symmetry. apply removelast_app. discriminate. }
      destruct fuel as [|fuel]; [reflexivity|]. cbn [pcomp_body].
      assert (L2 : Nat.ltb (List.length a1 + 2) (List.length a1 + List.length [a]) = false) by (apply Nat.ltb_ge; cbn; lia).
      rewrite L2. reflexivity.
    + destruct m2 as [|m' m2]; [discriminate|]. destruct t2 as [|t' t2]; [discriminate|]. destruct s2 as [|s' s2]; [discriminate|].
      cbn [bind]. cbn in Ht, Hm, Hs, Hf.
      replace (List.length a1 + 2) with (List.length (a1 ++ [a; a'])) by (rewrite app_length; reflexivity).
      replace (List.length a1 + List.length (a :: a' :: a2)) with (List.length (a1 ++ [a; a']) + List.length a2)
        by (rewrite app_length; cbn; lia).
      replace (m1 ++ m :: m' :: m2) with ((m1 ++ [m; m']) ++ m2) by (rewrite <- app_assoc; reflexivity).
      replace (t1 ++ t :: t' :: t2) with ((t1 ++ [t; t']) ++ t2) by (rewrite <- app_assoc; reflexivity).
      replace (a1 ++ a :: a' :: a2) with ((a1 ++ [a; a']) ++ a2) by (rewrite <- app_assoc; reflexivity).
      replace (s1 ++ s :: s' :: s2) with ((s1 ++ [s; s']) ++ s2) by (rewrite <- app_assoc; reflexivity).
      rewrite IH; try (rewrite ?app_length; cbn; lia).
      f_equal. rewrite !zip4_cons. cbn [body_text]. unfold pair_text. cbn [p_mid p_t p_angle p_sout]. rewrite !app_assoc. reflexivity. Qed.

Lemma stands_length n a l : convert_to_list a n = Ok l -> List.length l = n.
Proof. intros H. apply t_C58_values in H. inversion H; assumption. Qed.
Lemma sout_length n s l : convert_sout s n = Ok l -> List.length l = n.
Proof. intros H. apply t_C58_sout in H. inversion H; try assumption. rewrite map_length. assumption. Qed.

Lemma build_pcomp_ok seq midi ti pid z0 so m t s :
  convert_to_list midi (List.length seq) = Ok m -> convert_to_list ti (List.length seq) = Ok t ->
  convert_sout so (List.length seq) = Ok s ->
  build_pcomp seq midi ti pid z0 so =
  Ok ((T "PCOMP," ++ str_Z pid ++ [","] ++ z0 ++ T ",,,,,+" ++ [newline]) ++ body_text (zip4 m t seq s)).
Proof. intros Hm Ht Hs. unfold build_pcomp. rewrite Ht, Hm, Hs. cbn [bind].
  pose proof (pcomp_body_ok (List.length seq) [] [] [] [] m t seq s []) as K. cbn [app] in K. cbn [List.length Nat.add] in K.
  rewrite K; try reflexivity; try lia; [exact (stands_length _ _ _ Ht)|exact (stands_length _ _ _ Hm)|exact (sout_length _ _ _ Hs)]. Qed.

Lemma comma_join (l : list text) : l <> [] -> (forall t, In t l -> ~ In "," t) -> split_on "," (join "," l) = l.
Proof. induction l as [|x l IH]; intros H K; [congruence|]. destruct l as [|y l].
  - cbn [join]. apply split_on_none, K. left. reflexivity.
  - change (join "," (x :: y :: l)) with (x ++ "," :: join "," (y :: l)).
    rewrite split_on_app by (apply K; left; reflexivity). f_equal. apply IH; [discriminate|]. intros t Ht. apply K. right. exact Ht. Qed.
Lemma join_notin_gen sep c l : c <> sep -> (forall t, In t l -> ~ In c t) -> ~ In c (join sep l).
Proof. intros Hc. induction l as [|t l IH]; intros H; [intros []|].
  destruct l as [|t2 l]; [apply H; left; reflexivity|].
  change (join sep (t :: t2 :: l)) with (t ++ sep :: join sep (t2 :: l)). rewrite in_app_iff. intros [K|[K|K]].
  - revert K. apply H. left. reflexivity.
  - congruence.
  - revert K. apply IH. intros t' Ht'. apply H. right. exact Ht'. Qed.

Definition clean_ply (p : ply) : Prop := clean (p_mid p) /\ clean (p_t p) /\ clean (p_angle p) /\ clean (p_sout p).
Lemma clean_plus t : clean t -> clean (t ++ T "+").
Proof. intros [H1 H2]. split; rewrite in_app_iff; intros [K|K]; try (revert K; assumption); cbn in K; destruct K as [K|[]]; discriminate K. Qed.
Lemma clean_T_plus : clean (T "+").
Proof. split; notin_list. Qed.

(** one line of clean fields *)
Lemma line_fields l rest : l <> [] -> Forall clean l ->
  fields (join "," l ++ newline :: rest) = l :: fields rest.
Proof. intros Hl Hc. rewrite Forall_forall in Hc. unfold fields. rewrite split_on_app.
  - cbn [map]. f_equal. apply comma_join; [exact Hl|]. intros t Ht. apply Hc, Ht.
  - apply join_notin_gen; [discriminate|]. intros t Ht. apply Hc, Ht. Qed.
Lemma last_line_fields l : l <> [] -> Forall clean l -> fields (join "," l) = [l].
Proof. intros Hl Hc. rewrite Forall_forall in Hc. unfold fields. rewrite split_on_none.
  - cbn [map]. f_equal. apply comma_join; [exact Hl|]. intros t Ht. apply Hc, Ht.
  - apply join_notin_gen; [discriminate|]. intros t Ht. apply Hc, Ht. Qed.

Lemma pair_induction (P : list ply -> Prop) : P [] -> (forall p, P [p]) -> (forall p q r, P r -> P (p :: q :: r)) -> forall l, P l.
Proof. intros H0 H1 H2. fix F 1. intros [|p [|q r]]; [exact H0|apply H1|apply H2, F]. Qed.

Lemma body_fields l : Forall clean_ply l -> fields (body_text l) = body_lines l.
Proof. induction l as [|p|p q r IH] using pair_induction; intros H.
  - reflexivity.
  - inversion H as [|? ? (C1 & C2 & C3 & C4) _]; subst. cbn [body_text body_lines].
    replace (removelast (first_half (p_mid p) (p_t p) (p_angle p) (p_sout p))) with (join "," (T "+" :: ply_fields p)).
    + apply last_line_fields; [discriminate|]. unfold ply_fields. repeat constructor; try apply clean_T_plus; try apply C1; try apply C2; try apply C3; apply C4.
    + unfold first_half. replace (T "+," ++ p_mid p ++ [","] ++ p_t p ++ [","] ++ p_angle p ++ [","] ++ p_sout p ++ [","])
        with ((T "+," ++ p_mid p ++ [","] ++ p_t p ++ [","] ++ p_angle p ++ [","] ++ p_sout p) ++ [","]).
      * rewrite removelast_snoc. reflexivity.
      * rewrite <- !app_assoc. reflexivity.
  - inversion H as [|? ? (C1 & C2 & C3 & C4) H']; subst. inversion H' as [|? ? (D1 & D2 & D3 & D4) H'']; subst.
    cbn [body_text body_lines]. rewrite <- (IH H'').
    replace (pair_text p q ++ body_text r) with
      (join "," (T "+" :: ply_fields p ++ [p_mid q; p_t q; p_angle q; p_sout q ++ T "+"]) ++ newline :: body_text r).
    + apply line_fields; [discriminate|]. unfold ply_fields. cbn [app].
      repeat (apply Forall_cons; [first [apply clean_T_plus|assumption|apply clean_plus; assumption]|]). constructor.
    + unfold pair_text, first_half, second_half, ply_fields. cbn [app join].
      change (T "+,") with (T "+" ++ [","]). repeat (rewrite <- !app_assoc; cbn [app]). reflexivity. Qed.

Lemma str_Z_clean z : clean (str_Z z).
Proof. assert (G : forall d, clean (T (DecimalString.NilZero.string_of_uint d))).
  { intros d. assert (D : forall c, In c (T (DecimalString.NilZero.string_of_uint d)) -> is_digit c = true).
    { intros c Hc. destruct d; [destruct Hc as [<-|[]]; reflexivity|..];
      exact (proj1 (forallb_forall _ _) (dec_uint_digits (_ _)) c Hc). }
    split; intros K; apply D in K; vm_compute in K; discriminate K. }
  unfold str_Z. destruct (Z.to_int z) as [d|d]; [apply G|].
  cbn [DecimalString.NilZero.string_of_int T list_ascii_of_string].
  destruct (G d) as [G1 G2]. split; intros [K|K]; try discriminate K; [apply G1|apply G2]; exact K. Qed.

Lemma header_fields pid z0 rest : clean z0 ->
  fields ((T "PCOMP," ++ str_Z pid ++ [","] ++ z0 ++ T ",,,,,+" ++ [newline]) ++ rest)
  = [T "PCOMP"; str_Z pid; z0; []; []; []; []; T "+"] :: fields rest.
Proof. intros Hz. rewrite <- (line_fields [T "PCOMP"; str_Z pid; z0; []; []; []; []; T "+"] rest).
  - f_equal. cbn [join]. repeat (rewrite <- !app_assoc; cbn [app]). reflexivity.
  - discriminate.
  - repeat (apply Forall_cons; [first [apply str_Z_clean|assumption|apply clean_T_plus|split; notin_list]|]). constructor. Qed.

Lemma zip4_clean m t a s : Forall clean m -> Forall clean t -> Forall clean a -> Forall clean s -> Forall clean_ply (zip4 m t a s).
Proof. intros Hm. revert t a s. induction Hm as [|x m Hx Hm IH]; intros t a s Ht Ha Hs; [constructor|].
  destruct Ht as [|y t Hy Ht]; [constructor|]. destruct Ha as [|z a Hz Ha]; [constructor|]. destruct Hs as [|w s Hw Hs]; [constructor|].
  rewrite zip4_cons. constructor; [repeat split; apply Hx || apply Hy || apply Hz || apply Hw|]. apply IH; assumption. Qed.

(*@ C57: when the arguments stand for the lists m, t and s, none of whose entries contains a comma or a line break, the
    card splits into the header and one line for every two plies, in order; the output request of every second ply has a
    plus sign glued to it, and after an odd number of plies the last line has one ply only and no plus sign. @*)
Lemma t_C57_fields : forall (seq : list text) (midi ti : parg) (pid : Z) (z0 : text) (so : sarg) (m t s : list text),
  stands_for (List.length seq) midi m -> stands_for (List.length seq) ti t -> sout_for (List.length seq) so s ->
  clean z0 -> Forall clean m -> Forall clean t -> Forall clean seq -> Forall clean s ->
  exists card, build_pcomp seq midi ti pid z0 so = Ok card
    /\ fields card = [T "PCOMP"; str_Z pid; z0; []; []; []; []; T "+"] :: body_lines (zip4 m t seq s).
Proof. intros seq midi ti pid z0 so m t s Hm Ht Hs Cz Cm Ct Ca Cs.
  apply (t_C58_values midi (List.length seq) m) in Hm. apply (t_C58_values ti (List.length seq) t) in Ht. apply t_C58_sout in Hs.
  eexists. split; [apply (build_pcomp_ok _ _ _ _ _ _ m t s); assumption|].
  rewrite header_fields by exact Cz. f_equal. apply body_fields. apply zip4_clean; assumption. Qed.

Lemma read_body l : concat (map read_line (body_lines l)) = l.
Proof. induction l as [|p|p q r IH] using pair_induction; [reflexivity|destruct p; reflexivity|].
  cbn [body_lines map concat]. rewrite IH. destruct p as [a b c d], q as [a' b' c' d'].
  cbn [ply_fields app p_mid p_t p_angle p_sout read_line]. unfold unplus. change (T "+") with ["+"].
  rewrite last_last, removelast_snoc. reflexivity. Qed.

(*@ C57: reading the card back gives every ply, in order and unchanged. @*)
Lemma t_C57_roundtrip : forall (seq : list text) (midi ti : parg) (pid : Z) (z0 : text) (so : sarg) (m t s : list text) (card : text),
  stands_for (List.length seq) midi m -> stands_for (List.length seq) ti t -> sout_for (List.length seq) so s ->
  clean z0 -> Forall clean m -> Forall clean t -> Forall clean seq -> Forall clean s ->
  build_pcomp seq midi ti pid z0 so = Ok card ->
  read_card card = zip4 m t seq s /\ map p_angle (read_card card) = seq /\ List.length (read_card card) = List.length seq.
Proof. intros seq midi ti pid z0 so m t s card Hm Ht Hs Cz Cm Ct Ca Cs B.
  destruct (t_C57_fields seq midi ti pid z0 so m t s Hm Ht Hs Cz Cm Ct Ca Cs) as (card' & B' & F).
  rewrite B in B'. injection B' as <-.
  assert (E : read_card card = zip4 m t seq s). { unfold read_card. rewrite F. cbn [tl]. apply read_body. }
  rewrite E. split; [reflexivity|].
  assert (Lm : List.length m = List.length seq) by (inversion Hm; subst; assumption).
  assert (Lt : List.length t = List.length seq) by (inversion Ht; subst; assumption).
  assert (Ls : List.length s = List.length seq) by (apply t_C58_sout in Hs; exact (sout_length _ _ _ Hs)).
  clear -Lm Lt Ls. revert m t s Lm Lt Ls. induction seq as [|a seq IH]; intros [|x m] [|y t] [|z s]; try discriminate; [split; reflexivity|].
  intros [= Lm] [= Lt] [= Ls]. rewrite zip4_cons. cbn [map p_angle List.length]. destruct (IH m t s Lm Lt Ls) as [-> ->]. split; reflexivity. Qed.

(*@ Example: a card for three plies, whose text is as expected and meets the hypotheses. @*)
Example t_C57_ex : card_example = Ok (T "PCOMP,12,,,,,,+" ++ [newline] ++ T "+,7,0.1,45.0,YES,7,0.2,-45.0,NO+" ++ [newline]
    ++ T "+,7,0.1,0.0,YES")
  /\ stands_for 3 (Scalar (T "7")) [T "7"; T "7"; T "7"] /\ stands_for 3 (Sized [T "0.1"; T "0.2"; T "0.1"]) [T "0.1"; T "0.2"; T "0.1"]
  /\ sout_for 3 (SoutStr (T "FIBER")) [T "YES"; T "NO"; T "YES"]
  /\ Forall clean [T "7"; T "0.1"; T "45.0"; T "-45.0"; T "0.0"; T "YES"; T "NO"; []].
Proof. split; [reflexivity|]. split; [|split; [|split]].
  - constructor; [reflexivity|]. intros [|[|[|i]]] H; try reflexivity; lia.
  - constructor. reflexivity.
  - apply SoFiber; [lia|reflexivity|]. intros [|[|[|i]]] H; try reflexivity; lia.
  - repeat (apply Forall_cons; [split; notin_list|]). constructor. Qed.

(*@ C58: [build_pcomp] raises exactly when one of its arguments does not fit, ValueError before IndexError. @*)
Lemma t_C58_card : forall (seq : list text) (midi ti : parg) (pid : Z) (z0 : text) (so : sarg),
  (is_ok (build_pcomp seq midi ti pid z0 so) = true <->
   fits (List.length seq) ti /\ fits (List.length seq) midi /\ exists s, sout_for (List.length seq) so s)
  /\ (build_pcomp seq midi ti pid z0 so = Err IndexError <->
       seq = [] /\ fits 0 ti /\ fits 0 midi /\ so = SoutStr (T "FIBER")).
Proof. intros seq midi ti pid z0 so.
  destruct (convert_to_list ti (List.length seq)) as [t|e1] eqn:Et.
  2:{ assert (e1 = ValueError) as ->. { destruct ti as [x|l]; cbn in Et; [discriminate|]. destruct (Nat.eqb _ _); congruence. }
      assert (N : ~ fits (List.length seq) ti) by (apply (t_C58_values ti (List.length seq) []), Et).
      unfold build_pcomp. rewrite Et. cbn. split; [split; [discriminate|tauto]|]. split; [discriminate|].
      intros (-> & K & _). contradiction. }
  assert (Ft : fits (List.length seq) ti).
  { destruct ti as [x|l]; [exact I|]. cbn in Et |- *. destruct (Nat.eqb_spec (List.length l) (List.length seq)); [assumption|discriminate]. }
  destruct (convert_to_list midi (List.length seq)) as [m|e1] eqn:Em.
  2:{ assert (e1 = ValueError) as ->. { destruct midi as [x|l]; cbn in Em; [discriminate|]. destruct (Nat.eqb _ _); congruence. }
      assert (N : ~ fits (List.length seq) midi) by (apply (t_C58_values midi (List.length seq) []), Em).
      unfold build_pcomp. rewrite Et, Em. cbn. split; [split; [discriminate|tauto]|]. split; [discriminate|].
      intros (-> & _ & K & _). contradiction. }
  assert (Fm : fits (List.length seq) midi).
  { destruct midi as [x|l]; [exact I|]. cbn in Em |- *. destruct (Nat.eqb_spec (List.length l) (List.length seq)); [assumption|discriminate]. }
  destruct (convert_sout so (List.length seq)) as [s|e1] eqn:Es.
  - rewrite (build_pcomp_ok seq midi ti pid z0 so m t s Em Et Es). split.
    + split; [intros _|reflexivity]. split; [exact Ft|]. split; [exact Fm|]. exists s. apply t_C58_sout, Es.
    + split; [discriminate|]. intros (-> & _ & _ & ->). discriminate Es.
  - assert (B : build_pcomp seq midi ti pid z0 so = Err e1) by (unfold build_pcomp; rewrite Et, Em, Es; reflexivity).
    rewrite B. split.
    + split; [discriminate|]. intros (_ & _ & s & K). apply t_C58_sout in K. rewrite Es in K. discriminate K.
    + destruct (t_C58_sout_errors so _ _ Es) as [(-> & -> & L)|(-> & N)].
      * destruct seq; [|discriminate L]. split; [intros _; repeat split; assumption|reflexivity].
      * split; [discriminate|]. intros (-> & _ & _ & ->). exfalso. apply N. split; reflexivity. Qed.
