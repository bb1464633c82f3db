(** The tokeniser and the parser on concatenated texts. *)
From Coq Require Import ZArith Bool Arith Lia String Ascii List.
From Verif Require Import M_Py M_K M_Tables M_Shape M_Expr.
Import ListNotations.
Open Scope string_scope.
Open Scope list_scope.

(** ** tokens *)
Lemma digits_app s : forall a k t, digits a k (s ++ String ")" t)%string =
  let '(z, n, r) := digits a k s in (z, n, (r ++ String ")" t)%string).
Proof.
  induction s as [|c s IH]; intros a k t; [reflexivity|]. cbn [digits append].
  destruct (digit c); [apply IH|reflexivity].
Qed.
Lemma exponent_app s t : exponent (s ++ String ")" t) = let '(e, r) := exponent s in (e, (r ++ String ")" t)%string).
Proof.
  destruct s as [|c s]; [reflexivity|]. cbn [exponent append]. destruct (Ascii.eqb c "e"); [|reflexivity].
  destruct s as [|d s]; [reflexivity|]. cbn [append]. destruct (Ascii.eqb d "-"); [|destruct (Ascii.eqb d "+")].
  - rewrite digits_app. destruct (digits 0 0 s) as [[? ?] ?]. reflexivity.
  - rewrite digits_app. destruct (digits 0 0 s) as [[? ?] ?]. reflexivity.
  - change (String d (s ++ String ")" t)) with (String d s ++ String ")" t)%string. rewrite digits_app.
    destruct (digits 0 0 (String d s)) as [[? ?] ?]. reflexivity.
Qed.
Lemma number_app s t : number (s ++ String ")" t) = let '(k, r) := number s in (k, (r ++ String ")" t)%string).
Proof.
  unfold number. rewrite digits_app. destruct (digits 0 0 s) as [[z n] r]. destruct r as [|c r]; [reflexivity|]. cbn [append].
  destruct (Ascii.eqb c "."); [|destruct (Ascii.eqb c "e")].
  - rewrite digits_app. destruct (digits z 0 r) as [[m k] r']. rewrite exponent_app. destruct (exponent r') as [e r'']. reflexivity.
  - change (String c (r ++ String ")" t)) with (String c r ++ String ")" t)%string. rewrite exponent_app.
    destruct (exponent (String c r)) as [e r'']. reflexivity.
  - reflexivity.
Qed.
Lemma token1_app c s t k r : token1 c s = Some (k, r) -> token1 c (s ++ String ")" t) = Some (k, (r ++ String ")" t)%string).
Proof.
  unfold token1. destruct (single c); [congruence|]. destruct (Ascii.eqb c "*"); [|destruct (Ascii.eqb c "x"); [|destruct (Ascii.eqb c "e")]].
  - destruct s as [|d u]; cbn [append]; [intros H; injection H as <- <-; reflexivity|].
    destruct (Ascii.eqb d "*"); intros H; injection H as <- <-; reflexivity.
  - destruct s as [|d u]; cbn [append]; [discriminate|]. destruct (Ascii.eqb d "i"); intros H; [injection H as <- <-; reflexivity|discriminate H].
  - destruct s as [|d [|d' u]]; cbn [append]; try discriminate.
    destruct (Ascii.eqb d "t" && Ascii.eqb d' "a")%bool; intros H; [injection H as <- <-; reflexivity|discriminate H].
  - destruct (digit c); [|discriminate]. intros H. change (String c (s ++ String ")" t)) with (String c s ++ String ")" t)%string.
    rewrite number_app. destruct (number (String c s)) as [k' r']. injection H as -> ->. reflexivity.
Qed.
Lemma lex_mono f : forall g s l, f <= g -> lex f s = Some l -> lex g s = Some l.
Proof.
  induction f as [|f IH]; intros g s l L H; [discriminate H|]. destruct g as [|g]; [lia|]. cbn [lex] in H |- *.
  destruct s as [|c s]; [exact H|]. destruct (Ascii.eqb c " "); [apply IH; [lia|exact H]|].
  destruct (token1 c s) as [[k r]|]; [|discriminate H]. destruct (lex f r) as [l'|] eqn:E; [|discriminate H].
  rewrite (IH g r l' ltac:(lia) E). exact H.
Qed.
Lemma lex_app f : forall s l g t lt, lex (S f) s = Some l -> lex g (String ")" t) = Some lt -> lex (f + g) (s ++ String ")" t) = Some (l ++ lt).
Proof.
  induction f as [|f IH]; intros s l g t lt H G.
  - destruct s as [|c s]; cbn [lex] in H; [injection H as <-; exact G|].
    destruct (Ascii.eqb c " "); [discriminate H|]. destruct (token1 c s) as [[k r]|]; discriminate H.
  - destruct s as [|c s].
    + cbn [lex] in H. injection H as <-. cbn [append app]. apply (lex_mono g); [lia|exact G].
    + change (lex (S (S f)) (String c s)) with (if Ascii.eqb c " " then lex (S f) s else match token1 c s with
        | Some (k, r) => match lex (S f) r with Some l => Some (k :: l) | None => None end | None => None end) in H.
      cbn [plus append lex]. destruct (Ascii.eqb c " "); [apply IH; assumption|].
      destruct (token1 c s) as [[k r]|] eqn:E; [|discriminate H]. rewrite (token1_app _ _ _ _ _ E).
      destruct (lex (S f) r) as [l'|] eqn:F; [|discriminate H]. injection H as <-. rewrite (IH _ _ _ _ _ F G). reflexivity.
Qed.

(** ** syntax trees *)
Definition ext_ok (f : nat) : Prop := forall t,
  (forall l x r, p_sum f l = Some (x, r) -> forall g, f <= g -> p_sum g (l ++ TR :: t) = Some (x, r ++ TR :: t)) /\
  (forall y l x r, p_sum_rest f y l = Some (x, r) -> forall g, f <= g -> p_sum_rest g y (l ++ TR :: t) = Some (x, r ++ TR :: t)) /\
  (forall l x r, p_prod f l = Some (x, r) -> forall g, f <= g -> p_prod g (l ++ TR :: t) = Some (x, r ++ TR :: t)) /\
  (forall y l x r, p_prod_rest f y l = Some (x, r) -> forall g, f <= g -> p_prod_rest g y (l ++ TR :: t) = Some (x, r ++ TR :: t)) /\
  (forall l x r, p_unary f l = Some (x, r) -> forall g, f <= g -> p_unary g (l ++ TR :: t) = Some (x, r ++ TR :: t)) /\
  (forall l x r, p_atom f l = Some (x, r) -> forall g, f <= g -> p_atom g (l ++ TR :: t) = Some (x, r ++ TR :: t)).
Lemma all_ext f : ext_ok f.
Proof.
  induction f as [|f IH]; intros t; [repeat split; intros; discriminate|].
  destruct (IH t) as (H1 & H2 & H3 & H4 & H5 & H6). repeat split.
  - intros l x r H [|g] L; [lia|]. cbn [p_sum] in *. destruct (p_prod f l) as [[y r']|] eqn:E; [|discriminate H].
    rewrite (H3 _ _ _ E) by lia. apply H2; [exact H|lia].
  - intros y l x r H [|g] L; [lia|]. cbn [p_sum_rest] in *. destruct l as [|k l]; [injection H as <- <-; reflexivity|].
    cbn [app]. destruct k; try (injection H as <- <-; reflexivity);
      (destruct (p_prod f l) as [[z r']|] eqn:E; [|discriminate H]; rewrite (H3 _ _ _ E) by lia; apply H2; [exact H|lia]).
  - intros l x r H [|g] L; [lia|]. cbn [p_prod] in *. destruct (p_unary f l) as [[y r']|] eqn:E; [|discriminate H].
    rewrite (H5 _ _ _ E) by lia. apply H4; [exact H|lia].
  - intros y l x r H [|g] L; [lia|]. cbn [p_prod_rest] in *. destruct l as [|k l]; [injection H as <- <-; reflexivity|].
    cbn [app]. destruct k; try (injection H as <- <-; reflexivity);
      (destruct (p_unary f l) as [[z r']|] eqn:E; [|discriminate H]; rewrite (H5 _ _ _ E) by lia; apply H4; [exact H|lia]).
  - intros l x r H [|g] L; [lia|]. cbn [p_unary] in *.
    assert (A : match p_atom f l with Some (x, TPow :: TInt z :: r) => Some (EPow x (Z.to_nat z), r) | Some (_, TPow :: _) => None | o => o end = Some (x, r) ->
      match p_atom g (l ++ TR :: t) with Some (x, TPow :: TInt z :: r) => Some (EPow x (Z.to_nat z), r) | Some (_, TPow :: _) => None | o => o end = Some (x, r ++ TR :: t)).
    { destruct (p_atom f l) as [[y r']|] eqn:E; [|discriminate]. rewrite (H6 _ _ _ E) by lia.
      destruct r' as [|k r']; [intros Q; injection Q as <- <-; reflexivity|]. cbn [app].
      destruct k; try (intros Q; injection Q as <- <-; reflexivity).
      destruct r' as [|k r']; [discriminate|]. cbn [app]. destruct k; try discriminate. intros Q; injection Q as <- <-. reflexivity. }
    destruct l as [|k l]; [destruct f; discriminate H|]. cbn [app] in *. destruct k; try exact (A H).
    + apply H5; [exact H|lia].
    + destruct (p_unary f l) as [[y r']|] eqn:E; [|discriminate H]. rewrite (H5 _ _ _ E) by lia. injection H as <- <-. reflexivity.
  - intros l x r H [|g] L; [lia|]. cbn [p_atom] in *. destruct l as [|k l]; [discriminate H|]. cbn [app].
    destruct k; try discriminate H; try (injection H as <- <-; reflexivity).
    destruct (p_sum f l) as [[y r']|] eqn:E; [|discriminate H]. rewrite (H1 _ _ _ E) by lia.
    destruct r' as [|k r']; [discriminate H|]. cbn [app]. destruct k; try discriminate H. injection H as <- <-. reflexivity.
Qed.

Lemma parse_product s t x y : parse s = Some x -> parse t = Some y ->
  parse (("(" ++ s ++ ")") ++ "*" ++ ("(" ++ t ++ ")")) = Some (EMul x y).
Proof.
  unfold parse. destruct (lex (S (String.length s)) s) as [ls|] eqn:Ls; [|discriminate].
  destruct (lex (S (String.length t)) t) as [lt|] eqn:Lt; [|discriminate].
  destruct (p_sum (6 * S (List.length ls)) ls) as [[x' [|]]|] eqn:Ps; try discriminate.
  destruct (p_sum (6 * S (List.length lt)) lt) as [[y' [|]]|] eqn:Pt; try discriminate. intros H H'. injection H as ->. injection H' as ->.
  assert (E : (("(" ++ s ++ ")") ++ "*" ++ "(" ++ t ++ ")")%string = String "(" (s ++ String ")" (String "*" (String "(" (t ++ String ")" ""))))).
  { cbn [append]. f_equal. clear. induction s as [|c s IH]; [reflexivity|]. cbn [append]. f_equal. exact IH. }
  rewrite E. clear E.
  assert (Le : String.length (String "(" (s ++ String ")" (String "*" (String "(" (t ++ String ")" ""))))) = 5 + String.length s + String.length t).
  { cbn [String.length]. assert (A : forall u v, String.length (u ++ v) = String.length u + String.length v).
    { clear. induction u as [|c u IH]; intros v; [reflexivity|]. cbn [append String.length]. rewrite IH. reflexivity. }
    rewrite A. cbn [String.length]. rewrite A. cbn [String.length]. lia. }
  rewrite Le.
  assert (L2 : lex (String.length t + 2) (t ++ String ")" "") = Some (lt ++ [TR])) by (apply lex_app; [exact Lt|reflexivity]).
  assert (L1 : lex (String.length s + (3 + (String.length t + 2))) (s ++ String ")" (String "*" (String "(" (t ++ String ")" "")))) = Some (ls ++ TR :: TMul :: TL :: lt ++ [TR])).
  { apply lex_app; [exact Ls|]. cbn [plus lex Ascii.eqb Bool.eqb token1 single]. rewrite L2. reflexivity. }
  replace (S (5 + String.length s + String.length t)) with (S (String.length s + (3 + (String.length t + 2)))) by lia.
  cbn [lex Ascii.eqb Bool.eqb token1 single]. rewrite L1. clear L1 L2 Le Ls Lt.
  set (n := List.length (TL :: ls ++ TR :: TMul :: TL :: lt ++ [TR])).
  assert (N : n = 5 + List.length ls + List.length lt).
  { unfold n. cbn [List.length]. rewrite app_length. cbn [List.length]. rewrite app_length. cbn [List.length]. lia. }
  clearbody n. rewrite N. clear n N.
  (* the second factor *)
  assert (P2 : forall k, 6 * S (List.length lt) <= k -> p_sum k (lt ++ [TR]) = Some (y, [TR])).
  { intros k Hk. apply (proj1 (all_ext _ []) _ _ _ Pt k Hk). }
  assert (P1 : forall k, 6 * S (List.length ls) <= k -> p_sum k (ls ++ TR :: TMul :: TL :: lt ++ [TR]) = Some (x, TR :: TMul :: TL :: lt ++ [TR])).
  { intros k Hk. apply (proj1 (all_ext _ (TMul :: TL :: lt ++ [TR])) _ _ _ Ps k Hk). }
  clear Ps Pt. remember (6 * S (5 + List.length ls + List.length lt) - 4) as k eqn:K.
  replace (6 * S (5 + List.length ls + List.length lt)) with (S (S (S (S k)))) by lia.
  cbn [p_sum p_prod p_unary p_atom]. rewrite P1 by lia. destruct k as [|k]; [lia|].
  cbn [p_prod_rest p_unary p_atom]. rewrite P2 by lia. reflexivity.
Qed.
