(** Texts written by the generators and read back. *)
From Coq Require Import Reals ZArith QArith Qreals Lra Lia Bool String Ascii.
From Coquelicot Require Import Coquelicot.
From Coq Require Import List.
From Verif Require Import M_Py M_K M_Expr M_RealArith M_GenFile S_Bardell S_Energy S_GenFile L_Poly L_Shape.
Import ListNotations.
Open Scope string_scope.
Open Scope R_scope.

Lemma sapp_nil s : s ++ "" = s.
Proof. induction s as [|c s IH]; [reflexivity|]. cbn. rewrite IH. reflexivity. Qed.
Lemma sapp_assoc s t u : (s ++ t) ++ u = s ++ (t ++ u).
Proof. induction s as [|c s IH]; [reflexivity|]. cbn. rewrite IH. reflexivity. Qed.
Lemma slen_app s t : String.length (s ++ t) = (String.length s + String.length t)%nat.
Proof. induction s as [|c s IH]; [reflexivity|]. cbn. rewrite IH. reflexivity. Qed.

(** ** decimal digits *)
Lemma digit_is d : (0 <= d < 10)%Z -> digit (digit_char d) = Some d.
Proof. intros H. assert (D : In d [0; 1; 2; 3; 4; 5; 6; 7; 8; 9]%Z) by (cbn; lia). cbn in D. repeat (destruct D as [<-|D]; [reflexivity|]). destruct D. Qed.
Lemma digit_ten (P : ascii -> Prop) : (forall d, In d [0; 1; 2; 3; 4; 5; 6; 7; 8; 9]%Z -> P (digit_char d)) -> forall d, (0 <= d < 10)%Z -> P (digit_char d).
Proof. intros H d B. apply H. cbn. lia. Qed.
Lemma dec_app f : forall z acc r, dec_digits f z acc ++ r = dec_digits f z (acc ++ r).
Proof. induction f as [|f IH]; intros z acc r; [reflexivity|]. cbn [dec_digits]. destruct (Z.eqb (z / 10) 0); [reflexivity|]. rewrite IH. reflexivity. Qed.
Lemma digits_dec f : forall z acc a k, (0 <= z < 10 ^ Z.of_nat f)%Z -> exists j, (0 <= j)%Z /\ ((0 < f)%nat -> (0 < j)%Z) /\
  digits a k (dec_digits f z acc) = digits (a * 10 ^ j + z)%Z (k + j)%Z acc.
Proof.
  induction f as [|f IH]; intros z acc a k H.
  - exists 0%Z. split; [lia|]. split; [lia|]. cbn [dec_digits]. f_equal; [|lia]. change (10 ^ Z.of_nat 0)%Z with 1%Z in H. lia.
  - cbn [dec_digits]. assert (M := Z.mod_pos_bound z 10 ltac:(lia)). assert (D := Z.div_mod z 10 ltac:(lia)).
    destruct (Z.eqb_spec (z / 10) 0) as [E|E].
    + exists 1%Z. split; [lia|]. split; [lia|]. cbn [digits]. rewrite digit_is by exact M. f_equal. lia.
    + destruct (IH (z / 10)%Z (String (digit_char (z mod 10)) acc) a k) as (j & J0 & _ & J).
      { split; [apply Z.div_pos; lia|]. apply Z.div_lt_upper_bound; [lia|]. rewrite Nat2Z.inj_succ, Z.pow_succ_r in H by lia. lia. }
      exists (j + 1)%Z. split; [lia|]. split; [lia|]. rewrite J. cbn [digits]. rewrite digit_is by exact M. f_equal; [|lia].
      rewrite Z.pow_add_r by lia. change (10 ^ 1)%Z with 10%Z. lia.
Qed.
Lemma fuel_enough z : (0 <= z)%Z -> (0 <= z < 10 ^ Z.of_nat (S (Z.to_nat (Z.log2 z))))%Z.
Proof.
  intros H. split; [exact H|]. assert (L := Z.log2_nonneg z). rewrite Nat2Z.inj_succ, Z2Nat.id by lia.
  destruct (Z.eq_dec z 0) as [-> |N]; [apply Z.pow_pos_nonneg; lia|].
  apply Z.lt_le_trans with (2 ^ Z.succ (Z.log2 z))%Z; [apply Z.log2_spec; lia|]. apply Z.pow_le_mono_l. lia.
Qed.
Lemma digits_str z r a k : (0 <= z)%Z -> exists j, (0 < j)%Z /\ digits a k (str_int z ++ r) = digits (a * 10 ^ j + z)%Z (k + j)%Z r.
Proof.
  intros H. unfold str_int. rewrite dec_app. destruct (digits_dec _ z ("" ++ r) a k (fuel_enough z H)) as (j & _ & J & E).
  exists j. split; [apply J; lia|exact E].
Qed.
Lemma dec_head f : forall z acc, (0 <= z)%Z -> (0 < f)%nat -> exists d t, (0 <= d < 10)%Z /\ dec_digits f z acc = String (digit_char d) t.
Proof.
  induction f as [|f IH]; intros z acc H F; [lia|]. cbn [dec_digits]. assert (M := Z.mod_pos_bound z 10 ltac:(lia)).
  destruct (Z.eqb (z / 10) 0); [eexists _, _; split; [exact M|reflexivity]|].
  destruct f as [|f]; [eexists _, _; split; [exact M|reflexivity]|]. apply IH; [apply Z.div_pos; lia|lia].
Qed.
Lemma str_head z : (0 <= z)%Z -> exists d t, (0 <= d < 10)%Z /\ str_int z = String (digit_char d) t.
Proof. intros H. apply dec_head; [exact H|lia]. Qed.
(** a text at which a number ends *)
Definition stop (s : string) : Prop := match s with "" => True | String c _ => digit c = None /\ c <> "."%char /\ c <> "e"%char end.
Lemma digits_stop s a k : stop s -> digits a k s = (a, k, s).
Proof. destruct s as [|c t]; intros H; [reflexivity|]. cbn [digits]. destruct H as [-> _]. reflexivity. Qed.
Lemma read_str z r : (0 <= z)%Z -> stop r -> exists j, (0 < j)%Z /\ digits 0 0 (str_int z ++ r) = (z, j, r).
Proof. intros H S. destruct (digits_str z r 0%Z 0%Z H) as (j & J & E). exists j. split; [exact J|]. rewrite E, digits_stop by exact S. reflexivity. Qed.

(** ** tokens *)
Definition lexes (s : string) (l : list token) : Prop := forall f, (String.length s < f)%nat -> lex f s = Some l.
Lemma lexes_nil : lexes "" [].
Proof. intros [|f] H; [cbn in H; lia|reflexivity]. Qed.
Lemma lexes_space s l : lexes s l -> lexes (" " ++ s) l.
Proof. intros H [|f] L; [cbn in L; lia|]. cbn. apply H. cbn in L. lia. Qed.
Lemma lexes_one c s k l : single c = Some k -> c <> " "%char -> lexes s l -> lexes (String c s) (k :: l).
Proof.
  intros E N H [|f] L; [cbn in L; lia|]. cbn [lex]. destruct (Ascii.eqb_spec c " "); [contradiction|]. unfold token1. rewrite E.
  rewrite H by (cbn in L; lia). reflexivity.
Qed.
Lemma lexes_mul c s l : c <> "*"%char -> lexes (String c s) l -> lexes ("*" ++ String c s) (TMul :: l).
Proof.
  intros N H [|f] L; [cbn in L; lia|]. change ("*" ++ String c s) with (String "*" (String c s)). cbn [lex]. cbn [Ascii.eqb Bool.eqb].
  change (token1 "*" (String c s)) with (if Ascii.eqb c "*" then Some (TPow, s) else Some (TMul, String c s)).
  destruct (Ascii.eqb_spec c "*"); [contradiction|]. rewrite H by (cbn in L |- *; lia). reflexivity.
Qed.
Lemma lexes_pow s l : lexes s l -> lexes ("**" ++ s) (TPow :: l).
Proof. intros H [|f] L; [cbn in L; lia|]. cbn. rewrite H by (cbn in L |- *; lia). reflexivity. Qed.
Lemma lexes_xi s l : lexes s l -> lexes ("xi" ++ s) (TXi :: l).
Proof. intros H [|f] L; [cbn in L; lia|]. cbn. rewrite H by (cbn in L |- *; lia). reflexivity. Qed.
Lemma token_digit d t : (0 <= d < 10)%Z -> Ascii.eqb (digit_char d) " " = false /\ token1 (digit_char d) t = Some (number (String (digit_char d) t)).
Proof. intros H. revert t. pattern (digit_char d). revert d H. apply digit_ten. intros d D t. cbn in D. repeat (destruct D as [<-|D]; [split; reflexivity|]). destruct D. Qed.
Lemma number_str z r : (0 <= z)%Z -> stop r -> number (str_int z ++ r) = (TInt z, r).
Proof.
  intros H S. unfold number. destruct (read_str z r H S) as (j & _ & E). rewrite E. destruct r as [|c t]; [reflexivity|]. destruct S as (_ & N1 & N2).
  destruct (Ascii.eqb_spec c "."); [contradiction|]. destruct (Ascii.eqb_spec c "e"); [contradiction|]. reflexivity.
Qed.
Lemma lexes_int z s l : (0 <= z)%Z -> stop s -> lexes s l -> lexes (str_int z ++ s) (TInt z :: l).
Proof.
  intros Z0 S H [|f] L; [cbn in L; lia|]. destruct (str_head z Z0) as (d & t & D & E). assert (N := number_str z s Z0 S). rewrite E in *. cbn [append] in *. cbn [lex].
  destruct (token_digit d (t ++ s) D) as [-> ->]. rewrite N. rewrite H; [reflexivity|]. cbn [String.length] in L. rewrite slen_app in L. lia.
Qed.
Lemma stop_head c t : In c ["*"; "/"; " "; ","; ")"; ":"]%char -> stop (String c t).
Proof. cbn. intros H. repeat (destruct H as [<-|H]; [repeat split; discriminate|]). destruct H. Qed.

(** the tokens of a term and of a polynomial *)
Definition tok_over (c : Q) : list token := if Pos.eqb (Qden c) 1 then [] else [TDiv; TInt (Zpos (Qden c))].
Definition tok_term (c : Q) (k : nat) : list token :=
  let p := Z.abs (Qnum c) in
  match k with
  | O => TInt p :: tok_over c
  | S k' => (if Z.eqb p 1 then [] else [TInt p; TMul]) ++ TXi :: (match k' with O => [] | _ => [TPow; TInt (Z.of_nat k)] end) ++ tok_over c
  end%list.
Definition tok_rest (l : list (Q * nat)) : list token :=
  flat_map (fun ck => (if negative (fst ck) then TMinus else TPlus) :: tok_term (fst ck) (snd ck)) l.
(** what may follow a term *)
Definition edge (s : string) : Prop := s = "" \/ exists t, s = String " " t.
Lemma edge_stop s : edge s -> stop s.
Proof. intros [-> |[t ->]]; [exact I|apply stop_head; cbn; tauto]. Qed.
Definition over_text (c : Q) : string := if Pos.eqb (Qden c) 1 then "" else "/" ++ str_int (Zpos (Qden c)).
Lemma lex_over c s l : edge s -> lexes s l -> lexes (over_text c ++ s) (tok_over c ++ l)%list /\ stop (over_text c ++ s).
Proof.
  intros E H. unfold over_text, tok_over. destruct (Pos.eqb (Qden c) 1); [split; [exact H|apply edge_stop, E]|]. rewrite sapp_assoc. split.
  - cbn [List.app]. apply (lexes_one "/"); [reflexivity|discriminate|]. apply lexes_int; [lia|apply edge_stop, E|exact H].
  - apply stop_head. cbn. tauto.
Qed.
Lemma lex_term c k s l : edge s -> lexes s l -> lexes (str_term c k ++ s) (tok_term c k ++ l)%list.
Proof.
  intros E H. destruct (lex_over c s l E H) as [L S0]. unfold str_term, tok_term. fold (over_text c). cbv zeta. assert (P := Z.abs_nonneg (Qnum c)). destruct k as [|k].
  - rewrite sapp_assoc. cbn [List.app]. apply lexes_int; [exact P|exact S0|exact L].
  - assert (X : lexes ("xi" ++ ((match k with O => "" | S _ => "**" ++ str_nat (S k) end) ++ over_text c) ++ s)
      ((TXi :: (match k with O => [] | S _ => [TPow; TInt (Z.of_nat (S k))] end) ++ tok_over c) ++ l)%list).
    { cbn [List.app]. apply lexes_xi. rewrite sapp_assoc, <- app_assoc. destruct k as [|k]; [exact L|]. rewrite sapp_assoc. cbn [List.app]. apply lexes_pow.
      apply lexes_int; [lia|exact S0|exact L]. }
    destruct (Z.eqb (Z.abs (Qnum c)) 1).
    + cbn [List.app]. exact X.
    + rewrite !sapp_assoc. cbn [List.app]. apply lexes_int; [exact P|apply stop_head; cbn; tauto|]. apply lexes_mul; [discriminate|]. rewrite sapp_assoc in X. exact X.
Qed.
Lemma rest_edge l : edge (str_rest l).
Proof. destruct l as [|[c k] l]; [left; reflexivity|right]. cbn [str_rest]. destruct (negative c); eexists; reflexivity. Qed.
Lemma lex_rest l : lexes (str_rest l) (tok_rest l).
Proof.
  induction l as [|[c k] l IH]; [apply lexes_nil|]. cbn [str_rest]. unfold tok_rest. cbn [flat_map fst snd].
  fold (tok_rest l). cbn [List.app]. destruct (negative c).
  - apply (lexes_space ("- " ++ str_term c k ++ str_rest l)). apply (lexes_one "-"); [reflexivity|discriminate|]. apply (lexes_space (str_term c k ++ str_rest l)). apply lex_term; [apply rest_edge|exact IH].
  - apply (lexes_space ("+ " ++ str_term c k ++ str_rest l)). apply (lexes_one "+"); [reflexivity|discriminate|]. apply (lexes_space (str_term c k ++ str_rest l)). apply lex_term; [apply rest_edge|exact IH].
Qed.

(** ** parsing the tokens of a polynomial *)
(** what may follow a term in the token list *)
Definition tedge (l : list token) : Prop := l = [] \/ exists t, l = TPlus :: t \/ l = TMinus :: t.
Lemma rest_tedge l : tedge (tok_rest l).
Proof. destruct l as [|[c k] l]; [left; reflexivity|right]. unfold tok_rest. cbn [flat_map fst snd]. destruct (negative c); eexists; [right|left]; reflexivity. Qed.
Definition pos_val (c : Q) (k : nat) (x : R) : R := IZR (Z.abs (Qnum c)) / IZR (Zpos (Qden c)) * x ^ k.
Ltac fuels f n := match n with O => idtac | S ?m => destruct f as [|f]; [lia|]; fuels f m end.
Lemma den_pos (p : positive) : IZR (Zpos p) <> 0.
Proof. apply not_0_IZR. discriminate. Qed.
Lemma prod_rest_edge f e r : tedge r -> (0 < f)%nat -> p_prod_rest f e r = Some (e, r).
Proof. intros E F. destruct f; [lia|]. destruct E as [-> |(t & [-> | ->])]; reflexivity. Qed.
Lemma over_parse c f e r : tedge r -> (4 <= f)%nat -> exists e', p_prod_rest f e (tok_over c ++ r)%list = Some (e', r) /\
  forall x y v : R, eval_expr (A := RA) Rdec x y e = Ok v -> exists w : R, eval_expr (A := RA) Rdec x y e' = Ok w /\ w = v / IZR (Zpos (Qden c)).
Proof.
  intros E F. unfold tok_over. destruct (Pos.eqb_spec (Qden c) 1) as [D|D].
  - exists e. split; [apply prod_rest_edge; [exact E|lia]|]. intros x y v V. exists v. split; [exact V|]. rewrite D. field.
  - exists (EDiv e (EInt (Zpos (Qden c)))). split.
    + fuels f 4%nat. cbn [List.app p_prod_rest p_unary p_atom]. destruct E as [-> |(t & [-> | ->])]; reflexivity.
    + intros x y v V. cbn [eval_expr]. rewrite V. cbn. destruct (Req_EM_T _ 0) as [Z|_]; [destruct (den_pos _ Z)|]. eexists. split; reflexivity.
Qed.
Lemma unary_xi k f r : (2 <= f)%nat -> (forall t, r <> TPow :: t) ->
  p_unary f ((TXi :: (match k with O => [] | S _ => [TPow; TInt (Z.of_nat (S k))] end)) ++ r)%list = Some (match k with O => EXi | S _ => EPow EXi (Z.to_nat (Z.of_nat (S k))) end, r).
Proof. intros F N. fuels f 2%nat. destruct k as [|k]; cbn [List.app p_unary p_atom]; [|reflexivity]. destruct r as [|[] r]; try reflexivity. destruct (N r eq_refl). Qed.
Lemma xi_val k (x y : R) : exists v : R, eval_expr (A := RA) Rdec x y (match k with O => EXi | S _ => EPow EXi (Z.to_nat (Z.of_nat (S k))) end) = Ok v /\ v = x ^ S k.
Proof. destruct k as [|k]; cbn [eval_expr]; [exists x; split; [reflexivity|cbn; ring]|]. rewrite Nat2Z.id. eexists. split; reflexivity. Qed.
Lemma over_nopow c r : tedge r -> forall t, (tok_over c ++ r)%list <> TPow :: t.
Proof. intros E t. unfold tok_over. destruct (Pos.eqb _ _); cbn; [|discriminate]. destruct E as [-> |(u & [-> | ->])]; discriminate. Qed.
Lemma unary_neg (neg : bool) f e l r : p_unary f l = Some (e, r) -> p_unary (S f) ((if neg then [TMinus] else []) ++ l)%list = Some (if neg then ENeg e else e, r) \/ neg = false.
Proof. destruct neg; [|right; reflexivity]. intros H. left. cbn [List.app p_unary]. rewrite H. reflexivity. Qed.
Lemma unary_int f z r : (2 <= f)%nat -> (forall t, r <> TPow :: t) -> p_unary f (TInt z :: r) = Some (EInt z, r).
Proof. intros F N. fuels f 2%nat. cbn [p_unary p_atom]. destruct r as [|[] r]; try reflexivity. destruct (N r eq_refl). Qed.
Lemma neg_parse (neg : bool) f l e r : (forall g, (2 <= g)%nat -> p_unary g l = Some (e, r)) -> (3 <= f)%nat ->
  p_unary f ((if neg then [TMinus] else []) ++ l)%list = Some (if neg then ENeg e else e, r).
Proof. intros H F. destruct neg; [|apply H; lia]. fuels f 1%nat. cbn [List.app p_unary]. rewrite H by lia. reflexivity. Qed.
Lemma neg_val (neg : bool) e (x y v : R) : eval_expr (A := RA) Rdec x y e = Ok v -> exists w : R, eval_expr (A := RA) Rdec x y (if neg then ENeg e else e) = Ok w /\ w = (if neg then -1 else 1) * v.
Proof. intros E. destruct neg; cbn [eval_expr]; rewrite ?E; [exists (- v)|exists v]; (split; [reflexivity|ring]). Qed.
Lemma prod_term (neg : bool) c k f r : tedge r -> (10 <= f)%nat ->
  exists e, p_prod f ((if neg then [TMinus] else []) ++ tok_term c k ++ r)%list = Some (e, r) /\
    forall x y : R, exists v : R, eval_expr (A := RA) Rdec x y e = Ok v /\ v = (if neg then -1 else 1) * pos_val c k x.
Proof.
  intros E F. destruct f as [|f]; [lia|]. cbn [p_prod]. unfold tok_term. cbv zeta. assert (NP := over_nopow c r E). destruct k as [|k].
  - cbn [List.app]. rewrite (neg_parse neg f _ (EInt (Z.abs (Qnum c))) (tok_over c ++ r)%list) by (first [lia | intros g G; apply unary_int; [exact G|exact NP]]).
    destruct (over_parse c f (if neg then ENeg (EInt (Z.abs (Qnum c))) else EInt (Z.abs (Qnum c))) r E ltac:(lia)) as (e' & P & V). exists e'. split; [exact P|].
    intros x y. destruct (neg_val neg (EInt (Z.abs (Qnum c))) x y (IZR (Z.abs (Qnum c))) eq_refl) as (w & W & Wv). destruct (V x y w W) as (u & U & Uv).
    exists u. split; [exact U|]. rewrite Uv, Wv. unfold pos_val. cbn [pow]. field. apply den_pos.
  - set (X := match k with O => EXi | S _ => EPow EXi (Z.to_nat (Z.of_nat (S k))) end).
    assert (UX : forall g, (2 <= g)%nat -> p_unary g ((TXi :: (match k with O => [] | S _ => [TPow; TInt (Z.of_nat (S k))] end) ++ tok_over c) ++ r)%list = Some (X, (tok_over c ++ r)%list)).
    { intros g G. rewrite app_comm_cons, <- app_assoc. apply unary_xi; [exact G|exact NP]. }
    destruct (Z.eqb_spec (Z.abs (Qnum c)) 1) as [O1|O1].
    + change ([] ++ (TXi :: (match k with O => [] | S _ => [TPow; TInt (Z.of_nat (S k))] end) ++ tok_over c))%list with (TXi :: (match k with O => [] | S _ => [TPow; TInt (Z.of_nat (S k))] end) ++ tok_over c)%list.
      rewrite (neg_parse neg f _ X (tok_over c ++ r)%list) by (first [lia | exact UX]).
      destruct (over_parse c f (if neg then ENeg X else X) r E ltac:(lia)) as (e' & P & V). exists e'. split; [exact P|].
      intros x y. destruct (xi_val k x y) as (v & Vx & Vv). fold X in Vx. destruct (neg_val neg X x y v Vx) as (w & W & Wv). destruct (V x y w W) as (u & U & Uv).
      exists u. split; [exact U|]. rewrite Uv, Wv, Vv. unfold pos_val. rewrite O1. field. apply den_pos.
    + change (([TInt (Z.abs (Qnum c)); TMul] ++ (TXi :: (match k with O => [] | S _ => [TPow; TInt (Z.of_nat (S k))] end) ++ tok_over c)) ++ r)%list
        with (TInt (Z.abs (Qnum c)) :: TMul :: ((TXi :: (match k with O => [] | S _ => [TPow; TInt (Z.of_nat (S k))] end) ++ tok_over c) ++ r))%list.
      rewrite (neg_parse neg f _ (EInt (Z.abs (Qnum c))) (TMul :: ((TXi :: (match k with O => [] | S _ => [TPow; TInt (Z.of_nat (S k))] end) ++ tok_over c) ++ r))%list)
        by (first [lia | intros g G; apply unary_int; [exact G|discriminate]]).
      destruct f as [|f]; [lia|]. cbn [p_prod_rest]. rewrite UX by lia.
      destruct (over_parse c f (EMul (if neg then ENeg (EInt (Z.abs (Qnum c))) else EInt (Z.abs (Qnum c))) X) r E ltac:(lia)) as (e' & P & V). exists e'. split; [exact P|].
      intros x y. destruct (xi_val k x y) as (v & Vx & Vv). fold X in Vx. destruct (neg_val neg (EInt (Z.abs (Qnum c))) x y (IZR (Z.abs (Qnum c))) eq_refl) as (w & W & Wv).
      destruct (V x y (w * v)) as (u & U & Uv); [cbn [eval_expr]; rewrite W; cbn [bind]; rewrite Vx; reflexivity|].
      exists u. split; [exact U|]. rewrite Uv, Wv, Vv. unfold pos_val. field. apply den_pos.
Qed.
Definition term_val (ck : Q * nat) (x : R) : R := Q2R (fst ck) * x ^ snd ck.
Definition terms_val (l : list (Q * nat)) (x : R) : R := fold_right (fun ck s => term_val ck x + s) 0 l.
Lemma sign_val c k x : (if negative c then -1 else 1) * pos_val c k x = term_val (c, k) x.
Proof.
  unfold negative, pos_val, term_val, Q2R. cbn [fst snd]. destruct (Z.ltb_spec (Qnum c) 0) as [L|L].
  - rewrite Z.abs_neq by lia. rewrite opp_IZR. field. apply den_pos.
  - rewrite Z.abs_eq by lia. field. apply den_pos.
Qed.
Lemma sum_rest l : forall f e, (List.length l + 11 <= f)%nat -> exists e', p_sum_rest f e (tok_rest l) = Some (e', []) /\
  forall x y v : R, eval_expr (A := RA) Rdec x y e = Ok v -> exists w : R, eval_expr (A := RA) Rdec x y e' = Ok w /\ w = v + terms_val l x.
Proof.
  induction l as [|[c k] l IH]; intros f e F.
  - exists e. split; [destruct f; [cbn in F; lia|reflexivity]|]. intros x y v V. exists v. split; [exact V|]. cbn. ring.
  - cbn [List.length] in F. destruct f as [|f]; [lia|]. unfold tok_rest. cbn [flat_map fst snd]. fold (tok_rest l). cbn [List.app].
    destruct (prod_term false c k f (tok_rest l) (rest_tedge l) ltac:(lia)) as (ec & P & V). change ([] ++ tok_term c k ++ tok_rest l)%list with (tok_term c k ++ tok_rest l)%list in P.
    assert (N := sign_val c k). destruct (negative c); cbn [p_sum_rest]; rewrite P.
    + destruct (IH f (ESub e ec) ltac:(lia)) as (e' & Pe & Ve). exists e'. split; [exact Pe|]. intros x y v Vv. destruct (V x y) as (u & U & Uv).
      destruct (Ve x y (v - u)) as (w & W & Wv); [cbn [eval_expr]; rewrite Vv; cbn [bind]; rewrite U; reflexivity|]. exists w. split; [exact W|]. rewrite Wv, Uv. cbn [terms_val fold_right]. fold (terms_val l x). rewrite <- N. ring.
    + destruct (IH f (EAdd e ec) ltac:(lia)) as (e' & Pe & Ve). exists e'. split; [exact Pe|]. intros x y v Vv. destruct (V x y) as (u & U & Uv).
      destruct (Ve x y (v + u)) as (w & W & Wv); [cbn [eval_expr]; rewrite Vv; cbn [bind]; rewrite U; reflexivity|]. exists w. split; [exact W|]. rewrite Wv, Uv. cbn [terms_val fold_right]. fold (terms_val l x). rewrite <- N. ring.
Qed.
Lemma rest_len l : (List.length l <= List.length (tok_rest l))%nat.
Proof. induction l as [|[c k] l IH]; [apply Nat.le_refl|]. unfold tok_rest. cbn [flat_map List.length List.app]. rewrite app_length. fold (tok_rest l). lia. Qed.
Lemma terms_sum p : forall k x, terms_val (terms_from k p) x = x ^ k * poly_at p x.
Proof.
  induction p as [|c p IH]; intros k x; [cbn; ring|]. cbn [terms_from poly_at].
  assert (A : forall l m, terms_val (l ++ m) x = terms_val l x + terms_val m x).
  { induction l as [|a l IHl]; intros m; [change (terms_val m x = 0 + terms_val m x); ring|]. cbn [terms_val fold_right List.app]. fold (terms_val (l ++ m) x) (terms_val l x). rewrite IHl. ring. }
  rewrite A, IH. destruct (Qeq_bool c 0) eqn:Z.
  - apply Qeq_bool_eq in Z. rewrite (Qeq_eqR _ _ Z). replace (Q2R 0) with 0 by (unfold Q2R; cbn; lra). cbn. ring.
  - cbn [terms_val fold_right term_val fst snd]. unfold term_val. cbn [fst snd]. rewrite (Qeq_eqR _ _ (Qred_correct c)). cbn [pow]. ring.
Qed.
Lemma eval_poly p (x y : R) : eval (A := RA) Rdec x y (str_poly p) = Ok (poly_at p x).
Proof.
  replace (poly_at p x) with (terms_val (terms_from 0 p) x) by (rewrite terms_sum; cbn; ring).
  unfold str_poly. destruct (terms_from 0 p) as [|[c k] l]; [reflexivity|].
  assert (L : lexes ((if negative c then "-" else "") ++ str_term c k ++ str_rest l) ((if negative c then [TMinus] else []) ++ tok_term c k ++ tok_rest l)%list).
  { assert (T := lex_term c k (str_rest l) (tok_rest l) (rest_edge l) (lex_rest l)). destruct (negative c); [|exact T]. apply (lexes_one "-"); [reflexivity|discriminate|exact T]. }
  unfold eval, parse. rewrite (L _ (Nat.lt_succ_diag_r _)).
  set (T := ((if negative c then [TMinus] else []) ++ tok_term c k ++ tok_rest l)%list).
  assert (N : (1 + List.length l <= List.length T)%nat).
  { unfold T. rewrite !app_length. assert (H := rest_len l). assert (1 <= List.length (tok_term c k))%nat; [|lia]. unfold tok_term. destruct k; [cbn; lia|]. rewrite app_length. cbn. lia. }
  destruct (6 * S (List.length T))%nat as [|f] eqn:F; [lia|]. cbn [p_sum]. unfold T at 1.
  destruct (prod_term (negative c) c k f (tok_rest l) (rest_tedge l) ltac:(lia)) as (e & P & V). rewrite P.
  destruct (sum_rest l f e ltac:(lia)) as (e' & Pe & Ve). rewrite Pe. destruct (V x y) as (v & Vv & Ev). destruct (Ve x y v Vv) as (w & W & Ew). rewrite W, Ew, Ev, sign_val. reflexivity.
Qed.

(** ** reading a file back *)
Lemma las_app s t : list_ascii_of_string (s ++ t) = (list_ascii_of_string s ++ list_ascii_of_string t)%list.
Proof. induction s as [|c s IH]; [reflexivity|]. cbn. rewrite IH. reflexivity. Qed.
Lemma plain_app s t : plain s -> plain t -> plain (s ++ t).
Proof. intros S T c H. rewrite las_app in H. apply in_app_or in H. destruct H as [H|H]; [apply S, H|apply T, H]. Qed.
Lemma plain_nil : plain "".
Proof. intros c []. Qed.
Ltac plain_lit := let c := fresh in let H := fresh in intros c H; cbn in H; repeat (destruct H as [<-|H]; [repeat split; discriminate|]); destruct H.
Lemma plain_dec f : forall z acc, plain acc -> plain (dec_digits f z acc).
Proof.
  induction f as [|f IH]; intros z acc A; [exact A|]. cbn [dec_digits].
  assert (P : plain (String (digit_char (z mod 10)) acc)).
  { intros c [<-|H]; [|apply A, H]. assert (M := Z.mod_pos_bound z 10 ltac:(lia)). revert M. generalize (z mod 10)%Z. intros d M. pattern (digit_char d). revert d M. apply digit_ten.
    intros d D. cbn in D. repeat (destruct D as [<-|D]; [repeat split; discriminate|]). destruct D. }
  destruct (Z.eqb (z / 10) 0); [exact P|apply IH, P].
Qed.
Lemma plain_int z : plain (str_int z).
Proof. apply plain_dec, plain_nil. Qed.
Lemma plain_term c k : plain (str_term c k).
Proof.
  unfold str_term. cbv zeta. assert (O : plain (if Pos.eqb (Qden c) 1 then "" else "/" ++ str_int (Zpos (Qden c)))).
  { destruct (Pos.eqb _ _); [apply plain_nil|]. apply plain_app; [plain_lit|apply plain_int]. }
  destruct k as [|k]; [apply plain_app; [apply plain_int|exact O]|]. apply plain_app; [|apply plain_app; [plain_lit|apply plain_app; [|exact O]]].
  - destruct (Z.eqb _ _); [apply plain_nil|]. apply plain_app; [apply plain_int|plain_lit].
  - destruct k; [apply plain_nil|]. apply plain_app; [plain_lit|apply plain_int].
Qed.
Lemma plain_rest l : plain (str_rest l).
Proof. induction l as [|[c k] l IH]; [apply plain_nil|]. cbn [str_rest]. apply plain_app; [destruct (negative c); plain_lit|]. apply plain_app; [apply plain_term|exact IH]. Qed.
Lemma plain_poly p : plain (str_poly p).
Proof.
  unfold str_poly. destruct (terms_from 0 p) as [|[c k] l]; [plain_lit|]. apply plain_app; [destruct (negative c); [plain_lit|apply plain_nil]|].
  apply plain_app; [apply plain_term|apply plain_rest].
Qed.
Lemma line_app s t : one_line s -> one_line t -> one_line (s ++ t).
Proof. intros S T H. rewrite las_app in H. apply in_app_or in H. destruct H as [H|H]; [exact (S H)|exact (T H)]. Qed.
Lemma plain_line s : plain s -> one_line s.
Proof. intros P H. destruct (P _ H) as (_ & _ & N). apply N. reflexivity. Qed.
Lemma lines_line s : forall t, one_line s -> lines (s ++ newline ++ t) = s :: lines t.
Proof.
  induction s as [|c s IH]; intros t O; [reflexivity|]. cbn [append lines]. destruct (Ascii.eqb_spec c (ascii_of_nat 10)) as [E|N].
  - exfalso. apply O. left. exact E.
  - rewrite IH; [reflexivity|]. intros H. apply O. right. exact H.
Qed.
Lemma skip_app p : forall s, skip p (p ++ s) = Some s.
Proof. induction p as [|c p IH]; intros s; [reflexivity|]. cbn. rewrite Ascii.eqb_refl. apply IH. Qed.
Lemma read_nat_str n r : stop r -> read_nat (str_nat n ++ r) = Some (n, r).
Proof.
  intros S. unfold read_nat, str_nat. destruct (read_str (Z.of_nat n) r ltac:(lia) S) as (j & J & E). rewrite E. destruct (Z.eqb_spec j 0); [lia|]. rewrite Nat2Z.id. reflexivity.
Qed.
Lemma read_key_str k r : key_ok k -> stop r -> read_key (str_key k ++ r) = Some (k, r).
Proof.
  intros [K|K] S.
  - destruct k as [|i [|? ?]]; try discriminate. cbn [str_key]. unfold read_key.
    assert (N : skip "(" (str_nat i ++ r) = None).
    { unfold str_nat. destruct (str_head (Z.of_nat i) ltac:(lia)) as (d & t & D & ->). cbn [append]. pattern (digit_char d). revert d D. apply digit_ten. intros d D. cbn in D.
      repeat (destruct D as [<-|D]; [reflexivity|]). destruct D. }
    rewrite N, read_nat_str by exact S. reflexivity.
  - destruct k as [|i [|j [|? ?]]]; try discriminate. cbn [str_key]. unfold read_key. rewrite !sapp_assoc. rewrite skip_app.
    rewrite read_nat_str by (apply stop_head; cbn; tauto). rewrite skip_app. rewrite read_nat_str by (apply stop_head; cbn; tauto). rewrite skip_app. reflexivity.
Qed.
Lemma read_quoted_plain s : forall r, plain s -> read_quoted (s ++ String quote r) = Some (s, r).
Proof.
  induction s as [|c s IH]; intros r P; [reflexivity|]. cbn [append read_quoted]. destruct (P c (or_introl eq_refl)) as (N1 & N2 & _).
  destruct (Ascii.eqb_spec c quote) as [E|_]; [destruct (N1 E)|]. destruct (Ascii.eqb_spec c backslash) as [E|_]; [destruct (N2 E)|].
  rewrite IH; [reflexivity|]. intros d D. apply P. right. exact D.
Qed.
(** an entry without its line end *)
Definition item_line (kv : list nat * string) : string := "    " ++ str_key (fst kv) ++ ": " ++ String quote (snd kv ++ String quote ",").
Lemma item_split kv t : str_item kv ++ t = item_line kv ++ newline ++ t.
Proof. unfold str_item, item_line. repeat (rewrite ?sapp_assoc; cbn [append]). reflexivity. Qed.
Lemma read_item_line kv : key_ok (fst kv) -> plain (snd kv) -> read_item (item_line kv) = Some kv.
Proof.
  intros K P. unfold read_item, item_line. rewrite skip_app. rewrite read_key_str by (try exact K; apply stop_head; cbn; tauto).
  change (": " ++ String quote (snd kv ++ String quote ",")) with ((": " ++ String quote "") ++ (snd kv ++ String quote ",")). rewrite skip_app, read_quoted_plain by exact P.
  destruct kv; reflexivity.
Qed.
Lemma plain_nat n : plain (str_nat n).
Proof. apply plain_int. Qed.
Lemma plain_key k : plain (str_key k).
Proof.
  destruct k as [|i [|j [|? ?]]]; try apply plain_nil; [apply plain_nat|]. cbn [str_key].
  apply plain_app; [plain_lit|]. apply plain_app; [apply plain_nat|]. apply plain_app; [plain_lit|]. apply plain_app; [apply plain_nat|plain_lit].
Qed.
Lemma line_lit s : forallb (fun c => negb (Ascii.eqb c (ascii_of_nat 10))) (list_ascii_of_string s) = true -> one_line s.
Proof. intros H I. rewrite forallb_forall in H. specialize (H _ I). rewrite Ascii.eqb_refl in H. discriminate. Qed.
Lemma item_one_line kv : plain (snd kv) -> one_line (item_line kv).
Proof.
  intros P. unfold item_line. apply line_app; [apply line_lit; reflexivity|]. apply line_app; [apply plain_line, plain_key|]. apply line_app; [apply line_lit; reflexivity|].
  apply (line_app (String quote "") (snd kv ++ String quote ",")); [apply line_lit; reflexivity|]. apply line_app; [apply plain_line, P|apply line_lit; reflexivity].
Qed.
Lemma item_not_end kv : String.eqb (item_line kv) "}" = false.
Proof. reflexivity. Qed.
Lemma read_items d : forall nm d0 ls, (forall kv, In kv d -> key_ok (fst kv) /\ plain (snd kv)) ->
  read_lines (Some (nm, d0)) (map item_line d ++ ls) = read_lines (Some (nm, (d0 ++ d)%list)) ls.
Proof.
  induction d as [|kv d IH]; intros nm d0 ls H; [rewrite app_nil_r; reflexivity|]. cbn [map List.app read_lines]. rewrite item_not_end.
  destruct (H kv (or_introl eq_refl)) as [K P]. rewrite read_item_line by assumption. rewrite IH by (intros x X; apply H; right; exact X). rewrite <- app_assoc. reflexivity.
Qed.
Lemma lines_items d : forall t, (forall kv, In kv d -> plain (snd kv)) ->
  lines (fold_right (fun kv t => str_item kv ++ t) "" d ++ t) = (map item_line d ++ lines t)%list.
Proof.
  induction d as [|kv d IH]; intros t H; [reflexivity|]. cbn [fold_right map List.app]. rewrite sapp_assoc, item_split, lines_line by (apply item_one_line, H; left; reflexivity).
  rewrite IH; [reflexivity|]. intros x X. apply H. right. exact X.
Qed.
Lemma read_name_of nm : read_name (nm ++ " = {") = Some nm.
Proof.
  induction nm as [|c nm IH]; [reflexivity|]. cbn [append read_name]. destruct (String.eqb_spec (String c (nm ++ " = {")) " = {") as [E|N].
  - exfalso. apply (f_equal String.length) in E. cbn [String.length] in E. rewrite slen_app in E. cbn in E. lia.
  - rewrite IH. reflexivity.
Qed.
Lemma not_ignored nm t : starts_with_letter nm -> ignored (nm ++ t) = false.
Proof.
  intros (c & s & -> & L). unfold ignored. cbn [append skip String.eqb orb]. destruct (Ascii.eqb_spec "#" c) as [E|_]; [subst c; cbn in L; lia|].
  destruct (Ascii.eqb_spec "_" c) as [E|_]; [subst c; cbn in L; lia|]. reflexivity.
Qed.
Lemma import_dict d nm t : starts_with_letter nm -> one_line nm -> (forall kv, In kv d -> key_ok (fst kv) /\ plain (snd kv)) ->
  read_lines None (lines (convert_to_str d nm ++ t)) = option_map (cons (nm, d)) (read_lines None (lines t)).
Proof.
  intros L O H. unfold convert_to_str. rewrite <- sapp_assoc with (s := nm) (t := " = {"). rewrite !sapp_assoc with (s := nm ++ " = {"), !sapp_assoc with (s := newline).
  rewrite lines_line by (apply line_app; [exact O|apply line_lit; reflexivity]). cbn [read_lines]. rewrite not_ignored by exact L. rewrite read_name_of. rewrite sapp_assoc.
  rewrite lines_items by (intros kv K; apply H; exact K). rewrite read_items by exact H. rewrite !sapp_assoc. rewrite (lines_line "}") by (apply line_lit; reflexivity).
  reflexivity.
Qed.
Lemma skip_line l t : one_line l -> ignored l = true -> read_lines None (lines (l ++ newline ++ t)) = read_lines None (lines t).
Proof. intros O I. rewrite lines_line by exact O. cbn [read_lines]. rewrite I. reflexivity. Qed.
Lemma import_dicts ds : (forall nm d, In (nm, d) ds -> starts_with_letter nm /\ one_line nm /\ forall kv, In kv d -> key_ok (fst kv) /\ plain (snd kv)) ->
  read_lines None (lines (fold_right (fun x t => convert_to_str (snd x) (fst x) ++ t) "" ds)) = Some ds.
Proof.
  induction ds as [|[nm d] ds IH]; intros H; [reflexivity|]. cbn [fold_right fst snd]. destruct (H nm d (or_introl eq_refl)) as (A & B & D).
  rewrite import_dict by assumption. rewrite IH; [reflexivity|]. intros a b X. apply H. right. exact X.
Qed.
