(** Proofs of the theorems about histories of plates. *)
From Coq Require Import Reals ZArith QArith Qreals Arith Lra Lia Bool String.
From Coquelicot Require Import Coquelicot.
From Coq Require Import List.
From Verif Require Import M_Py M_Plate M_K M_RealArith M_Buckling M_Plot S_Mat S_Bardell S_Energy S_K S_Ritz M_Material M_Laminate M_LamHistory M_PlateHistory S_Laminate S_PlateHistory L_K L_KR L_Poly L_Shape L_TabV L_Energy L_Ritz L_Mat L_Lam L_LamAlg L_LamSums L_LamEnergy T_Laminate T_K T_ABD T_Energy T_Buckling.
Import ListNotations.
Open Scope R_scope.

(** ** lists *)
Lemma put_length {X} (l : list X) i x : (i < length l)%nat -> length (put l i x) = length l.
Proof. intros H. unfold put. rewrite app_length, firstn_length. cbn [length]. rewrite skipn_length. lia. Qed.
Lemma put_same {X} (l : list X) i x : (i < length l)%nat -> nth_error (put l i x) i = Some x.
Proof. intros H. unfold put. rewrite nth_error_app2; rewrite firstn_length_le by lia; [|lia]. rewrite Nat.sub_diag. reflexivity. Qed.
Lemma put_other {X} (l : list X) i j x : (i < length l)%nat -> i <> j -> nth_error (put l i x) j = nth_error l j.
Proof.
  intros H N. unfold put. destruct (Nat.lt_ge_cases j i) as [L|L].
  - rewrite nth_error_app1 by (rewrite firstn_length_le; lia). rewrite <- (firstn_skipn i l) at 2. rewrite nth_error_app1 by (rewrite firstn_length_le; lia). reflexivity.
  - rewrite nth_error_app2; rewrite firstn_length_le by lia; [|lia]. destruct (j - i)%nat as [|d] eqn:E; [lia|]. cbn [nth_error].
    rewrite <- (firstn_skipn (S i) l) at 2. rewrite nth_error_app2; rewrite firstn_length_le by lia; [|lia]. f_equal. lia.
Qed.
Lemma get_some {X} (l : list X) i x : get l i = Ok x <-> nth_error l i = Some x.
Proof. unfold get. destruct (nth_error l i); split; congruence. Qed.
Lemma some_lt {X} (l : list X) i x : nth_error l i = Some x -> (i < length l)%nat.
Proof. intros H. apply nth_error_Some. congruence. Qed.
Lemma app_keep {X} (l : list X) i x y : nth_error l i = Some x -> nth_error (l ++ [y]) i = Some x.
Proof. intros H. rewrite nth_error_app1 by (apply (some_lt _ _ _ H)). exact H. Qed.

(** ** a laminate whose D is settled *)
Definition xi_value (L : lam) : res mat3 := U <- the_invariants (plies L) ;; x <- unpack4 (p_xiD L) ;; T <- as_num (p_T L) ;; Ok (D_from_xi U x T).
Definition settled (L : lam) (d : mat3) : Prop := match p_xiD L with DNone => c_D L = Some d | _ => xi_value L = Ok d end.
Definition agree (L L' : lam) : Prop := plies L' = plies L /\ p_xiD L' = p_xiD L /\ p_T L' = p_T L /\ (p_xiD L = DNone -> c_D L <> None -> c_D L' = c_D L).
Lemma agree_refl L : agree L L. Proof. repeat split; auto. Qed.
Lemma agree_trans L1 L2 L3 : agree L1 L2 -> agree L2 L3 -> agree L1 L3.
Proof. intros (A1 & A2 & A3 & A4) (B1 & B2 & B3 & B4). repeat split; try congruence. intros H N. rewrite B4; [apply A4; assumption|congruence|rewrite A4; assumption]. Qed.
Lemma agree_settled L L' d : agree L L' -> settled L d -> settled L' d.
Proof.
  intros (A1 & A2 & A3 & A4) S. unfold settled in *. rewrite A2. destruct (p_xiD L) eqn:E.
  3: rewrite A4; [exact S|reflexivity|congruence].
  all: unfold xi_value in *; rewrite A1, A2, A3; first [exact S | rewrite E; exact S | rewrite E in S; exact S | rewrite E; rewrite E in S; exact S].
Qed.
Lemma agree_Q L : agree L (fst (get_Q_layup L)).
Proof. unfold get_Q_layup. destruct (c_Q L); [apply agree_refl|]. destruct (Q_loop (layup L) []) as [q [e|]]; repeat split; auto. Qed.
Lemma agree_T L : agree L (fst (get_T_layup L)).
Proof. unfold get_T_layup. destruct (c_T L); [apply agree_refl|]. repeat split; auto. Qed.
Lemma agree_layup cache store f L : (forall K m, agree K (store K m)) -> agree L (fst (from_layup cache store f L)).
Proof.
  intros H. unfold from_layup. destruct (cache L); [apply agree_refl|].
  assert (A := agree_Q (store L mzero)). destruct (get_Q_layup (store L mzero)) as [L2 q]. cbn [fst] in A.
  assert (B : agree L L2) by (apply (agree_trans _ (store L mzero)); [apply H|exact A]).
  destruct q as [Qs|e]; [|exact B]. destruct (accumulate f (z_position (layup L2)) Qs 0 mzero) as [a [e|]]; cbn [fst]; apply (agree_trans _ L2); auto.
Qed.
Lemma agree_A L : agree L (fst (get_A L)).
Proof.
  unfold get_A. destruct (p_xiA L).
  3: apply agree_layup; intros; repeat split; auto.
  all: match goal with |- agree _ (fst (match ?x with _ => _ end)) => destruct x end; [repeat split; auto|apply agree_refl].
Qed.
Lemma agree_B L : agree L (fst (get_B L)).
Proof.
  unfold get_B. set (L1 := match p_xiA L with DNone => L | _ => _ end).
  apply (agree_trans _ L1); [|apply agree_layup; intros; repeat split; auto].
  unfold L1. destruct (p_xiA L); [| |apply agree_refl]; destruct (p_xiD L) eqn:E; try apply agree_refl; repeat split; auto.
Qed.
Lemma agree_D L : agree L (fst (get_D L)).
Proof.
  unfold get_D. destruct (p_xiD L) eqn:E.
  - match goal with |- agree _ (fst (match ?x with _ => _ end)) => destruct x end; [|apply agree_refl]. repeat split; cbn; auto. intros Z. congruence.
  - match goal with |- agree _ (fst (match ?x with _ => _ end)) => destruct x end; [|apply agree_refl]. repeat split; cbn; auto. intros Z. congruence.
  - unfold from_layup. destruct (c_D L) eqn:C; [apply agree_refl|].
    assert (A := agree_Q (set_D L mzero)). destruct (get_Q_layup (set_D L mzero)) as [L2 q]. cbn [fst] in A. destruct A as (A1 & A2 & A3 & A4). cbn in A1, A2, A3.
    destruct q as [Qs|e]; [destruct (accumulate wD (z_position (layup L2)) Qs 0 mzero) as [a [e|]]|]; cbn [fst]; repeat split; cbn; try assumption; intros _ N; contradiction N; exact C.
Qed.
Lemma agree_ABD L : agree L (fst (get_ABD L)).
Proof.
  unfold get_ABD. assert (A := agree_A L). destruct (get_A L) as [L1 [a|e]]; cbn [fst] in *; [|exact A].
  assert (B := agree_B L1). destruct (get_B L1) as [L2 [b|e]]; cbn [fst] in *; [|apply (agree_trans _ L1); assumption].
  assert (C := agree_B L2). destruct (get_B L2) as [L3 [b'|e]]; cbn [fst] in *; [|apply (agree_trans _ L2); [apply (agree_trans _ L1)|]; assumption].
  assert (D := agree_D L3). destruct (get_D L3) as [L4 [d|e]]; cbn [fst] in *; apply (agree_trans _ L3); try assumption; apply (agree_trans _ L2); try assumption; apply (agree_trans _ L1); assumption.
Qed.
Lemma agree_read L r : agree L (fst (do_read L r)).
Proof. destruct r; cbn [do_read]; unfold wrap; cbn [fst]; auto using agree_A, agree_B, agree_D, agree_ABD, agree_Q, agree_T, agree_refl. Qed.
Lemma agree_set_layup L v : agree L (set_layup L v). Proof. repeat split; auto. Qed.
Lemma agree_rows {X} (getter : lam -> lam * res X) k : (forall L, agree L (fst (getter L))) -> forall L, agree L (fst (read_rows getter k L)).
Proof.
  intros H. induction k as [|k IH]; intros L; cbn [read_rows]; [apply agree_refl|]. assert (A := H L). destruct (getter L) as [L1 [x|e]]; cbn [fst] in *; [|exact A].
  assert (B := IH L1). destruct (read_rows getter k L1) as [L2 rs]. cbn [fst] in *. apply (agree_trans _ L1); assumption.
Qed.
Lemma settled_get L d : settled L d -> snd (get_D L) = Ok d.
Proof.
  unfold settled, get_D. destruct (p_xiD L) eqn:E.
  - unfold xi_value. rewrite E. intros ->. reflexivity.
  - unfold xi_value. rewrite E. intros ->. reflexivity.
  - intros H. unfold from_layup. rewrite H. reflexivity.
Qed.
Lemma get_settled L d : snd (get_D L) = Ok d -> settled (fst (get_D L)) d.
Proof.
  unfold get_D. destruct (p_xiD L) eqn:E.
  - match goal with |- snd (match ?x with _ => _ end) = _ -> _ => destruct x eqn:V end; cbn [fst snd]; [|discriminate]. intros H. unfold settled, xi_value. cbn. rewrite E. congruence.
  - match goal with |- snd (match ?x with _ => _ end) = _ -> _ => destruct x eqn:V end; cbn [fst snd]; [|discriminate]. intros H. unfold settled, xi_value. cbn. rewrite E. congruence.
  - unfold from_layup. destruct (c_D L) eqn:C; cbn [fst snd]; [intros H; unfold settled; rewrite E; congruence|].
    assert (A := agree_Q (set_D L mzero)). destruct (get_Q_layup (set_D L mzero)) as [L2 q]. cbn [fst] in A. destruct A as (_ & A2 & _). cbn in A2.
    destruct q as [Qs|e]; [|discriminate]. destruct (accumulate wD (z_position (layup L2)) Qs 0 mzero) as [a [e|]]; cbn [fst snd]; [discriminate|].
    intros H. unfold settled. cbn. rewrite A2, E. congruence.
Qed.
Lemma settled_rows k : forall L d, settled L d -> snd (read_rows get_D k L) = Ok (repeat d k) /\ settled (fst (read_rows get_D k L)) d.
Proof.
  induction k as [|k IH]; intros L d S; cbn [read_rows repeat]; [split; [reflexivity|exact S]|].
  assert (A := agree_D L). assert (G := settled_get L d S). destruct (get_D L) as [L1 r]. cbn [fst snd] in *. subst r.
  destruct (IH L1 d (agree_settled _ _ _ A S)) as [R T]. destruct (read_rows get_D k L1) as [L2 rs]. cbn [fst snd] in *. subst rs. split; [reflexivity|exact T].
Qed.
Lemma rows_settled k L rs : snd (read_rows get_D (S k) L) = Ok rs -> exists d, rs = repeat d (S k) /\ settled (fst (read_rows get_D (S k) L)) d.
Proof.
  cbn [read_rows]. assert (G := get_settled L). destruct (get_D L) as [L1 [d|e]]; cbn [fst snd] in *; [|discriminate]. specialize (G d eq_refl).
  destruct (settled_rows k L1 d G) as [R T]. destruct (read_rows get_D k L1) as [L2 r]. cbn [fst snd] in *. subst r. cbn. intros H. exists d. split; [congruence|exact T].
Qed.

(** ** one step *)
Definition same_args (P Q : plate) : Prop :=
  p_lam Q = p_lam P /\ p_a Q = p_a P /\ p_b Q = p_b P /\ p_con Q = p_con P /\ p_Nxx Q = p_Nxx P /\ p_Nyy Q = p_Nyy P /\ p_Nxy Q = p_Nxy P /\ p_m Q = p_m P /\ p_n Q = p_n P.
Lemma same_refl P : same_args P P. Proof. repeat split. Qed.
Lemma same_trans P Q R : same_args P Q -> same_args Q R -> same_args P R.
Proof. unfold same_args. intros (A1 & A2 & A3 & A4 & A5 & A6 & A7 & A8 & A9) (B1 & B2 & B3 & B4 & B5 & B6 & B7 & B8 & B9). repeat split; congruence. Qed.
Definition fresh_sw (w : world) (Q Q' : plate) : Prop :=
  exists c idx, nth_error (w_cons w) (p_con Q) = Some c /\ compute_constraints c (p_m Q) (p_n Q) = Ok idx /\ p_sw Q' = Some (sw_idx idx).
Definition lams_agree (w w' : world) : Prop := forall l L, nth_error (w_lams w) l = Some L -> exists L', nth_error (w_lams w') l = Some L' /\ agree L L'.
(** p's stored lists may be refreshed, and its result replaced if [re]; nothing else changes *)
Definition plates_evolve (re : bool) (p : nat) (w w' : world) : Prop := forall q Q, nth_error (w_plates w) q = Some Q ->
  exists Q', nth_error (w_plates w') q = Some Q' /\ same_args Q Q' /\ (q <> p -> Q' = Q) /\ (re = false -> p_eig Q' = p_eig Q) /\ (p_sw Q' = p_sw Q \/ fresh_sw w Q Q').

Lemma put_lam_agree w l L L' : nth_error (w_lams w) l = Some L -> agree L L' -> lams_agree w (put_lam w l L').
Proof.
  intros H A k K HK. cbn [w_lams put_lam]. destruct (Nat.eq_dec l k) as [<-|N].
  - exists L'. split; [apply put_same; apply (some_lt _ _ _ H)|]. assert (K = L) by congruence. subst K. exact A.
  - exists K. split; [|apply agree_refl]. rewrite put_other; [exact HK|apply (some_lt _ _ _ H)|exact N].
Qed.
Lemma plates_same re p w w' : w_plates w' = w_plates w -> plates_evolve re p w w'.
Proof. intros E q Q H. exists Q. rewrite E. repeat split; auto. Qed.
Lemma plates_put re p w w1 P Q1 : w_plates w1 = w_plates w -> nth_error (w_plates w) p = Some P -> same_args P Q1 -> (re = false -> p_eig Q1 = p_eig P) ->
  (p_sw Q1 = p_sw P \/ fresh_sw w P Q1) -> plates_evolve re p w (put_plate w1 p Q1).
Proof.
  intros E H S Hre F q Q HQ. cbn [w_plates put_plate]. rewrite E. destruct (Nat.eq_dec p q) as [<-|N].
  - assert (Q = P) by congruence. subst Q. exists Q1. split; [apply put_same; apply (some_lt _ _ _ H)|]. split; [exact S|]. split; [intros Z; congruence|]. split; [exact Hre|exact F].
  - exists Q. split; [rewrite put_other; [exact HQ|apply (some_lt _ _ _ H)|exact N]|]. repeat split; auto.
Qed.
Lemma plates_trans re p w w1 w2 : w_cons w1 = w_cons w -> plates_evolve re p w w1 -> plates_evolve re p w1 w2 -> plates_evolve re p w w2.
Proof.
  intros C A B q Q H. destruct (A q Q H) as (Q1 & H1 & S1 & N1 & E1 & F1). destruct (B q Q1 H1) as (Q2 & H2 & S2 & N2 & E2 & F2).
  exists Q2. split; [exact H2|]. split; [apply (same_trans _ Q1); assumption|]. split; [intros N; rewrite N2, N1; auto|]. split; [intros Z; rewrite E2, E1; auto|].
  destruct S1 as (L1 & a1 & b1 & c1 & x1 & y1 & z1 & m1 & n1). destruct F2 as [F2|(c & idx & X1 & X2 & X3)].
  - destruct F1 as [F1|(c & idx & X1 & X2 & X3)]; [left; congruence|right; exists c, idx; repeat split; congruence].
  - right. exists c, idx. rewrite C, c1 in X1. rewrite m1, n1 in X2. repeat split; assumption.
Qed.

Lemma matrices_facts {X} (getter : lam -> lam * res X) nrows at_ calc w p : (forall L, agree L (fst (getter L))) ->
  let w' := fst (matrices getter nrows at_ calc w p) in
  w_cons w' = w_cons w /\ lams_agree w w' /\ plates_evolve false p w w'.
Proof.
  intros HA. unfold matrices. destruct (get (w_plates w) p) as [P|e] eqn:HP; cbn [bind].
  2: split; [reflexivity|split; [intros l L H; exists L; split; [exact H|apply agree_refl]|apply plates_same; reflexivity]].
  destruct (get (w_lams w) (p_lam P)) as [L|e] eqn:HL; cbn [bind].
  2: split; [reflexivity|split; [intros l L H; exists L; split; [exact H|apply agree_refl]|apply plates_same; reflexivity]].
  destruct (get (w_cons w) (p_con P)) as [c|e] eqn:HC; cbn [bind].
  2: split; [reflexivity|split; [intros l K H; exists K; split; [exact H|apply agree_refl]|apply plates_same; reflexivity]].
  apply get_some in HP, HL, HC. assert (A := agree_rows getter nrows HA L). destruct (read_rows getter nrows L) as [L' [rs|e]]; cbn [fst] in A.
  2: split; [reflexivity|split; [apply (put_lam_agree w _ L); assumption|apply plates_same; reflexivity]].
  destruct (compute_constraints c (p_m P) (p_n P)) as [idx|e] eqn:HI; cbn [fst].
  2: split; [reflexivity|split; [apply (put_lam_agree w _ L); assumption|apply plates_same; reflexivity]].
  split; [reflexivity|]. split.
  - intros l K HK. destruct (put_lam_agree w _ L L' HL A l K HK) as (K' & H1 & H2). exists K'. split; assumption.
  - apply (plates_put false p w _ P); [reflexivity|exact HP|repeat split|reflexivity|right; exists c, idx; repeat split; assumption].
Qed.

Section S.
Variables (eigsh : solver) (t : tables RA).
Notation step := (step eigsh t).
Notation after := (after eigsh t).
Notation answer := (answer eigsh t).

Lemma analysis_facts w p num : let w' := fst (do_analysis eigsh t w p num) in
  w_cons w' = w_cons w /\ lams_agree w w' /\ plates_evolve true p w w'.
Proof.
  unfold do_analysis. assert (F := matrices_facts get_D 3 at3 (calc_K_KG_D t) w p agree_D). cbv zeta in F. fold (do_matrices_D t) in F.
  destruct (do_matrices_D t w p) as [w1 r]. cbn [fst] in F. destruct F as (F1 & F2 & F3).
  assert (F3' : plates_evolve true p w w1). { intros q Q H. destruct (F3 q Q H) as (Q' & X1 & X2 & X3 & X4 & X5). exists Q'. repeat (split; [assumption|]). split; [discriminate|exact X5]. }
  match goal with |- context [match ?x with _ => _ end] => destruct x as [[P e]|e] eqn:E end; cbn [fst]; [|split; [exact F1|split; assumption]].
  destruct r as [kk|]; cbn [bind] in E; [|discriminate]. destruct (eigsh (snd kk) (fst kk) (Z.min num (Z.of_nat (length (snd kk)) - 2))) as [x|]; cbn [bind] in E; [|discriminate].
  destruct (get (w_plates w1) p) as [P1|] eqn:G; cbn [bind] in E; [|discriminate]. assert (P1 = P) by congruence. subst P1. apply get_some in G.
  split; [exact F1|]. split; [exact F2|]. apply (plates_trans true p w w1); [exact F1|exact F3'|].
  apply (plates_put true p w1 w1 P); [reflexivity|exact G|repeat split|discriminate|left; reflexivity].
Qed.

Lemma step_facts w o : let w' := fst (step w o) in
  lams_agree w w' /\
  (forall i c, nth_error (w_cons w) i = Some c -> ~ edits w i o -> nth_error (w_cons w') i = Some c) /\
  (forall q Q, nth_error (w_plates w) q = Some Q -> exists Q', nth_error (w_plates w') q = Some Q' /\ same_args Q Q' /\
     (p_eig Q <> None -> ~ analyses q o -> p_eig Q' = p_eig Q) /\
     (p_eig Q <> None -> ~ analyses q o -> ~ assembles q o -> p_sw Q' = p_sw Q) /\
     (p_sw Q' = p_sw Q \/ fresh_sw w Q Q')).
Proof.
  assert (TRIV : forall w', lams_agree w w' -> w_cons w' = w_cons w -> w_plates w' = w_plates w ->
    lams_agree w w' /\ (forall i c, nth_error (w_cons w) i = Some c -> ~ edits w i o -> nth_error (w_cons w') i = Some c) /\
    (forall q Q, nth_error (w_plates w) q = Some Q -> exists Q', nth_error (w_plates w') q = Some Q' /\ same_args Q Q' /\
     (p_eig Q <> None -> ~ analyses q o -> p_eig Q' = p_eig Q) /\ (p_eig Q <> None -> ~ analyses q o -> ~ assembles q o -> p_sw Q' = p_sw Q) /\ (p_sw Q' = p_sw Q \/ fresh_sw w Q Q'))).
  { intros w' A B C. split; [exact A|]. split; [intros i c H _; rewrite B; exact H|]. intros q Q H. exists Q. rewrite C. repeat split; auto. }
  assert (R0 : lams_agree w w) by (intros l L H; exists L; split; [exact H|apply agree_refl]).
  destruct o as [s p|c|l a b c Nxx Nyy Nxy m n|p k e|l v|l r|p|p|p num|p nth gx gy]; cbn [M_PlateHistory.step].
  - destruct (construct s p) as [L|e]; cbn [fst]; [|apply TRIV; auto]. apply TRIV; [|reflexivity|reflexivity].
    intros l K H. exists K. split; [apply app_keep; exact H|apply agree_refl].
  - cbn [fst]. split; [exact R0|]. split; [intros i c' H _; apply app_keep; exact H|]. intros q Q H. exists Q. repeat split; auto.
  - match goal with |- context [match ?x with Ok _ => _ | Err _ => _ end] => destruct x end; cbn [fst]; [|apply TRIV; auto].
    split; [exact R0|]. split; [intros i c' H _; exact H|]. intros q Q H. exists Q. split; [apply app_keep; exact H|]. repeat split; auto.
  - destruct (get (w_plates w) p) as [P|x] eqn:HP; cbn [bind]; [|apply TRIV; auto]. destruct (get (w_cons w) (p_con P)) as [c|x] eqn:HC; cbn [bind]; [|apply TRIV; auto].
    destruct (set_edge c k e) as [c'|x]; cbn [bind fst]; [|apply TRIV; auto]. apply get_some in HP, HC.
    split; [exact R0|]. split; [|intros q Q H; exists Q; repeat split; auto]. intros i c0 H NE. cbn [w_cons put_con]. rewrite put_other; [exact H|apply (some_lt _ _ _ HC)|].
    intros Z. apply NE. exists P. split; assumption.
  - destruct (get (w_lams w) l) as [L|x] eqn:HL; [|apply TRIV; auto]. cbn [fst]. apply get_some in HL. apply TRIV; [|reflexivity|reflexivity]. apply (put_lam_agree w l L); [exact HL|apply agree_set_layup].
  - destruct (get (w_lams w) l) as [L|x] eqn:HL; [|apply TRIV; auto]. apply get_some in HL. assert (A := agree_read L r). destruct (do_read L r) as [L' v]. cbn [fst] in *.
    apply TRIV; [|reflexivity|reflexivity]. apply (put_lam_agree w l L); assumption.
  - assert (F := matrices_facts get_D 3 at3 (calc_K_KG_D t) w p agree_D). cbv zeta in F. fold (do_matrices_D t) in F. destruct (do_matrices_D t w p) as [w1 r]. cbn [fst] in *.
    destruct F as (F1 & F2 & F3). split; [exact F2|]. split; [intros i c H _; rewrite F1; exact H|]. intros q Q H. destruct (F3 q Q H) as (Q' & X1 & X2 & X3 & X4 & X5).
    exists Q'. split; [exact X1|]. split; [exact X2|]. split; [intros _ _; apply X4; reflexivity|]. split; [|exact X5]. intros _ _ N. rewrite X3; [reflexivity|intros ->; apply N; reflexivity].
  - assert (F := matrices_facts get_ABD 6 at6 (calc_K_KG_ABD t) w p agree_ABD). cbv zeta in F. fold (do_matrices_ABD t) in F. destruct (do_matrices_ABD t w p) as [w1 r]. cbn [fst] in *.
    destruct F as (F1 & F2 & F3). split; [exact F2|]. split; [intros i c H _; rewrite F1; exact H|]. intros q Q H. destruct (F3 q Q H) as (Q' & X1 & X2 & X3 & X4 & X5).
    exists Q'. split; [exact X1|]. split; [exact X2|]. split; [intros _ _; apply X4; reflexivity|]. split; [|exact X5]. intros _ _ N. rewrite X3; [reflexivity|intros ->; apply N; reflexivity].
  - assert (F := analysis_facts w p num). cbv zeta in F. destruct (do_analysis eigsh t w p num) as [w1 r]. cbn [fst] in *.
    destruct F as (F1 & F2 & F3). split; [exact F2|]. split; [intros i c H _; rewrite F1; exact H|]. intros q Q H. destruct (F3 q Q H) as (Q' & X1 & X2 & X3 & X4 & X5).
    exists Q'. split; [exact X1|]. split; [exact X2|]. split; [intros _ N; rewrite X3; [reflexivity|intros ->; apply N; reflexivity]|]. split; [|exact X5]. intros _ N _. rewrite X3; [reflexivity|intros ->; apply N; reflexivity].
  - unfold do_plot. destruct (get (w_plates w) p) as [P|x] eqn:HP; [|apply TRIV; auto]. apply get_some in HP. destruct (p_eig P) eqn:EP; [apply TRIV; auto|].
    assert (F := analysis_facts w p 5). cbv zeta in F. destruct (do_analysis eigsh t w p 5) as [w1 r]. cbn [fst] in *.
    destruct F as (F1 & F2 & F3). split; [exact F2|]. split; [intros i c H _; rewrite F1; exact H|]. intros q Q H. destruct (F3 q Q H) as (Q' & X1 & X2 & X3 & X4 & X5).
    exists Q'. split; [exact X1|]. split; [exact X2|].
    assert (NP : p_eig Q <> None -> q <> p) by (intros N ->; assert (Q = P) by congruence; subst Q; exact (N EP)).
    split; [intros N _; rewrite X3; [reflexivity|exact (NP N)]|]. split; [|exact X5]. intros N _ _. rewrite X3; [reflexivity|exact (NP N)].
Qed.

(** ** the analysis *)
Lemma matrices_at w p P L c d : nth_error (w_plates w) p = Some P -> nth_error (w_lams w) (p_lam P) = Some L -> nth_error (w_cons w) (p_con P) = Some c ->
  snd (get_D L) = Ok d ->
  snd (do_matrices_D t w p) = calc_K_KG_D t (at3 d) (p_a P) (p_b P) (p_Nxx P) (p_Nyy P) (p_Nxy P) c (p_m P) (p_n P) /\
  (exists L', nth_error (w_lams (fst (do_matrices_D t w p))) (p_lam P) = Some L' /\ settled L' d) /\
  (forall idx, compute_constraints c (p_m P) (p_n P) = Ok idx -> nth_error (w_plates (fst (do_matrices_D t w p))) p = Some (set_sw P (sw_idx idx))).
Proof.
  intros HP HL HC HD. unfold do_matrices_D, matrices. apply get_some in HP, HL, HC. rewrite HP. cbn [bind]. rewrite HL. cbn [bind]. rewrite HC. cbn [bind].
  apply get_some in HP, HL, HC.
  assert (S0 := get_settled L d HD).
  assert (R : snd (read_rows get_D 3 L) = Ok (repeat d 3) /\ settled (fst (read_rows get_D 3 L)) d).
  { cbn [read_rows]. destruct (get_D L) as [L1 r]. cbn [fst snd] in *. subst r. destruct (settled_rows 2 L1 d S0) as [A B]; cbn [read_rows] in A, B;
      match goal with |- snd (let (L2, rs) := ?x in _) = _ /\ _ => destruct x as [L2 rs] end; cbn [fst snd] in *; subst rs; split; [reflexivity|exact B]. }
  destruct (read_rows get_D 3 L) as [L' rs]. cbn [fst snd] in R. destruct R as [-> S1].
  assert (HL' : nth_error (put (w_lams w) (p_lam P) L') (p_lam P) = Some L') by (apply put_same; apply (some_lt _ _ _ HL)).
  destruct (compute_constraints c (p_m P) (p_n P)) as [idx|e]; cbn [fst snd].
  - split; [reflexivity|]. split; [exists L'; split; [exact HL'|exact S1]|]. intros idx' E. assert (idx' = idx) by congruence. subst idx'. cbn [w_plates put_plate put_lam]. apply put_same. apply (some_lt _ _ _ HP).
  - split; [reflexivity|]. split; [exists L'; split; [exact HL'|exact S1]|]. discriminate.
Qed.

Lemma analysis_at w p P L c d num : nth_error (w_plates w) p = Some P -> nth_error (w_lams w) (p_lam P) = Some L -> nth_error (w_cons w) (p_con P) = Some c ->
  snd (get_D L) = Ok d ->
  snd (do_analysis eigsh t w p num) = buckling_analysis eigsh t (at3 d) (p_a P) (p_b P) (p_Nxx P) (p_Nyy P) (p_Nxy P) c (p_m P) (p_n P) num.
Proof.
  intros HP HL HC HD. unfold do_analysis, buckling_analysis.
  assert (F := matrices_facts get_D 3 at3 (calc_K_KG_D t) w p agree_D). cbv zeta in F. fold (do_matrices_D t) in F.
  destruct (matrices_at w p P L c d HP HL HC HD) as (V & _). destruct (do_matrices_D t w p) as [w1 r]. cbn [fst snd] in *. subst r.
  destruct (calc_K_KG_D t (at3 d) (p_a P) (p_b P) (p_Nxx P) (p_Nyy P) (p_Nxy P) c (p_m P) (p_n P)) as [kk|e]; cbn [bind snd]; [|reflexivity].
  change (M_K.num RA) with R in *.
  destruct (eigsh (snd kk) (fst kk) (Z.min num (Z.of_nat (length (snd kk)) - 2))) as [x|e]; cbn [bind snd]; [|reflexivity].
  destruct F as (_ & _ & F). destruct (F p P HP) as (Q & HQ & _). apply get_some in HQ. rewrite HQ. reflexivity.
Qed.
Lemma analysis_ok w p num w1 e : do_analysis eigsh t w p num = (w1, Ok e) ->
  exists P L c d idx P1, nth_error (w_plates w) p = Some P /\ nth_error (w_lams w) (p_lam P) = Some L /\ nth_error (w_cons w) (p_con P) = Some c /\ snd (get_D L) = Ok d /\
    compute_constraints c (p_m P) (p_n P) = Ok idx /\
    buckling_analysis eigsh t (at3 d) (p_a P) (p_b P) (p_Nxx P) (p_Nyy P) (p_Nxy P) c (p_m P) (p_n P) num = Ok e /\
    nth_error (w_plates w1) p = Some P1 /\ same_args P P1 /\ p_eig P1 = Some e /\ p_sw P1 = Some (sw_idx idx) /\
    w_cons w1 = w_cons w /\ exists L1, nth_error (w_lams w1) (p_lam P) = Some L1 /\ settled L1 d.
Proof.
  intros H.
  assert (exists P, nth_error (w_plates w) p = Some P) as [P HP].
  { destruct (nth_error (w_plates w) p) as [P|] eqn:E; [exists P; reflexivity|]. unfold do_analysis, do_matrices_D, matrices, get in H. rewrite E in H. discriminate. }
  assert (exists L, nth_error (w_lams w) (p_lam P) = Some L) as [L HL].
  { destruct (nth_error (w_lams w) (p_lam P)) as [L|] eqn:E; [exists L; reflexivity|]. unfold do_analysis, do_matrices_D, matrices, get in H. rewrite HP in H. cbn [bind] in H. rewrite E in H. discriminate. }
  assert (exists c, nth_error (w_cons w) (p_con P) = Some c) as [c HC].
  { destruct (nth_error (w_cons w) (p_con P)) as [c|] eqn:E; [exists c; reflexivity|]. unfold do_analysis, do_matrices_D, matrices, get in H. rewrite HP in H. cbn [bind] in H. rewrite HL in H. cbn [bind] in H. rewrite E in H. discriminate. }
  assert (exists d, snd (get_D L) = Ok d) as [d HD].
  { destruct (snd (get_D L)) as [d|x] eqn:E; [exists d; reflexivity|]. exfalso. unfold do_analysis, do_matrices_D, matrices, get in H. rewrite HP in H. cbn [bind] in H. rewrite HL in H. cbn [bind] in H. rewrite HC in H. cbn [bind] in H.
    cbn [read_rows] in H. destruct (get_D L) as [L1 r]. cbn [snd] in E. subst r. cbn in H. discriminate. }
  assert (V := analysis_at w p P L c d num HP HL HC HD). rewrite H in V. cbn [snd] in V.
  assert (HI : exists idx, compute_constraints c (p_m P) (p_n P) = Ok idx).
  { destruct (compute_constraints c (p_m P) (p_n P)) as [idx|x] eqn:E; [exists idx; reflexivity|]. unfold buckling_analysis, calc_K_KG_D in V. rewrite E in V. discriminate. }
  destruct HI as [idx HI].
  destruct (matrices_at w p P L c d HP HL HC HD) as (V1 & (L1 & HL1 & S1) & V3). specialize (V3 idx HI).
  assert (FA := analysis_facts w p num). cbv zeta in FA. rewrite H in FA. cbn [fst] in FA. destruct FA as (FC & _).
  unfold do_analysis in H. destruct (do_matrices_D t w p) as [w2 r]. cbn [fst snd] in *. subst r.
  destruct (calc_K_KG_D t (at3 d) (p_a P) (p_b P) (p_Nxx P) (p_Nyy P) (p_Nxy P) c (p_m P) (p_n P)) as [kk|x]; cbn [bind] in H; [|discriminate].
  change (M_K.num RA) with R in *.
  destruct (eigsh (snd kk) (fst kk) (Z.min num (Z.of_nat (length (snd kk)) - 2))) as [x|x]; cbn [bind] in H; [|discriminate].
  assert (G := V3). apply get_some in G. rewrite G in H. cbn [bind] in H. assert (E1 : put_plate w2 p (set_eig (set_sw P (sw_idx idx)) (map neg_recip (fst x), snd x)) = w1) by congruence.
  assert (E2 : (map neg_recip (fst x), snd x) = e) by congruence. clear H. subst w1. rewrite E2 in *.
  exists P, L, c, d, idx, (set_eig (set_sw P (sw_idx idx)) e). repeat (split; [assumption || reflexivity || (symmetry; assumption)|]).
  split; [cbn [w_plates put_plate]; apply put_same; apply (some_lt _ _ _ V3)|]. split; [repeat split|]. split; [reflexivity|]. split; [reflexivity|]. split; [exact FC|]. exists L1. split; assumption.
Qed.

(** ** histories *)
Lemma after_kept l d i c p P : forall ops w, (exists L, nth_error (w_lams w) l = Some L /\ settled L d) -> nth_error (w_cons w) i = Some c ->
  (exists Q, nth_error (w_plates w) p = Some Q /\ same_args P Q) -> unedited eigsh t i w ops ->
  (exists L, nth_error (w_lams (after w ops)) l = Some L /\ settled L d) /\ nth_error (w_cons (after w ops)) i = Some c /\
  (exists Q, nth_error (w_plates (after w ops)) p = Some Q /\ same_args P Q).
Proof.
  induction ops as [|o ops IH]; intros w (L & HL & SL) HC (Q & HQ & SQ) U; cbn [M_PlateHistory.after].
  - repeat split; [exists L; split; assumption|exact HC|exists Q; split; assumption].
  - destruct U as [U1 U2]. destruct (step_facts w o) as (F1 & F2 & F3). destruct (F1 l L HL) as (L' & HL' & A). destruct (F3 p Q HQ) as (Q' & HQ' & SQ' & _).
    apply IH; [exists L'; split; [exact HL'|apply (agree_settled L); assumption]|apply F2; assumption|exists Q'; split; [exact HQ'|apply (same_trans _ Q); assumption]|exact U2].
Qed.
End S.

(*@ C70: calc_K_KG_D of a plate in any state returns the matrices of the laminate's D at that moment, with the plate's own
    dimensions and loads and the present contents of the constraint object; no earlier call on this or any other plate matters. @*)
Lemma t_C70_matrices : forall eigsh (t : tables RA) w p P L c d,
  nth_error (w_plates w) p = Some P -> nth_error (w_lams w) (p_lam P) = Some L -> nth_error (w_cons w) (p_con P) = Some c -> snd (get_D L) = Ok d ->
  answer eigsh t w (MatricesD p) = (x <- calc_K_KG_D t (at3 d) (p_a P) (p_b P) (p_Nxx P) (p_Nyy P) (p_Nxy P) c (p_m P) (p_n P) ;; Ok (Matrices (fst x) (snd x))).
Proof.
  intros eigsh t w p P L c d HP HL HC HD. unfold answer. cbn [step]. destruct (matrices_at t w p P L c d HP HL HC HD) as (V & _).
  destruct (do_matrices_D t w p) as [w1 r]. cbn [snd] in *. subst r. reflexivity.
Qed.

(*@ C70: likewise buckling_analysis: it always assembles anew, and never returns a stored result. @*)
Lemma t_C70_analysis : forall eigsh (t : tables RA) w p P L c d num,
  nth_error (w_plates w) p = Some P -> nth_error (w_lams w) (p_lam P) = Some L -> nth_error (w_cons w) (p_con P) = Some c -> snd (get_D L) = Ok d ->
  answer eigsh t w (Analyse p num) = (x <- buckling_analysis eigsh t (at3 d) (p_a P) (p_b P) (p_Nxx P) (p_Nyy P) (p_Nxy P) c (p_m P) (p_n P) num ;; Ok (Factors (fst x) (snd x))).
Proof.
  intros eigsh t w p P L c d num HP HL HC HD. unfold answer. cbn [step]. assert (V := analysis_at eigsh t w p P L c d num HP HL HC HD).
  destruct (do_analysis eigsh t w p num) as [w1 r]. cbn [snd] in *. subst r. reflexivity.
Qed.

(*@ C70: once a plate has been analysed, analysing it again gives the same factors and modes after any history of operations on
    any objects (assignments to laminate.layup included), as long as nobody edits its constraint object. @*)
Lemma t_C70_repeatable : forall eigsh (t : tables RA) w p P num w1 out ops,
  nth_error (w_plates w) p = Some P -> step eigsh t w (Analyse p num) = (w1, Ok out) -> unedited eigsh t (p_con P) w1 ops ->
  answer eigsh t (after eigsh t w1 ops) (Analyse p num) = Ok out.
Proof.
  intros eigsh t w p P0 num w1 out ops HP0 H U. cbn [step] in H. destruct (do_analysis eigsh t w p num) as [w1' [e|x]] eqn:E; cbn [bind] in H; [|discriminate].
  assert (w1' = w1) by congruence. subst w1'. assert (HO : Factors (fst e) (snd e) = out) by congruence. clear H.
  destruct (analysis_ok eigsh t w p num w1 e E) as (P & L & c & d & idx & P1 & HP & HL & HC & HD & HI & V & HP1 & S1 & _ & _ & FC & L1 & HL1 & SL1).
  assert (P0 = P) by congruence. subst P0.
  destruct (after_kept eigsh t (p_lam P) d (p_con P) c p P ops w1) as ((L2 & HL2 & SL2) & HC2 & (P2 & HP2 & S2));
    [exists L1; split; assumption|rewrite FC; exact HC|exists P1; split; assumption|exact U|].
  destruct S2 as (s1 & s2 & s3 & s4 & s5 & s6 & s7 & s8 & s9).
  rewrite (t_C70_analysis eigsh t (after eigsh t w1 ops) p P2 L2 c d num HP2).
  - rewrite s2, s3, s5, s6, s7, s8, s9, V. cbn [bind]. rewrite HO. reflexivity.
  - rewrite s1. exact HL2.
  - rewrite s4. exact HC2.
  - apply settled_get. exact SL2.
Qed.

(** ** plots *)
Lemma plot_at eigsh (t : tables RA) w p Q e sw nth gx gy : nth_error (w_plates w) p = Some Q -> p_eig Q = Some e -> p_sw Q = Some sw ->
  answer eigsh t w (PlotMode p nth gx gy) = (j <- column_z e nth ;; z <- plot_values (snd e) sw j gx gy ;; Ok (Drawn z)).
Proof.
  intros HQ HE HS. unfold answer. cbn [step]. unfold do_plot. assert (G := HQ). apply get_some in G. rewrite G, HE. cbn [bind]. rewrite G. cbn [bind]. rewrite HE, HS. cbn [snd].
  destruct (column_z e nth) as [j|x]; reflexivity.
Qed.
Lemma after_plot eigsh (t : tables RA) p P c e idx : compute_constraints c (p_m P) (p_n P) = Ok idx ->
  forall ops w, (exists Q, nth_error (w_plates w) p = Some Q /\ same_args P Q /\ p_eig Q = Some e /\ p_sw Q = Some (sw_idx idx)) ->
  Forall (fun o => ~ analyses p o) ops ->
  (nth_error (w_cons w) (p_con P) = Some c /\ unedited eigsh t (p_con P) w ops) \/ Forall (fun o => ~ assembles p o) ops ->
  exists Q, nth_error (w_plates (after eigsh t w ops)) p = Some Q /\ p_eig Q = Some e /\ p_sw Q = Some (sw_idx idx).
Proof.
  intros HI. induction ops as [|o ops IH]; intros w (Q & HQ & SQ & EQ & WQ) NA H; cbn [after]; [exists Q; repeat split; assumption|].
  inversion NA as [|? ? N1 N2]; subst. destruct (step_facts eigsh t w o) as (F1 & F2 & F3). destruct (F3 p Q HQ) as (Q' & HQ' & SQ' & E' & W' & V').
  assert (EN : p_eig Q <> None) by congruence.
  apply IH; [|exact N2|].
  - exists Q'. split; [exact HQ'|]. split; [apply (same_trans _ Q); assumption|]. split; [rewrite E'; assumption|].
    destruct H as [[HC [U1 U2]]|H].
    + destruct V' as [V'|(c' & idx' & X1 & X2 & X3)]; [congruence|]. destruct SQ as (_ & _ & _ & s4 & _ & _ & _ & s8 & s9). rewrite s4 in X1. rewrite s8, s9 in X2. congruence.
    + inversion H; subst. rewrite W'; assumption.
  - destruct H as [[HC [U1 U2]]|H]; [left; split; [apply F2; assumption|exact U2]|right; inversion H; assumption].
Qed.

(*@ C70: plot_eigenvalue draws a mode of the last analysis of the plate, computed with the functions that analysis used, as long as
    since then either nobody has edited the constraint object or the matrices of the plate have not been assembled again. @*)
Lemma t_C70_plot : forall eigsh (t : tables RA) w p P c idx num w1 ls vecs ops nth gx gy,
  nth_error (w_plates w) p = Some P -> nth_error (w_cons w) (p_con P) = Some c -> compute_constraints c (p_m P) (p_n P) = Ok idx ->
  step eigsh t w (Analyse p num) = (w1, Ok (Factors ls vecs)) -> Forall (fun o => ~ analyses p o) ops ->
  unedited eigsh t (p_con P) w1 ops \/ Forall (fun o => ~ assembles p o) ops ->
  answer eigsh t (after eigsh t w1 ops) (PlotMode p nth gx gy) =
  (j <- column_z (ls, vecs) nth ;; z <- plot_values vecs (sw_idx idx) j gx gy ;; Ok (Drawn z)).
Proof.
  intros eigsh t w p P0 c0 idx0 num w1 ls vecs ops nth gx gy HP0 HC0 HI0 H NA U.
  cbn [step] in H. destruct (do_analysis eigsh t w p num) as [w1' [e|x]] eqn:E; cbn [bind] in H; [|discriminate].
  assert (w1' = w1) by congruence. subst w1'. assert (HO : e = (ls, vecs)) by (destruct e; cbn in H; congruence). clear H. subst e.
  destruct (analysis_ok eigsh t w p num w1 _ E) as (P & L & c & d & idx & P1 & HP & HL & HC & HD & HI & V & HP1 & S1 & E1 & W1 & FC & _).
  assert (P0 = P) by congruence. subst P0. assert (c0 = c) by congruence. subst c0. assert (idx0 = idx) by congruence. subst idx0.
  destruct (after_plot eigsh t p P c (ls, vecs) idx HI ops w1) as (Q & HQ & EQ & WQ);
    [exists P1; repeat (split; [assumption|]); assumption|exact NA|destruct U as [U|U]; [left; split; [rewrite FC; exact HC|exact U]|right; exact U]|].
  rewrite (plot_at eigsh t _ p Q (ls, vecs) (sw_idx idx) nth gx gy HQ EQ WQ). reflexivity.
Qed.

(*@ C70: otherwise the drawing mixes two problems: editing the constraint object and assembling again makes plot_eigenvalue
    combine the coefficients of the old analysis with the functions of the new constraints, without an error. @*)
Lemma t_C70_mixed : forall eigsh (t : tables RA) w p P c k e c' idx' num w1 ls vecs nth gx gy,
  nth_error (w_plates w) p = Some P -> nth_error (w_cons w) (p_con P) = Some c -> set_edge c k e = Ok c' -> compute_constraints c' (p_m P) (p_n P) = Ok idx' ->
  step eigsh t w (Analyse p num) = (w1, Ok (Factors ls vecs)) ->
  answer eigsh t (after eigsh t w1 [SetEdge p k e; MatricesD p]) (PlotMode p nth gx gy) =
  (j <- column_z (ls, vecs) nth ;; z <- plot_values vecs (sw_idx idx') j gx gy ;; Ok (Drawn z)).
Proof.
  intros eigsh t w p P0 c0 k e c' idx' num w1 ls vecs nth gx gy HP0 HC0 HE HI' H.
  cbn [step] in H. destruct (do_analysis eigsh t w p num) as [w1' [f|x]] eqn:E; cbn [bind] in H; [|discriminate].
  assert (w1' = w1) by congruence. subst w1'. assert (HO : f = (ls, vecs)) by (destruct f; cbn in H; congruence). clear H. subst f.
  destruct (analysis_ok eigsh t w p num w1 _ E) as (P & L & c & d & idx & P1 & HP & HL & HC & HD & HI & V & HP1 & S1 & E1 & W1 & FC & L1 & HL1 & SL1).
  assert (P0 = P) by congruence. subst P0. assert (c0 = c) by congruence. subst c0.
  destruct S1 as (s1 & s2 & s3 & s4 & s5 & s6 & s7 & s8 & s9).
  cbn [after]. cbn [step]. assert (G1 := HP1). apply get_some in G1. rewrite G1. cbn [bind]. assert (G2 : get (w_cons w1) (p_con P1) = Ok c) by (apply get_some; rewrite FC, s4; exact HC).
  rewrite G2. cbn [bind]. rewrite HE. cbn [bind fst]. set (w2 := put_con w1 (p_con P1) c').
  destruct (matrices_at t w2 p P1 L1 c' d) as (_ & _ & V3).
  - exact HP1.
  - rewrite s1. exact HL1.
  - cbn. apply put_same. apply get_some in G2. apply (some_lt _ _ _ G2).
  - apply settled_get. exact SL1.
  - assert (W := V3 idx' ltac:(rewrite s8, s9; exact HI')). destruct (do_matrices_D t w2 p) as [w3 r]. cbn [fst] in *.
    rewrite (plot_at eigsh t w3 p _ (ls, vecs) (sw_idx idx') nth gx gy W); [reflexivity|exact E1|reflexivity].
Qed.

(*@ C70: an assignment to one entry of the constraint dictionary changes that edge and no other: the matrices computed next, by this plate or any other
    plate holding the same dictionary, are those of the dictionary with the one entry replaced. When the constraints are a str or another
    object the assignment raises TypeError and changes nothing. @*)
Lemma t_C70_edit : forall eigsh (t : tables RA) w p q P Q L x0 xa y0 yb d e,
  nth_error (w_plates w) p = Some P -> nth_error (w_plates w) q = Some Q -> p_con Q = p_con P -> nth_error (w_lams w) (p_lam Q) = Some L ->
  nth_error (w_cons w) (p_con P) = Some (CDict x0 xa y0 yb) -> snd (get_D L) = Ok d ->
  let edited k := answer eigsh t (after eigsh t w [SetEdge p k e]) (MatricesD q) in
  let from c := x <- calc_K_KG_D t (at3 d) (p_a Q) (p_b Q) (p_Nxx Q) (p_Nyy Q) (p_Nxy Q) c (p_m Q) (p_n Q) ;; Ok (Matrices (fst x) (snd x)) in
  edited KX0 = from (CDict (Some e) xa y0 yb) /\ edited KXa = from (CDict x0 (Some e) y0 yb) /\
  edited KY0 = from (CDict x0 xa (Some e) yb) /\ edited KYb = from (CDict x0 xa y0 (Some e)).
Proof.
  intros eigsh t w p q P Q L x0 xa y0 yb d e HP HQ EQ HL HC HD edited from.
  assert (G : forall k c', set_edge (CDict x0 xa y0 yb) k e = Ok c' -> edited k = from c').
  { intros k c' HE. unfold edited, from. cbn [after step]. apply get_some in HP. rewrite HP. cbn [bind]. assert (G2 := HC). apply get_some in G2. rewrite G2. cbn [bind]. rewrite HE. cbn [bind fst].
    apply (t_C70_matrices eigsh t (put_con w (p_con P) c') q Q L c' d); try assumption. rewrite EQ. cbn. apply put_same. apply (some_lt _ _ _ HC). }
  repeat split; apply G; reflexivity.
Qed.
(*@ C70: see C70_edit. @*)
Lemma t_C70_edit_error : forall eigsh (t : tables RA) w p P c k e, nth_error (w_plates w) p = Some P -> nth_error (w_cons w) (p_con P) = Some c ->
  (forall x0 xa y0 yb, c <> CDict x0 xa y0 yb) -> step eigsh t w (SetEdge p k e) = (w, Err TypeError).
Proof.
  intros eigsh t w p P c k e HP HC N. cbn [step]. apply get_some in HP. rewrite HP. cbn [bind]. apply get_some in HC. rewrite HC. cbn [bind].
  destruct c; try reflexivity. exfalso. eapply N. reflexivity.
Qed.

(*@ C70: nth counts from the end when negative and raises IndexError outside -k .. k-1, k being the number of factors returned. @*)
Lemma t_C70_nth : forall ls vecs nth, let k := Z.of_nat (List.length ls) in
  ((0 <= nth < k)%Z -> column_z (ls, vecs) nth = Ok (Z.to_nat nth)) /\
  ((- k <= nth < 0)%Z -> column_z (ls, vecs) nth = column_z (ls, vecs) (k + nth)) /\
  ((nth < - k)%Z \/ (k <= nth)%Z -> column_z (ls, vecs) nth = Err IndexError).
Proof.
  intros ls vecs nth. unfold column_z. cbn [fst]. set (k := Z.of_nat (List.length ls)). assert (Hk : (0 <= k)%Z) by lia. cbv zeta.
  split; [|split]; intros H.
  - destruct (Z.leb_spec 0 nth), (Z.ltb_spec nth k); try lia. reflexivity.
  - destruct (Z.leb_spec 0 nth), (Z.ltb_spec nth k), (Z.ltb_spec nth 0), (Z.leb_spec (- k) nth), (Z.leb_spec 0 (k + nth)), (Z.ltb_spec (k + nth) k); try lia; reflexivity.
  - destruct (Z.leb_spec 0 nth), (Z.ltb_spec nth k), (Z.ltb_spec nth 0), (Z.leb_spec (- k) nth); try lia; reflexivity.
Qed.

(** ** the default constraint object *)
Lemma matrices_same (t : tables RA) w w' p p' P P' L c :
  nth_error (w_plates w) p = Some P -> nth_error (w_lams w) (p_lam P) = Some L -> nth_error (w_cons w) (p_con P) = Some c ->
  nth_error (w_plates w') p' = Some P' -> nth_error (w_lams w') (p_lam P') = Some L -> nth_error (w_cons w') (p_con P') = Some c ->
  p_a P' = p_a P -> p_b P' = p_b P -> p_Nxx P' = p_Nxx P -> p_Nyy P' = p_Nyy P -> p_Nxy P' = p_Nxy P -> p_m P' = p_m P -> p_n P' = p_n P ->
  snd (do_matrices_D t w p) = snd (do_matrices_D t w' p').
Proof.
  intros A1 A2 A3 B1 B2 B3 E1 E2 E3 E4 E5 E6 E7. unfold do_matrices_D, matrices.
  apply get_some in A1, A2, A3, B1, B2, B3. rewrite A1, B1. cbn [bind]. rewrite A2, B2. cbn [bind]. rewrite A3, B3. cbn [bind].
  destruct (read_rows get_D 3 L) as [L' [rs|x]]; cbn [snd]; [|reflexivity]. rewrite E1, E2, E3, E4, E5, E6, E7. reflexivity.
Qed.
Lemma nth_last {X} (l : list X) x : nth_error (l ++ [x]) (length l) = Some x.
Proof. rewrite nth_error_app2, Nat.sub_diag by lia. reflexivity. Qed.

(*@ C70: plates built without a constraints argument share one dictionary: editing the constraints of one of them changes the
    matrices of every plate built that way afterwards, which behaves as if it had been given the edited dictionary. @*)
Lemma t_C70_default_shared : forall eigsh (t : tables RA) w l a b Nxx Nyy Nxy a' b' Nxx' Nyy' Nxy' m n m' n' k e c c' L,
  nth_error (w_lams w) l = Some L -> nth_error (w_cons w) 0 = Some c -> set_edge c k e = Ok c' ->
  let p := List.length (w_plates w) in
  let w1 := after eigsh t w [NewPlate l a b None Nxx Nyy Nxy m n; SetEdge p k e] in
  answer eigsh t (after eigsh t w1 [NewPlate l a' b' None Nxx' Nyy' Nxy' m' n']) (MatricesD (Datatypes.S p)) =
  answer eigsh t (after eigsh t w1 [NewConstraints c'; NewPlate l a' b' (Some (List.length (w_cons w))) Nxx' Nyy' Nxy' m' n']) (MatricesD (Datatypes.S p)).
Proof.
  intros eigsh t w l a b Nxx Nyy Nxy a' b' Nxx' Nyy' Nxy' m n m' n' k e c c' L HL HC HE p w1.
  assert (GL := HL). apply get_some in GL. assert (GC := HC). apply get_some in GC.
  assert (LC : (0 < length (w_cons w))%nat) by (apply (some_lt _ _ _ HC)).
  set (P1 := Plate l a b 0 Nxx Nyy Nxy m n None None).
  assert (E1 : w1 = World (w_lams w) (put (w_cons w) 0 c') (w_plates w ++ [P1])).
  { unfold w1. cbn [after step]. rewrite GL. cbn [bind]. rewrite GC. cbn [bind fst w_plates w_cons].
    assert (G : get (w_plates w ++ [P1]) p = Ok P1) by (apply get_some; apply nth_last). fold P1. rewrite G. cbn [bind p_con P1]. rewrite GC. cbn [bind]. rewrite HE. reflexivity. }
  clearbody w1. subst w1.
  assert (C0 : nth_error (put (w_cons w) 0 c') 0 = Some c') by (apply put_same; exact LC). assert (G0 := C0). apply get_some in G0.
  set (P2 := Plate l a' b' 0 Nxx' Nyy' Nxy' m' n' None None). set (P3 := Plate l a' b' (length (w_cons w)) Nxx' Nyy' Nxy' m' n' None None).
  assert (LP : length (w_plates w ++ [P1]) = Datatypes.S p) by (rewrite app_length; cbn; unfold p; lia).
  assert (CL : nth_error (put (w_cons w) 0 c' ++ [c']) (length (w_cons w)) = Some c').
  { rewrite <- (put_length (w_cons w) 0 c' LC) at 1. apply nth_last. }
  assert (GCL := CL). apply get_some in GCL.
  cbn [after step w_lams w_cons w_plates fst]. rewrite GL. cbn [bind]. rewrite G0, GCL. cbn [bind fst w_lams w_cons w_plates].
  fold P2 P3. unfold answer. cbn [step].
  assert (M := matrices_same t (World (w_lams w) (put (w_cons w) 0 c') ((w_plates w ++ [P1]) ++ [P2])) (World (w_lams w) (put (w_cons w) 0 c' ++ [c']) ((w_plates w ++ [P1]) ++ [P3]))
    (Datatypes.S p) (Datatypes.S p) P2 P3 L c').
  cbn [w_lams w_cons w_plates] in M. rewrite <- LP in M at 1 3. rewrite !nth_last in M. rewrite <- LP in M at 1. rewrite nth_last in M.
  specialize (M eq_refl HL C0 eq_refl HL CL eq_refl eq_refl eq_refl eq_refl eq_refl eq_refl eq_refl). rewrite <- LP. rewrite <- LP in M.
  destruct (do_matrices_D t _ _) as [u r]. destruct (do_matrices_D t _ _) as [u' r']. cbn [snd] in *. subst r'. reflexivity.
Qed.

(** ** trying again after an error *)
Lemma zero_k33 (t : tables RA) a b q k : calc_k33 t a b q 0 0 0 0 0 0 = Ok k -> k = 0.
Proof.
  unfold calc_k33. intros H. repeat (apply bind_inv in H; destruct H as (? & _ & H)). assert (H1 := f_equal (fun r => match r with Ok x => x | Err _ => 0 end) H).
  cbn in H1. rewrite <- H1. match goal with |- @eq _ ?x ?y => change (@eq R x y) end. ring.
Qed.
Lemma reshape_forall {X} (F : X -> Prop) r c l M : Forall F l -> reshape r c l = Ok M -> Forall (Forall F) M.
Proof.
  intros H. unfold reshape. destruct (Nat.eqb _ _); [|discriminate]. intros E. assert (E' : map (fun i => firstn c (skipn (i * c) l)) (seq 0 r) = M) by congruence. subst M.
  apply Forall_forall. intros x Hx. apply in_map_iff in Hx. destruct Hx as (i & <- & _). apply Forall_forall. intros y Hy. rewrite Forall_forall in H. apply H.
  rewrite <- (firstn_skipn (i * c) l). apply in_or_app. right. rewrite <- (firstn_skipn c (skipn (i * c) l)). apply in_or_app. left. exact Hy.
Qed.
Lemma zero_K (t : tables RA) a b Nxx Nyy Nxy c m n (K KG : list (list R)) : calc_K_KG_D t (at3 mzero) a b Nxx Nyy Nxy c m n = Ok (K, KG) -> all_zero K.
Proof.
  intros H. unfold calc_K_KG_D in H. apply bind_inv in H. destruct H as (idx & _ & H). apply bind_inv in H. destruct H as (kk & E & H).
  apply bind_inv in H. destruct H as (K0 & E1 & H). apply bind_inv in H. destruct H as (K1 & E2 & H).
  assert (H1 := f_equal (fun r => match r with Ok p => fst p | Err _ => [] end) H). cbn in H1. subst K0. unfold all_zero. apply (reshape_forall _ _ _ _ _) with (2 := E1).
  apply mapM_inv in E. clear - E. induction E as [|x y l r Hxy E IH]; cbn [map]; constructor; [|exact IH].
  apply bind_inv in Hxy. destruct Hxy as (q & _ & Hxy). apply bind_inv in Hxy. destruct Hxy as (k & Hk & Hxy). apply bind_inv in Hxy. destruct Hxy as (g & _ & Hxy).
  assert (Y := f_equal (fun r => match r with Ok p => fst p | Err _ => 0 end) Hxy). cbn in Y. apply (eq_trans (eq_sym Y)). apply (zero_k33 t a b q). exact Hk.
Qed.
Lemma failed_D l : ~ all_readable l -> snd (get_D (fresh l)) = Err ZeroDivisionError /\ snd (get_D (fst (get_D (fresh l)))) = Ok mzero.
Proof.
  intros N. apply not_readable in N. destruct N as (_ & _ & _ & _ & N). unfold Q_layup_of in N. rewrite laminate_of_eq in N. cbn [bind] in N.
  unfold get_Q_layup in N. cbn [c_Q fresh layup] in N. unfold get_D. cbn [p_xiD fresh]. unfold from_layup. cbn [c_D fresh]. unfold get_Q_layup. cbn [c_Q set_D fresh layup].
  destruct (Q_loop l []) as [q [e|]]; cbn [snd] in N; [|discriminate]. assert (e = ZeroDivisionError) by congruence. subst e. split; reflexivity.
Qed.

(*@ C70: if a ply of the laminate has no stiffness matrix, the first calc_K_KG_D raises ZeroDivisionError; calling it again returns
    matrices, with a stiffness matrix that is entirely zero. @*)
Lemma t_C70_retry : forall eigsh (t : tables RA) w p P L l c, ~ all_readable l -> laminate_of l = Ok L ->
  nth_error (w_plates w) p = Some P -> nth_error (w_lams w) (p_lam P) = Some L -> nth_error (w_cons w) (p_con P) = Some c ->
  let w1 := fst (step eigsh t w (MatricesD p)) in
  answer eigsh t w (MatricesD p) = Err ZeroDivisionError /\
  answer eigsh t w1 (MatricesD p) = (x <- calc_K_KG_D t (at3 mzero) (p_a P) (p_b P) (p_Nxx P) (p_Nyy P) (p_Nxy P) c (p_m P) (p_n P) ;; Ok (Matrices (fst x) (snd x))) /\
  forall (K KG : list (list R)), answer eigsh t w1 (MatricesD p) = Ok (Matrices K KG) -> all_zero K.
Proof.
  intros eigsh t w p P L l c N HL HP HLam HC w1. rewrite laminate_of_eq in HL. assert (L = fresh l) by congruence. subst L. clear HL.
  destruct (failed_D l N) as [F1 F2]. assert (GP := HP). apply get_some in GP. assert (GL := HLam). apply get_some in GL. assert (GC := HC). apply get_some in GC.
  assert (A : answer eigsh t w (MatricesD p) = Err ZeroDivisionError /\ w1 = put_lam w (p_lam P) (fst (get_D (fresh l)))).
  { unfold w1, answer. cbn [step]. unfold do_matrices_D, matrices. rewrite GP. cbn [bind]. rewrite GL. cbn [bind]. rewrite GC. cbn [bind]. cbn [read_rows].
    destruct (get_D (fresh l)) as [L1 r]. cbn [snd fst] in *. subst r. split; reflexivity. }
  destruct A as [A1 A2]. split; [exact A1|].
  assert (B : answer eigsh t w1 (MatricesD p) = (x <- calc_K_KG_D t (at3 mzero) (p_a P) (p_b P) (p_Nxx P) (p_Nyy P) (p_Nxy P) c (p_m P) (p_n P) ;; Ok (Matrices (fst x) (snd x)))).
  { apply (t_C70_matrices eigsh t w1 p P (fst (get_D (fresh l)))); [rewrite A2; exact HP|rewrite A2; cbn; apply put_same; apply (some_lt _ _ _ HLam)|rewrite A2; exact HC|exact F2]. }
  split; [exact B|]. intros K KG H. rewrite B in H. apply bind_inv in H. destruct H as ([K' KG'] & H & E). cbn [fst snd] in E.
  assert (K' = K) by congruence. subst K'. apply (zero_K t (p_a P) (p_b P) (p_Nxx P) (p_Nyy P) (p_Nxy P) c (p_m P) (p_n P) K KG' H).
Qed.

(** ** concrete histories *)
Lemma unit_den : o_den (OMat 12 12 0 12 1 0 0 0 0 0) = 1. Proof. unfold o_den, o_v21. simpl. lra. Qed.
Lemma unit_readable : all_readable [(0, unit_ply)].
Proof.
  repeat constructor. unfold readable. simpl. rewrite o_Q0_spec. destruct (Req_EM_T (o_den (OMat 12 12 0 12 1 0 0 0 0 0)) 0) as [E|N]; [|eauto]. exfalso. rewrite unit_den in E. lra.
Qed.
Lemma unit_Q : Qbar 0 unit_ply = M3 12 0 0 0 12 0 0 0 12.
Proof.
  rewrite Qbar_textbook_ok by (assert (H := unit_readable); inversion H; assumption). rewrite cdeg_0, sdeg_0.
  assert (E : Q0p unit_ply = M3 12 0 0 0 12 0 0 0 12).
  { unfold Q0p. simpl. rewrite o_Q0_spec. destruct (Req_EM_T (o_den (OMat 12 12 0 12 1 0 0 0 0 0)) 0) as [E|N]; [exfalso; rewrite unit_den in E; lra|].
    unfold o_Qval. rewrite unit_den. simpl. f_equal; lra. }
  rewrite E. unfold Qbar_textbook. simpl. f_equal; ring.
Qed.
Lemma unit_D : D_of [(0, unit_ply)] = Ok mid.
Proof.
  rewrite D_of_eq by exact unit_readable. f_equal.
  unfold Lsum, z_bottom, hsum, pairs. cbn [map fst snd rsum lsum]. rewrite unit_Q. unfold wD, thickness, unit_ply, mid. unmat. simpl. f_equal; field.
Qed.
Definition lam1 : op := NewLaminate (SAngles [0]) (POne unit_ply).
Lemma unit_get : construct (SAngles [0]) (POne unit_ply) = Ok (fresh [(0, unit_ply)]) /\ snd (get_D (fresh [(0, unit_ply)])) = Ok mid.
Proof. split; [reflexivity|]. assert (H := unit_D). unfold D_of in H. rewrite laminate_of_eq in H. exact H. Qed.
Lemma one_int p i v : qint (qmul (qD p (bpoly i)) (qD p (bpoly i))) = v -> exact_int p p i i = Q2R v.
Proof. intros H. apply small_int. rewrite H. reflexivity. Qed.
Lemma one_calc c i : (exists idx, compute_constraints c 1 1 = Ok idx /\ sw_idx idx = [(i, 1%nat)]) ->
  calc_K_KG_D exact_tables (at3 mid) 1 1 0 0 0 c 1 1 =
  Ok ([[4 * exact_int 2 2 i i * exact_int 0 0 1 1 + 4 * exact_int 0 0 i i * exact_int 2 2 1 1 + 16 * exact_int 1 1 i i * exact_int 1 1 1 1]], [[0]]).
Proof.
  intros (idx & E & S). change (at3 mid) with (as_arr mid). rewrite (exact_fwd mid 1 1 0 0 0 c 1 1 idx ltac:(lra) ltac:(lra) E), S. cbn [map]. apply Ok_pair.
  - unfold kx, k33f, as_arr, exact_e, mid. cbn [fst snd a11 a21 a22 a31 a32 a33 e00 e10 e11 e20 e21 e22]. repeat (apply f_equal2; [|reflexivity]). field.
  - unfold kGf, exact_e. cbn [fst snd e00 e10 e11 e20 e21 e22]. repeat (apply f_equal2; [|reflexivity]). field.
Qed.
Lemma idx_pinned : exists idx, compute_constraints default_constraints 1 1 = Ok idx /\ sw_idx idx = [(1%nat, 1%nat)].
Proof. eexists. split; [vm_compute; reflexivity|reflexivity]. Qed.
Lemma idx_free : exists idx, compute_constraints (CDict (Some free_edge) (Some (EList t3)) (Some (EList t3)) (Some (EList t3))) 1 1 = Ok idx /\ sw_idx idx = [(0%nat, 1%nat)].
Proof. eexists. split; [vm_compute; reflexivity|reflexivity]. Qed.
Lemma idx_str : exists idx, compute_constraints (CStr "PINNED") 1 1 = Ok idx /\ sw_idx idx = [(1%nat, 1%nat)].
Proof. eexists. split; [vm_compute; reflexivity|reflexivity]. Qed.

(*@ C70: so "omitted constraints" does not mean four pinned edges: the same call builds different plates before and after
    somebody edits the constraints of another plate. @*)
Lemma t_C70_default_refuted : forall eigsh, let lam := NewLaminate (SAngles [0]) (POne unit_ply) in let new := NewPlate 0 1 1 None 0 0 0 1 1 in
  exists K K', answer eigsh exact_tables (after eigsh exact_tables initial [lam; new]) (MatricesD 0) = Ok (Matrices K [[0]]) /\
    answer eigsh exact_tables (after eigsh exact_tables initial [lam; new; SetEdge 0 KX0 free_edge; new]) (MatricesD 1) = Ok (Matrices K' [[0]]) /\ K <> K'.
Proof.
  intros eigsh lam new. destruct unit_get as [U1 U2].
  set (k := fun i : nat => 4 * exact_int 2 2 i i * exact_int 0 0 1 1 + 4 * exact_int 0 0 i i * exact_int 2 2 1 1 + 16 * exact_int 1 1 i i * exact_int 1 1 1 1).
  exists [[k 1%nat]], [[k 0%nat]]. split; [|split].
  - rewrite (t_C70_matrices eigsh exact_tables _ 0 (Plate 0 1 1 0 0 0 0 1 1 None None) (fresh [(0, unit_ply)]) default_constraints mid); try reflexivity; [|exact U2].
    cbn [p_a p_b p_Nxx p_Nyy p_Nxy p_m p_n]. rewrite (one_calc default_constraints 1 idx_pinned). reflexivity.
  - rewrite (t_C70_matrices eigsh exact_tables _ 1 (Plate 0 1 1 0 0 0 0 1 1 None None) (fresh [(0, unit_ply)])
      (CDict (Some free_edge) (Some (EList t3)) (Some (EList t3)) (Some (EList t3))) mid); try reflexivity; [|exact U2].
    cbn [p_a p_b p_Nxx p_Nyy p_Nxy p_m p_n]. rewrite (one_calc _ 0 idx_free). reflexivity.
  - intros E. assert (Ek : k 1%nat = k 0%nat) by congruence. revert Ek. unfold k.
    rewrite (one_int 0 0 (26 # 35)%Q), (one_int 0 1 (2 # 105)%Q), (one_int 1 0 (3 # 5)%Q), (one_int 1 1 (1 # 15)%Q), (one_int 2 0 (3 # 2)%Q), (one_int 2 1 (1 # 2)%Q) by (vm_compute; reflexivity).
    unfold Q2R. cbn [Qnum Qden]. lra.
Qed.

(*@ C70, concrete instance: two plates on one laminate; the first keeps its result although the layup is reassigned and the
    constraints of the second are edited. @*)
Example t_C70_ex : let eigsh : solver := fun _ _ _ => Ok ([-1 / 2], [[3]]) in
  let w := after eigsh exact_tables initial [NewLaminate (SAngles [0]) (POne unit_ply); NewConstraints (CStr "PINNED"); NewPlate 0 1 1 (Some 1%nat) 0 0 0 1 1; NewPlate 0 1 1 None 0 0 0 1 1] in
  let ops := [SetLaminateLayup 0 []; SetEdge 1 KX0 free_edge; ReadLaminate 0 RdABD; Analyse 1 5; MatricesD 0] in
  exists P c idx w1, nth_error (w_plates w) 0 = Some P /\ nth_error (w_cons w) (p_con P) = Some c /\ compute_constraints c (p_m P) (p_n P) = Ok idx /\
    step eigsh exact_tables w (Analyse 0 5) = (w1, Ok (Factors [Fin 2] [[3]])) /\ unedited eigsh exact_tables (p_con P) w1 ops /\ Forall (fun o => ~ analyses 0 o) ops /\
    answer eigsh exact_tables (after eigsh exact_tables w1 ops) (Analyse 0 5) = Ok (Factors [Fin 2] [[3]]).
Proof.
  intros eigsh w ops. destruct unit_get as [U1 U2].
  set (P := Plate 0 1 1 1 0 0 0 1 1 None None). set (c := CStr "PINNED").
  destruct idx_str as (idx & HI & HS). fold c in HI. exists P, c, idx.
  assert (HP : nth_error (w_plates w) 0 = Some P) by reflexivity. assert (HC : nth_error (w_cons w) (p_con P) = Some c) by reflexivity.
  assert (A := t_C70_analysis eigsh exact_tables w 0 P (fresh [(0, unit_ply)]) c mid 5 HP eq_refl HC U2).
  unfold buckling_analysis in A. cbn [p_a p_b p_Nxx p_Nyy p_Nxy p_m p_n P] in A. rewrite (one_calc c 1) in A by (exists idx; split; assumption). cbn [bind eigsh fst snd map] in A.
  unfold neg_recip in A. destruct (Req_EM_T (-1 / 2) 0); [lra|]. replace (-1 / (-1 / 2)) with 2 in A by field.
  unfold answer in A. destruct (step eigsh exact_tables w (Analyse 0 5)) as [w1 r] eqn:E1. cbn [snd] in A. subst r. exists w1.
  assert (U : unedited eigsh exact_tables (p_con P) w1 ops).
  { assert (S2 : exists P2, nth_error (w_plates w) 1 = Some P2 /\ p_con P2 = 0%nat) by (eexists; split; reflexivity). destruct S2 as (P2 & HP2 & C2).
    assert (F := step_facts eigsh exact_tables w (Analyse 0 5)). rewrite E1 in F. cbn [fst] in F. destruct F as (_ & _ & F). destruct (F 1%nat P2 HP2) as (Q & HQ & SQ & _).
    destruct SQ as (_ & _ & _ & s4 & _). unfold ops. cbn [unedited edits]. split; [tauto|].
    assert (F2 := step_facts eigsh exact_tables w1 (SetLaminateLayup 0 [])). destruct F2 as (_ & _ & F2). destruct (F2 1%nat Q HQ) as (Q2 & HQ2 & SQ2 & _).
    split; [|tauto]. intros (X & HX & CX). rewrite HQ2 in HX. assert (X = Q2) by congruence. subst X. destruct SQ2 as (_ & _ & _ & s4' & _). cbn [p_con P] in CX. congruence. }
  split; [exact HP|]. split; [exact HC|]. split; [exact HI|]. split; [reflexivity|]. split; [exact U|].
  split; [repeat constructor; intros Z; try exact Z; discriminate Z|].
  apply (t_C70_repeatable eigsh exact_tables w 0 P 5 w1); assumption.
Qed.

(*@ C70, concrete instances: an edit that changes the functions of a mixed drawing, and a ply without stiffness matrix. @*)
Example t_C70_ex_mixed :
  (exists idx idx', compute_constraints default_constraints 2 2 = Ok idx /\
     (c' <- set_edge default_constraints KX0 free_edge ;; compute_constraints c' 2 2) = Ok idx' /\ List.length (sw_idx idx) = List.length (sw_idx idx') /\ sw_idx idx <> sw_idx idx') /\
  ~ all_readable [(0, Ortho (OMat 1 1 1 1 1 0 0 0 0 0))].
Proof.
  split; [do 2 eexists; split; [vm_compute; reflexivity|]; split; [vm_compute; reflexivity|]; split; [reflexivity|discriminate]|].
  intros H. inversion H as [|? ? (q & Hq) _]; subst. simpl in Hq. rewrite o_Q0_spec in Hq.
  destruct (Req_EM_T (o_den (OMat 1 1 1 1 1 0 0 0 0 0)) 0) as [E|N]; [discriminate|]. apply N. unfold o_den, o_v21. simpl. field.
Qed.
