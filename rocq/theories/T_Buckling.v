(** Proofs of the theorems on the buckling analysis. *)
From Coq Require Import Reals ZArith QArith Qreals Lra Lia Bool String Sorting.Sorted Classical.
From Coquelicot Require Import Coquelicot.
From Coq Require Import List.
From Verif Require Import M_Py M_Plate M_K M_Tables M_Expr M_RealArith M_Plot M_Buckling S_Plate S_Mat S_Bardell S_Energy S_K S_Ritz S_Eigen L_Quad L_Eigen L_Plate L_FirstK L_K L_KR L_Poly L_Shape L_TabV L_Energy L_Ritz L_ABD T_Plate T_Shape T_K T_Energy T_ABD.
Import ListNotations.
Open Scope R_scope.

Section One.
Variables (eigsh : solver) (t : tables RA) (D : @arr RA) (a b Nxx Nyy Nxy : R) (c : constraints) (m n : nat) (num : Z) (K KG : list (list R)).
Hypothesis HK : calc_K_KG_D t D a b Nxx Nyy Nxy c m n = Ok (K, KG).
Let k := Z.min num (Z.of_nat (List.length KG) - 2).
Lemma ba_unfold : buckling_analysis eigsh t D a b Nxx Nyy Nxy c m n num = bind (eigsh KG K k) (fun r => Ok (map neg_recip (fst r), snd r)).
Proof. unfold buckling_analysis. rewrite HK. reflexivity. Qed.
Lemma ba_inv ls vecs : buckling_analysis eigsh t D a b Nxx Nyy Nxy c m n num = Ok (ls, vecs) ->
  exists vals, eigsh KG K k = Ok (vals, vecs) /\ ls = map neg_recip vals.
Proof.
  rewrite ba_unfold. destruct (eigsh KG K k) as [[vals vs]|e]; [|discriminate]. cbn [bind fst snd]. intros H.
  assert (H' := f_equal (fun r => match r with Ok p => p | Err _ => ([], []) end) H). cbn in H'.
  assert (H1 := f_equal fst H'). assert (H2 := f_equal snd H'). cbn in H1, H2. exists vals. subst. split; reflexivity.
Qed.
Lemma ba_result ls vecs : documented eigsh -> pencil K KG -> buckling_analysis eigsh t D a b Nxx Nyy Nxy c m n num = Ok (ls, vecs) ->
  exists vals, (0 < k)%Z /\ eigsh_result KG K (Z.to_nat k) vals vecs /\ ls = map neg_recip vals.
Proof.
  intros Dc Pn H. destruct (ba_inv _ _ H) as (vals & E & El). exists vals. destruct (Dc KG K k) as [D1 D2]. split.
  - destruct (Z_lt_le_dec 0 k) as [|Le]; [assumption|]. rewrite (D1 Le) in E. discriminate.
  - split; [apply D2; assumption|exact El].
Qed.
End One.

(** sizes of the matrices *)
Lemma calc_square (t : tables RA) D a b Nxx Nyy Nxy c m n (K KG : list (list R)) : calc_K_KG_D t D a b Nxx Nyy Nxy c m n = Ok (K, KG) -> List.length K = (m * n)%nat /\ List.length KG = (m * n)%nat.
Proof.
  intros H. unfold calc_K_KG_D in H. apply bind_inv in H. destruct H as (idx & _ & H). apply bind_inv in H. destruct H as (kk & _ & H).
  apply bind_inv in H. destruct H as (K0 & E1 & H). apply bind_inv in H. destruct H as (K1 & E2 & H).
  assert (H1 := f_equal (fun r => match r with Ok p => p | Err _ => ([], []) end) H). cbn beta iota in H1.
  assert (X := f_equal fst H1). assert (Y := f_equal snd H1). cbn [fst snd] in X, Y. subst K1 K0.
  unfold reshape in E1, E2. destruct (Nat.eqb _ _) in E1; [|discriminate]. destruct (Nat.eqb _ _) in E2; [|discriminate].
  assert (Q1 := f_equal (fun r => match r with Ok p => List.length p | Err _ => 0%nat end) E1).
  assert (Q2 := f_equal (fun r => match r with Ok p => List.length p | Err _ => 0%nat end) E2).
  cbn beta iota in Q1, Q2. rewrite map_length, seq_length in Q1, Q2. auto.
Qed.

(*@ C59: a documented solver is asked for min(num_eigvalues, m*n - 2) eigenvalues; the analysis returns that many factors, and
    raises ValueError whenever that number is not positive, in particular for every plate with m*n <= 2. @*)
Lemma t_C59_count : forall eigsh (t : tables RA) (D : @arr RA) a b Nxx Nyy Nxy c m n num (K KG : list (list R)), documented eigsh ->
  calc_K_KG_D t D a b Nxx Nyy Nxy c m n = Ok (K, KG) ->
  let k := Z.min num (Z.of_nat (m * n) - 2) in
  ((k <= 0)%Z -> buckling_analysis eigsh t D a b Nxx Nyy Nxy c m n num = Err ValueError) /\
  (forall ls vecs, pencil K KG -> buckling_analysis eigsh t D a b Nxx Nyy Nxy c m n num = Ok (ls, vecs) -> (0 < k)%Z /\ List.length ls = Z.to_nat k).
Proof.
  intros eigsh t D a b Nxx Nyy Nxy c m n num K KG Dc E k. destruct (calc_square _ _ _ _ _ _ _ _ _ _ _ _ E) as [LK LG]. split.
  - intros Hk. rewrite (ba_unfold _ _ _ _ _ _ _ _ _ _ _ _ _ _ E). rewrite LG. fold k. rewrite (proj1 (Dc KG K k) Hk). reflexivity.
  - intros ls vecs Pn H. destruct (ba_result _ _ _ _ _ _ _ _ _ _ _ _ _ _ E _ _ Dc Pn H) as (vals & Pk & Er & ->). rewrite LG in Pk, Er. fold k in Pk, Er.
    split; [exact Pk|]. rewrite map_length. apply Er.
Qed.
(*@ C59: an error of the assembly is passed on, whatever the solver. @*)
Lemma t_C59_assembly_error : forall eigsh (t : tables RA) (D : @arr RA) a b Nxx Nyy Nxy c m n num e,
  calc_K_KG_D t D a b Nxx Nyy Nxy c m n = Err e -> buckling_analysis eigsh t D a b Nxx Nyy Nxy c m n num = Err e.
Proof. intros. unfold buckling_analysis. rewrite H. reflexivity. Qed.

(*@ C42: every returned pair solves (K + l KG) v = 0 with v non-zero; an infinite factor comes with KG v = 0. @*)
Lemma t_C42_pairs : forall eigsh (t : tables RA) (D : @arr RA) a b Nxx Nyy Nxy c m n num (K KG : list (list R)) ls vecs, documented eigsh ->
  calc_K_KG_D t D a b Nxx Nyy Nxy c m n = Ok (K, KG) -> pencil K KG ->
  buckling_analysis eigsh t D a b Nxx Nyy Nxy c m n num = Ok (ls, vecs) ->
  forall j l, nth_error ls j = Some l -> exists v, column vecs j = Ok v /\
    match l with Fin x => buckles K KG x v | Infinite => nonzero v /\ mat_vec KG v = repeat 0 (m * n) end.
Proof.
  intros eigsh t D a b Nxx Nyy Nxy c m n num K KG ls vecs Dc E Pn H j l Hj. destruct (calc_square _ _ _ _ _ _ _ _ _ _ _ _ E) as [LK LG].
  destruct (ba_result _ _ _ _ _ _ _ _ _ _ _ _ _ _ E _ _ Dc Pn H) as (vals & Pk & Er & ->).
  rewrite nth_error_map in Hj. destruct (nth_error vals j) as [mu|] eqn:Ev; [|discriminate]. cbn in Hj.
  destruct (er_pairs _ _ _ _ _ Er j mu Ev) as (_ & v & Cv & Gp). exists v. split; [exact Cv|].
  assert (El : l = neg_recip mu) by congruence. rewrite El. unfold neg_recip. destruct (Req_EM_T mu 0) as [Z|N].
  - destruct Gp as (_ & Nv & Ge). split; [exact Nv|]. rewrite Ge, Z.
    assert (L : List.length (mat_vec K v) = (m * n)%nat) by (unfold mat_vec; rewrite map_length; exact LK). rewrite <- L.
    clear. induction (mat_vec K v) as [|x q IH]; [reflexivity|]. cbn [map repeat List.length]. rewrite Rmult_0_l, IH. reflexivity.
  - apply pair_buckles; assumption.
Qed.

Lemma cayley_factor l : 0 < l -> cayley (-1 / l) = (1 - l) / (1 + l).
Proof. intros H. unfold cayley. field. split; [lra|]. split; lra. Qed.
Lemma neg_pos mu : mu < 0 -> 0 < -1 / mu.
Proof. intros H. unfold Rdiv. assert (/ mu < 0) by (apply Rinv_lt_0_compat; exact H). lra. Qed.
Lemma neg_twice mu : mu <> 0 -> -1 / (-1 / mu) = mu.
Proof. intros. field. assumption. Qed.
Lemma factor_neg l : 0 < l -> -1 / l < 0.
Proof. intros H. unfold Rdiv. assert (0 < / l) by (apply Rinv_0_lt_compat; exact H). lra. Qed.
(** a returned eigenvalue beaten by no positive factor *)
Lemma cayley_side l mu : 0 < l -> mu <> 1 -> Rabs (cayley mu) <= Rabs (cayley (-1 / l)) ->
  mu < 0 /\ Rabs (1 - -1 / mu) * (1 + l) <= Rabs (1 - l) * (1 + -1 / mu).
Proof.
  intros Hl N1 H. rewrite (cayley_factor l Hl) in H.
  assert (C1 : Rabs ((1 - l) / (1 + l)) < 1).
  { apply Rabs_def1.
    - apply (Rmult_lt_reg_r (1 + l)); [lra|]. unfold Rdiv. rewrite Rmult_assoc, Rinv_l by lra. lra.
    - apply (Rmult_lt_reg_r (1 + l)); [lra|]. unfold Rdiv. rewrite Rmult_assoc, Rinv_l by lra. lra. }
  assert (C2 : Rabs (cayley mu) < 1) by lra.
  assert (Hm : mu < 0).
  { unfold cayley in C2. unfold Rdiv in C2. rewrite Rabs_mult, Rabs_inv in C2.
    assert (P : 0 < Rabs (mu - 1)) by (apply Rabs_pos_lt; lra).
    assert (Q : Rabs (mu + 1) < Rabs (mu - 1)).
    { apply (Rmult_lt_reg_r (/ Rabs (mu - 1))); [apply Rinv_0_lt_compat; exact P|]. rewrite Rinv_r by lra. exact C2. }
    unfold Rabs in Q. destruct (Rcase_abs (mu + 1)), (Rcase_abs (mu - 1)); lra. }
  split; [exact Hm|]. assert (Hz := neg_pos mu Hm). set (z := -1 / mu) in *.
  assert (Em : mu = -1 / z) by (unfold z; rewrite neg_twice; lra).
  rewrite Em, (cayley_factor z Hz) in H.
  unfold Rdiv in H. rewrite !Rabs_mult, !Rabs_inv, (Rabs_pos_eq (1 + z)), (Rabs_pos_eq (1 + l)) in H by lra.
  apply (Rmult_le_compat_r ((1 + z) * (1 + l))) in H; [|apply Rmult_le_pos; lra].
  replace (Rabs (1 - z) * / (1 + z) * ((1 + z) * (1 + l))) with (Rabs (1 - z) * (1 + l)) in H by (field; lra).
  replace (Rabs (1 - l) * / (1 + l) * ((1 + z) * (1 + l))) with (Rabs (1 - l) * (1 + z)) in H by (field; lra). exact H.
Qed.
Lemma sorted_head (l : list R) x : StronglySorted Rle l -> In x l -> exists y q, l = y :: q /\ y <= x.
Proof.
  intros S I. destruct S as [|y q S F]; [destruct I|]. exists y, q. split; [reflexivity|]. destruct I as [->|I]; [lra|]. rewrite Forall_forall in F. apply F, I.
Qed.

(*@ C42: if l is the smallest positive factor then the first returned factor is l, unless l < 1 and every returned factor lies
    in (l, 1/l]. @*)
Lemma t_C42_first : forall eigsh (t : tables RA) (D : @arr RA) a b Nxx Nyy Nxy c m n num (K KG : list (list R)) ls vecs l, documented eigsh ->
  calc_K_KG_D t D a b Nxx Nyy Nxy c m n = Ok (K, KG) -> pencil K KG -> smallest_factor K KG l ->
  buckling_analysis eigsh t D a b Nxx Nyy Nxy c m n num = Ok (ls, vecs) ->
  exists x rest, ls = Fin x :: rest /\
    (x = l \/ l < 1 /\ forall y, In y ls -> exists z, y = Fin z /\ l < z <= 1 / l).
Proof.
  intros eigsh t D a b Nxx Nyy Nxy c m n num K KG ls vecs l Dc E Pn (Hl & Fl & Ml) H.
  destruct (ba_result _ _ _ _ _ _ _ _ _ _ _ _ _ _ E _ _ Dc Pn H) as (vals & Pk & Er & ->).
  set (k := Z.min num (Z.of_nat (List.length KG) - 2)) in *.
  assert (Fac : forall mu, In mu vals -> mu <> 0 -> factor K KG (-1 / mu)).
  { intros mu I N. apply In_nth_error in I. destruct I as (j & Ej). destruct (er_pairs _ _ _ _ _ Er j mu Ej) as (_ & v & _ & Gp).
    exists v. apply pair_buckles; assumption. }
  assert (Fin_neg : forall mu, mu < 0 -> neg_recip mu = Fin (-1 / mu)).
  { intros mu Hm. unfold neg_recip. destruct (Req_EM_T mu 0); [lra|reflexivity]. }
  destruct (in_dec Req_EM_T (-1 / l) vals) as [I|NI].
  - destruct (sorted_head vals _ (er_sorted _ _ _ _ _ Er) I) as (mu & q & Ev & Le).
    assert (Hn := factor_neg l Hl). assert (Hm : mu < 0) by lra. assert (Hz := neg_pos mu Hm).
    exists (-1 / mu), (map neg_recip q). split; [rewrite Ev; cbn [map]; rewrite Fin_neg by exact Hm; reflexivity|]. left.
    assert (L1 : l <= -1 / mu). { apply Ml; [exact Hz|]. apply Fac; [rewrite Ev; left; reflexivity|lra]. }
    apply Rle_antisym; [|exact L1].
    apply (Rmult_le_reg_r (- mu)); [lra|]. replace (-1 / mu * - mu) with 1 by (field; lra).
    assert (Q : l * (-1 / l) = -1) by (field; lra). assert (l * mu <= l * (-1 / l)) by (apply Rmult_le_compat_l; lra). lra.
  - destruct Fl as (v & Bv). assert (Gv := buckles_pair K KG l v Pn ltac:(lra) Bv).
    assert (Hn := factor_neg l Hl).
    assert (All : forall mu, In mu vals -> mu < 0 /\ l < -1 / mu /\ l < 1 /\ -1 / mu <= 1 / l).
    { intros mu I.
      assert (N1 : mu <> 1). { apply In_nth_error in I. destruct I as (j & Ej). apply (er_pairs _ _ _ _ _ Er j mu Ej). }
      assert (S : Rabs (cayley mu) <= Rabs (cayley (-1 / l))).
      { apply (er_select _ _ _ _ _ Er (-1 / l) v Gv); [lra| |exact I].
        intros j u Hj Cu. assert (Lj : (j < List.length vals)%nat) by (rewrite (er_count _ _ _ _ _ Er); exact Hj).
        destruct (nth_error vals j) as [nu|] eqn:Ej; [|apply nth_error_None in Ej; lia].
        destruct (er_pairs _ _ _ _ _ Er j nu Ej) as (_ & u' & Cu' & Gu). assert (u' = u) by congruence. subst u'.
        apply (pair_orth K KG nu (-1 / l) u v Pn Gu Gv). intros Eq. apply NI. rewrite <- Eq. apply (nth_error_In _ _ Ej). }
      destruct (cayley_side l mu Hl N1 S) as (Hm & Q). split; [exact Hm|]. assert (Hz := neg_pos mu Hm).
      assert (Lz : l <= -1 / mu) by (apply Ml; [exact Hz|apply Fac; [exact I|lra]]).
      assert (Nz : -1 / mu <> l). { intros Eq. apply NI. rewrite <- Eq, neg_twice by lra. exact I. }
      set (z := -1 / mu) in *. assert (Lz' : l < z) by lra. split; [exact Lz'|].
      assert (L1 : l < 1).
      { destruct (Rlt_or_le l 1) as [|G]; [assumption|exfalso]. rewrite !Rabs_left1 in Q by lra. lra. }
      split; [exact L1|]. apply (Rmult_le_reg_r l); [exact Hl|]. replace (1 / l * l) with 1 by (field; lra).
      rewrite (Rabs_pos_eq (1 - l)) in Q by lra. destruct (Rle_or_lt z 1) as [Z1|Z1].
      - apply (Rle_trans _ (1 * l)); [apply Rmult_le_compat_r; lra|lra].
      - rewrite Rabs_left1 in Q by lra. lra. }
    assert (Len : (0 < List.length vals)%nat) by (rewrite (er_count _ _ _ _ _ Er); lia).
    destruct vals as [|mu q]; [cbn in Len; lia|]. destruct (All mu (or_introl eq_refl)) as (Hm & _ & L1 & _).
    exists (-1 / mu), (map neg_recip q). split; [cbn [map]; rewrite Fin_neg by exact Hm; reflexivity|]. right. split; [exact L1|].
    intros y Iy. apply in_map_iff in Iy. destruct Iy as (nu & Ey & In'). destruct (All nu In') as (Hn' & A1 & _ & A2).
    exists (-1 / nu). rewrite <- Ey. split; [apply Fin_neg; exact Hn'|]. split; assumption.
Qed.
(*@ C42: so the first returned factor is the smallest positive one whenever that one is not below 1. @*)
Lemma t_C42_first_above_one : forall eigsh (t : tables RA) (D : @arr RA) a b Nxx Nyy Nxy c m n num (K KG : list (list R)) ls vecs l, documented eigsh ->
  calc_K_KG_D t D a b Nxx Nyy Nxy c m n = Ok (K, KG) -> pencil K KG -> smallest_factor K KG l -> 1 <= l ->
  buckling_analysis eigsh t D a b Nxx Nyy Nxy c m n num = Ok (ls, vecs) -> exists rest, ls = Fin l :: rest.
Proof.
  intros eigsh t D a b Nxx Nyy Nxy c m n num K KG ls vecs l Dc E Pn Sm H1 H.
  destruct (t_C42_first _ _ _ _ _ _ _ _ _ _ _ _ _ _ _ _ l Dc E Pn Sm H) as (x & rest & -> & [-> | [L _]]); [|lra]. exists rest. reflexivity.
Qed.

(** ** loads multiplied by s *)
Lemma pencil_scale s K KG : pencil K KG -> pencil K (scale_rows s KG).
Proof.
  intros [S1 S2 S3 S4 S5]. constructor; try assumption.
  - split; [unfold scale_rows; rewrite map_length; apply S2|]. unfold scale_rows. apply Forall_map. destruct S2 as [_ F].
    eapply Forall_impl; [|exact F]. intros r Hr. cbn beta. rewrite map_length. exact Hr.
  - intros r0 c0. specialize (S4 r0 c0).
    assert (Q : forall M r c, entry (scale_rows s M) r c = option_map (Rmult s) (entry M r c)).
    { intros M r c. unfold entry, scale_rows. rewrite nth_error_map. destruct (nth_error M r); [|reflexivity]. cbn. apply nth_error_map. }
    rewrite !Q, S4. reflexivity.
Qed.
Lemma dot_scale s u v : dot_list (map (Rmult s) u) v = s * dot_list u v.
Proof.
  unfold dot_list. revert v. induction u as [|x u IH]; intros [|y v]; cbn [map map2 rsum]; try ring. rewrite IH. ring.
Qed.
Lemma buckles_scale s K KG l v : s <> 0 -> (buckles K (scale_rows s KG) (l / s) v <-> buckles K KG l v).
Proof.
  intros Hs. unfold buckles. replace (map2 (fun k g => k + l / s * g) (mat_vec K v) (mat_vec (scale_rows s KG) v))
    with (map2 (fun k g => k + l * g) (mat_vec K v) (mat_vec KG v)); [tauto|].
  unfold mat_vec, scale_rows. rewrite map_map. generalize K. induction KG as [|g G IH]; intros [|k q]; try reflexivity.
  cbn [map map2]. rewrite <- IH, dot_scale. f_equal. field. exact Hs.
Qed.
Lemma smallest_scale s K KG l : 0 < s -> smallest_factor K KG l -> smallest_factor K (scale_rows s KG) (l / s).
Proof.
  intros Hs (Hl & (v & Bv) & Ml). split; [apply Rdiv_lt_0_compat; assumption|]. split.
  - exists v. apply buckles_scale; [lra|exact Bv].
  - intros l' Hl' (v' & Bv'). assert (B2 : buckles K KG (l' * s) v').
    { apply (buckles_scale s); [lra|]. replace (l' * s / s) with l' by (field; lra). exact Bv'. }
    assert (Q : l <= l' * s) by (apply Ml; [apply Rmult_lt_0_compat; assumption|exists v'; exact B2]).
    apply (Rmult_le_reg_r s); [exact Hs|]. replace (l / s * s) with l by (field; lra). exact Q.
Qed.
Lemma scale_calc (t : tables RA) D a b Nxx Nyy Nxy c m n (K KG : list (list R)) s : t = stored_R \/ t = exact_tables -> a <> 0 -> b <> 0 ->
  calc_K_KG_D t D a b Nxx Nyy Nxy c m n = Ok (K, KG) -> calc_K_KG_D t D a b (s * Nxx) (s * Nyy) (s * Nxy) c m n = Ok (K, scale_rows s KG).
Proof.
  intros Ht Ha Hb H.
  assert (Gen : forall P e (G : good P t e) idx, compute_constraints c m n = Ok idx ->
    (forall p, In p (sw_idx idx) -> P (fst p) /\ P (snd p)) ->
    calc_K_KG_D t D a b (s * Nxx) (s * Nyy) (s * Nxy) c m n = Ok (K, scale_rows s KG)).
  { intros P e G idx E Pi.
    set (kf := fun pq => k33f e a b pq (D 0%nat 0%nat) (D 1%nat 0%nat) (D 1%nat 1%nat) (D 2%nat 0%nat) (D 2%nat 1%nat) (D 2%nat 2%nat)).
    assert (W : forall X Y Z, calc_K_KG_D t D a b X Y Z c m n =
      Ok (map (fun p => map (fun q => kf (p, q)) (sw_idx idx)) (sw_idx idx), map (fun p => map (fun q => kGf e a b (p, q) X Y Z) (sw_idx idx)) (sw_idx idx))).
    { intros X Y Z. apply (K_D_ok t D a b X Y Z c m n idx kf (fun pq => kGf e a b pq X Y Z) E). intros p q Ip Iq. unfold ent_D.
      destruct (Pi p Ip), (Pi q Iq).
      rewrite (k33_ok _ _ _ G a b Ha Hb (p, q)) by (repeat split; assumption). cbn [bind].
      rewrite (kG_ok _ _ _ G a b Ha Hb (p, q)) by (repeat split; assumption). reflexivity. }
    rewrite W in H |- *. assert (H1 := f_equal (fun r => match r with Ok p => p | Err _ => ([], []) end) H). cbn beta iota in H1.
    assert (X := f_equal fst H1). assert (Y := f_equal snd H1). cbn [fst snd] in X, Y. rewrite <- X, <- Y. apply Ok_pair; [reflexivity|].
    unfold scale_rows. rewrite map_map. apply map_ext. intros p. rewrite map_map. apply map_ext. intros q. unfold kGf. ring. }
  destruct Ht as [-> | ->].
  - destruct (stored_inv D a b Nxx Nyy Nxy c m n K KG Ha Hb H) as (idx & E & In30 & _). apply (Gen _ _ stored_good idx E). exact In30.
  - assert (H' := H). unfold calc_K_KG_D in H'. apply bind_inv in H'. destruct H' as (idx & E & _). apply (Gen _ _ exact_good idx E). intros; split; exact I.
Qed.
Lemma nodup_map_in {X Y} (f : X -> Y) (l : list X) : (forall x y, In x l -> In y l -> f x = f y -> x = y) -> NoDup l -> NoDup (map f l).
Proof.
  intros Inj Nd. induction Nd as [|x l N Nd IH]; [constructor|]. cbn [map]. constructor.
  - intros I. apply in_map_iff in I. destruct I as (y & Eq & Iy). apply N. rewrite <- (Inj y x (or_intror Iy) (or_introl eq_refl) Eq). exact Iy.
  - apply IH. intros u v Iu Iv. apply Inj; right; assumption.
Qed.
Lemma column_fun {X} (vecs : list (list X)) j u v : column vecs j = Ok u -> column vecs j = Ok v -> u = v.
Proof. intros H1 H2. rewrite H1 in H2. apply (f_equal (fun r => match r with Ok x => x | Err _ => u end)) in H2. exact H2. Qed.
(** a factor further from 1 than k others is not among the k selected *)
Lemma missing eigsh (t : tables RA) (D : @arr RA) a b Nxx Nyy Nxy c m n num (K KG : list (list R)) out vecs l fs : documented eigsh ->
  calc_K_KG_D t D a b Nxx Nyy Nxy c m n = Ok (K, KG) -> pencil K KG -> smallest_factor K KG l ->
  NoDup fs -> (Z.to_nat (Z.min num (Z.of_nat (m * n) - 2)) <= List.length fs)%nat ->
  (forall f, In f fs -> factor K KG f /\ l < f /\ l * f < 1) ->
  buckling_analysis eigsh t D a b Nxx Nyy Nxy c m n num = Ok (out, vecs) ->
  forall y, In y out -> exists z, y = Fin z /\ l < z.
Proof.
  intros Dc E Pn Sm Nd Ln Hf H. assert (Sm' := Sm). destruct Sm' as (Hl & Fl & Ml).
  destruct (t_C42_first _ _ _ _ _ _ _ _ _ _ _ _ _ _ _ _ l Dc E Pn Sm H) as (x & rest & Eo & [-> | [_ All]]).
  2:{ intros y Iy. destruct (All y Iy) as (z & -> & Hz & _). exists z. split; [reflexivity|exact Hz]. }
  exfalso. destruct (calc_square _ _ _ _ _ _ _ _ _ _ _ _ E) as [LK LG].
  destruct (ba_result _ _ _ _ _ _ _ _ _ _ _ _ _ _ E _ _ Dc Pn H) as (vals & Pk & Er & Ev). rewrite LG in Pk, Er.
  set (k := Z.to_nat (Z.min num (Z.of_nat (m * n) - 2))) in *.
  assert (I0 : exists mu0 q, vals = mu0 :: q /\ mu0 = -1 / l).
  { destruct vals as [|mu0 q]; [rewrite Ev in Eo; discriminate|]. exists mu0, q. split; [reflexivity|].
    rewrite Ev in Eo. cbn [map] in Eo. injection Eo as E0 _. unfold neg_recip in E0. destruct (Req_EM_T mu0 0) as [|N]; [discriminate|].
    injection E0 as E0. rewrite <- E0, neg_twice by exact N. reflexivity. }
  destruct I0 as (mu0 & q & -> & E0).
  (* some f is not returned *)
  assert (Miss : exists f, In f fs /\ ~ In (-1 / f) (mu0 :: q)).
  { apply NNPP. intros N.
    assert (Inc : incl (map (fun f => -1 / f) fs) q).
    { intros y Iy. apply in_map_iff in Iy. destruct Iy as (f & <- & If). destruct (Hf f If) as (_ & L1 & _).
      destruct (in_dec Req_EM_T (-1 / f) (mu0 :: q)) as [[Eq|I]|NI]; [|exact I|].
      - exfalso. rewrite E0 in Eq. assert (Q := f_equal (fun x => -1 / x) Eq). cbv beta in Q. rewrite !neg_twice in Q by lra. lra.
      - exfalso. apply N. exists f. split; assumption. }
    assert (Nd' : NoDup (map (fun f => -1 / f) fs)).
    { apply nodup_map_in; [|exact Nd]. intros x y Ix Iy Eq. destruct (Hf x Ix) as (_ & Lx & _), (Hf y Iy) as (_ & Ly & _).
      assert (Q := f_equal (fun x => -1 / x) Eq). cbv beta in Q. rewrite !neg_twice in Q by lra. exact Q. }
    assert (L := NoDup_incl_length Nd' Inc). rewrite map_length in L. assert (C := er_count _ _ _ _ _ Er). cbn [List.length] in C. lia. }
  destruct Miss as (f & If & NI). destruct (Hf f If) as ((v & Bv) & L1 & L2).
  assert (Gv := buckles_pair K KG f v Pn ltac:(lra) Bv).
  assert (Nf := factor_neg f ltac:(lra)). assert (Nl := factor_neg l Hl).
  assert (Sel : Rabs (cayley mu0) <= Rabs (cayley (-1 / f))).
  { apply (er_select _ _ _ _ _ Er (-1 / f) v Gv); [lra| |left; reflexivity].
    intros j u Hj Cu. assert (Lj : (j < List.length (mu0 :: q))%nat) by (rewrite (er_count _ _ _ _ _ Er); exact Hj).
    destruct (nth_error (mu0 :: q) j) as [nu|] eqn:Ej; [|apply nth_error_None in Ej; lia].
    destruct (er_pairs _ _ _ _ _ Er j nu Ej) as (_ & u' & Cu' & Gu). assert (u' = u) by (apply (column_fun _ _ _ _ Cu' Cu)). subst u'.
    apply (pair_orth K KG nu (-1 / f) u v Pn Gu Gv). intros Eq. apply NI. rewrite <- Eq. apply (nth_error_In _ _ Ej). }
  destruct (cayley_side f mu0 ltac:(lra) ltac:(lra) Sel) as (_ & Q). rewrite E0, neg_twice in Q by lra.
  destruct (Rle_or_lt f 1) as [F1|F1].
  - rewrite !Rabs_pos_eq in Q by lra. lra.
  - rewrite (Rabs_left1 (1 - f)) in Q by lra. destruct (Rle_or_lt l 1); [rewrite Rabs_pos_eq in Q by lra; lra|]. nra.
Qed.

(*@ C42: increasing the loads makes the analysis lose the critical factor. Let l be the smallest positive factor under loads N and
    let fs be k further factors not above F, where k is the number of eigenvalues requested. Under the loads s*N with
    s^2 > l*F the smallest factor is l/s, and every factor returned is greater than l/s. @*)
Lemma t_C42_overload : forall eigsh (t : tables RA) (D : @arr RA) a b Nxx Nyy Nxy c m n num (K KG : list (list R)) out vecs l fs F s,
  documented eigsh -> t = stored_R \/ t = exact_tables -> a <> 0 -> b <> 0 ->
  calc_K_KG_D t D a b Nxx Nyy Nxy c m n = Ok (K, KG) -> pencil K KG -> smallest_factor K KG l ->
  NoDup fs -> List.length fs = Z.to_nat (Z.min num (Z.of_nat (m * n) - 2)) ->
  (forall f, In f fs -> factor K KG f /\ l < f <= F) -> 0 < s -> l * F < s ^ 2 ->
  buckling_analysis eigsh t D a b (s * Nxx) (s * Nyy) (s * Nxy) c m n num = Ok (out, vecs) ->
  smallest_factor K (scale_rows s KG) (l / s) /\ forall y, In y out -> exists z, y = Fin z /\ l / s < z.
Proof.
  intros eigsh t D a b Nxx Nyy Nxy c m n num K KG out vecs l fs F s Dc Ht Ha Hb E Pn Sm Nd Ln Hf Hs HF H.
  assert (Sm2 := smallest_scale s K KG l Hs Sm). split; [exact Sm2|].
  assert (Hl := proj1 Sm).
  apply (missing eigsh t D a b (s * Nxx) (s * Nyy) (s * Nxy) c m n num K (scale_rows s KG) out vecs (l / s) (map (fun f => f / s) fs) Dc
    (scale_calc t D a b Nxx Nyy Nxy c m n K KG s Ht Ha Hb E) (pencil_scale s K KG Pn) Sm2).
  - apply nodup_map_in; [|exact Nd]. intros x y _ _ Eq. apply (Rmult_eq_reg_r (/ s)); [exact Eq|apply Rinv_neq_0_compat; lra].
  - rewrite map_length, Ln. apply Nat.le_refl.
  - intros y Iy. apply in_map_iff in Iy. destruct Iy as (f & <- & If). destruct (Hf f If) as ((v & Bv) & L1 & L2). split; [|split].
    + exists v. apply buckles_scale; [lra|exact Bv].
    + unfold Rdiv. apply Rmult_lt_compat_r; [apply Rinv_0_lt_compat; exact Hs|exact L1].
    + apply (Rmult_lt_reg_r (s ^ 2)); [apply pow_lt; exact Hs|]. replace (l / s * (f / s) * s ^ 2) with (l * f) by (field; lra).
      assert (l * f <= l * F) by (apply Rmult_le_compat_l; lra). lra.
  - exact H.
Qed.

(** ** stability *)
Lemma factor_f K KG l : pencil K KG -> (exists v, nz (List.length K) v /\ forall i, (i < List.length K)%nat ->
  app (List.length K) (fm K) v i + l * app (List.length K) (fm KG) v i = 0) -> factor K KG l.
Proof.
  intros [S1 S2 _ _ _] (v & Nv & Hv). exists (ls (List.length K) v). apply (buckles_f (List.length K)); [assumption|assumption|]. split; [apply ls_length|].
  split.
  - destruct Nv as (i & Hi & N). exists i. split; [exact Hi|]. rewrite fn_ls by exact Hi. exact N.
  - intros i Hi. rewrite !(app_ext _ _ (fn (ls (List.length K) v)) v) by (intros; apply fn_ls; assumption). apply Hv, Hi.
Qed.
Lemma pen_pdf K KG t : pencil K KG -> (pdf (List.length K) (pen (fm K) (fm KG) t) <->
  forall c, List.length c = List.length K -> nonzero c -> 0 < quad_rows K c + t * quad_rows KG c).
Proof.
  intros [S1 S2 _ _ _]. set (n := List.length K) in *. split.
  - intros P c L N. rewrite (quad_bil n K S1), (quad_bil n KG S2) by exact L. rewrite <- bil_pen. apply P. apply nonzero_nz; assumption.
  - intros P x Nx. rewrite bil_pen. specialize (P (ls n x) (ls_length n x)). rewrite (quad_bil n K S1), (quad_bil n KG S2) in P by apply ls_length.
    rewrite !(bil_ext n _ (fn (ls n x)) (fn (ls n x)) x x) in P by (intros; apply fn_ls; assumption). apply P.
    apply (nonzero_nz n); [apply ls_length|]. destruct Nx as (i & Hi & N). exists i. split; [exact Hi|]. rewrite fn_ls by exact Hi. exact N.
Qed.
Lemma buckles_zero K KG l v : pencil K KG -> buckles K KG l v -> quad_rows K v + l * quad_rows KG v = 0.
Proof.
  intros [S1 S2 _ _ _] B. apply (buckles_f _ K KG l v S1 S2) in B. destruct B as (L & _ & Z).
  rewrite (quad_bil _ K S1), (quad_bil _ KG S2) by exact L. rewrite <- bil_pen. unfold bil. apply sm_zero. intros i Hi. rewrite app_pen, Z by exact Hi. ring.
Qed.
Lemma first_exists K KG s c : pencil K KG -> 0 < s -> List.length c = List.length K -> nonzero c -> quad_rows K c + s * quad_rows KG c <= 0 ->
  exists l, l <= s /\ smallest_factor K KG l.
Proof.
  intros Pn Hs Lc Nc Hc. assert (Pn' := Pn). destruct Pn' as [S1 S2 S3 S4 S5].
  destruct (first_factor (List.length K) (fm K) (fm KG) s) as (l & v & Hl & Nv & Zv & Below); [apply sym_f; assumption|apply sym_f; assumption|apply pos_f; assumption|exact Hs| |].
  { intros P. rewrite (pen_pdf K KG s Pn) in P. specialize (P c Lc Nc). lra. }
  exists l. split; [lra|]. split; [lra|]. split.
  - apply (factor_f K KG l Pn). exists v. auto.
  - intros l' Hl' (v' & Bv'). destruct (Rle_or_lt l l') as [|Lt]; [assumption|exfalso].
    assert (Z := buckles_zero K KG l' v' Pn Bv'). specialize (Below l' ltac:(lra)). rewrite (pen_pdf K KG l' Pn) in Below.
    specialize (Below v' (proj1 Bv') (proj1 (proj2 Bv'))). lra.
Qed.

(*@ C42: the buckling factors decide stability: the energy under t times the loads is positive for all deflections and all t in
    [0, s] exactly when no positive factor is at or below s. @*)
Lemma t_C42_stable_iff : forall (K KG : list (list R)) s, pencil K KG -> 0 < s ->
  ((forall t c, 0 <= t <= s -> List.length c = List.length K -> nonzero c -> 0 < quad_rows K c + t * quad_rows KG c) <->
   forall l, 0 < l <= s -> ~ factor K KG l).
Proof.
  intros K KG s Pn Hs. split.
  - intros P l Hl (v & Bv). assert (Z := buckles_zero K KG l v Pn Bv). specialize (P l v ltac:(lra) (proj1 Bv) (proj1 (proj2 Bv))). lra.
  - intros Nf t c Ht Lc Nc. destruct (Rlt_or_le 0 (quad_rows K c + t * quad_rows KG c)) as [|Neg]; [assumption|exfalso].
    destruct (Req_dec t 0) as [T0|T0].
    + assert (P := pen_def K KG Pn c Lc Nc). rewrite T0 in Neg. lra.
    + destruct (first_exists K KG t c Pn ltac:(lra) Lc Nc Neg) as (l & Ll & Hl & Fl & _). apply (Nf l); [lra|exact Fl].
Qed.
(*@ C42: there is a smallest positive factor as soon as some multiple of the loads makes the energy of some deflection non-positive. @*)
Lemma t_C42_smallest_exists : forall (K KG : list (list R)) s c, pencil K KG -> 0 < s -> List.length c = List.length K -> nonzero c ->
  quad_rows K c + s * quad_rows KG c <= 0 -> exists l, l <= s /\ smallest_factor K KG l.
Proof. exact first_exists. Qed.

(** ** the plate with exact integrals *)
Section Load.
Variables (Nxx Nyy Nxy a b : R) (Ha : a <> 0) (Hb : b <> 0).
Lemma load_lin_r s u w v : nice a b u -> nice a b w -> nice a b v ->
  load_work Nxx Nyy Nxy a b u (fun x y => s * w x y + v x y) = s * load_work Nxx Nyy Nxy a b u w + load_work Nxx Nyy Nxy a b u v.
Proof.
  intros U W V. unfold load_work.
  rewrite <- (over_scal a b Ha Hb) by nice_tac. rewrite <- (over_add a b Ha Hb) by nice_tac. apply over_ext. intros x y.
  assert (Ws := nice_scal a b s w W). rewrite (dx_add a b _ _ Ws V), (dy_add a b _ _ Ws V), dx_scal, dy_scal. ring.
Qed.
Lemma load_sym w v : load_work Nxx Nyy Nxy a b w v = load_work Nxx Nyy Nxy a b v w.
Proof. unfold load_work. apply over_ext. intros. ring. Qed.
Lemma load_zero_r u : nice a b u -> load_work Nxx Nyy Nxy a b u (fun _ _ => 0) = 0.
Proof.
  intros U. assert (H := load_lin_r 1 u (fun _ _ => 0) (fun _ _ => 0) U (nice_zero a b) (nice_zero a b)).
  cbv beta in H. replace (fun _ _ : R => 1 * 0 + 0) with (fun x y : R => 0) in H by (apply field_ext; intros; ring). lra.
Qed.
Lemma load_row u l : nice a b u -> forall c, dot_list (map (fun q => load_work Nxx Nyy Nxy a b u (sh a b q)) l) c = load_work Nxx Nyy Nxy a b u (combine_shapes a b l c).
Proof.
  intros U. unfold dot_list. induction l as [|q l IH]; intros [|x c].
  - rewrite combine_nil, load_zero_r by (try assumption; left; reflexivity). reflexivity.
  - rewrite combine_nil, load_zero_r by (try assumption; left; reflexivity). reflexivity.
  - rewrite combine_nil, load_zero_r by (try assumption; right; reflexivity). reflexivity.
  - cbn [map map2 rsum]. rewrite IH, combine_cons, load_lin_r; [unfold sh; ring|exact U|apply nice_shape|apply nice_combine].
Qed.
Lemma dot_comm u : forall v, dot_list u v = dot_list v u.
Proof. unfold dot_list. induction u as [|x u IH]; intros [|y v]; cbn [map2 rsum]; try reflexivity. rewrite IH. ring. Qed.
Lemma quad_load l c : quad_rows (map (fun p => map (fun q => load_work Nxx Nyy Nxy a b (sh a b p) (sh a b q)) l) l) c =
  load_work Nxx Nyy Nxy a b (combine_shapes a b l c) (combine_shapes a b l c).
Proof.
  unfold quad_rows. rewrite map_map, dot_comm.
  rewrite (map_ext _ (fun p => load_work Nxx Nyy Nxy a b (combine_shapes a b l c) (sh a b p))).
  - rewrite load_row; [reflexivity|apply nice_combine].
  - intros p. rewrite load_row by apply nice_shape. apply load_sym.
Qed.
End Load.
Lemma map_square {X} (f : X -> X -> R) l : square (List.length l) (map (fun p => map (f p) l) l).
Proof. split; [apply map_length|]. apply Forall_map, Forall_forall. intros. apply map_length. Qed.

(*@ C42: with exact integrals, positive lengths and a symmetric positive definite D, every named plate with one clamped or two held
    edges gives a symmetric pencil with positive definite K, whatever the loads. @*)
Lemma t_C42_pencil : forall (D : mat3) a b Nxx Nyy Nxy c c0 ca d0 db m n (K KG : list (list R)), 0 < a -> 0 < b -> symmetric D -> pos_def D ->
  specifies c c0 ca d0 db -> restrained c0 ca d0 db ->
  calc_K_KG_D exact_tables (as_arr D) a b Nxx Nyy Nxy c m n = Ok (K, KG) -> pencil K KG.
Proof.
  intros D a b Nxx Nyy Nxy c c0 ca d0 db m n K KG Ha Hb Sy PD Sp Rs H.
  destruct (calc_square _ _ _ _ _ _ _ _ _ _ _ _ H) as [LK LG].
  assert (Def : pos_def_rows K).
  { intros cw L N. apply (t_C39_definite D a b Nxx Nyy Nxy c c0 ca d0 db m n K KG cw Ha Hb Sy PD Sp Rs H); [congruence|exact N]. }
  assert (H' := H). unfold calc_K_KG_D in H'. apply bind_inv in H'. destruct H' as (idx & E & _).
  rewrite (exact_bending D a b Nxx Nyy Nxy c m n idx ltac:(lra) ltac:(lra) Sy E) in H.
  assert (H1 := f_equal (fun r => match r with Ok p => p | Err _ => ([], []) end) H). cbn beta iota in H1.
  assert (X := f_equal fst H1). assert (Y := f_equal snd H1). cbn [fst snd] in X, Y.
  assert (Ls : List.length (sw_idx idx) = (m * n)%nat) by (rewrite <- LK, <- X, map_length; reflexivity).
  constructor; [| | | |exact Def].
  - rewrite LK, <- X, <- Ls. apply map_square.
  - rewrite LK, <- Y, <- Ls. apply map_square.
  - rewrite <- X. intros r s. rewrite !(entry_map (fun p q => bending D a b (sh a b p) (sh a b q)) (sw_idx idx)).
    destruct (nth_error (sw_idx idx) r) as [p|]; [|destruct (nth_error (sw_idx idx) s); reflexivity]. destruct (nth_error (sw_idx idx) s) as [q|]; [|reflexivity].
    apply (f_equal Some). unfold bending. apply over_ext. intros x y.
    destruct D as [q1 q2 q3 q4 q5 q6 q7 q8 q9]. unfold symmetric, mtrans in Sy. cbn [a11 a12 a13 a21 a22 a23 a31 a32 a33] in Sy.
    injection Sy as ? ? ? ? ? ?. subst. unfold dot, mvec. cbn [vx vy vz a11 a12 a13 a21 a22 a23 a31 a32 a33]. ring.
  - rewrite <- Y. intros r s. rewrite !(entry_map (fun p q => load_work Nxx Nyy Nxy a b (sh a b p) (sh a b q)) (sw_idx idx)).
    destruct (nth_error (sw_idx idx) r) as [p|]; [|destruct (nth_error (sw_idx idx) s); reflexivity]. destruct (nth_error (sw_idx idx) s) as [q|]; [|reflexivity].
    apply (f_equal Some). apply load_sym.
Qed.
(*@ C42: for such a plate the smallest positive factor l is the load multiplier at which the plate stops being stable: below l every
    non-zero deflection has positive bending energy plus load work, and at l some non-zero deflection has none. If l >= 1 it is
    the first factor returned. @*)
Lemma t_C42_critical : forall eigsh (D : mat3) a b Nxx Nyy Nxy c c0 ca d0 db m n num idx (K KG : list (list R)) out vecs l, documented eigsh ->
  0 < a -> 0 < b -> symmetric D -> pos_def D ->
  specifies c c0 ca d0 db -> restrained c0 ca d0 db ->
  compute_constraints c m n = Ok idx ->
  calc_K_KG_D exact_tables (as_arr D) a b Nxx Nyy Nxy c m n = Ok (K, KG) -> smallest_factor K KG l ->
  buckling_analysis eigsh exact_tables (as_arr D) a b Nxx Nyy Nxy c m n num = Ok (out, vecs) ->
  let energy t cw := let w := combine_shapes a b (sw_idx idx) cw in bending D a b w w + t * load_work Nxx Nyy Nxy a b w w in
  (forall t cw, 0 <= t < l -> List.length cw = (m * n)%nat -> nonzero cw -> 0 < energy t cw) /\
  (exists cw, List.length cw = (m * n)%nat /\ nonzero cw /\ energy l cw = 0) /\
  (1 <= l -> exists rest, out = Fin l :: rest).
Proof.
  intros eigsh D a b Nxx Nyy Nxy c c0 ca d0 db m n num idx K KG out vecs l Dc Ha Hb Sy PD Sp Rs E H Sm HB energy.
  assert (Pn := t_C42_pencil D a b Nxx Nyy Nxy c c0 ca d0 db m n K KG Ha Hb Sy PD Sp Rs H).
  destruct (calc_square _ _ _ _ _ _ _ _ _ _ _ _ H) as [LK LG].
  assert (En : forall t cw, energy t cw = quad_rows K cw + t * quad_rows KG cw).
  { intros t cw. rewrite (exact_bending D a b Nxx Nyy Nxy c m n idx ltac:(lra) ltac:(lra) Sy E) in H.
    assert (H1 := f_equal (fun r => match r with Ok p => p | Err _ => ([], []) end) H). cbn beta iota in H1.
    assert (X := f_equal fst H1). assert (Y := f_equal snd H1). cbn [fst snd] in X, Y.
    rewrite <- X, <- Y, quad_bending, quad_load by lra. reflexivity. }
  assert (Sm' := Sm). destruct Sm' as (Hl & (v & Bv) & Ml). split; [|split].
  - intros t cw Ht L N. rewrite En. destruct (Req_dec t 0) as [T0|T0].
    + rewrite T0, Rmult_0_l, Rplus_0_r. apply (pen_def K KG Pn); [congruence|exact N].
    + apply (proj2 (t_C42_stable_iff K KG t Pn ltac:(lra))); [|lra|congruence|exact N]. intros l' Hl' Fl'. specialize (Ml l' ltac:(lra) Fl'). lra.
  - exists v. split; [rewrite <- LK; apply Bv|]. split; [apply Bv|]. rewrite En. apply buckles_zero; assumption.
  - intros L1. apply (t_C42_first_above_one eigsh exact_tables (as_arr D) a b Nxx Nyy Nxy c m n num K KG out vecs l Dc H Pn Sm L1 HB).
Qed.

(** ** a plate reported as safe *)
Definition K3 : list (list R) :=
  let f (i k : nat) : R := 4 * exact_int 2 2 i k * exact_int 0 0 4 4 + 4 * exact_int 0 0 i k * exact_int 2 2 4 4 + 16 * exact_int 1 1 i k * exact_int 1 1 4 4 in
  map (fun i => map (f i) [4; 5; 6]%nat) [4; 5; 6]%nat.
Definition G3 (P : R) : list (list R) :=
  let f (i k : nat) : R := - P * (exact_int 1 1 i k * exact_int 0 0 4 4) in map (fun i => map (f i) [4; 5; 6]%nat) [4; 5; 6]%nat.
Lemma calc3 P : calc_K_KG_D exact_tables (as_arr mid) 1 1 (- P) 0 0 (CStr "CLAMPED") 3 1 = Ok (K3, G3 P).
Proof.
  assert (Ec : exists idx, compute_constraints (CStr "CLAMPED") 3 1 = Ok idx /\ sw_idx idx = [(4, 4); (5, 4); (6, 4)]%nat).
  { eexists. split; [vm_compute; reflexivity|reflexivity]. }
  destruct Ec as (idx & Ec & Es). rewrite (exact_fwd mid 1 1 (- P) 0 0 _ _ _ idx ltac:(lra) ltac:(lra) Ec), Es.
  apply Ok_pair.
  - unfold K3. cbn [map]. unfold kx, k33f, as_arr, exact_e, mid. cbn [fst snd a11 a21 a22 a31 a32 a33 e00 e10 e11 e20 e21 e22].
    repeat (apply f_equal2; [repeat (apply f_equal2; [field|]); reflexivity|]). reflexivity.
  - unfold G3. cbn [map]. unfold kGf, exact_e. cbn [fst snd e00 e10 e11 e20 e21 e22].
    repeat (apply f_equal2; [repeat (apply f_equal2; [field|]); reflexivity|]). reflexivity.
Qed.
Lemma vals3 :
  K3 = [[16 * 132 / 33075; 0; 4 * (- (8 / 10395)) * (2 / 5) + 16 * (- (2 / 315)) * (4 / 105)];
        [0; 4 * (2 / 7) * (4 / 315) + 4 * (4 / 3465) * (2 / 5) + 16 * (4 / 315) * (4 / 105); 0];
        [4 * (- (8 / 10395)) * (2 / 5) + 16 * (- (2 / 315)) * (4 / 105); 0;
         4 * (2 / 9) * (4 / 315) + 4 * (4 / 15015) * (2 / 5) + 16 * (4 / 693) * (4 / 105)]] /\
  forall P, G3 P = [[- P * (16 / 33075); 0; - P * (- (2 / 315) * (4 / 315))]; [0; - P * (16 / 99225); 0];
                    [- P * (- (2 / 315) * (4 / 315)); 0; - P * (4 / 693 * (4 / 315))]].
Proof.
  assert (V : forall p i k v, qint (qmul (qD p (bpoly i)) (qD p (bpoly k))) = v -> exact_int p p i k = Q2R v).
  { intros p i k v Hv. apply small_int. rewrite Hv. reflexivity. }
  unfold K3, G3. cbn [map].
  rewrite (V 0%nat 4%nat 4%nat (4 # 315)%Q), (V 0%nat 4%nat 5%nat 0%Q), (V 0%nat 4%nat 6%nat (-8 # 10395)%Q), (V 0%nat 5%nat 4%nat 0%Q), (V 0%nat 5%nat 5%nat (4 # 3465)%Q),
    (V 0%nat 5%nat 6%nat 0%Q), (V 0%nat 6%nat 4%nat (-8 # 10395)%Q), (V 0%nat 6%nat 5%nat 0%Q), (V 0%nat 6%nat 6%nat (4 # 15015)%Q) by (vm_compute; reflexivity).
  rewrite (V 1%nat 4%nat 4%nat (4 # 105)%Q), (V 1%nat 4%nat 5%nat 0%Q), (V 1%nat 4%nat 6%nat (-2 # 315)%Q), (V 1%nat 5%nat 4%nat 0%Q), (V 1%nat 5%nat 5%nat (4 # 315)%Q),
    (V 1%nat 5%nat 6%nat 0%Q), (V 1%nat 6%nat 4%nat (-2 # 315)%Q), (V 1%nat 6%nat 5%nat 0%Q), (V 1%nat 6%nat 6%nat (4 # 693)%Q) by (vm_compute; reflexivity).
  rewrite (V 2%nat 4%nat 4%nat (2 # 5)%Q), (V 2%nat 4%nat 5%nat 0%Q), (V 2%nat 4%nat 6%nat 0%Q), (V 2%nat 5%nat 4%nat 0%Q), (V 2%nat 5%nat 5%nat (2 # 7)%Q),
    (V 2%nat 5%nat 6%nat 0%Q), (V 2%nat 6%nat 4%nat 0%Q), (V 2%nat 6%nat 5%nat 0%Q), (V 2%nat 6%nat 6%nat (2 # 9)%Q) by (vm_compute; reflexivity).
  unfold Q2R. cbn [Qnum Qden]. split; [|intros P]; repeat (apply f_equal2; [repeat (apply f_equal2; [field|]); reflexivity|]); reflexivity.
Qed.

Lemma mid_sym : symmetric mid.
Proof. repeat split. Qed.
Lemma mid_def : pos_def mid.
Proof.
  intros [x y z] N. unfold quad, mvec, mid, dot. cbn. assert (H : x <> 0 \/ y <> 0 \/ z <> 0).
  { destruct (Req_dec x 0), (Req_dec y 0), (Req_dec z 0); auto. exfalso. apply N. subst. reflexivity. }
  assert (Q : forall u : R, 0 <= u * u) by (intros; nra). assert (Q' : forall u : R, u <> 0 -> 0 < u * u) by (intros; nra).
  assert (Qx := Q x). assert (Qy := Q y). assert (Qz := Q z).
  destruct H as [H|[H|H]]; apply Q' in H; lra.
Qed.
Lemma pencil3 P : pencil K3 (G3 P).
Proof.
  apply (t_C42_pencil mid 1 1 (- P) 0 0 (CStr "CLAMPED") Clamped Clamped Clamped Clamped 3 1 K3 (G3 P)); try lra; try (cbn; lia).
  - exact mid_sym.
  - exact mid_def.
  - constructor.
  - left. reflexivity.
  - apply calc3.
Qed.
Lemma eqs3 z v : buckles K3 (G3 200) z v <-> exists x y w, v = [x; y; w] /\ nonzero v /\
  (33 / 50 - z) * x - (29 / 550 - z / 6) * w = 0 /\ (411 / 550 - z) * y = 0 /\ - (29 / 550 - z / 6) * x + (307 / 1950 - z * (5 / 33)) * w = 0.
Proof.
  destruct vals3 as [E3 F3]. rewrite E3, F3. unfold buckles, mat_vec, dot_list. cbn [List.length map map2 rsum repeat]. split.
  - intros (L & N & E). destruct v as [|x [|y [|w [|? ?]]]]; try discriminate L. exists x, y, w. split; [reflexivity|]. split; [exact N|].
    cbn [map2 rsum] in E. injection E as E1 E2 E4. lra.
  - intros (x & y & w & -> & N & E1 & E2 & E4). split; [reflexivity|]. split; [exact N|]. cbn [map2 rsum].
    apply f_equal2; [lra|]. apply f_equal2; [lra|]. apply f_equal2; [lra|reflexivity].
Qed.
Lemma nz3 x y w : nonzero [x; y; w] <-> x <> 0 \/ y <> 0 \/ w <> 0.
Proof. unfold nonzero. rewrite !Exists_cons, Exists_nil. tauto. Qed.

(** the largest factor *)
Definition rt : R := sqrt (141903 / 1161875).
Definition l3 : R := 63 / 65 + rt.
Lemma rt_sq : rt * rt = 141903 / 1161875.
Proof. apply sqrt_sqrt. lra. Qed.
Lemma rt_pos : 0 <= rt.
Proof. apply sqrt_pos. Qed.
Lemma rt_between : 349 / 1000 < rt < 35 / 100.
Proof. assert (S := rt_sq). assert (P := rt_pos). split; nra. Qed.
Lemma l3_between : 1318 / 1000 < l3 < 132 / 100.
Proof. assert (B := rt_between). unfold l3. lra. Qed.
Lemma l3_root : l3 * l3 - 126 / 65 * l3 + 73044 / 89375 = 0.
Proof. assert (S := rt_sq). unfold l3. lra. Qed.
Definition v3 : list R := [29 / 550 - l3 / 6; 0; 33 / 50 - l3].
Lemma l3_buckles : buckles K3 (G3 200) l3 v3.
Proof.
  assert (B := l3_between). assert (Q := l3_root). apply eqs3. exists (29 / 550 - l3 / 6), 0, (33 / 50 - l3). split; [reflexivity|]. split.
  - apply nz3. right. right. lra.
  - split; [ring|]. split; [ring|]. lra.
Qed.
(** there are three factors, the first two below 1 *)
Lemma factors3 z : factor K3 (G3 200) z -> z = l3 \/ z = 411 / 550 \/ 61 / 100 < z < 62 / 100.
Proof.
  intros (v & H). apply eqs3 in H. destruct H as (x & y & w & -> & N & E1 & E2 & E3). apply nz3 in N.
  destruct (Req_dec y 0) as [Y|Y].
  2:{ right. left. apply Rmult_integral in E2. destruct E2; [lra|contradiction]. }
  assert (Det : z * z - 126 / 65 * z + 73044 / 89375 = 0).
  { assert (D1 : ((33 / 50 - z) * (307 / 1950 - z * (5 / 33)) - (29 / 550 - z / 6) * (29 / 550 - z / 6)) * x = 0).
    { replace (((33 / 50 - z) * (307 / 1950 - z * (5 / 33)) - (29 / 550 - z / 6) * (29 / 550 - z / 6)) * x)
        with ((307 / 1950 - z * (5 / 33)) * ((33 / 50 - z) * x - (29 / 550 - z / 6) * w) + (29 / 550 - z / 6) * (- (29 / 550 - z / 6) * x + (307 / 1950 - z * (5 / 33)) * w)) by ring.
      rewrite E1, E3. ring. }
    assert (D2 : ((33 / 50 - z) * (307 / 1950 - z * (5 / 33)) - (29 / 550 - z / 6) * (29 / 550 - z / 6)) * w = 0).
    { replace (((33 / 50 - z) * (307 / 1950 - z * (5 / 33)) - (29 / 550 - z / 6) * (29 / 550 - z / 6)) * w)
        with ((33 / 50 - z) * (- (29 / 550 - z / 6) * x + (307 / 1950 - z * (5 / 33)) * w) + (29 / 550 - z / 6) * ((33 / 50 - z) * x - (29 / 550 - z / 6) * w)) by ring.
      rewrite E1, E3. ring. }
    assert (D : (33 / 50 - z) * (307 / 1950 - z * (5 / 33)) - (29 / 550 - z / 6) * (29 / 550 - z / 6) = 0).
    { destruct N as [N|[N|N]]; [|contradiction|].
      - apply Rmult_integral in D1. destruct D1; [assumption|contradiction].
      - apply Rmult_integral in D2. destruct D2; [assumption|contradiction]. }
    lra. }
  assert (Q := l3_root). assert (B := l3_between).
  assert (Fc : (z - l3) * (z - (126 / 65 - l3)) = 0) by lra.
  apply Rmult_integral in Fc. assert (S := rt_between). unfold l3 in *. destruct Fc; [left; lra|right; right].
  assert (S2 := rt_sq). assert (3493 / 10000 < rt < 3495 / 10000) by (split; nra). lra.
Qed.
(** cayley transforms of the three eigenvalues *)
Lemma select3 z : factor K3 (G3 200) z -> Rabs (cayley (-1 / l3)) <= Rabs (cayley (-1 / z)) /\ (z <> l3 -> Rabs (cayley (-1 / l3)) < Rabs (cayley (-1 / z))).
Proof.
  intros F. assert (B := l3_between). destruct (factors3 z F) as [->|H]; [split; [lra|intros N; congruence]|].
  assert (Hz : 0 < z < 748 / 1000) by (destruct H as [->|H]; lra).
  assert (L : Rabs (cayley (-1 / l3)) < Rabs (cayley (-1 / z))); [|split; [lra|intros _; exact L]].
  rewrite !cayley_factor by lra. rewrite (Rabs_left1 ((1 - l3) / (1 + l3))), (Rabs_pos_eq ((1 - z) / (1 + z))).
  - apply (Rmult_lt_reg_r ((1 + l3) * (1 + z))); [apply Rmult_lt_0_compat; lra|].
    replace (- ((1 - l3) / (1 + l3)) * ((1 + l3) * (1 + z))) with ((l3 - 1) * (1 + z)) by (field; lra).
    replace ((1 - z) / (1 + z) * ((1 + l3) * (1 + z))) with ((1 - z) * (1 + l3)) by (field; lra).
    assert (l3 * z < 1); [|lra]. apply (Rle_lt_trans _ (132 / 100 * (748 / 1000))); [apply Rmult_le_compat; lra|lra].
  - apply Rmult_le_pos; [lra|]. left. apply Rinv_0_lt_compat. lra.
  - unfold Rdiv. assert (0 < / (1 + l3)) by (apply Rinv_0_lt_compat; lra). nra.
Qed.

(*@ C42: "the first factor is the critical one" is false of the code even as to whether the plate is safe. For the clamped plate with D
    the identity, a = b = 1, Nxx = -200 and m = 3, n = 1, every documented solver makes the analysis return one factor above
    1.3, whatever num_eigvalues, while the smallest positive factor of the same K and KG is below 0.62. @*)
Lemma t_C42_unsafe_refuted : forall eigsh num out vecs, documented eigsh ->
  buckling_analysis eigsh exact_tables (as_arr mid) 1 1 (-200) 0 0 (CStr "CLAMPED") 3 1 num = Ok (out, vecs) ->
  exists (K KG : list (list R)) l z, calc_K_KG_D exact_tables (as_arr mid) 1 1 (-200) 0 0 (CStr "CLAMPED") 3 1 = Ok (K, KG) /\
    smallest_factor K KG l /\ l < 62 / 100 /\ out = [Fin z] /\ 13 / 10 < z.
Proof.
  intros eigsh num out vecs Dc H. assert (E := calc3 200). assert (Pn := pencil3 200). assert (B3 := l3_between).
  assert (Sm : exists l, smallest_factor K3 (G3 200) l /\ l < 62 / 100).
  { destruct (t_C42_smallest_exists K3 (G3 200) (66 / 100) [1; 0; 0] Pn ltac:(lra)) as (l & Ll & Sl).
    - destruct vals3 as [-> _]. reflexivity.
    - apply nz3. lra.
    - destruct vals3 as [-> F3]. rewrite F3. unfold quad_rows, dot_list. cbn [map map2 rsum]. lra.
    - exists l. split; [exact Sl|]. destruct Sl as (Pl & Fl & _). destruct (factors3 l Fl) as [|[|]]; lra. }
  destruct Sm as (l & Sl & Ll).
  destruct (ba_result _ _ _ _ _ _ _ _ _ _ _ _ _ _ E _ _ Dc Pn H) as (vals & Pk & Er & ->).
  assert (Lk : Z.to_nat (Z.min num (Z.of_nat (List.length (G3 200)) - 2)) = 1%nat).
  { change (Z.of_nat (List.length (G3 200)) - 2)%Z with 1%Z in *. rewrite Z.min_r by lia. reflexivity. }
  rewrite Lk in Er. assert (Cn := er_count _ _ _ _ _ Er). destruct vals as [|mu [|? ?]]; try discriminate Cn.
  destruct (er_pairs _ _ _ _ _ Er 0%nat mu eq_refl) as (N1 & v & Cv & Gp).
  assert (Mu : mu = -1 / l3).
  { destruct (Req_dec mu (-1 / l3)) as [|N]; [assumption|exfalso].
    assert (G3p := buckles_pair K3 (G3 200) l3 v3 Pn ltac:(lra) l3_buckles). assert (Ng := factor_neg l3 ltac:(lra)).
    assert (Sel : Rabs (cayley mu) <= Rabs (cayley (-1 / l3))).
    { apply (er_select _ _ _ _ _ Er (-1 / l3) v3 G3p); [lra| |left; reflexivity].
      intros j u Hj Cu. assert (j = 0%nat) by lia. subst j. rewrite <- (column_fun _ _ _ _ Cv Cu). apply (pair_orth K3 (G3 200) mu (-1 / l3) v v3 Pn Gp G3p N). }
    destruct (cayley_side l3 mu ltac:(lra) N1 Sel) as (Hm & _).
    assert (Fz : factor K3 (G3 200) (-1 / mu)) by (exists v; apply pair_buckles; [exact Pn|lra|exact Gp]).
    destruct (select3 _ Fz) as (_ & S2). rewrite neg_twice in S2 by lra.
    assert (Hz : -1 / mu <> l3). { intros Eq. apply N. rewrite <- Eq, neg_twice by lra. reflexivity. }
    specialize (S2 Hz). lra. }
  exists K3, (G3 200), l, l3. split; [exact E|]. split; [exact Sl|]. split; [exact Ll|]. split; [|lra].
  cbn [map]. rewrite Mu. assert (Ng := factor_neg l3 ltac:(lra)). unfold neg_recip. destruct (Req_EM_T (-1 / l3) 0); [lra|]. rewrite neg_twice; [reflexivity|lra].
Qed.

(** a solver that answers one question *)
Definition one_answer (A0 M0 : list (list R)) (vals : list R) (vecs : list (list R)) : solver := fun A M k =>
  if (k <=? 0)%Z then Err ValueError
  else if list_eq_dec (list_eq_dec Req_EM_T) A A0 then if list_eq_dec (list_eq_dec Req_EM_T) M M0 then if (k =? 1)%Z then Ok (vals, vecs) else Err ArpackError else Err ArpackError else Err ArpackError.
Lemma one_documented A0 M0 vals vecs : eigsh_result A0 M0 1 vals vecs -> documented (one_answer A0 M0 vals vecs).
Proof.
  intros Er A M k. unfold one_answer. destruct (Z.leb_spec k 0); [split; [reflexivity|discriminate]|]. split; [lia|]. intros vs ws _.
  destruct (list_eq_dec (list_eq_dec Req_EM_T) A A0) as [->|]; [|discriminate]. destruct (list_eq_dec (list_eq_dec Req_EM_T) M M0) as [->|]; [|discriminate].
  destruct (Z.eqb_spec k 1) as [->|]; [|discriminate]. intros Eq.
  assert (Q := f_equal (fun r => match r with Ok p => p | Err _ => ([], []) end) Eq). cbn beta iota in Q.
  assert (Q1 := f_equal fst Q). assert (Q2 := f_equal snd Q). cbn [fst snd] in Q1, Q2. subst vs ws. exact Er.
Qed.
(*@ C42 example: a documented solver that answers for this plate, so that the statements above are about something. @*)
Lemma t_C42_ex_solver : exists eigsh out vecs, documented eigsh /\
  buckling_analysis eigsh exact_tables (as_arr mid) 1 1 (-200) 0 0 (CStr "CLAMPED") 3 1 5 = Ok (out, vecs).
Proof.
  assert (E := calc3 200). assert (Pn := pencil3 200). assert (B3 := l3_between). assert (Ng := factor_neg l3 ltac:(lra)).
  assert (G3p := buckles_pair K3 (G3 200) l3 v3 Pn ltac:(lra) l3_buckles).
  exists (one_answer (G3 200) K3 [-1 / l3] (map (fun x => [x]) v3)), [neg_recip (-1 / l3)], (map (fun x => [x]) v3). split.
  - apply one_documented. constructor.
    + reflexivity.
    + intros [|[|j]] mu Hj; try discriminate Hj. assert (mu = -1 / l3) by (cbn in Hj; congruence). subst mu. split; [lra|]. exists v3. split; [reflexivity|exact G3p].
    + intros; lia.
    + intros mu v Gp N1 _ mu' [<-|[]].
      assert (N0 : mu <> 0).
      { intros ->. destruct Gp as (L & N & Eq). destruct vals3 as [E3 F3]. rewrite E3, F3 in Eq. rewrite E3 in L. destruct v as [|x [|y [|w [|? ?]]]]; try discriminate L.
        apply nz3 in N. unfold mat_vec, dot_list in Eq. cbn [map map2 rsum] in Eq. injection Eq as Q1 Q2 Q4. lra. }
      assert (Fz : factor K3 (G3 200) (-1 / mu)) by (exists v; apply pair_buckles; assumption).
      destruct (select3 _ Fz) as (S1 & _). rewrite neg_twice in S1 by exact N0. exact S1.
    + repeat constructor.
  - unfold buckling_analysis. change (-200) with (- (200)). rewrite E. cbn [bind fst snd]. change (Z.min 5 (Z.of_nat (List.length (G3 200)) - 2)) with 1%Z. unfold one_answer. cbn [Z.leb Z.compare].
    destruct (list_eq_dec (list_eq_dec Req_EM_T) (G3 200) (G3 200)); [|congruence]. destruct (list_eq_dec (list_eq_dec Req_EM_T) K3 K3); [|congruence]. reflexivity.
Qed.
Lemma G3_scale : G3 200 = scale_rows 2 (G3 100).
Proof. destruct vals3 as [_ F3]. rewrite !F3. unfold scale_rows. cbn [map]. repeat (apply f_equal2; [repeat (apply f_equal2; [field|]); reflexivity|]). reflexivity. Qed.
Lemma half3 z : factor K3 (G3 100) z -> factor K3 (G3 200) (z / 2).
Proof. intros (v & B). exists v. rewrite G3_scale. apply buckles_scale; [lra|exact B]. Qed.
(*@ C42 example: the same plate under half the load, where the smallest factor is above 1, a solver answers, and there is a second
    factor for which C42_overload applies with s = 2. @*)
Lemma t_C42_ex_below : exists eigsh out vecs (K KG : list (list R)) l, documented eigsh /\
  calc_K_KG_D exact_tables (as_arr mid) 1 1 (-100) 0 0 (CStr "CLAMPED") 3 1 = Ok (K, KG) /\ pencil K KG /\ smallest_factor K KG l /\ 1 <= l /\
  factor K KG (411 / 275) /\ l < 411 / 275 /\ l * (411 / 275) < 2 ^ 2 /\
  buckling_analysis eigsh exact_tables (as_arr mid) 1 1 (-100) 0 0 (CStr "CLAMPED") 3 1 5 = Ok (out, vecs).
Proof.
  assert (E := calc3 100). assert (Pn := pencil3 100). assert (B3 := l3_between).
  destruct (t_C42_smallest_exists K3 (G3 100) (132 / 100) [1; 0; 0] Pn ltac:(lra)) as (l & Ll & Sl).
  { destruct vals3 as [-> _]. reflexivity. }
  { apply nz3. lra. }
  { destruct vals3 as [-> F3]. rewrite F3. unfold quad_rows, dot_list. cbn [map map2 rsum]. lra. }
  assert (Sl' := Sl). destruct Sl' as (Pl & Fl & Ml).
  assert (L1 : 1 <= l) by (destruct (factors3 _ (half3 l Fl)) as [|[|]]; lra).
  assert (F2 : factor K3 (G3 100) (411 / 275)).
  { exists [0; 1; 0]. apply (buckles_scale 2); [lra|]. rewrite <- G3_scale. apply eqs3. exists 0, 1, 0. split; [reflexivity|]. split; [apply nz3; lra|]. lra. }
  destruct Fl as (v & Bv). assert (Gp := buckles_pair K3 (G3 100) l v Pn ltac:(lra) Bv). assert (Ng := factor_neg l Pl).
  assert (Lv : List.length v = 3%nat). { destruct Bv as (Lv & _). rewrite (proj1 vals3) in Lv. exact Lv. }
  exists (one_answer (G3 100) K3 [-1 / l] (map (fun x => [x]) v)), [neg_recip (-1 / l)], (map (fun x => [x]) v), K3, (G3 100), l. split.
  - apply one_documented.
    assert (Cv : column (map (fun x => [x]) v) 0 = Ok v). { destruct v as [|x [|y [|w [|? ?]]]]; try discriminate Lv. reflexivity. }
    constructor.
    + reflexivity.
    + intros [|[|j]] mu Hj; try discriminate Hj. assert (mu = -1 / l) by (cbn in Hj; congruence). subst mu. split; [lra|]. exists v. split; [exact Cv|exact Gp].
    + intros; lia.
    + intros mu u Gu N1 _ mu' [<-|[]].
      assert (N0 : mu <> 0).
      { intros ->. destruct Gu as (L & N & Eq). destruct vals3 as [E3 F3]. rewrite E3, F3 in Eq. rewrite E3 in L. destruct u as [|x [|y [|w [|? ?]]]]; try discriminate L.
        apply nz3 in N. unfold mat_vec, dot_list in Eq. cbn [map map2 rsum] in Eq. injection Eq as Q1 Q2 Q4. lra. }
      assert (Fz : factor K3 (G3 100) (-1 / mu)) by (exists u; apply pair_buckles; assumption).
      assert (Pz : 0 < -1 / mu) by (destruct (factors3 _ (half3 _ Fz)) as [|[|]]; lra).
      assert (Lz := Ml _ Pz Fz). set (z := -1 / mu) in *. assert (Em : mu = -1 / z) by (unfold z; rewrite neg_twice; [reflexivity|exact N0]).
      rewrite Em, !cayley_factor by lra. unfold Rdiv. rewrite !Rabs_mult, !Rabs_inv, !(Rabs_left1 (1 - _)), !(Rabs_pos_eq (1 + _)) by lra.
      apply (Rmult_le_reg_r ((1 + l) * (1 + z))); [apply Rmult_lt_0_compat; lra|].
      replace (- (1 - l) * / (1 + l) * ((1 + l) * (1 + z))) with ((l - 1) * (1 + z)) by (field; lra).
      replace (- (1 - z) * / (1 + z) * ((1 + l) * (1 + z))) with ((z - 1) * (1 + l)) by (field; lra). lra.
    + repeat constructor.
  - repeat split; try assumption; try lra; try apply Pn.
    + apply Sl.
    + unfold buckling_analysis. change (-100) with (- (100)). rewrite E. cbn [bind fst snd]. change (Z.min 5 (Z.of_nat (List.length (G3 100)) - 2)) with 1%Z. unfold one_answer. cbn [Z.leb Z.compare].
      destruct (list_eq_dec (list_eq_dec Req_EM_T) (G3 100) (G3 100)); [|congruence]. destruct (list_eq_dec (list_eq_dec Req_EM_T) K3 K3); [|congruence]. reflexivity.
Qed.
(*@ C59 example: the assembly succeeds for a plate with m*n = 2, so its analysis raises ValueError. @*)
Lemma t_C59_ex : forall eigsh, documented eigsh ->
  buckling_analysis eigsh exact_tables (as_arr mid) 1 1 (-1) 0 0 (CStr "CLAMPED") 2 1 5 = Err ValueError.
Proof.
  intros eigsh Dc.
  assert (Ec : exists idx, compute_constraints (CStr "CLAMPED") 2 1 = Ok idx) by (eexists; vm_compute; reflexivity). destruct Ec as (idx & Ec).
  apply (proj1 (t_C59_count eigsh exact_tables (as_arr mid) 1 1 (-1) 0 0 _ 2 1 5 _ _ Dc (exact_fwd mid 1 1 (-1) 0 0 _ _ _ idx ltac:(lra) ltac:(lra) Ec))). lia.
Qed.
