(** Proofs of the theorems on the answers a documented eigenvalue solver can give. *)
From Coq Require Import Reals ZArith Lra Lia Bool String Sorting.Sorted Sorting.Permutation Classical.
From Coq Require Import List.
From Verif Require Import M_Py M_Plate M_K M_RealArith M_Plot M_Buckling M_Material M_Laminate M_Optimize S_Plate S_Mat S_Energy S_K S_Ritz S_Eigen S_Compare S_Optimize S_Convex L_Quad L_Spectral L_Eigen L_Plate L_FirstK L_K L_KR L_Poly L_Shape L_TabV L_Energy L_Ritz L_ABD L_Mat T_Plate T_Shape T_K T_Energy T_ABD T_Buckling T_Compare T_Optimize.
Import ListNotations.
Open Scope R_scope.

Lemma pairf_gen n A M mu x : square n M -> square n A -> pairf n (fm A) (fm M) mu x -> gen_pair A M mu (ls n x).
Proof.
  intros S1 S2 (N & E). apply (gen_pair_f n); [assumption|assumption|]. split; [apply ls_length|]. split.
  - destruct N as (i & Hi & Ni). exists i. split; [exact Hi|]. rewrite fn_ls by exact Hi. exact Ni.
  - intros i Hi. rewrite !(app_ext n _ (fn (ls n x)) x) by (intros; apply fn_ls; assumption). apply E, Hi.
Qed.
Lemma gen_pairf n A M mu v : square n M -> square n A -> gen_pair A M mu v -> List.length v = n /\ pairf n (fm A) (fm M) mu (fn v).
Proof. intros S1 S2 G. apply (gen_pair_f n) in G; [|assumption|assumption]. destruct G as (L & N & E). split; [exact L|]. split; assumption. Qed.
Lemma column_table {X} (f : nat -> nat -> X) n (sel : list nat) j : (j < List.length sel)%nat ->
  column (map (fun i => map (fun s => f s i) sel) (seq 0 n)) j = Ok (map (fun i => f (nth j sel 0%nat) i) (seq 0 n)).
Proof.
  intros Hj. unfold column. generalize (seq 0 n). intros l. induction l as [|i l IH]; [reflexivity|]. cbn [map mapM].
  replace (get (map (fun s => f s i) sel) j) with (Ok (f (nth j sel 0%nat) i)).
  - cbn [bind]. rewrite IH. reflexivity.
  - unfold get. rewrite (map_nth_error (fun s => f s i) j sel (nth_error_nth' sel 0%nat Hj)). reflexivity.
Qed.
Lemma column_lt {X} (vecs : list (list X)) : forall j u v, column vecs j = Ok u -> column vecs j = Ok v -> u = v.
Proof. intros j u v H H'. rewrite H in H'. apply (f_equal (fun r => match r with Ok x => x | Err _ => u end)) in H'. exact H'. Qed.
Lemma nodup_left {X} (l l' : list X) : NoDup (l ++ l') -> NoDup l.
Proof. induction l as [|x l IH]; intros H; [constructor|]. cbn in H. inversion H; subst. constructor; [|auto]. intros I. apply H2. apply in_or_app. left. exact I. Qed.
(*@ C74: every symmetric pencil with a positive definite matrix and no eigenvalue at the shift has an answer as documented, for every number of
    eigenvalues up to its size. @*)
Lemma t_C74_exists : forall (A M : list (list R)) k, pencil M A -> (k <= List.length M)%nat -> (forall v, ~ gen_pair A M 1 v) ->
  exists vals vecs, eigsh_result A M k vals vecs.
Proof.
  intros A M k Pn Hk No1. set (n := List.length M) in *. destruct Pn as [S1 S2 S3 S4 P5]. fold n in S1, S2.
  assert (SM := sym_f n M S1 S3). assert (SA := sym_f n A S2 S4). assert (PM := proj1 (pos_f n M S1) P5).
  destruct (basis n (fm A) (fm M) SA SM PM n (le_n n)) as (mu & v & Pv & Ov).
  destruct (sort_by (fun i => Rabs (cayley (mu i))) (seq 0 n)) as (l & Pl & Sl).
  destruct (sort_by mu (firstn k l)) as (sel & Ps & Ss).
  assert (Ln : List.length l = n) by (rewrite <- (Permutation_length Pl); apply seq_length).
  assert (Lk : List.length sel = k) by (rewrite <- (Permutation_length Ps), firstn_length; lia).
  assert (Nl : NoDup l) by (apply (Permutation_NoDup Pl), seq_NoDup).
  assert (Nf : NoDup (firstn k l)) by (rewrite <- (firstn_skipn k l) in Nl; apply nodup_left in Nl; exact Nl).
  assert (Ns : NoDup sel) by (apply (Permutation_NoDup Ps), Nf).
  assert (In_n : forall i, In i sel -> (i < n)%nat).
  { intros i Hi. apply (Permutation_in i (Permutation_sym Ps)) in Hi. assert (I : In i l) by (rewrite <- (firstn_skipn k l); apply in_or_app; left; exact Hi).
    apply (Permutation_in i (Permutation_sym Pl)) in I. apply in_seq in I. lia. }
  assert (Sel : forall j, (j < k)%nat -> In (nth j sel 0%nat) sel) by (intros j Hj; apply nth_In; lia).
  assert (Cl : forall j, (j < k)%nat -> column (map (fun i => map (fun s => v s i) sel) (seq 0 n)) j = Ok (ls n (v (nth j sel 0%nat)))).
  { intros j Hj. rewrite column_table by lia. reflexivity. }
  exists (map mu sel), (map (fun i => map (fun s => v s i) sel) (seq 0 n)). constructor.
  - rewrite map_length. exact Lk.
  - intros j nu Hj. assert (Hj' : (j < k)%nat). { assert (nth_error (map mu sel) j <> None) by congruence. apply nth_error_Some in H. rewrite map_length in H. lia. }
    assert (Hs : (j < List.length sel)%nat) by (rewrite Lk; exact Hj'). rewrite (map_nth_error mu j sel (nth_error_nth' sel 0%nat Hs)) in Hj. assert (nu = mu (nth j sel 0%nat)) by congruence. subst nu.
    assert (G := pairf_gen n A M _ _ S1 S2 (Pv _ (In_n _ (Sel j Hj')))). split.
    + intros E. rewrite E in G. apply (No1 _ G).
    + exists (ls n (v (nth j sel 0%nat))). split; [apply Cl; exact Hj'|exact G].
  - intros i j x y Hi Hj Nij Ci Cj. rewrite (Cl i Hi) in Ci. rewrite (Cl j Hj) in Cj. assert (x = ls n (v (nth i sel 0%nat))) by congruence. assert (y = ls n (v (nth j sel 0%nat))) by congruence. subst x y.
    rewrite (inner_bil n M S1) by apply ls_length. rewrite (bil_ext n (fm M) _ _ (v (nth i sel 0%nat)) (v (nth j sel 0%nat))) by (intros; apply fn_ls; assumption).
    apply Ov; [apply In_n, Sel, Hi|apply In_n, Sel, Hj|]. intros E. apply Nij. apply (proj1 (NoDup_nth sel 0%nat) Ns i j); lia || assumption.
  - intros nu w G N1 Or nu' Inu. apply (gen_pairf n A M _ _ S1 S2) in G. destruct G as (Lw & G).
    destruct (complete n (fm A) (fm M) mu v nu (fn w) SA SM PM Pv Ov G) as (i & Hi & Ni & <-).
    apply in_map_iff in Inu. destruct Inu as (s & <- & Is).
    assert (I1 : In s (firstn k l)) by (apply (Permutation_in s (Permutation_sym Ps)); exact Is).
    assert (I2 : In i (skipn k l)).
    { assert (I : In i l) by (apply (Permutation_in i Pl), in_seq; lia). rewrite <- (firstn_skipn k l) in I. apply in_app_or in I. destruct I as [I|I]; [exfalso|exact I].
      apply (Permutation_in i Ps) in I. destruct (In_nth sel i 0%nat I) as (j & Hj & <-). apply Ni.
      assert (Q := Or j _ ltac:(lia) (Cl j ltac:(lia))). rewrite (inner_bil n M S1) in Q by (apply ls_length || exact Lw).
      rewrite (bil_ext n (fm M) _ _ (v (nth j sel 0%nat)) (fn w)) in Q by (intros; try apply fn_ls; auto). exact Q. }
    apply (sorted_split (fun i => Rabs (cayley (mu i))) (firstn k l) (skipn k l)); [rewrite firstn_skipn; exact Sl|exact I1|exact I2].
  - clear - Ss. induction Ss as [|i l H IH F]; [constructor|]. cbn [map]. constructor; [exact IH|]. rewrite Forall_forall in F |- *. intros y Hy. apply in_map_iff in Hy. destruct Hy as (j & <- & Hj). apply F, Hj.
Qed.
(** ** lists and their counts *)
Notation cnt := (count_occ Req_EM_T).
Lemma cnt_sub : forall l l', (forall y, (cnt l y <= cnt l' y)%nat) -> exists r, Permutation l' (l ++ r).
Proof.
  induction l as [|a l IH]; intros l' H; [exists l'; apply Permutation_refl|].
  assert (Ia : In a l') by (apply (count_occ_In Req_EM_T); specialize (H a); cbn in H; destruct (Req_EM_T a a); [lia|congruence]).
  apply in_split in Ia. destruct Ia as (l1 & l2 & ->). destruct (IH (l1 ++ l2)) as (r & P).
  - intros y. specialize (H y). rewrite count_occ_app in H |- *. cbn in H. destruct (Req_EM_T a y); lia.
  - exists r. cbn. eapply Permutation_trans; [apply Permutation_sym, Permutation_middle|]. constructor. exact P.
Qed.
Lemma cnt_other l l' x : List.length l = List.length l' -> (cnt l x < cnt l' x)%nat -> exists y, (cnt l' y < cnt l y)%nat.
Proof.
  intros L H. apply NNPP. intros No. destruct (cnt_sub l l') as (r & P).
  { intros y. destruct (le_lt_dec (cnt l y) (cnt l' y)); [assumption|]. exfalso. apply No. exists y. assumption. }
  assert (Q := Permutation_length P). rewrite app_length in Q. destruct r as [|z r]; [|cbn in Q; lia]. rewrite app_nil_r in P.
  rewrite (proj1 (Permutation_count_occ Req_EM_T l' l) P x) in H. lia.
Qed.
Lemma sorted_unique : forall l l' : list R, StronglySorted Rle l -> StronglySorted Rle l' -> Permutation l l' -> l = l'.
Proof.
  induction l as [|x l IH]; intros l' S S' P; [symmetry; apply Permutation_nil, P|].
  destruct l' as [|y l']; [apply Permutation_sym, Permutation_nil_cons in P; destruct P|].
  inversion S as [|? ? S1 F1]; subst. inversion S' as [|? ? S1' F1']; subst. rewrite Forall_forall in F1, F1'.
  assert (Exy : x = y).
  { assert (Ix : In x (y :: l')) by (apply (Permutation_in x P); left; reflexivity). assert (Iy : In y (x :: l)) by (apply (Permutation_in y (Permutation_sym P)); left; reflexivity).
    destruct Ix as [->|Ix]; [reflexivity|]. destruct Iy as [->|Iy]; [reflexivity|]. specialize (F1 y Iy). specialize (F1' x Ix). lra. }
  subst y. f_equal. apply IH; [assumption|assumption|]. apply Permutation_cons_inv in P. exact P.
Qed.
(** the positions of a value *)
Definition spots (l : list R) (x : R) : list nat := filter (fun i => if Req_EM_T (nth i l 0) x then true else false) (seq 0 (List.length l)).
Lemma spots_length l x : List.length (spots l x) = cnt l x.
Proof.
  unfold spots. assert (G : forall l s, List.length (filter (fun i => if Req_EM_T (nth (i - s) l 0) x then true else false) (seq s (List.length l))) = cnt l x).
  { clear l. induction l as [|y l IH]; intros s; [reflexivity|]. cbn [List.length seq filter]. rewrite Nat.sub_diag. cbn [nth count_occ].
    assert (E : List.length (filter (fun i => if Req_EM_T (nth (i - s) (y :: l) 0) x then true else false) (seq (Datatypes.S s) (List.length l))) = cnt l x).
    { rewrite <- (IH (Datatypes.S s)). f_equal. apply filter_ext_in. intros i Hi. apply in_seq in Hi. replace (i - s)%nat with (Datatypes.S (i - Datatypes.S s)) by lia. reflexivity. }
    destruct (Req_EM_T y x); [exact (f_equal Datatypes.S E)|exact E]. }
  rewrite <- (G l 0%nat). f_equal. apply filter_ext. intros i. rewrite Nat.sub_0_r. reflexivity.
Qed.
Lemma spots_in l x i : In i (spots l x) <-> (i < List.length l)%nat /\ nth i l 0 = x.
Proof.
  unfold spots. rewrite filter_In, in_seq. destruct (Req_EM_T (nth i l 0) x); split; intros [H H']; split; try lia; try assumption; try reflexivity; try discriminate; congruence.
Qed.
Lemma spots_nodup l x : NoDup (spots l x).
Proof. apply NoDup_filter, seq_NoDup. Qed.
Lemma column_defined A M k vals vecs j : eigsh_result A M k vals vecs -> (j < k)%nat -> exists v, column vecs j = Ok v /\ gen_pair A M (nth j vals 0) v.
Proof.
  intros E Hj. destruct (er_pairs _ _ _ _ _ E j (nth j vals 0)) as (_ & v & C & G); [|exists v; auto]. apply nth_error_nth'. rewrite (er_count _ _ _ _ _ E). exact Hj.
Qed.
(** an answer with fewer copies of a value than another answer cannot leave it out *)
Lemma outvoted A M k vals vecs vals' vecs' mu : pencil M A -> eigsh_result A M k vals vecs -> eigsh_result A M k vals' vecs' -> (cnt vals mu < cnt vals' mu)%nat ->
  In mu vals' /\ forall nu, In nu vals -> Rabs (cayley nu) <= Rabs (cayley mu).
Proof.
  intros Pn E E' H. assert (Im : In mu vals') by (apply (count_occ_In Req_EM_T); lia). split; [exact Im|].
  set (n := List.length M). assert (Pn' := Pn). destruct Pn as [S1 S2 S3 S4 P5]. fold n in S1, S2.
  assert (SM := sym_f n M S1 S3). assert (SA := sym_f n A S2 S4). assert (PM := proj1 (pos_f n M S1) P5).
  assert (Lv := er_count _ _ _ _ _ E). assert (Lv' := er_count _ _ _ _ _ E').
  set (cf := fun (vs : list (list R)) j => match column vs j with Ok v => fn v | Err _ => fun _ => 0 end).
  set (q := List.length (spots vals' mu)). set (p := List.length (spots vals mu)). rewrite <- !spots_length in H. fold p q in H.
  set (w := fun i => cf vecs' (nth i (spots vals' mu) 0%nat)). set (u := fun i => cf vecs (nth i (spots vals mu) 0%nat)).
  assert (Wp : forall i, (i < q)%nat -> pairf n (fm A) (fm M) mu (w i)).
  { intros i Hi. assert (I : In (nth i (spots vals' mu) 0%nat) (spots vals' mu)) by (apply nth_In; exact Hi). apply spots_in in I. destruct I as (I1 & I2).
    destruct (column_defined A M k vals' vecs' _ E' ltac:(rewrite <- Lv'; exact I1)) as (v & C & G). rewrite I2 in G. unfold w, cf. rewrite C. apply (gen_pairf n A M mu v S1 S2 G). }
  assert (Wo : orth n (fm M) q w).
  { intros i j Hi Hj N. assert (I : In (nth i (spots vals' mu) 0%nat) (spots vals' mu)) by (apply nth_In; exact Hi). assert (J : In (nth j (spots vals' mu) 0%nat) (spots vals' mu)) by (apply nth_In; exact Hj).
    apply spots_in in I, J. destruct I as (I1 & I2), J as (J1 & J2). rewrite Lv' in I1, J1.
    destruct (column_defined A M k vals' vecs' _ E' I1) as (x & Cx & Gx). destruct (column_defined A M k vals' vecs' _ E' J1) as (y & Cy & Gy).
    unfold w, cf. rewrite Cx, Cy. rewrite <- (inner_bil n M S1) by (apply (gen_pairf n A M _ _ S1 S2 Gx) || apply (gen_pairf n A M _ _ S1 S2 Gy)).
    apply (er_orth _ _ _ _ _ E' _ _ x y I1 J1); [|exact Cx|exact Cy]. intros Eq. apply N. apply (proj1 (NoDup_nth _ 0%nat) (spots_nodup vals' mu) i j); assumption. }
  destruct (hom_solution q p (fun i j => bil n (fm M) (u i) (w j)) H) as (c & Nc & Ec).
  set (x := fun i => sm q (fun j => c j * w j i)).
  assert (Nx : nz n x) by (apply (comb_nz n (fm M) q w c PM Wo); [intros i Hi; apply (Wp i Hi)|exact Nc]).
  assert (Px : pairf n (fm A) (fm M) mu x).
  { split; [exact Nx|]. intros i Hi. unfold x. rewrite !sm_app, <- sm_scal. apply sm_ext. intros j Hj. rewrite (proj2 (Wp j Hj) i Hi). ring. }
  assert (Gx := pairf_gen n A M mu x S1 S2 Px).
  assert (N1 : mu <> 1). { destruct (In_nth vals' mu 0 Im) as (j & Hj & Ej). apply (er_pairs _ _ _ _ _ E' j mu). rewrite <- Ej. apply nth_error_nth'. exact Hj. }
  apply (er_select _ _ _ _ _ E mu (ls n x) Gx N1). intros j y Hj Cy.
  destruct (column_defined A M k vals vecs j E Hj) as (y' & Cy' & Gy). assert (y' = y) by (apply (column_lt vecs j); assumption). subst y'.
  destruct (Req_dec (nth j vals 0) mu) as [Em|Nm]; [|apply (pair_orth M A (nth j vals 0) mu y (ls n x) Pn' Gy Gx Nm)].
  assert (I : In j (spots vals mu)) by (apply spots_in; split; [lia|exact Em]). destruct (In_nth _ _ 0%nat I) as (i & Hi & Ei).
  assert (Ly := proj1 (gen_pairf n A M _ _ S1 S2 Gy)). rewrite (inner_bil n M S1) by (apply ls_length || exact Ly).
  rewrite (bil_ext n (fm M) _ _ (fn y) x) by (intros; try apply fn_ls; auto). unfold x. rewrite sm_bil. rewrite <- (Ec i Hi). unfold app. apply sm_ext. intros s Hs.
  unfold u at 1, cf. rewrite Ei, Cy. ring.
Qed.
Lemma cayley_equal mu nu : mu <> 1 -> nu <> 1 -> Rabs (cayley mu) = Rabs (cayley nu) -> mu = nu \/ mu * nu = 1.
Proof.
  intros H H' E. unfold cayley in E. apply Rsqr_eq_asb_1 in E. unfold Rsqr in E.
  assert (Q : (mu + 1) * (mu + 1) * ((nu - 1) * (nu - 1)) = (nu + 1) * (nu + 1) * ((mu - 1) * (mu - 1))).
  { transitivity ((mu + 1) / (mu - 1) * ((mu + 1) / (mu - 1)) * ((nu - 1) * (nu - 1) * ((mu - 1) * (mu - 1)))); [field; lra|]. rewrite E. field. lra. }
  assert (Z : (mu - nu) * (mu * nu - 1) = 0) by (apply Rmult_eq_reg_l with 4; lra || nra). apply Rmult_integral in Z. destruct Z; [left|right]; lra.
Qed.
(*@ C74: the eigenvalues of a documented answer are determined by the matrices, unless two different eigenvalues are reciprocal. @*)
Lemma t_C74_unique : forall (A M : list (list R)) k vals vecs vals' vecs', pencil M A -> eigsh_result A M k vals vecs -> eigsh_result A M k vals' vecs' ->
  (forall mu nu v w, gen_pair A M mu v -> gen_pair A M nu w -> mu * nu = 1 -> mu = nu) -> vals = vals'.
Proof.
  intros A M k vals vecs vals' vecs' Pn E E' Nr. apply sorted_unique; [apply (er_sorted _ _ _ _ _ E)|apply (er_sorted _ _ _ _ _ E')|]. apply (Permutation_count_occ Req_EM_T).
  assert (Half : forall vals vecs vals' vecs', eigsh_result A M k vals vecs -> eigsh_result A M k vals' vecs' -> forall mu, ~ (cnt vals mu < cnt vals' mu)%nat).
  { clear vals vecs vals' vecs' E E'. intros vals vecs vals' vecs' E E' mu H.
    destruct (cnt_other vals vals' mu) as (nu & H'); [rewrite (er_count _ _ _ _ _ E), (er_count _ _ _ _ _ E'); reflexivity|exact H|].
    destruct (outvoted A M k vals vecs vals' vecs' mu Pn E E' H) as (I1 & L1). destruct (outvoted A M k vals' vecs' vals vecs nu Pn E' E H') as (I2 & L2).
    specialize (L1 nu I2). specialize (L2 mu I1).
    destruct (In_nth vals' mu 0 I1) as (i & Hi & Ei). destruct (In_nth vals nu 0 I2) as (j & Hj & Ej).
    destruct (er_pairs _ _ _ _ _ E' i mu ltac:(rewrite <- Ei; apply nth_error_nth'; exact Hi)) as (M1 & v & _ & Gv).
    destruct (er_pairs _ _ _ _ _ E j nu ltac:(rewrite <- Ej; apply nth_error_nth'; exact Hj)) as (M2 & w & _ & Gw).
    assert (X : mu = nu). { destruct (cayley_equal mu nu M1 M2 ltac:(lra)) as [X|X]; [exact X|apply (Nr mu nu v w Gv Gw X)]. }
    rewrite <- X in H'. exact (Nat.lt_asymm _ _ H H'). }
  intros mu. assert (H := Half vals vecs vals' vecs' E E' mu). assert (H' := Half vals' vecs' vals vecs E' E mu). lia.
Qed.

(** ** solvers *)
(** a solver that answers one question, for any number of eigenvalues *)
Definition answering (A0 M0 : list (list R)) (k0 : Z) (vals : list R) (vecs : list (list R)) : solver := fun A M k =>
  if (k <=? 0)%Z then Err ValueError
  else if list_eq_dec (list_eq_dec Req_EM_T) A A0 then if list_eq_dec (list_eq_dec Req_EM_T) M M0 then if (k =? k0)%Z then Ok (vals, vecs) else Err ArpackError else Err ArpackError else Err ArpackError.
Lemma answering_documented A0 M0 k0 vals vecs : eigsh_result A0 M0 (Z.to_nat k0) vals vecs -> documented (answering A0 M0 k0 vals vecs).
Proof.
  intros Er A M k. unfold answering. destruct (Z.leb_spec k 0); [split; [reflexivity|discriminate]|]. split; [lia|]. intros vs ws _.
  destruct (list_eq_dec (list_eq_dec Req_EM_T) A A0) as [->|]; [|discriminate]. destruct (list_eq_dec (list_eq_dec Req_EM_T) M M0) as [->|]; [|discriminate].
  destruct (Z.eqb_spec k k0) as [->|]; [|discriminate]. intros Eq.
  assert (Q := f_equal (fun r => match r with Ok p => p | Err _ => ([], []) end) Eq). cbn beta iota in Q.
  assert (Q1 := f_equal fst Q). assert (Q2 := f_equal snd Q). cbn [fst snd] in Q1, Q2. subst vs ws. exact Er.
Qed.
Lemma answering_answers A M k vals vecs : (0 < k)%Z -> answering A M k vals vecs A M k = Ok (vals, vecs).
Proof.
  intros H. unfold answering. destruct (Z.leb_spec k 0); [lia|]. destruct (list_eq_dec (list_eq_dec Req_EM_T) A A); [|congruence]. destruct (list_eq_dec (list_eq_dec Req_EM_T) M M); [|congruence].
  rewrite Z.eqb_refl. reflexivity.
Qed.
Lemma answering_only A0 M0 k0 vals vecs A M k : (0 < k)%Z -> (exists r, answering A0 M0 k0 vals vecs A M k = Ok r) \/ answering A0 M0 k0 vals vecs A M k = Err ArpackError.
Proof.
  intros H. unfold answering. destruct (Z.leb_spec k 0); [lia|]. destruct (list_eq_dec _ A A0); [|auto]. destruct (list_eq_dec _ M M0); [|auto]. destruct (Z.eqb k k0); [left; eexists; reflexivity|auto].
Qed.
(*@ C74: finitely many such questions are all answered by one documented solver. @*)
Lemma t_C74_solver : forall qs : list (list (list R) * list (list R) * Z),
  Forall (fun q => let '(A, M, k) := q in pencil M A /\ (0 < k <= Z.of_nat (List.length M))%Z /\ forall v, ~ gen_pair A M 1 v) qs ->
  exists eigsh, documented eigsh /\ Forall (fun q => let '(A, M, k) := q in exists r, eigsh A M k = Ok r) qs.
Proof.
  induction qs as [|[[A M] k] qs IH]; intros F.
  - exists (fun _ _ k => if (k <=? 0)%Z then Err ValueError else Err ArpackError). split; [|constructor]. intros A M k. destruct (Z.leb_spec k 0); split; try reflexivity; try lia; discriminate.
  - inversion F as [|? ? H F']; subst. destruct H as (Pn & Hk & N1). destruct (IH F') as (e & De & Fe). destruct (t_C74_exists A M (Z.to_nat k) Pn ltac:(lia) N1) as (vals & vecs & Er).
    exists (either (answering A M k vals vecs) e). split; [apply either_documented; [apply answering_documented; exact Er|exact De]|].
    apply Forall_cons; [exists (vals, vecs); unfold either; rewrite answering_answers by lia; reflexivity|].
    assert (FF : Forall (fun q : list (list R) * list (list R) * Z => (let '(A, M, k) := q in (0 < k)%Z) /\ let '(A, M, k) := q in exists r, e A M k = Ok r) qs).
    { rewrite Forall_forall in F', Fe |- *. intros q Hq. specialize (F' q Hq). specialize (Fe q Hq). destruct q as [[A' M'] k']. split; [lia|exact Fe]. }
    revert FF. apply Forall_impl. intros [[A' M'] k'] HH. cbn beta iota in HH. destruct HH as (Hk' & r & Er'). unfold either. destruct (answering_only A M k vals vecs A' M' k' Hk') as [(r' & ->)| ->]; [exists r'; reflexivity|exists r; exact Er'].
Qed.
(*@ C74: two documented solvers report the same factors for the same plate, unless two different factors of the plate are reciprocal. @*)
Lemma t_C74_same : forall eigsh eigsh' (t : tables RA) (D : @arr RA) a b Nxx Nyy Nxy c m n num (K KG : list (list R)) out vecs out' vecs',
  documented eigsh -> documented eigsh' -> calc_K_KG_D t D a b Nxx Nyy Nxy c m n = Ok (K, KG) -> pencil K KG ->
  buckling_analysis eigsh t D a b Nxx Nyy Nxy c m n num = Ok (out, vecs) -> buckling_analysis eigsh' t D a b Nxx Nyy Nxy c m n num = Ok (out', vecs') ->
  (forall l l', factor K KG l -> factor K KG l' -> l * l' = 1 -> l = l') -> out = out'.
Proof.
  intros eigsh eigsh' t D a b Nxx Nyy Nxy c m n num K KG out vecs out' vecs' D1 D2 EK Pn B1 B2 Nr.
  destruct (ba_result _ _ _ _ _ _ _ _ _ _ _ _ _ _ EK _ _ D1 Pn B1) as (vals & _ & Er & ->). destruct (ba_result _ _ _ _ _ _ _ _ _ _ _ _ _ _ EK _ _ D2 Pn B2) as (vals' & _ & Er' & ->).
  f_equal. apply (t_C74_unique KG K _ vals vecs vals' vecs' Pn Er Er'). intros mu nu v w Gv Gw Q.
  assert (M0 : mu <> 0) by (intros ->; lra). assert (N0 : nu <> 0) by (intros ->; lra).
  assert (X : -1 / mu = -1 / nu).
  { apply Nr; [exists v; apply pair_buckles; assumption|exists w; apply pair_buckles; assumption|]. replace (-1 / mu * (-1 / nu)) with (/ (mu * nu)) by (field; auto). rewrite Q. apply Rinv_1. }
  rewrite <- (neg_twice mu M0), <- (neg_twice nu N0), X. reflexivity.
Qed.
Lemma no_shift D a b Nxx Nyy Nxy c c0 ca d0 db m n idx (K KG : list (list R)) : plate_ok D a b c c0 ca d0 db m n -> view D a b Nxx Nyy Nxy c m n idx K KG -> no_compression (- Nxx) (- Nyy) (- Nxy) -> forall v, ~ gen_pair KG K 1 v.
Proof.
  intros P V T v G. assert (Pn := v_pen _ _ _ _ _ _ _ _ _ _ _ _ V). assert (B := proj1 (pair_buckles K KG 1 v Pn ltac:(lra)) G).
  assert (Q := buckles_zero K KG _ v Pn B). destruct B as (Lv & Nv & _). assert (Pd := pen_def _ _ Pn v Lv Nv). rewrite (v_G _ _ _ _ _ _ _ _ _ _ _ _ V) in Q.
  set (w := combine_shapes a b (sw_idx idx) v) in *. assert (W : nice a b w) by apply nice_combine. destruct P as [Ha Hb _ _ _ _ _ _].
  assert (Le := load_le Nxx Nyy Nxy 0 0 0 a b w Ha Hb W). rewrite !Rminus_0_l in Le. specialize (Le T).
  assert (Z : load_work 0 0 0 a b w w = 0).
  { transitivity (over a b (fun x y => 0 * load_i 0 0 0 w x y)); [apply over_ext; intros; unfold load_i; ring|]. rewrite over_scal; [ring|lra|lra|apply nice_load; exact W]. }
  lra.
Qed.
(*@ C74: for every plate whose loads stretch no direction, with at least three unknowns, and every positive number of eigenvalues asked for,
    there is a documented solver that answers the analysis; so "the solver answers" is never an empty case. @*)
Lemma t_C74_analysis : forall (D : mat3) a b Nxx Nyy Nxy c c0 ca d0 db m n num, plate_ok D a b c c0 ca d0 db m n -> (3 <= m * n)%nat -> (0 < num)%Z ->
  no_compression (- Nxx) (- Nyy) (- Nxy) ->
  exists eigsh out vecs, documented eigsh /\ buckling_analysis eigsh exact_tables (as_arr D) a b Nxx Nyy Nxy c m n num = Ok (out, vecs) /\
    List.length out = Z.to_nat (Z.min num (Z.of_nat (m * n) - 2)).
Proof.
  intros D a b Nxx Nyy Nxy c c0 ca d0 db m n num P Hmn Hn T. destruct (look D a b Nxx Nyy Nxy c c0 ca d0 db m n P) as (idx & K & KG & V).
  assert (EK := v_calc _ _ _ _ _ _ _ _ _ _ _ _ V). destruct (calc_square _ _ _ _ _ _ _ _ _ _ _ _ EK) as (L1 & L2). assert (Pn := v_pen _ _ _ _ _ _ _ _ _ _ _ _ V).
  destruct (t_C74_solver [(KG, K, Z.min num (Z.of_nat (m * n) - 2))]) as (eigsh & De & Fe).
  { constructor; [|constructor]. split; [exact Pn|]. split; [lia|]. apply (no_shift D a b Nxx Nyy Nxy c c0 ca d0 db m n idx K KG P V T). }
  inversion Fe as [|? ? H _]; subst. destruct H as ([vals vecs] & Er). exists eigsh, (map neg_recip vals), vecs. split; [exact De|].
  assert (B : buckling_analysis eigsh exact_tables (as_arr D) a b Nxx Nyy Nxy c m n num = Ok (map neg_recip vals, vecs)).
  { rewrite (ba_unfold _ _ _ _ _ _ _ _ _ _ _ _ _ _ EK), L2. match goal with |- bind ?r _ = _ => change r with (eigsh KG K (Z.min num (Z.of_nat (m * n) - 2))) end. rewrite Er. reflexivity. }
  split; [exact B|]. rewrite map_length. apply (er_count KG K _ vals vecs). apply (De KG K (Z.min num (Z.of_nat (m * n) - 2))); assumption.
Qed.
Lemma panels eigsh a b E1 E2 v12 G12 Nxx Nyy Nxy c c0 ca d0 db m n idx (K KG : list (list R)) T x y r : elastic E1 E2 v12 G12 -> plate_ok (Dmat E1 E2 v12 G12 T x y) a b c c0 ca d0 db m n ->
  view (Dmat E1 E2 v12 G12 T x y) a b Nxx Nyy Nxy c m n idx K KG -> (1 <= m)%nat -> (1 <= n)%nat -> (3 <= m * n)%nat -> documented eigsh ->
  eigsh KG K (Z.min 5 (Z.of_nat (m * n) - 2)) = Ok r -> exists v, Ncr_from_lp eigsh exact_tables a b T m n x y E1 E2 v12 G12 Nxx Nyy Nxy c = Ok v.
Proof.
  intros El P V Hm Hn Hmn De Er. assert (EK := v_calc _ _ _ _ _ _ _ _ _ _ _ _ V). destruct (calc_square _ _ _ _ _ _ _ _ _ _ _ _ EK) as (L1 & L2). assert (Pn := v_pen _ _ _ _ _ _ _ _ _ _ _ _ V). destruct r as [vals vecs].
  assert (Cn : eigsh_result KG K (Z.to_nat (Z.min 5 (Z.of_nat (m * n) - 2))) vals vecs) by (apply (De KG K _); assumption). apply er_count in Cn.
  destruct vals as [|mu vals]; [cbn in Cn; lia|].
  exists (neg_recip mu). apply (Ncr_fwd eigsh exact_tables a b T m n x y E1 E2 v12 G12 Nxx Nyy Nxy c (Dmat E1 E2 v12 G12 T x y) (neg_recip mu) (map neg_recip vals) vecs); try assumption; try (destruct P; lra).
  - apply D_lp_eq; [exact El|lra].
  - rewrite (ba_unfold _ _ _ _ _ _ _ _ _ _ _ _ _ _ EK), L2. match goal with |- bind ?r _ = _ => change r with (eigsh KG K (Z.min 5 (Z.of_nat (m * n) - 2))) end. rewrite Er. reflexivity.
Qed.
(*@ C74: for a panel under loads that stretch no direction, finitely many points of the optimisation problems are all answered by one
    documented solver. @*)
Lemma t_C74_panels : forall a b E1 E2 v12 G12 Nxx Nyy Nxy c c0 ca d0 db m n (points : list (R * R * R)), panel_ok a b E1 E2 v12 G12 c c0 ca d0 db m n ->
  (1 <= m)%nat -> (1 <= n)%nat -> (3 <= m * n)%nat -> no_compression (- Nxx) (- Nyy) (- Nxy) ->
  Forall (fun q => let '(T, xi1, xi3) := q in 0 < T /\ -1 <= xi1 <= 1 /\ 2 * xi1 ^ 2 - 1 <= xi3 <= 1) points ->
  exists eigsh, documented eigsh /\
    Forall (fun q => let '(T, xi1, xi3) := q in exists v, Ncr_from_lp eigsh exact_tables a b T m n xi1 xi3 E1 E2 v12 G12 Nxx Nyy Nxy c = Ok v) points.
Proof.
  intros a b E1 E2 v12 G12 Nxx Nyy Nxy c c0 ca d0 db m n points [Ha Hb Mo Sp Rs Bm Bn] Hm Hn Hmn HN F. assert (El := moderate_elastic _ _ _ _ Mo).
  assert (X : exists qs : list (list (list R) * list (list R) * Z), Forall (fun q => let '(A, M, k) := q in pencil M A /\ (0 < k <= Z.of_nat (List.length M))%Z /\ forall v, ~ gen_pair A M 1 v) qs /\
    forall eigsh, documented eigsh -> Forall (fun q => let '(A, M, k) := q in exists r, eigsh A M k = Ok r) qs ->
      Forall (fun q => let '(T, xi1, xi3) := q in exists v, Ncr_from_lp eigsh exact_tables a b T m n xi1 xi3 E1 E2 v12 G12 Nxx Nyy Nxy c = Ok v) points).
  { induction F as [|[[T x] y] points H F IH]; [exists []; split; [constructor|intros; constructor]|]. destruct IH as (qs & F1 & F2). destruct H as (HT & Hx & Hy).
    assert (P : plate_ok (Dmat E1 E2 v12 G12 T x y) a b c c0 ca d0 db m n). { constructor; try assumption; [apply Dmat_sym|]. apply Dmat_tolerance; try assumption; try lra. assert (0 <= x ^ 2) by apply pow2_ge_0. lra. }
    destruct (look _ a b Nxx Nyy Nxy c c0 ca d0 db m n P) as (idx & K & KG & V).
    assert (EK := v_calc _ _ _ _ _ _ _ _ _ _ _ _ V). destruct (calc_square _ _ _ _ _ _ _ _ _ _ _ _ EK) as (L1 & L2). assert (Pn := v_pen _ _ _ _ _ _ _ _ _ _ _ _ V).
    exists ((KG, K, Z.min 5 (Z.of_nat (m * n) - 2)) :: qs). split.
    - constructor; [|exact F1]. split; [exact Pn|]. split; [lia|]. apply (no_shift _ a b Nxx Nyy Nxy c c0 ca d0 db m n idx K KG P V HN).
    - intros eigsh De Fq. inversion Fq as [|? ? H Fq']; subst. destruct H as (r & Er). constructor; [|apply F2; assumption]. apply (panels eigsh a b E1 E2 v12 G12 Nxx Nyy Nxy c c0 ca d0 db m n idx K KG T x y r El P V Hm Hn Hmn De Er). }
  destruct X as (qs & F1 & F2). destruct (t_C74_solver qs F1) as (eigsh & De & Fe). exists eigsh. split; [exact De|apply F2; assumption].
Qed.

(** ** a plate with reciprocal factors *)
Definition tie : R := sqrt (l3 * (411 / 550)).
Lemma tie_sq : tie * tie = l3 * (411 / 550).
Proof. apply sqrt_sqrt. assert (B := l3_between). lra. Qed.
Lemma tie_between : 99 / 100 < tie < 995 / 1000.
Proof.
  assert (B := l3_between). assert (S := tie_sq). assert (0 <= tie) by apply sqrt_pos. split.
  - apply Rnot_le_lt. intros H'. assert (tie * tie <= 99 / 100 * (99 / 100)) by (apply Rmult_le_compat; lra). lra.
  - apply Rnot_le_lt. intros H'. assert (995 / 1000 * (995 / 1000) <= tie * tie) by (apply Rmult_le_compat; lra). lra.
Qed.
Lemma G3_tie : G3 (200 * tie) = scale_rows tie (G3 200).
Proof. destruct vals3 as [_ F3]. rewrite !F3. unfold scale_rows. cbn [map]. repeat (apply f_equal2; [repeat (apply f_equal2; [field|]); reflexivity|]). reflexivity. Qed.
Lemma tie_answer z v : (z = l3 / tie \/ z = 411 / 550 / tie) -> buckles K3 (G3 (200 * tie)) z v ->
  eigsh_result (G3 (200 * tie)) K3 1 [-1 / z] (map (fun x => [x]) v).
Proof.
  intros Hz Bv. assert (B := l3_between). assert (T := tie_between). assert (S := tie_sq). assert (Pn := pencil3 (200 * tie)).
  assert (It : / tie * tie = 1) by (apply Rinv_l; lra). assert (Pt : 0 < / tie) by (apply Rinv_0_lt_compat; lra).
  assert (Pz : 0 < z) by (destruct Hz as [-> | ->]; apply Rdiv_lt_0_compat; lra).
  assert (Gp := buckles_pair K3 _ z v Pn ltac:(lra) Bv). assert (Ng := factor_neg z Pz).
  assert (Lv : List.length v = 3%nat). { destruct Bv as (Lv & _). rewrite (proj1 vals3) in Lv. exact Lv. }
  constructor.
  - reflexivity.
  - intros [|[|j]] mu Hj; try discriminate Hj. assert (mu = -1 / z) by (cbn in Hj; congruence). subst mu. split; [lra|]. exists v. split; [|exact Gp].
    destruct v as [|x [|y [|w [|? ?]]]]; try discriminate Lv. reflexivity.
  - intros; lia.
  - intros mu u Gu N1 _ mu' [<-|[]].
    assert (N0 : mu <> 0).
    { intros ->. destruct Gu as (L & N & Eq). destruct vals3 as [E3 F3]. rewrite E3, F3 in Eq. rewrite E3 in L. destruct u as [|x [|y [|w [|? ?]]]]; try discriminate L.
      apply nz3 in N. unfold mat_vec, dot_list in Eq. cbn [map map2 rsum] in Eq. injection Eq as Q1 Q2 Q4.
      assert (X : forall c, tie * c = 0 -> c = 0) by (intros c Hc; apply Rmult_integral in Hc; destruct Hc; lra).
      assert (y = 0) by (apply X; lra). assert (x = 0) by (apply X; lra). assert (w = 0) by (apply X; lra). lra. }
    assert (Bu : buckles K3 (G3 (200 * tie)) (-1 / mu) u) by (apply pair_buckles; assumption). set (r := -1 / mu) in *.
    assert (Em : mu = -1 / r) by (unfold r; rewrite neg_twice; [reflexivity|exact N0]).
    assert (Fr : factor K3 (G3 200) (r * tie)). { exists u. apply (buckles_scale tie); [lra|]. rewrite <- G3_tie. replace (r * tie / tie) with r by (field; lra). exact Bu. }
    rewrite Em. apply factors3 in Fr. rewrite cayley_factor by exact Pz.
    assert (Z2 : 75 / 100 < 411 / 550 / tie < 76 / 100).
    { split; apply Rmult_lt_reg_r with tie; try lra; replace (411 / 550 / tie * tie) with (411 / 550) by (field; lra); lra. }
    assert (Z1 : l3 / tie = / (411 / 550 / tie)). { apply Rmult_eq_reg_r with (411 / 550 / tie * (tie * tie)); [|apply Rmult_integral_contrapositive_currified; nra]. rewrite S at 2. field. lra. }
    set (q := 411 / 550 / tie) in *. assert (Iq : / q * q = 1) by (apply Rinv_l; lra). assert (Pq : 0 < / q) by (apply Rinv_0_lt_compat; lra).
    assert (Cz : Rabs ((1 - z) / (1 + z)) = (1 - q) / (1 + q)).
    { assert (0 < (1 - q) / (1 + q)) by (apply Rdiv_lt_0_compat; lra). destruct Hz as [-> | ->].
      - rewrite Z1. replace ((1 - / q) / (1 + / q)) with (- ((1 - q) / (1 + q))) by (field; lra). rewrite Rabs_Ropp. apply Rabs_pos_eq. lra.
      - apply Rabs_pos_eq. lra. }
    rewrite Cz. destruct Fr as [Fr|[Fr|Fr]].
    + assert (Er : r = / q) by (rewrite <- Z1, <- Fr; field; lra). rewrite Er, cayley_factor by lra. replace ((1 - / q) / (1 + / q)) with (- ((1 - q) / (1 + q))) by (field; lra). rewrite Rabs_Ropp. apply Rle_abs.
    + assert (Er : r = q) by (unfold q; rewrite <- Fr; field; lra). rewrite Er, cayley_factor by lra. apply Rle_abs.
    + assert (R1 : 6 / 10 < r < 65 / 100) by (split; apply Rmult_lt_reg_r with tie; lra). rewrite cayley_factor by lra. eapply Rle_trans; [|apply Rle_abs].
      apply Rmult_le_reg_r with ((1 + q) * (1 + r)); [apply Rmult_lt_0_compat; lra|]. replace ((1 - q) / (1 + q) * ((1 + q) * (1 + r))) with ((1 - q) * (1 + r)) by (field; lra). replace ((1 - r) / (1 + r) * ((1 + q) * (1 + r))) with ((1 - r) * (1 + q)) by (field; lra). lra.
  - repeat constructor.
Qed.
(*@ C74: without the proviso the answer is not determined: for this clamped plate two solvers, both as documented, report different factors
    for the same analysis (one below 1, the other above), as the two factors are reciprocal. @*)
Lemma t_C74_tie_refuted : exists P eigsh eigsh' x y vecs vecs', documented eigsh /\ documented eigsh' /\
  buckling_analysis eigsh exact_tables (as_arr mid) 1 1 (- P) 0 0 (CStr "CLAMPED") 3 1 5 = Ok ([Fin x], vecs) /\
  buckling_analysis eigsh' exact_tables (as_arr mid) 1 1 (- P) 0 0 (CStr "CLAMPED") 3 1 5 = Ok ([Fin y], vecs') /\ 0 < x < 1 /\ 1 < y.
Proof.
  assert (B := l3_between). assert (T := tie_between). assert (S := tie_sq). assert (EK := calc3 (200 * tie)). assert (Pt : 0 < / tie) by (apply Rinv_0_lt_compat; lra).
  assert (B1 : buckles K3 (G3 (200 * tie)) (l3 / tie) v3). { rewrite G3_tie. apply buckles_scale; [lra|]. apply l3_buckles. }
  assert (B2 : buckles K3 (G3 (200 * tie)) (411 / 550 / tie) [0; 1; 0]). { rewrite G3_tie. apply buckles_scale; [lra|]. apply eqs3. exists 0, 1, 0. split; [reflexivity|]. split; [apply nz3; lra|]. lra. }
  assert (A1 := tie_answer _ _ (or_introl eq_refl) B1). assert (A2 := tie_answer _ _ (or_intror eq_refl) B2).
  exists (200 * tie), (answering (G3 (200 * tie)) K3 1 [-1 / (411 / 550 / tie)] (map (fun x => [x]) [0; 1; 0])), (answering (G3 (200 * tie)) K3 1 [-1 / (l3 / tie)] (map (fun x => [x]) v3)), (411 / 550 / tie), (l3 / tie), (map (fun x => [x]) [0; 1; 0]), (map (fun x => [x]) v3).
  split; [apply answering_documented; exact A2|]. split; [apply answering_documented; exact A1|].
  assert (Q : forall z vecs, 0 < z -> buckling_analysis (answering (G3 (200 * tie)) K3 1 [-1 / z] vecs) exact_tables (as_arr mid) 1 1 (- (200 * tie)) 0 0 (CStr "CLAMPED") 3 1 5 = Ok ([Fin z], vecs)).
  { intros z vecs Hz. rewrite (ba_unfold _ _ _ _ _ _ _ _ _ _ _ _ _ _ EK). match goal with |- bind (?e _ _ ?k) _ = _ => change k with 1%Z end. rewrite answering_answers by lia. cbn [bind fst snd map].
    assert (Ng := factor_neg z Hz). unfold neg_recip. destruct (Req_EM_T (-1 / z) 0); [lra|]. rewrite neg_twice by lra. replace (-1 / (-1 / z)) with z by (field; lra). reflexivity. }
  assert (Z1 : 0 < l3 / tie) by (apply Rdiv_lt_0_compat; lra). assert (Z2 : 0 < 411 / 550 / tie) by (apply Rdiv_lt_0_compat; lra).
  split; [apply Q; exact Z2|]. split; [apply Q; exact Z1|]. split; [split; [exact Z2|]|]; apply Rmult_lt_reg_r with tie; try lra.
  - replace (411 / 550 / tie * tie) with (411 / 550) by (field; lra). lra.
  - replace (l3 / tie * tie) with l3 by (field; lra). lra.
Qed.
(*@ C74 example: a plate to which C74_same applies: its matrices form a pencil, no two different factors are reciprocal, and a documented
    solver answers. @*)
Lemma t_C74_ex_same : exists eigsh (K KG : list (list R)) out vecs, documented eigsh /\ calc_K_KG_D exact_tables (as_arr mid) 1 1 (-200) 0 0 (CStr "CLAMPED") 3 1 = Ok (K, KG) /\ pencil K KG /\
  buckling_analysis eigsh exact_tables (as_arr mid) 1 1 (-200) 0 0 (CStr "CLAMPED") 3 1 5 = Ok (out, vecs) /\
  (forall l l', factor K KG l -> factor K KG l' -> l * l' = 1 -> l = l').
Proof.
  destruct t_C42_ex_solver as (eigsh & out & vecs & De & Ba). exists eigsh, K3, (G3 200), out, vecs. split; [exact De|]. split; [exact (calc3 200)|]. split; [exact (pencil3 200)|]. split; [exact Ba|].
  intros l l' F F' H. assert (B := l3_between). apply factors3 in F, F'.
  destruct F as [->|[->|F]], F' as [->|[->|F']]; try reflexivity; exfalso; nra.
Qed.
(*@ C74 example: a plate to which C74_analysis applies. @*)
Lemma t_C74_ex_analysis : plate_ok mid 2 1 (CStr "PINNED") Pinned Pinned Pinned Pinned 5 4 /\ no_compression (- (-2)) (- (-1)) (- 1) /\
  exists eigsh out vecs, documented eigsh /\ buckling_analysis eigsh exact_tables (as_arr mid) 2 1 (-2) (-1) 1 (CStr "PINNED") 5 4 7 = Ok (out, vecs) /\ List.length out = 7%nat.
Proof.
  assert (P := pinned_ok 1 5 4 ltac:(lra) ltac:(lia) ltac:(lia)). split; [exact P|]. assert (N : no_compression (- (-2)) (- (-1)) (- 1)) by (unfold no_compression; lra). split; [exact N|].
  exact (t_C74_analysis mid 2 1 (-2) (-1) 1 _ _ _ _ _ 5 4 7 P ltac:(lia) ltac:(lia) N).
Qed.
