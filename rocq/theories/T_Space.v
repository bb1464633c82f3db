(** Proofs of the theorems about the space of deflections a plate uses. *)
From Coq Require Import Reals ZArith Lra Lia Bool String Sorting.Sorted FunctionalExtensionality.
From Coquelicot Require Import Coquelicot.
From Coq Require Import List.
From Verif Require Import M_Py M_Plate M_K M_RealArith M_Plot M_Buckling S_Plate S_Mat S_Bardell S_Shape S_Energy S_K S_Ritz S_Eigen S_Compare S_Space L_FirstK L_Indep L_Legendre L_Space T_Plate T_Shape T_K T_Energy T_Buckling T_Compare.
Import ListNotations.
Open Scope R_scope.

(** ** one variable *)
(*@ C72: in one variable, the first m functions admissible between two edges are a basis of the polynomials of degree below m plus the
    number of conditions that meet the conditions of both edges. @*)
Lemma t_C72_functions : forall c0 c1 m l f, first_k (admissible c0 c1) m l -> (4 <= m + taken c0 + taken c1)%nat ->
  (((exists p, (List.length p <= m + taken c0 + taken c1)%nat /\ forall x, f x = poly p x) /\ meets c0 c1 f) <->
   exists c : nat -> R, forall x, f x = rsum (map (fun i => c i * bardell i x) l)).
Proof.
  intros c0 c1 m l f F H4. set (N := (m + taken c0 + taken c1)%nat) in *. split.
  - intros [(p & Lp & Ep) Me]. destruct (poly_span N H4 p (length_nth Lp)) as [c Hc]. exists c.
    assert (Ef : f = comb N c) by (apply functional_extensionality; intros x; rewrite Ep, poly_reval; apply Hc). subst f.
    intros x. symmetry. apply (comb_list c0 c1 m l c x F H4). apply meets_comb; assumption.
  - intros (c & Hc). set (d := fun i => if allowedb (holds_value c0) (holds_slope c0) (holds_value c1) (holds_slope c1) i then c i else 0).
    assert (Z : forall i, (i < N)%nat -> ~ admissible c0 c1 i -> d i = 0).
    { intros i _ Na. unfold d. destruct (allowedb _ _ _ _ i) eqn:E; [|reflexivity]. exfalso. apply Na, allowedb_spec, E. }
    assert (Ef : f = comb N d).
    { apply functional_extensionality. intros x. transitivity (rsum (map (fun i => d i * bardell i x) l)); [rewrite Hc|exact (comb_list c0 c1 m l d x F H4 Z)]. apply rsum_ext. intros i Hi. unfold d.
      destruct F as (_ & _ & P & _). rewrite Forall_forall in P. rewrite (proj2 (allowedb_spec _ _ _ _ i) (P i Hi)). reflexivity. }
    subst f. split; [|apply meets_comb; assumption]. destruct (comb_poly N d H4) as (p & Lp & Ep). exists p. split; [exact Lp|].
    intros x. rewrite poly_reval. apply Ep.
Qed.

(** ** two variables *)
Lemma fin_choice (P : nat -> (nat -> R) -> Prop) K : (forall k, (k < K)%nat -> exists c, P k c) -> exists T, forall k, (k < K)%nat -> P k (T k).
Proof.
  induction K as [|K IH]; intros H; [exists (fun _ _ => 0); intros; lia|]. destruct IH as [T HT]; [intros; apply H; lia|].
  destruct (H K ltac:(lia)) as [c Hc]. exists (fun k => if Nat.eqb k K then c else T k). intros k Hk. destruct (Nat.eqb_spec k K) as [->|]; [exact Hc|apply HT; lia].
Qed.
Lemma poly_sum N : forall v x, (List.length v <= N)%nat -> poly v x = rsum (map (fun k => nth k v 0 * x ^ k) (seq 0 N)).
Proof.
  induction N as [|N IH]; intros v x L; [destruct v; [reflexivity|cbn in L; lia]|]. cbn [seq map rsum]. rewrite <- seq_shift, map_map.
  destruct v as [|c v].
  - rewrite rsum_null; [cbn; ring|]. intros k _. destruct k; cbn; ring.
  - cbn [poly nth]. rewrite (IH v x) by (cbn in L; lia). rewrite <- rsum_mul. rewrite pow_O. f_equal; [ring|]. apply rsum_ext. intros k _. cbn [pow]. ring.
Qed.
Lemma monomials N : (4 <= N)%nat -> exists T, forall k, (k < N)%nat -> forall x, x ^ k = comb N (T k) x.
Proof.
  intros HN. apply (fin_choice (fun k c => forall x, x ^ k = comb N c x)). intros k Hk.
  destruct (poly_span N HN (repeat 0 k ++ [1])) as [c Hc].
  - apply length_nth. rewrite app_length, repeat_length. cbn. lia.
  - exists c. intros x. rewrite <- Hc. clear. induction k as [|k IH]; cbn [repeat List.app reval pow]; [ring|]. rewrite <- IH. ring.
Qed.
Lemma comb_sum N K (a : nat -> R) (T : nat -> nat -> R) x :
  rsum (map (fun k => a k * comb N (T k) x) (seq 0 K)) = comb N (fun i => rsum (map (fun k => a k * T k i) (seq 0 K))) x.
Proof.
  induction K as [|K IH].
  - cbn [seq map rsum]. unfold comb. symmetry. apply rsum_null. intros. cbn. ring.
  - rewrite seq_S, map_app, rsum_apply. cbn [map rsum Nat.add]. rewrite IH, Rplus_0_r, <- comb_scal, <- comb_add. apply comb_ext. intros i _. cbv beta.
    rewrite map_app, rsum_apply. cbn [map rsum Nat.add]. ring.
Qed.
Lemma bipoly_comb k l w : (4 <= k)%nat -> (4 <= l)%nat -> bipoly k l w -> exists C, forall x y, w x y = comb k (fun i => comb l (C i) y) x.
Proof.
  intros Hk Hl (P & LP & FP & E). destruct (monomials k Hk) as [T HT].
  destruct (fin_choice (fun i c => forall y, poly (nth i P []) y = comb l c y) k) as [U HU].
  { intros i _. assert (L : (List.length (nth i P []) <= l)%nat).
    { destruct (Nat.lt_ge_cases i (List.length P)) as [L|L]; [|rewrite nth_overflow by exact L; cbn; lia]. rewrite Forall_forall in FP. apply FP, nth_In, L. }
    destruct (poly_span l Hl (nth i P []) (length_nth L)) as [c Hc]. exists c. intros y. rewrite poly_reval. apply Hc. }
  exists (fun i j => rsum (map (fun m => T m i * U m j) (seq 0 k))). intros x y. rewrite E, (poly_sum k) by (rewrite map_length; exact LP).
  transitivity (rsum (map (fun m => comb l (U m) y * comb k (T m) x) (seq 0 k))).
  - apply rsum_ext. intros m Hm. apply in_seq in Hm. rewrite <- HT by lia. f_equal. rewrite <- HU by lia.
    rewrite <- (map_nth (fun q => poly q y) P []). reflexivity.
  - rewrite comb_sum. apply comb_ext. intros i _. rewrite <- comb_sum. apply rsum_ext. intros. ring.
Qed.
Lemma comb_swap k l C x y : comb k (fun i => comb l (C i) y) x = comb l (fun j => comb k (fun i => C i j) x) y.
Proof.
  transitivity (rsum (map (fun i => bardell i x * comb l (C i) y) (seq 0 k))); [apply rsum_ext; intros; ring|]. rewrite comb_sum. apply comb_ext. intros j _.
  apply rsum_ext. intros. ring.
Qed.

Lemma bipoly_ext k l f g : (forall x y, f x y = g x y) -> bipoly k l f -> bipoly k l g.
Proof. intros H (P & A & B & C). exists P. split; [exact A|]. split; [exact B|]. intros. rewrite <- H. apply C. Qed.
Fixpoint badd (P Q : list (list R)) : list (list R) := match P, Q with [], _ => Q | _, [] => P | p :: P', q :: Q' => radd p q :: badd P' Q' end.
Lemma bipoly_add k l f g : bipoly k l f -> bipoly k l g -> bipoly k l (fun x y => f x y + g x y).
Proof.
  intros (P & A & B & C) (Q & A' & B' & C'). exists (badd P Q). split; [|split].
  - assert (L : forall P Q, List.length (badd P Q) = Nat.max (List.length P) (List.length Q)).
    { clear. induction P as [|p P IH]; intros [|q Q]; cbn [badd List.length]; try lia. rewrite IH. lia. }
    rewrite L. lia.
  - clear C C' A A'. revert Q B'. induction B as [|p P Hp B IH]; intros Q B'; [exact B'|]. destruct B' as [|q Q Hq B']; [constructor; assumption|].
    cbn [badd]. constructor; [rewrite radd_length; lia|apply IH, B'].
  - intros x y. rewrite C, C'. clear. revert Q. induction P as [|p P IH]; intros [|q Q]; cbn [badd map poly]; try ring.
    rewrite <- IH, (poly_reval (radd p q)), radd_eval, (poly_reval p), (poly_reval q). ring.
Qed.
Lemma bipoly_zero k l : bipoly k l (fun _ _ => 0).
Proof. exists []. split; [cbn; lia|]. split; [constructor|reflexivity]. Qed.
Lemma bipoly_prod k l p q (f g : R -> R) : (List.length p <= k)%nat -> (List.length q <= l)%nat -> (forall x, f x = poly p x) -> (forall y, g y = poly q y) ->
  bipoly k l (fun x y => f x * g y).
Proof.
  intros Lp Lq Ef Eg. exists (map (fun c => rscal c q) p). split; [rewrite map_length; exact Lp|]. split.
  - apply Forall_forall. intros z Iz. apply in_map_iff in Iz. destruct Iz as (c & <- & _). rewrite rscal_length. exact Lq.
  - intros x y. rewrite Ef, Eg. clear. induction p as [|c p IH]; cbn [map poly]; [ring|]. rewrite <- IH, (poly_reval (rscal c q)), rscal_eval, (poly_reval q). ring.
Qed.
Lemma bipoly_shape k l i j c : (4 <= k)%nat -> (4 <= l)%nat -> (i < k)%nat -> (j < l)%nat -> bipoly k l (fun x y => bardell i x * bardell j y * c).
Proof.
  intros Hk Hl Hi Hj. destruct (bardell_reval i k Hk Hi) as (p & Lp & Ep). destruct (bardell_reval j l Hl Hj) as (q & Lq & Eq).
  apply (bipoly_ext k l (fun x y => bardell i x * (c * bardell j y))); [intros; ring|].
  apply (bipoly_prod k l p (rscal c q)); [exact Lp|rewrite rscal_length; exact Lq|intros; rewrite poly_reval; apply Ep|].
  intros y. rewrite poly_reval, rscal_eval, Eq. reflexivity.
Qed.
Lemma defl_bipoly k l idx cw : (4 <= k)%nat -> (4 <= l)%nat -> (forall ij, In ij idx -> (fst ij < k)%nat /\ (snd ij < l)%nat) -> bipoly k l (defl idx cw).
Proof.
  intros Hk Hl. revert cw. induction idx as [|[i j] idx IH]; intros [|c cw] H; try (apply bipoly_zero).
  apply (bipoly_add k l (fun x y => bardell i x * bardell j y * c) (defl idx cw)).
  - destruct (H (i, j) (or_introl eq_refl)). apply bipoly_shape; assumption.
  - apply IH. intros ij I. apply H. right. exact I.
Qed.

Lemma respects_comb c0 ca k (g : nat -> R -> R) : (4 <= k)%nat ->
  respects c0 (fun x y => comb k (fun i => g i y) x) (-1) -> respects ca (fun x y => comb k (fun i => g i y) x) 1 ->
  forall i, (i < k)%nat -> ~ admissible c0 ca i -> forall y, g i y = 0.
Proof.
  intros Hk [R1 R2] [R3 R4] i Hi Na y. apply (proj1 (meets_comb k (fun i => g i y) c0 ca Hk)); [|exact Hi|exact Na].
  repeat split; intros E; [apply (R1 E y)|apply (R2 E y)|apply (R3 E y)|apply (R4 E y)].
Qed.
Lemma rsum_list_prod (g : nat * nat -> R) l r : rsum (map g (list_prod l r)) = rsum (map (fun i => rsum (map (fun j => g (i, j)) r)) l).
Proof. induction l as [|i l IH]; cbn [list_prod map rsum]; [reflexivity|]. rewrite map_app, rsum_apply, IH, map_map. reflexivity. Qed.
Lemma defl_map idx (C : nat -> nat -> R) x y : defl idx (map (fun ij => C (fst ij) (snd ij)) idx) x y = rsum (map (fun ij => bardell (fst ij) x * bardell (snd ij) y * C (fst ij) (snd ij)) idx).
Proof. unfold defl. rewrite fold_rsum. induction idx as [|ij idx IH]; [reflexivity|]. cbn [map combine rsum fst snd]. rewrite IH. reflexivity. Qed.

(** the coefficients of an admissible polynomial *)
Lemma space_coef c0 ca d0 db m n fx fy w : first_k (admissible c0 ca) m fx -> first_k (admissible d0 db) n fy ->
  (4 <= m + taken c0 + taken ca)%nat -> (4 <= n + taken d0 + taken db)%nat -> bipoly (m + taken c0 + taken ca) (n + taken d0 + taken db) w ->
  respects c0 w (-1) -> respects ca w 1 -> respects d0 (fun eta xi => w xi eta) (-1) -> respects db (fun eta xi => w xi eta) 1 ->
  exists C, forall x y, w x y = defl (list_prod fx fy) (map (fun ij => C (fst ij) (snd ij)) (list_prod fx fy)) x y.
Proof.
  intros Fx Fy Hm Hn Bw R1 R2 R3 R4. set (k := (m + taken c0 + taken ca)%nat) in *. set (l := (n + taken d0 + taken db)%nat) in *.
  destruct (bipoly_comb k l w Hm Hn Bw) as [C HC]. exists C.
  assert (Ew : w = fun x y => comb k (fun i => comb l (C i) y) x) by (apply functional_extensionality; intros x; apply functional_extensionality; intros y; apply HC).
  assert (Zx : forall i, (i < k)%nat -> ~ admissible c0 ca i -> forall j, (j < l)%nat -> C i j = 0).
  { intros i Hi Na. apply (indep l (C i)). intros y _. rewrite Ew in R1, R2. apply (respects_comb c0 ca k (fun i => comb l (C i)) Hm R1 R2 i Hi Na y). }
  assert (Es : (fun eta xi => w xi eta) = fun y x => comb l (fun j => comb k (fun i => C i j) x) y).
  { apply functional_extensionality; intros y; apply functional_extensionality; intros x. rewrite HC. apply comb_swap. }
  assert (Zy : forall j, (j < l)%nat -> ~ admissible d0 db j -> forall i, (i < k)%nat -> C i j = 0).
  { intros j Hj Na. apply (indep k (fun i => C i j)). intros x _. rewrite Es in R3, R4. apply (respects_comb d0 db l (fun j => comb k (fun i => C i j)) Hn R3 R4 j Hj Na x). }
  intros x y. rewrite HC, defl_map, rsum_list_prod. cbn [fst snd].
  transitivity (rsum (map (fun i => comb l (C i) y * bardell i x) fx)).
  - symmetry. apply (comb_list c0 ca m fx (fun i => comb l (C i) y) x Fx Hm). intros i Hi Na. unfold comb. apply rsum_null. intros j Hj. apply in_seq in Hj. rewrite (Zx i Hi Na) by lia. ring.
  - apply rsum_ext. intros i Ii. transitivity (bardell i x * rsum (map (fun j => C i j * bardell j y) fy)); [|rewrite <- rsum_mul; apply rsum_ext; intros; ring]. rewrite Rmult_comm. f_equal. symmetry. apply (comb_list d0 db n fy (C i) y Fy Hn).
    intros j Hj Na. apply (Zy j Hj Na). apply (first_k_filter _ _ _ _ Fx Hm). exact Ii.
Qed.
Lemma defl_minus idx : forall u v x y, List.length u = List.length v -> defl idx (map2 Rminus u v) x y = defl idx u x y - defl idx v x y.
Proof.
  unfold defl. induction idx as [|ij idx IH]; intros [|a u] [|b v] x y L; try discriminate L; cbn; try ring.
  cbn in IH. rewrite IH by (cbn in L; lia). ring.
Qed.
Lemma defl_unique idx u v : NoDup idx -> List.length u = List.length idx -> List.length v = List.length idx -> (forall x y, defl idx u x y = defl idx v x y) -> u = v.
Proof.
  intros ND Lu Lv H. assert (F : Forall (fun p : (nat * nat) * R => snd p = 0) (combine idx (map2 Rminus u v))).
  { apply indep2.
    - assert (L : List.length (map2 Rminus u v) = List.length idx) by (clear - Lu Lv; revert u v Lu Lv; induction idx as [|ij idx IH]; intros [|a u] [|b v] Lu Lv; cbn in *; try lia; f_equal; apply IH; lia).
      clear - ND L. revert ND. generalize (map2 Rminus u v) L. clear. intros w L ND. replace (map fst (combine idx w)) with idx; [exact ND|].
      revert w L. induction idx as [|ij idx IH]; intros [|a w] L; try discriminate L; [reflexivity|]. inversion ND; subst. cbn. f_equal. apply IH; [assumption|]. cbn in L. lia.
    - intros x y _ _. assert (E := defl_minus idx u v x y ltac:(congruence)). rewrite H in E. unfold defl in E at 1. rewrite fold_rsum in E.
      rewrite <- (Rminus_diag_eq _ _ (eq_refl (defl idx v x y))). rewrite <- E. apply rsum_ext. intros. ring. }
  clear - F Lu Lv. revert u v Lu Lv F. induction idx as [|ij idx IH]; intros [|a u] [|b v] Lu Lv F; try discriminate Lu; try discriminate Lv; [reflexivity|].
  cbn in F. inversion F as [|? ? F1 F2]; subst. cbn in F1. f_equal; [lra|]. apply IH; [cbn in Lu; lia|cbn in Lv; lia|exact F2].
Qed.

(*@ C72: for the documented edge names the deflections plot_eigenvalue can draw are exactly the polynomials in (xi, eta) that meet all
    edge conditions and have, in each variable, degree below the number of functions plus the number of conditions on the two edges; each
    of them is drawn from one coefficient vector only. @*)
Lemma t_C72_space : forall c c0 ca d0 db m n idx, specifies c c0 ca d0 db -> compute_constraints c m n = Ok idx ->
  (4 <= m + taken c0 + taken ca <= 50)%nat -> (4 <= n + taken d0 + taken db <= 50)%nat ->
  (forall w, (exists cw, List.length cw = (m * n)%nat /\ forall xi eta, plot_point (sw_idx idx) cw xi eta = Ok (w xi eta)) <->
     bipoly (m + taken c0 + taken ca) (n + taken d0 + taken db) w /\
     respects c0 w (-1) /\ respects ca w 1 /\ respects d0 (fun eta xi => w xi eta) (-1) /\ respects db (fun eta xi => w xi eta) 1) /\
  (forall cw cw', List.length cw = (m * n)%nat -> List.length cw' = (m * n)%nat ->
     (forall xi eta, plot_point (sw_idx idx) cw xi eta = plot_point (sw_idx idx) cw' xi eta) -> cw = cw').
Proof.
  intros c c0 ca d0 db m n idx Sp E [Hm Hm'] [Hn Hn'].
  destruct (t_C34_index_sets c c0 ca d0 db m n Sp) as (idx' & fx & fy & E' & Fx & Fy & _ & _ & RM & _). rewrite E in E'. injection E' as <-.
  assert (Lx : List.length fx = m) by apply Fx. assert (Ly : List.length fy = n) by apply Fy.
  assert (Bx := admissible_below _ _ _ _ Fx). assert (By := admissible_below _ _ _ _ Fy). rewrite Forall_forall in Bx, By.
  assert (Li : List.length (sw_idx idx) = (m * n)%nat) by (rewrite (proj1 RM), Lx, Ly; reflexivity).
  assert (In' : forall ij, In ij (sw_idx idx) -> (fst ij < m + taken c0 + taken ca)%nat /\ (snd ij < n + taken d0 + taken db)%nat).
  { intros [i j] I. destruct (row_major_in _ _ _ _ _ RM I) as [Ix Iy]. cbn. split; [apply Bx, Ix|apply By, Iy]. }
  assert (B : idx_below 50 (sw_idx idx)) by (apply Forall_forall; intros ij I; destruct (In' ij I); lia).
  assert (PP : forall cw xi eta, List.length cw = (m * n)%nat -> plot_point (sw_idx idx) cw xi eta = Ok (defl (sw_idx idx) cw xi eta)) by (intros; apply plot_point_ok; [exact B|congruence]).
  split.
  - intros w. split.
    + intros (cw & Lc & Hw). destruct (t_C43_deflection c c0 ca d0 db m n idx cw Sp E Lc Hm' Hn') as (w' & Hw' & Rs).
      assert (Ew : w = w').
      { apply functional_extensionality; intros x; apply functional_extensionality; intros y. specialize (Hw x y). rewrite Hw' in Hw. injection Hw as <-. reflexivity. }
      subst w'. split; [|exact Rs]. apply (bipoly_ext _ _ (defl (sw_idx idx) cw)); [|apply defl_bipoly; assumption].
      intros x y. assert (Q := Hw x y). rewrite PP in Q by exact Lc. injection Q as <-. reflexivity.
    + intros (Bw & R1 & R2 & R3 & R4). destruct (space_coef c0 ca d0 db m n fx fy w Fx Fy Hm Hn Bw R1 R2 R3 R4) as [C HC].
      rewrite <- (row_major_eq _ _ _ RM) in HC. eexists. split; [|intros xi eta; rewrite PP; [f_equal; symmetry; apply HC|]]; rewrite map_length; exact Li.
  - intros cw cw' L L' H. apply (defl_unique (sw_idx idx)); [|congruence|congruence|].
    + rewrite (row_major_eq _ _ _ RM). apply nodup_list_prod; apply sorted_nodup; [apply Fx|apply Fy].
    + intros x y. specialize (H x y). rewrite !PP in H by assumption. injection H as ->. reflexivity.
Qed.

(** ** plate coordinates *)
Fixpoint aff (al be : R) (p : list R) : list R :=
  match p with [] => [] | c :: p' => radd [c] (radd (rscal be (aff al be p')) (0 :: rscal al (aff al be p'))) end.
Lemma aff_eval al be p x : reval (aff al be p) x = reval p (al * x + be).
Proof. induction p as [|c p IH]; [reflexivity|]. cbn [aff]. rewrite !radd_eval, rscal_eval. cbn [reval]. rewrite rscal_eval, IH. ring. Qed.
Lemma aff_length al be p : (List.length (aff al be p) <= List.length p)%nat.
Proof. induction p as [|c p IH]; [cbn; lia|]. cbn [aff]. rewrite !radd_length. cbn [List.length]. rewrite !rscal_length. lia. Qed.
Lemma bipoly_affine k l al be ga de w : bipoly k l w -> bipoly k l (fun x y => w (al * x + be) (ga * y + de)).
Proof.
  intros (P & LP & FP & E).
  apply (bipoly_ext k l (fun x y => rsum (map (fun m => poly (aff al be (repeat 0 m ++ [1])) x * poly (aff ga de (nth m P [])) y) (seq 0 k)))).
  - intros x y. rewrite E, (poly_sum k) by (rewrite map_length; exact LP). apply rsum_ext. intros m _. rewrite !(poly_reval (aff _ _ _)), !aff_eval.
    rewrite <- (poly_reval (nth m P [])), <- (map_nth (fun q => poly q (ga * y + de)) P []). rewrite Rmult_comm. f_equal.
    generalize (al * x + be). clear. intros t. induction m as [|m IH]; cbn [repeat List.app reval pow]; [ring|]. rewrite <- IH. ring.
  - assert (G : forall ms, (forall m, In m ms -> (m < k)%nat) -> bipoly k l (fun x y => rsum (map (fun m => poly (aff al be (repeat 0 m ++ [1])) x * poly (aff ga de (nth m P [])) y) ms))).
    { induction ms as [|m ms IH]; intros H; [apply bipoly_zero|]. cbn [map rsum]. apply (bipoly_add k l (fun x y => _ * _) (fun x y => rsum _)); [|apply IH; intros; apply H; right; assumption].
      apply (bipoly_prod k l (aff al be (repeat 0 m ++ [1])) (aff ga de (nth m P []))); try reflexivity.
      - etransitivity; [apply aff_length|]. rewrite app_length, repeat_length. cbn. specialize (H m (or_introl eq_refl)). lia.
      - etransitivity; [apply aff_length|]. destruct (Nat.lt_ge_cases m (List.length P)) as [L|L]; [|rewrite nth_overflow by exact L; cbn; lia]. rewrite Forall_forall in FP. apply FP, nth_In, L. }
    apply G. intros m Hm. apply in_seq in Hm. lia.
Qed.
Lemma poly_ex_derive p x : ex_derive (poly p) x.
Proof.
  induction p as [|c p IH]; [apply @ex_derive_const|]. cbn [poly].
  apply (ex_derive_plus (fun _ => c) (fun x => x * poly p x)); [apply @ex_derive_const|]. apply (ex_derive_mult (fun x => x) (poly p)); [apply ex_derive_id|exact IH].
Qed.
Lemma bipoly_ex_derive_x k l w x y : bipoly k l w -> ex_derive (fun t => w t y) x.
Proof. intros (P & _ & _ & E). apply (ex_derive_ext (poly (map (fun q => poly q y) P))); [intros t; symmetry; apply E|apply poly_ex_derive]. Qed.
Lemma bipoly_ex_derive_y k l w x y : bipoly k l w -> ex_derive (fun t => w x t) y.
Proof.
  intros (P & _ & _ & E). apply (ex_derive_ext (fun t => poly (map (fun q => poly q t) P) x)); [intros t; symmetry; apply E|]. clear E.
  induction P as [|q P IH]; cbn [map poly]; [apply @ex_derive_const|]. apply (ex_derive_plus (poly q) (fun t => x * poly (map (fun q => poly q t) P) x)); [apply poly_ex_derive|].
  apply (ex_derive_scal (fun t => poly (map (fun q => poly q t) P) x)), IH.
Qed.
Lemma Derive_affine (f : R -> R) al be x : ex_derive f (al * x + be) -> Derive (fun t => f (al * t + be)) x = al * Derive f (al * x + be).
Proof.
  intros H. apply is_derive_unique. evar_last.
  { apply (is_derive_comp f (fun t => al * t + be)); [apply Derive_correct, H|].
    apply (is_derive_plus (fun t => al * t) (fun _ => be)); [apply is_derive_scal, is_derive_id|apply @is_derive_const]. }
  unfold scal, plus, zero, one; cbn. unfold mult; cbn. ring.
Qed.

(** the deflection on the unit square of a deflection of the plate *)
Definition unit_field (a b : R) (w : field) : field := fun xi eta => w (a / 2 * xi + a / 2) (b / 2 * eta + b / 2).
Lemma unit_respects k l a b c0 ca d0 db w : bipoly k l w -> fits a b c0 ca d0 db w ->
  respects c0 (unit_field a b w) (-1) /\ respects ca (unit_field a b w) 1 /\
  respects d0 (fun eta xi => unit_field a b w xi eta) (-1) /\ respects db (fun eta xi => unit_field a b w xi eta) 1.
Proof.
  intros Bw [[F1 F2] [F3 F4] [F5 F6] [F7 F8]]. unfold respects, unit_field.
  assert (Z : forall u, u / 2 * -1 + u / 2 = 0) by (intros; lra). assert (O : forall u, u / 2 * 1 + u / 2 = u) by (intros; lra).
  repeat split; intros E s.
  - rewrite Z. apply F1, E.
  - rewrite (Derive_affine (fun t => w t _)) by apply (bipoly_ex_derive_x k l), Bw. rewrite Z. rewrite (F2 E _ : Derive _ _ = 0). ring.
  - rewrite O. apply F3, E.
  - rewrite (Derive_affine (fun t => w t _)) by apply (bipoly_ex_derive_x k l), Bw. rewrite O. rewrite (F4 E _ : Derive _ _ = 0). ring.
  - rewrite Z. apply F5, E.
  - rewrite (Derive_affine (fun t => w _ t)) by apply (bipoly_ex_derive_y k l), Bw. rewrite Z. rewrite (F6 E _ : Derive _ _ = 0). ring.
  - rewrite O. apply F7, E.
  - rewrite (Derive_affine (fun t => w _ t)) by apply (bipoly_ex_derive_y k l), Bw. rewrite O. rewrite (F8 E _ : Derive _ _ = 0). ring.
Qed.
Lemma combine_defl a b idx cw x y : combine_shapes a b idx cw x y = defl idx cw (2 * x / a - 1) (2 * y / b - 1).
Proof. unfold combine_shapes, defl, shape. etransitivity; [|symmetry; apply fold_rsum]. apply rsum_ext. intros. ring. Qed.

(** the polynomials with the plate's edge conditions are the combinations of its shape functions *)
Lemma plate_space a b c c0 ca d0 db m n idx : 0 < a -> 0 < b -> specifies c c0 ca d0 db -> compute_constraints c m n = Ok idx ->
  (4 <= m + taken c0 + taken ca)%nat -> (4 <= n + taken d0 + taken db)%nat -> forall w,
  ((bipoly (m + taken c0 + taken ca) (n + taken d0 + taken db) w /\ fits a b c0 ca d0 db w) <->
   exists cw, List.length cw = (m * n)%nat /\ w = combine_shapes a b (sw_idx idx) cw).
Proof.
  intros Ha Hb Sp E Hm Hn w.
  destruct (t_C34_index_sets c c0 ca d0 db m n Sp) as (idx' & fx & fy & E' & Fx & Fy & _ & _ & RM & _). rewrite E in E'. injection E' as <-.
  assert (Lx : List.length fx = m) by apply Fx. assert (Ly : List.length fy = n) by apply Fy.
  assert (Bx := admissible_below _ _ _ _ Fx). assert (By := admissible_below _ _ _ _ Fy). rewrite Forall_forall in Bx, By.
  assert (Li : List.length (sw_idx idx) = (m * n)%nat) by (rewrite (proj1 RM), Lx, Ly; reflexivity).
  split.
  - intros [Bw Fw]. destruct (unit_respects _ _ a b c0 ca d0 db w Bw Fw) as (R1 & R2 & R3 & R4).
    destruct (space_coef c0 ca d0 db m n fx fy (unit_field a b w) Fx Fy Hm Hn) as [C HC]; try assumption.
    { apply bipoly_affine, Bw. }
    rewrite <- (row_major_eq _ _ _ RM) in HC. eexists. split; [rewrite map_length; exact Li|].
    apply functional_extensionality; intros x; apply functional_extensionality; intros y. rewrite combine_defl, <- HC. unfold unit_field. f_equal; field; lra.
  - intros (cw & Lc & ->).
    assert (In' : forall ij, In ij (sw_idx idx) -> (fst ij < m + taken c0 + taken ca)%nat /\ (snd ij < n + taken d0 + taken db)%nat).
    { intros [i j] I. destruct (row_major_in _ _ _ _ _ RM I) as [Ix Iy]. cbn. split; [apply Bx, Ix|apply By, Iy]. }
    split.
    + apply (bipoly_ext _ _ (fun x y => defl (sw_idx idx) cw (2 / a * x + -1) (2 / b * y + -1))).
      * intros x y. rewrite combine_defl. f_equal; field; lra.
      * apply (bipoly_affine _ _ (2 / a) (-1) (2 / b) (-1) (defl (sw_idx idx) cw)). apply defl_bipoly; assumption.
    + assert (Ad : forall p, In p (sw_idx idx) -> admissible c0 ca (fst p) /\ admissible d0 db (snd p)).
      { intros [i j] I. destruct (row_major_in _ _ _ _ _ RM I) as [Ix Iy]. destruct Fx as (_ & _ & Px & _). destruct Fy as (_ & _ & Py & _). rewrite Forall_forall in Px, Py. split; [apply Px, Ix|apply Py, Iy]. }
      constructor; split; intros H s.
      * eapply edge_x0; eassumption.
      * eapply slope_x0; eassumption.
      * eapply edge_xa; eassumption.
      * eapply slope_xa; eassumption.
      * eapply edge_y0; eassumption.
      * eapply slope_y0; eassumption.
      * eapply edge_yb; eassumption.
      * eapply slope_yb; eassumption.
Qed.

(*@ C72: the Ritz principle in full. For a restrained plate with positive definite D and exact integrals, l is the critical factor of the
    assembled matrices exactly when l > 0, no polynomial deflection of the plate meeting the edge conditions (of degree below the number
    of functions plus the number of conditions) has negative energy under l times the loads, and some non-zero one has none. There is no
    upper limit on the numbers of functions. @*)
Lemma t_C72_ritz : forall (D : mat3) a b Nxx Nyy Nxy c c0 ca d0 db m n l, plate_any D a b c c0 ca d0 db ->
  (4 <= m + taken c0 + taken ca)%nat -> (4 <= n + taken d0 + taken db)%nat ->
  let trial w := bipoly (m + taken c0 + taken ca) (n + taken d0 + taken db) w /\ fits a b c0 ca d0 db w in
  let energy w := bending D a b w w + l * load_work Nxx Nyy Nxy a b w w in
  (critical D a b Nxx Nyy Nxy c m n l <->
   0 < l /\ (forall w, trial w -> 0 <= energy w) /\ (exists w, trial w /\ (exists x y, w x y <> 0) /\ energy w = 0)).
Proof.
  intros D a b Nxx Nyy Nxy c c0 ca d0 db m n l Pk Hm Hn trial energy. destruct (look_any D a b Nxx Nyy Nxy c c0 ca d0 db m n Pk) as (idx & K & KG & V).
  assert (PS := plate_space a b c c0 ca d0 db m n idx (any_a _ _ _ _ _ _ _ _ Pk) (any_b _ _ _ _ _ _ _ _ Pk) (any_edges _ _ _ _ _ _ _ _ Pk) (v_idx _ _ _ _ _ _ _ _ _ _ _ _ V) Hm Hn).
  assert (Pos : forall cw, List.length cw = (m * n)%nat -> nonzero cw -> 0 < bending D a b (combine_shapes a b (sw_idx idx) cw) (combine_shapes a b (sw_idx idx) cw)).
  { intros cw Lc Nc. rewrite <- (v_K _ _ _ _ _ _ _ _ _ _ _ _ V). apply (pen_def _ _ (v_pen _ _ _ _ _ _ _ _ _ _ _ _ V)); [rewrite (v_len _ _ _ _ _ _ _ _ _ _ _ _ V); exact Lc|exact Nc]. }
  assert (Zr : forall cw, List.length cw = (m * n)%nat -> ~ nonzero cw -> forall x y, combine_shapes a b (sw_idx idx) cw x y = 0).
  { intros cw _ Nc x y. unfold combine_shapes. apply rsum_null. intros p Ip. destruct p as [q z]. cbn [fst snd]. apply in_combine_r in Ip.
    destruct (Req_dec z 0) as [->|Nz]; [ring|]. exfalso. apply Nc, Exists_exists. exists z. split; assumption. }
  assert (Em : forall l' cw, List.length cw = (m * n)%nat -> nonzero cw -> 0 < l' < l ->
    (let w := combine_shapes a b (sw_idx idx) cw in bending D a b w w + l' * load_work Nxx Nyy Nxy a b w w = 0) -> energy (combine_shapes a b (sw_idx idx) cw) < 0).
  { intros l' cw Lc Nc [Hl1 Hl2] Hz. cbv zeta in Hz. assert (P := Pos cw Lc Nc). unfold energy. revert P Hz. generalize (bending D a b (combine_shapes a b (sw_idx idx) cw) (combine_shapes a b (sw_idx idx) cw)).
    generalize (load_work Nxx Nyy Nxy a b (combine_shapes a b (sw_idx idx) cw) (combine_shapes a b (sw_idx idx) cw)). intros g k P Hz. assert (Hg : g < 0) by nra. nra. }
  split.
  - intros C. destruct (mode D a b Nxx Nyy Nxy c m n idx K KG l V C) as (Hl & cw & Lc & Nc & Z). cbv zeta in Z. split; [exact Hl|]. split.
    + intros w Tw. apply PS in Tw. destruct Tw as (v & Lv & ->). destruct (Rle_lt_dec 0 (energy (combine_shapes a b (sw_idx idx) v))) as [G|G]; [exact G|exfalso].
      assert (Nv : nonzero v).
      { destruct (Classical_Prop.classic (nonzero v)) as [N|N]; [exact N|exfalso]. assert (E0 : combine_shapes a b (sw_idx idx) v = fun _ _ => 0).
        { apply functional_extensionality; intros x; apply functional_extensionality; intros y. apply Zr; assumption. }
        assert (Eq : energy (combine_shapes a b (sw_idx idx) v) = quad_rows K v + l * quad_rows KG v).
        { unfold energy. rewrite (v_K _ _ _ _ _ _ _ _ _ _ _ _ V), (v_G _ _ _ _ _ _ _ _ _ _ _ _ V). reflexivity. }
        assert (Q0 : forall M, quad_rows M v = 0).
        { intros M. unfold quad_rows, dot_list. assert (A : Forall (fun z => z = 0) v).
          { apply Forall_forall. intros z Iz. destruct (Req_dec z 0) as [e|e]; [exact e|]. exfalso. apply N, Exists_exists. exists z. split; assumption. }
          generalize (map (fun row => rsum (map2 Rmult row v)) M). clear - A. induction A as [|z v Hz A IH]; intros [|r q]; cbn; try reflexivity. rewrite IH, Hz. ring. }
        rewrite Eq, !Q0 in G. lra. }
      (* a slightly smaller multiplier already has no positive energy *)
      set (B := bending D a b (combine_shapes a b (sw_idx idx) v) (combine_shapes a b (sw_idx idx) v)) in *.
      set (W := load_work Nxx Nyy Nxy a b (combine_shapes a b (sw_idx idx) v) (combine_shapes a b (sw_idx idx) v)) in *.
      assert (PB : 0 < B) by (apply Pos; assumption). assert (HG : B + l * W < 0) by exact G. assert (HW : W < 0) by nra.
      destruct (bounded D a b Nxx Nyy Nxy c m n idx K KG (B / - W) v V) as (l' & C' & Le).
      * apply Rdiv_lt_0_compat; lra.
      * exact Lv.
      * exact Nv.
      * cbv zeta. fold B W. replace (B + B / - W * W) with 0 by (field; lra). lra.
      * assert (Lt : B / - W < l) by (apply Rmult_lt_reg_r with (- W); [lra|]; unfold Rdiv; rewrite Rmult_assoc, Rinv_l by lra; lra).
        destruct C as (K1 & G1 & H1 & (_ & _ & M1)). destruct C' as (K2 & G2 & H2 & (P2 & F2 & _)). assert (E12 := same_calc _ _ _ H1 H2). injection E12 as <- <-.
        specialize (M1 l' P2 F2). lra.
    + exists (combine_shapes a b (sw_idx idx) cw). split; [apply PS; exists cw; split; [exact Lc|reflexivity]|]. split; [|exact Z].
      apply Classical_Prop.NNPP. intros Nx. assert (E0 : combine_shapes a b (sw_idx idx) cw = combine_shapes a b (sw_idx idx) (repeat 0 (m * n))).
      { apply functional_extensionality; intros x; apply functional_extensionality; intros y. rewrite (Zr (repeat 0 (m * n))).
        - destruct (Req_dec (combine_shapes a b (sw_idx idx) cw x y) 0) as [e|e]; [exact e|]. exfalso. apply Nx. exists x, y. exact e.
        - apply repeat_length.
        - intros N. apply Exists_exists in N. destruct N as (z & Iz & Nz). apply repeat_spec in Iz. contradiction. }
      assert (P := Pos cw Lc Nc). rewrite E0 in P. rewrite <- (v_K _ _ _ _ _ _ _ _ _ _ _ _ V) in P. unfold quad_rows in P.
      assert (Q0 : forall r, dot_list (repeat 0 (m * n)) r = 0).
      { generalize (m * n)%nat. clear. unfold dot_list. induction n as [|n IH]; intros [|z r]; cbn; try reflexivity. rewrite IH. ring. }
      rewrite Q0 in P. lra.
  - intros (Hl & Nn & w & Tw & (x0 & y0 & Nw) & Zw). apply PS in Tw. destruct Tw as (cw & Lc & ->).
    assert (Nc : nonzero cw) by (destruct (Classical_Prop.classic (nonzero cw)) as [N|N]; [exact N|exfalso; apply Nw, Zr; assumption]).
    destruct (bounded D a b Nxx Nyy Nxy c m n idx K KG l cw V Hl Lc Nc) as (l' & C' & Le); [cbv zeta; unfold energy in Zw; lra|].
    destruct (mode D a b Nxx Nyy Nxy c m n idx K KG l' V C') as (Hl' & cv & Lv & Nv & Zv). destruct (Rle_lt_or_eq_dec _ _ Le) as [Lt|<-]; [exfalso|exact C'].
    assert (Q := Em l' cv Lv Nv (conj Hl' Lt) Zv). assert (P := Nn (combine_shapes a b (sw_idx idx) cv) (proj2 (PS _) (ex_intro _ cv (conj Lv eq_refl)))). lra.
Qed.

(*@ C72: the bound on the sizes is needed: on a free strip with one function, the constant 1 has degree below one and meets the (empty)
    conditions, but is no multiple of the first function. @*)
Lemma t_C72_small_refuted : first_k (admissible Free Free) 1 [0%nat] /\ meets Free Free (poly [1]) /\
  ~ exists c : nat -> R, forall x, poly [1] x = rsum (map (fun i => c i * bardell i x) [0%nat]).
Proof.
  split; [|split].
  - split; [reflexivity|]. split; [repeat constructor|]. split; [repeat constructor; discriminate|]. intros i j [<-|[]] H. lia.
  - repeat split; intros H; discriminate H.
  - intros (c & H). assert (A := H 1). assert (B := H (-1)). cbn [map rsum poly bardell] in A, B. lra.
Qed.

Lemma hat_poly : forall x, (x ^ 2 - 1) ^ 2 = poly [1; 0; -2; 0; 1] x. Proof. intros. cbn [poly]. ring. Qed.
Lemma hat_slope x : Derive (fun t => (t ^ 2 - 1) ^ 2) x = 4 * x * (x ^ 2 - 1).
Proof. apply is_derive_unique. auto_derive; [exact Logic.I|]. ring. Qed.
Lemma hat_respects t : t = -1 \/ t = 1 -> respects Clamped (fun x y => (x ^ 2 - 1) ^ 2 * (y ^ 2 - 1) ^ 2) t.
Proof.
  intros H. assert (Z : t ^ 2 - 1 = 0) by (destruct H as [-> | ->]; ring). split; intros _ s.
  - rewrite Z. ring.
  - rewrite (Derive_ext _ (fun u => (s ^ 2 - 1) ^ 2 * (u ^ 2 - 1) ^ 2)) by (intros; ring). rewrite Derive_scal, hat_slope, Z. ring.
Qed.
(*@ C72 example: the function (xi^2-1)^2 (eta^2-1)^2 on a clamped plate with m = 3 and n = 2. @*)
Lemma t_C72_ex : specifies (CStr "CLAMPED") Clamped Clamped Clamped Clamped /\ (4 <= 3 + taken Clamped + taken Clamped <= 50)%nat /\
  let w := fun xi eta => (xi ^ 2 - 1) ^ 2 * (eta ^ 2 - 1) ^ 2 in
  bipoly 7 6 w /\ w 0 0 = 1 /\ respects Clamped w (-1) /\ respects Clamped w 1 /\
  respects Clamped (fun eta xi => w xi eta) (-1) /\ respects Clamped (fun eta xi => w xi eta) 1.
Proof.
  split; [constructor|]. split; [cbn; lia|]. intros w. assert (Sw : (fun eta xi => w xi eta) = w).
  { apply functional_extensionality; intros x; apply functional_extensionality; intros y. unfold w. ring. }
  split; [|split; [unfold w; ring|rewrite Sw; repeat split; apply hat_respects; tauto]].
  apply (bipoly_prod 7 6 [1; 0; -2; 0; 1] [1; 0; -2; 0; 1]); [cbn; lia|cbn; lia|apply hat_poly|apply hat_poly].
Qed.
(*@ C72 example: a clamped plate in compression has a critical factor, so the Ritz principle speaks about one. @*)
Lemma t_C72_ex_ritz : plate_any mid 2 1 (CStr "CLAMPED") Clamped Clamped Clamped Clamped /\ (4 <= 3 + taken Clamped + taken Clamped)%nat /\
  (4 <= 2 + taken Clamped + taken Clamped)%nat /\ exists l, critical mid 2 1 (-1) 0 0 (CStr "CLAMPED") 3 2 l.
Proof.
  destruct t_C65_ex as (P & _ & _ & l & _ & C & _). split; [exact (ok_any _ _ _ _ _ _ _ _ _ _ P)|]. split; [cbn; lia|]. split; [cbn; lia|]. exists l. exact C.
Qed.
