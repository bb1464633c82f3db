(** Proofs of the theorems on the buckling factors above the critical one. *)
From Coq Require Import Reals ZArith Lra Lia Bool String Sorting.Sorted Sorting.Permutation Classical.
From Coquelicot Require Import Coquelicot.
From Coq Require Import List.
From Verif Require Import M_Py M_Plate M_K M_RealArith M_Plot M_Buckling S_Plate S_Mat S_Energy S_K S_Ritz S_Eigen S_Compare S_Higher L_Quad L_Spectral L_Higher L_Eigen L_Plate L_FirstK L_K L_KR L_Poly L_Shape L_Indep L_TabV L_Energy L_Ritz L_ABD L_Mat T_Plate T_Shape T_K T_Energy T_ABD T_Buckling T_Compare T_Solver T_Perturb.
Import ListNotations.
Open Scope R_scope.

(** ** lists and functions *)
Lemma mix_length n cs vs : List.length (mix n cs vs) = n.
Proof. unfold mix. rewrite map_length, seq_length. reflexivity. Qed.
Lemma mix_sum : forall vs cs i, List.length cs = List.length vs ->
  rsum (map2 (fun (c : R) (v : list R) => c * nth i v 0) cs vs) = sm (List.length vs) (fun k => fn cs k * fn (nth k vs []) i).
Proof.
  induction vs as [|v vs IH]; intros [|c cs] i L; try discriminate L; [reflexivity|]. cbn [map2 rsum List.length]. rewrite sm_shift, (IH cs i) by (cbn in L; lia). reflexivity.
Qed.
Lemma mix_fn n cs vs i : List.length cs = List.length vs -> (i < n)%nat -> fn (mix n cs vs) i = comb (List.length vs) (fn cs) (fun k => fn (nth k vs [])) i.
Proof. intros L Hi. unfold comb. rewrite <- (mix_sum vs cs i L). unfold mix. apply (fn_ls n (fun i => rsum (map2 (fun (c : R) (v : list R) => c * nth i v 0) cs vs)) i Hi). Qed.
Lemma nz_ext n x y : (forall i, (i < n)%nat -> x i = y i) -> nz n x -> nz n y.
Proof. intros E (i & Hi & Ni). exists i. split; [exact Hi|]. rewrite <- E by exact Hi. exact Ni. Qed.
Lemma sm_cs j c w i : sm j (fun k => fn (ls j c) k * w k i) = comb j c w i.
Proof. apply sm_ext. intros k Hk. rewrite fn_ls by exact Hk. reflexivity. Qed.
Lemma unstable_fam K KG t j : pencil K KG -> (unstable K KG t j <-> exists w, fam (List.length K) (fm KG) (fm K) t j w).
Proof.
  intros Pn. set (n := List.length K). assert (S1 := pen_K _ _ Pn). assert (S2 := pen_KG _ _ Pn). fold n in S1, S2. split.
  - intros (vs & L & F & H). fold n in F, H. exists (fun k => fn (nth k vs [])). intros c Nc.
    destruct (H (ls j c) (ls_length j c)) as (N & E).
    { apply (nonzero_nz j); [apply ls_length|]. apply (nz_ext j c); [|exact Nc]. intros; symmetry; apply fn_ls; assumption. }
    assert (Ex : forall i, (i < n)%nat -> fn (mix n (ls j c) vs) i = comb j c (fun k => fn (nth k vs [])) i).
    { intros i Hi. rewrite mix_fn by (rewrite ?ls_length; auto || lia). rewrite L. apply sm_cs. }
    split; [apply (nz_ext n _ _ Ex); apply (nonzero_nz n); [apply mix_length|exact N]|].
    rewrite bil_pen. rewrite (quad_bil n K S1), (quad_bil n KG S2) in E by apply mix_length.
    rewrite !(bil_ext n _ _ _ _ _ Ex Ex) in E. exact E.
  - intros (w & F). exists (map (fun k => ls n (w k)) (seq 0 j)). fold n. split; [rewrite map_length, seq_length; reflexivity|].
    split; [apply Forall_forall; intros v Hv; apply in_map_iff in Hv; destruct Hv as (k & <- & _); apply ls_length|]. intros cs Lc Nc. set (vs := map (fun k => ls n (w k)) (seq 0 j)) in *. cbv zeta.
    assert (Lv : List.length vs = j) by (unfold vs; rewrite map_length, seq_length; reflexivity).
    assert (Ex : forall i, (i < n)%nat -> fn (mix n cs vs) i = comb j (fn cs) w i).
    { intros i Hi. rewrite mix_fn by (auto || lia). rewrite Lv. apply sm_ext. intros k Hk. f_equal. unfold vs. rewrite (nth_indep _ [] (ls n (w 0%nat))) by (rewrite map_length, seq_length; exact Hk).
      rewrite (map_nth (fun k => ls n (w k))), seq_nth by exact Hk. apply fn_ls, Hi. }
    destruct (F (fn cs)) as (N & E); [apply (nonzero_nz j); assumption|]. split.
    + apply (nonzero_nz n); [apply mix_length|]. apply (nz_ext n (comb j (fn cs) w)); [intros; symmetry; apply Ex; assumption|exact N].
    + rewrite (quad_bil n K S1), (quad_bil n KG S2) by apply mix_length. rewrite !(bil_ext n _ _ _ _ _ Ex Ex), <- bil_pen. exact E.
Qed.
Record parts (n : nat) (K KG : list (list R)) : Prop := { p_K : square n K; p_G : square n KG; p_sK : symf n (fm K); p_sG : symf n (fm KG); p_d : pdf n (fm K) }.
Lemma pencil_parts K KG : pencil K KG -> parts (List.length K) K KG.
Proof. intros [S1 S2 S3 S4 P5]. constructor; [assumption|assumption|apply sym_f; assumption|apply sym_f; assumption|]. apply (pos_f _ K S1). exact P5. Qed.
Lemma neg_le mu nu : mu < 0 -> nu < 0 -> (mu <= nu <-> -1 / mu <= -1 / nu).
Proof.
  intros H H'. replace (-1 / mu) with (/ - mu) by (field; lra). replace (-1 / nu) with (/ - nu) by (field; lra). split; intros L.
  - apply Rinv_le_contravar; lra.
  - assert (/ / - nu <= / / - mu) by (apply Rinv_le_contravar; [apply Rinv_0_lt_compat; lra|exact L]). rewrite !Rinv_inv in H0. lra.
Qed.
Lemma lowest_low K KG fs : pencil K KG -> lowest K KG fs -> exists v, low (List.length K) (fm KG) (fm K) (List.length fs) (fun k => -1 / fn fs k) v /\ forall i, (i < List.length fs)%nat -> 0 < fn fs i.
Proof.
  intros Pn (vs & Lv & B & O & S & Sel). set (n := List.length K) in *. destruct (pencil_parts K KG Pn) as [S1 S2 SM SA PM]. fold n in S1, S2, SM, SA, PM.
  assert (At : forall i, (i < List.length fs)%nat -> 0 < fn fs i /\ buckles K KG (fn fs i) (nth i vs [])).
  { intros i Hi. apply (B i); apply nth_error_nth'; [exact Hi|lia]. }
  assert (Pr : forall i, (i < List.length fs)%nat -> pairf n (fm KG) (fm K) (-1 / fn fs i) (fn (nth i vs [])) /\ List.length (nth i vs []) = n).
  { intros i Hi. destruct (At i Hi) as (Hl & Bi). apply (buckles_pair K KG (fn fs i) _ Pn ltac:(lra)) in Bi. destruct (gen_pairf n KG K _ _ S1 S2 Bi) as (Ln & Pf). split; assumption. }
  exists (fun i => fn (nth i vs [])). split; [|intros i Hi; apply (At i Hi)]. split; [|split; [|split]].
  - intros i Hi. split; [apply factor_neg, (At i Hi)|apply (Pr i Hi)].
  - intros i j Hi Hj N. rewrite <- (inner_bil n K S1) by (apply (Pr i Hi) || apply (Pr j Hj)). apply (O i j); [exact N| |]; apply nth_error_nth'; lia.
  - intros i k Hi Hk. destruct (At i ltac:(lia)) as (P1 & _). destruct (At k Hk) as (P2 & _). apply neg_le; [apply factor_neg; assumption..|]. rewrite !neg_twice by lra.
    destruct (Nat.eq_dec i k) as [->|Nik]; [lra|]. clear - S Hi Hk Nik. revert i k Hi Hk Nik. induction S as [|x l S IH F]; intros i k Hi Hk Nik; [cbn in Hk; lia|].
    destruct k as [|k]; [lia|]. unfold fn in *. destruct i as [|i]; cbn [nth].
    + rewrite Forall_forall in F. apply F, nth_In. cbn in Hk. lia.
    + apply IH; cbn in Hk; lia.
  - intros nu x Hn X Ox i Hi. destruct (At i Hi) as (P1 & _). apply neg_le; [apply factor_neg; exact P1|exact Hn|]. rewrite neg_twice by lra.
    assert (G := pairf_gen n KG K nu x S1 S2 X). apply (pair_buckles K KG nu _ Pn ltac:(lra)) in G. apply (Sel _ _ (neg_pos nu Hn) G); [|apply nth_In; exact Hi].
    intros u Iu. destruct (In_nth vs u [] Iu) as (k & Hk & <-). rewrite Lv in Hk. rewrite (inner_bil n K S1) by (apply (Pr k Hk) || apply ls_length).
    rewrite (bil_ext n (fm K) _ _ (fn (nth k vs [])) x) by (intros; try apply fn_ls; auto). apply Ox, Hk.
Qed.
Lemma low_lowest K KG j mu v : pencil K KG -> low (List.length K) (fm KG) (fm K) j mu v -> lowest K KG (map (fun k => -1 / mu k) (seq 0 j)).
Proof.
  intros Pn (P & O & S & Sel). set (n := List.length K) in *. destruct (pencil_parts K KG Pn) as [S1 S2 SM SA PM]. fold n in S1, S2, SM, SA, PM.
  exists (map (fun k => ls n (v k)) (seq 0 j)). split; [rewrite !map_length; reflexivity|].
  assert (Nth : forall {X} (f : nat -> X) i x, nth_error (map f (seq 0 j)) i = Some x -> (i < j)%nat /\ x = f i).
  { intros X f i x H. assert (Hi : (i < j)%nat). { assert (Q : nth_error (map f (seq 0 j)) i <> None) by congruence. apply nth_error_Some in Q. rewrite map_length, seq_length in Q. exact Q. }
    split; [exact Hi|]. rewrite (map_nth_error f i (seq 0 j) (d := i)) in H; [congruence|]. rewrite (nth_error_nth' (seq 0 j) 0%nat) by (rewrite seq_length; exact Hi). rewrite seq_nth by exact Hi. reflexivity. }
  split; [|split; [|split]].
  - intros i l x Hl Hx. destruct (Nth _ _ _ _ Hl) as (Hi & ->). destruct (Nth _ _ _ _ Hx) as (_ & ->). destruct (P i Hi) as (Hm & Pi). split; [apply neg_pos, Hm|].
    apply (pair_buckles K KG (mu i) _ Pn ltac:(lra)). apply pairf_gen; assumption.
  - intros i k x y N Hx Hy. destruct (Nth _ _ _ _ Hx) as (Hi & ->). destruct (Nth _ _ _ _ Hy) as (Hk & ->). rewrite (inner_bil n K S1) by apply ls_length.
    rewrite (bil_ext n (fm K) _ _ (v i) (v k)) by (intros; apply fn_ls; assumption). apply O; assumption.
  - assert (G : forall j s, (forall i k, (s <= i)%nat -> (i <= k)%nat -> (k < s + j)%nat -> -1 / mu i <= -1 / mu k) -> StronglySorted Rle (map (fun k => -1 / mu k) (seq s j))).
    { clear. induction j as [|j IH]; intros s H; [constructor|]. cbn [seq map]. constructor; [apply IH; intros; apply H; lia|]. apply Forall_forall. intros y Hy. apply in_map_iff in Hy. destruct Hy as (k & <- & Ik). apply in_seq in Ik. apply H; lia. }
    apply G. intros i k _ Hi Hk. apply (proj1 (neg_le (mu i) (mu k) (proj1 (P i ltac:(lia))) (proj1 (P k ltac:(lia))))). apply S; lia.
  - intros l x Hl B Or l' Il. apply in_map_iff in Il. destruct Il as (i & <- & Ii). apply in_seq in Ii. apply (buckles_pair K KG l x Pn ltac:(lra)) in B. destruct (gen_pairf n KG K _ _ S1 S2 B) as (Lx & Pf).
    assert (Hn := factor_neg l Hl). assert (Hi : (i < j)%nat) by lia. cut (mu i <= -1 / l); [intros Q; apply (proj1 (neg_le (mu i) (-1 / l) (proj1 (P i Hi)) Hn)) in Q; rewrite neg_twice in Q by lra; exact Q|]. apply (Sel _ _ Hn Pf); [|exact Hi].
    intros k Hk. assert (I : In (ls n (v k)) (map (fun k => ls n (v k)) (seq 0 j))) by (apply (in_map (fun k => ls n (v k))), in_seq; lia). specialize (Or _ I).
    rewrite (inner_bil n K S1) in Or by (apply ls_length || exact Lx). rewrite (bil_ext n (fm K) _ _ (v k) (fn x)) in Or by (intros; try apply fn_ls; auto). exact Or.
Qed.
Lemma cross t l : 0 < l -> (t < l <-> 0 < 1 + t * (-1 / l)) /\ (l <= t <-> 1 + t * (-1 / l) <= 0).
Proof.
  intros H. assert (E : l * (1 + t * (-1 / l)) = l - t) by (field; lra). split; split; intros L.
  - apply (Rmult_lt_reg_l l); [exact H|]. lra.
  - apply (Rmult_lt_compat_l l) in L; [|exact H]. lra.
  - apply (Rmult_le_reg_l l); [exact H|]. lra.
  - apply (Rmult_le_compat_l l) in L; [|lra]. lra.
Qed.
Lemma fn_error (l : list R) j x : nth_error l j = Some x -> (j < List.length l)%nat /\ fn l j = x.
Proof. intros H. split; [apply nth_error_Some; congruence|]. apply nth_error_nth, H. Qed.

(*@ C91: the lowest factors are determined by the energy (min-max principle): the one in place j, counted from 0, is the least multiple of the loads under
    which the energy is not positive on a space of j + 1 dimensions. @*)
Lemma t_C91_minmax : forall (K KG : list (list R)) fs j l, pencil K KG -> lowest K KG fs -> nth_error fs j = Some l ->
  unstable K KG l (Datatypes.S j) /\ forall t, 0 < t -> unstable K KG t (Datatypes.S j) -> l <= t.
Proof.
  intros K KG fs j l Pn Lw Hj. destruct (lowest_low K KG fs Pn Lw) as (v & L & Pos). destruct (pencil_parts K KG Pn) as [S1 S2 SM SA PM].
  destruct (fn_error fs j l Hj) as (Lj & El). split.
  - apply (unstable_fam K KG l _ Pn). exists v. apply (low_fam _ _ _ SM PM (List.length fs) (fun k => -1 / fn fs k) v (Datatypes.S j) l L Lj).
    intros i Hi. assert (Pi := Pos i ltac:(lia)). apply (proj2 (cross l (fn fs i) Pi)). assert (Pj := Pos j Lj). rewrite <- El.
    destruct L as (_ & _ & S & _). specialize (S i j ltac:(lia) Lj). apply (proj1 (neg_le _ _ (factor_neg _ Pi) (factor_neg _ Pj))) in S. rewrite !neg_twice in S by lra. exact S.
  - intros t Ht U. apply (unstable_fam K KG t _ Pn) in U. destruct U as (w & F). destruct (Rle_lt_dec l t) as [Q|Q]; [exact Q|exfalso].
    apply (low_none _ _ _ SA SM PM (List.length fs) (fun k => -1 / fn fs k) v j t (Datatypes.S j) w L Lj ltac:(lia) ltac:(lra)); [|exact F].
    rewrite El. apply (proj1 (cross t l ltac:(rewrite <- El; apply Pos, Lj))). exact Q.
Qed.
(*@ C91: conversely, if the energy is not positive on a space of j dimensions under t times the loads, there are j positive factors not above t. @*)
Lemma t_C91_exists : forall (K KG : list (list R)) t j, pencil K KG -> 0 < t -> unstable K KG t j ->
  exists fs, lowest K KG fs /\ List.length fs = j /\ Forall (fun l => l <= t) fs.
Proof.
  intros K KG t j Pn Ht U. apply (unstable_fam K KG t j Pn) in U. destruct U as (w & F). destruct (pencil_parts K KG Pn) as [S1 S2 SM SA PM].
  destruct (low_exists _ _ _ SA SM PM t j w Ht F) as (mu & v & L & T). exists (map (fun k => -1 / mu k) (seq 0 j)). split; [apply (low_lowest K KG j mu v Pn L)|].
  split; [rewrite map_length, seq_length; reflexivity|]. apply Forall_forall. intros l Il. apply in_map_iff in Il. destruct Il as (i & <- & Ii). apply in_seq in Ii.
  assert (Hm := proj1 (proj1 L i ltac:(lia))). apply (proj2 (cross t (-1 / mu i) (neg_pos _ Hm))). rewrite neg_twice by lra. apply T. lia.
Qed.
(*@ C91: two lists of lowest factors agree as far as both go. @*)
Lemma t_C91_unique : forall (K KG : list (list R)) fs fs' j l l', pencil K KG -> lowest K KG fs -> lowest K KG fs' -> nth_error fs j = Some l -> nth_error fs' j = Some l' -> l = l'.
Proof.
  intros K KG fs fs' j l l' Pn L L' H H'. destruct (t_C91_minmax K KG fs j l Pn L H) as (U & M). destruct (t_C91_minmax K KG fs' j l' Pn L' H') as (U' & M').
  assert (P : 0 < l). { destruct (lowest_low K KG fs Pn L) as (_ & _ & Q). destruct (fn_error _ _ _ H) as (Hj & <-). apply Q, Hj. }
  assert (P' : 0 < l'). { destruct (lowest_low K KG fs' Pn L') as (_ & _ & Q). destruct (fn_error _ _ _ H') as (Hj & <-). apply Q, Hj. }
  apply Rle_antisym; [apply M|apply M']; assumption.
Qed.
Lemma lowest_first K KG l fs : pencil K KG -> lowest K KG (l :: fs) -> smallest_factor K KG l.
Proof.
  intros Pn (vs & Lv & B & O & S & Sel). destruct vs as [|v vs]; [discriminate Lv|]. destruct (B 0%nat l v eq_refl eq_refl) as (Hl & Bl). split; [exact Hl|]. split; [exists v; exact Bl|].
  intros l' Hl' (x & Bx). destruct (classic (forall u, In u (v :: vs) -> inner K u x = 0)) as [Z|Z]; [apply (Sel l' x Hl' Bx Z l); left; reflexivity|].
  apply not_all_ex_not in Z. destruct Z as (u & Z). apply imply_to_and in Z. destruct Z as (Iu & Nu). destruct (In_nth_error _ _ Iu) as (k & Ek).
  assert (Hk : (k < List.length (l :: fs))%nat) by (rewrite <- Lv; apply nth_error_Some; congruence). assert (Ef := nth_error_nth' (l :: fs) 0 Hk). destruct (B k _ u Ef Ek) as (Pk & Bk).
  assert (E : nth k (l :: fs) 0 = l').
  { destruct (Req_dec (nth k (l :: fs) 0) l') as [Q|Q]; [exact Q|exfalso]. apply Nu. apply (pair_orth K KG (-1 / nth k (l :: fs) 0) (-1 / l') u x Pn); [apply buckles_pair; [exact Pn|lra|exact Bk]|apply buckles_pair; [exact Pn|lra|exact Bx]|].
    intros Eq. apply Q. rewrite <- (neg_twice (nth k (l :: fs) 0)), <- (neg_twice l'), Eq by lra. reflexivity. }
  rewrite <- E. inversion S as [|? ? _ F]; subst. destruct k as [|k]; [cbn; lra|]. cbn [nth]. rewrite Forall_forall in F. apply F, nth_In. cbn in Hk. lia.
Qed.
(*@ C91: the first of the lowest factors is the critical one. @*)
Lemma t_C91_first : forall (D : mat3) a b Nxx Nyy Nxy c c0 ca d0 db m n l fs, plate_any D a b c c0 ca d0 db ->
  lowest_factors D a b Nxx Nyy Nxy c m n (l :: fs) -> critical D a b Nxx Nyy Nxy c m n l.
Proof.
  intros D a b Nxx Nyy Nxy c c0 ca d0 db m n l fs P (K & KG & E & L). exists K, KG. split; [exact E|]. apply (lowest_first K KG l fs); [|exact L].
  destruct P as [Ha Hb Sy PD Sp Rs]. apply (t_C42_pencil D a b Nxx Nyy Nxy c c0 ca d0 db m n K KG Ha Hb Sy PD Sp Rs E).
Qed.
Lemma lowest_view D a b Nxx Nyy Nxy c m n idx K KG fs : view D a b Nxx Nyy Nxy c m n idx K KG ->
  (lowest_factors D a b Nxx Nyy Nxy c m n fs <-> lowest K KG fs).
Proof.
  intros V. split.
  - intros (K1 & G1 & H & S). assert (E := same_calc _ _ _ H (v_calc _ _ _ _ _ _ _ _ _ _ _ _ V)). injection E as -> ->. exact S.
  - intros S. exists K, KG. split; [apply V|exact S].
Qed.
(** if every space of one pencil gives one of another, the lowest factors are ordered *)
Lemma transfer K KG K' KG' fs : pencil K KG -> pencil K' KG' -> (forall t j, 0 < t -> unstable K KG t j -> unstable K' KG' t j) -> lowest K KG fs ->
  exists fs', lowest K' KG' fs' /\ Forall2 Rle fs' fs.
Proof.
  intros Pn Pn' T L. destruct (lowest_low K KG fs Pn L) as (_ & _ & Pos). destruct (List.length fs) as [|p] eqn:Lf.
  - destruct fs; [|discriminate]. exists []. split; [|constructor]. exists []. split; [reflexivity|]. split; [intros i ? ? H; destruct i; discriminate|]. split; [intros i ? ? ? _ H; destruct i; discriminate|]. split; [constructor|]. intros ? ? _ _ _ ? [].
  - assert (Hp : nth_error fs p = Some (fn fs p)) by (apply nth_error_nth'; lia). destruct (t_C91_minmax K KG fs p _ Pn L Hp) as (U & _).
    destruct (t_C91_exists K' KG' (fn fs p) (Datatypes.S p) Pn' (Pos p ltac:(lia)) (T _ _ (Pos p ltac:(lia)) U)) as (fs' & L' & Ln & _). exists fs'. split; [exact L'|].
    assert (X : forall j, (j < Datatypes.S p)%nat -> fn fs' j <= fn fs j).
    { intros j Hj. assert (Ej : nth_error fs j = Some (fn fs j)) by (apply nth_error_nth'; lia). assert (Ej' : nth_error fs' j = Some (fn fs' j)) by (apply nth_error_nth'; lia).
      destruct (t_C91_minmax K KG fs j _ Pn L Ej) as (Uj & _). destruct (t_C91_minmax K' KG' fs' j _ Pn' L' Ej') as (_ & M). apply M; [apply Pos; lia|]. apply T; [apply Pos; lia|exact Uj]. }
    clear - X Ln Lf. revert fs' Ln X. generalize dependent (Datatypes.S p). clear p. induction fs as [|x fs IH]; intros q Lf [|y fs'] Ln X; cbn in *; try lia; [constructor|]. constructor; [apply (X 0%nat); lia|].
    apply (IH (q - 1)%nat); [lia|lia|]. intros j Hj. apply (X (Datatypes.S j)). lia.
Qed.
(** coefficients in a larger family, linearly *)
Lemma pairc_sm p q : forall (idx : list (nat * nat)) v, List.length v = List.length idx ->
  pairc (combine idx v) p q = sm (List.length idx) (fun k => fn v k * (if (Nat.eqb (fst (nth k idx (0, 0)%nat)) p && Nat.eqb (snd (nth k idx (0, 0)%nat)) q)%bool then 1 else 0)).
Proof.
  induction idx as [|z idx IH]; intros [|x v] L; try discriminate L; [reflexivity|]. cbn [List.length]. rewrite sm_shift. cbn [combine]. unfold pairc in *. cbn [map rsum fst snd]. rewrite (IH v) by (cbn in L; lia).
  f_equal. unfold fn. cbn [nth]. destruct (Nat.eqb (fst z) p && Nat.eqb (snd z) q)%bool; ring.
Qed.
Lemma spread_comb idx idx' j c w i : (i < List.length idx')%nat ->
  fn (spread (combine idx (ls (List.length idx) (comb j c w))) idx') i = comb j c (fun k => fn (spread (combine idx (ls (List.length idx) (w k))) idx')) i.
Proof.
  intros Hi. assert (G : forall x, fn (spread (combine idx (ls (List.length idx) x)) idx') i = sm (List.length idx) (fun k => x k * (if (Nat.eqb (fst (nth k idx (0, 0)%nat)) (fst (nth i idx' (0, 0)%nat)) && Nat.eqb (snd (nth k idx (0, 0)%nat)) (snd (nth i idx' (0, 0)%nat)))%bool then 1 else 0))).
  { intros x. unfold fn at 1, spread. set (f := fun q : nat * nat => pairc (combine idx (ls (List.length idx) x)) (fst q) (snd q)). rewrite (nth_indep _ 0 (f (0, 0)%nat)) by (rewrite map_length; exact Hi). rewrite map_nth. unfold f. rewrite pairc_sm by apply ls_length. apply sm_ext. intros k Hk. rewrite fn_ls by exact Hk. reflexivity. }
  rewrite G. unfold comb. rewrite (sm_ext j _ (fun k => sm (List.length idx) (fun l => c k * w k l * (if (Nat.eqb (fst (nth l idx (0, 0)%nat)) (fst (nth i idx' (0, 0)%nat)) && Nat.eqb (snd (nth l idx (0, 0)%nat)) (snd (nth i idx' (0, 0)%nat)))%bool then 1 else 0)))).
  - rewrite sm_swap. apply sm_ext. intros l Hl. rewrite Rmult_comm, <- sm_scal. apply sm_ext. intros; ring.
  - intros k Hk. rewrite G, <- sm_scal. apply sm_ext. intros; ring.
Qed.
Lemma view_bil D a b Nxx Nyy Nxy c m n idx K KG t x : view D a b Nxx Nyy Nxy c m n idx K KG ->
  bil (m * n) (pen (fm K) (fm KG) t) x x = let w := combine_shapes a b (sw_idx idx) (ls (m * n) x) in bending D a b w w + t * load_work Nxx Nyy Nxy a b w w.
Proof.
  intros V. cbv zeta. destruct (pencil_parts K KG (v_pen _ _ _ _ _ _ _ _ _ _ _ _ V)) as [S1 S2 _ _ _]. rewrite (v_len _ _ _ _ _ _ _ _ _ _ _ _ V) in S1, S2.
  rewrite <- (v_K _ _ _ _ _ _ _ _ _ _ _ _ V), <- (v_G _ _ _ _ _ _ _ _ _ _ _ _ V), (quad_bil _ K S1), (quad_bil _ KG S2), bil_pen by apply ls_length.
  rewrite !(bil_ext _ _ (fn (ls (m * n) x)) (fn (ls (m * n) x)) x x) by (intros; apply fn_ls; assumption). reflexivity.
Qed.
Lemma refined_idx D a b Nxx Nyy Nxy c c0 ca d0 db m n c' c0' ca' d0' db' m' n' idx K KG idx' K' KG' :
  plate_any D a b c c0 ca d0 db -> plate_any D a b c' c0' ca' d0' db' -> softer c0' c0 -> softer ca' ca -> softer d0' d0 -> softer db' db ->
  (m + taken c0 + taken ca <= m' + taken c0' + taken ca')%nat -> (n + taken d0 + taken db <= n' + taken d0' + taken db')%nat ->
  view D a b Nxx Nyy Nxy c m n idx K KG -> view D a b Nxx Nyy Nxy c' m' n' idx' K' KG' -> incl (sw_idx idx) (sw_idx idx').
Proof.
  intros P P' S0 Sa T0 Tb Hm Hn V V'.
  destruct (named_struct c c0 ca d0 db m n (any_edges _ _ _ _ _ _ _ _ P)) as (i1 & fx & fy & E & Fx & Fy & RM).
  assert (Ei := same_calc _ _ _ E (v_idx _ _ _ _ _ _ _ _ _ _ _ _ V)). subst i1.
  destruct (named_struct c' c0' ca' d0' db' m' n' (any_edges _ _ _ _ _ _ _ _ P')) as (i2 & gx & gy & E' & Gx & Gy & RM').
  assert (Ei := same_calc _ _ _ E' (v_idx _ _ _ _ _ _ _ _ _ _ _ _ V')). subst i2.
  intros [i j] H. destruct (row_major_in _ _ _ _ _ RM H) as [Hi Hj]. apply (row_major_in_conv _ _ _ _ _ RM').
  - apply (first_incl c0 ca c0' ca' m m' fx gx S0 Sa Hm Fx Gx i Hi).
  - apply (first_incl d0 db d0' db' n n' fy gy T0 Tb Hn Fy Gy j Hj).
Qed.
(*@ C91: none of the lowest factors grows when shape functions are added or edges hold less; the refined plate has at least as many. @*)
Lemma t_C91_refine : forall (D : mat3) a b Nxx Nyy Nxy c c0 ca d0 db m n c' c0' ca' d0' db' m' n' fs,
  plate_any D a b c c0 ca d0 db -> plate_any D a b c' c0' ca' d0' db' ->
  softer c0' c0 -> softer ca' ca -> softer d0' d0 -> softer db' db ->
  (m + taken c0 + taken ca <= m' + taken c0' + taken ca')%nat -> (n + taken d0 + taken db <= n' + taken d0' + taken db')%nat ->
  lowest_factors D a b Nxx Nyy Nxy c m n fs -> exists fs', lowest_factors D a b Nxx Nyy Nxy c' m' n' fs' /\ Forall2 Rle fs' fs.
Proof.
  intros D a b Nxx Nyy Nxy c c0 ca d0 db m n c' c0' ca' d0' db' m' n' fs P P' S0 Sa T0 Tb Hm Hn C.
  destruct (look_any D a b Nxx Nyy Nxy c c0 ca d0 db m n P) as (idx & K & KG & V).
  destruct (look_any D a b Nxx Nyy Nxy c' c0' ca' d0' db' m' n' P') as (idx' & K' & KG' & V').
  assert (I := refined_idx _ _ _ _ _ _ _ _ _ _ _ _ _ _ _ _ _ _ _ _ _ _ _ _ _ _ P P' S0 Sa T0 Tb Hm Hn V V').
  assert (Pn := v_pen _ _ _ _ _ _ _ _ _ _ _ _ V). assert (Pn' := v_pen _ _ _ _ _ _ _ _ _ _ _ _ V').
  assert (LN := v_w _ _ _ _ _ _ _ _ _ _ _ _ V). assert (LN' := v_w _ _ _ _ _ _ _ _ _ _ _ _ V').
  apply (lowest_view _ _ _ _ _ _ _ _ _ _ _ _ _ V) in C. destruct (transfer K KG K' KG' fs Pn Pn') as (fs' & L' & F); [|exact C|exists fs'; split; [apply (lowest_view _ _ _ _ _ _ _ _ _ _ _ _ _ V'); exact L'|exact F]].
  intros t j Ht U. apply (unstable_fam K KG t j Pn) in U. destruct U as (w & Fm). apply (unstable_fam K' KG' t j Pn'). rewrite (v_len _ _ _ _ _ _ _ _ _ _ _ _ V) in Fm. rewrite (v_len _ _ _ _ _ _ _ _ _ _ _ _ V').
  exists (fun k => fn (spread (combine (sw_idx idx) (ls (m * n) (w k))) (sw_idx idx'))). intros q Nq. destruct (Fm q Nq) as (Nx & Ex).
  set (x := comb j q w) in *. set (y := spread (combine (sw_idx idx) (ls (m * n) x)) (sw_idx idx')).
  assert (Ly : List.length y = (m' * n')%nat) by (unfold y, spread; rewrite map_length; exact LN').
  assert (Lx : List.length (ls (m * n) x) = List.length (sw_idx idx)) by (rewrite ls_length; lia).
  assert (E : forall i, (i < m' * n')%nat -> fn y i = comb j q (fun k => fn (spread (combine (sw_idx idx) (ls (m * n) (w k))) (sw_idx idx'))) i).
  { intros i Hi. unfold y, x. rewrite <- LN. apply spread_comb. lia. }
  split.
  - apply (nz_ext _ _ _ E). apply (nonzero_nz _ y Ly). apply spread_nonzero; [apply V|exact I|exact Lx|].
    apply (nonzero_nz (m * n)); [apply ls_length|]. apply (nz_ext _ x); [intros; symmetry; apply fn_ls; assumption|exact Nx].
  - rewrite <- (bil_ext _ _ _ _ _ _ E E), (view_bil _ _ _ _ _ _ _ _ _ _ _ _ t (fn y) V'). cbv zeta.
    assert (Ey : ls (m' * n') (fn y) = y) by (apply (list_fn _ _ (m' * n')); [apply ls_length|exact Ly|intros; apply fn_ls; assumption]). rewrite Ey.
    unfold y. rewrite (spread_field a b (sw_idx idx) (sw_idx idx') _ (v_nodup _ _ _ _ _ _ _ _ _ _ _ _ V') I Lx).
    rewrite (view_bil _ _ _ _ _ _ _ _ _ _ _ _ t x V) in Ex. exact Ex.
Qed.
(*@ C91: nor does any of them grow when the bending stiffness is reduced or compression is added. @*)
Lemma t_C91_monotone : forall (D D' : mat3) a b Nxx Nyy Nxy Nxx' Nyy' Nxy' c c0 ca d0 db m n fs',
  plate_any D a b c c0 ca d0 db -> plate_any D' a b c c0 ca d0 db -> no_stiffer D D' ->
  no_compression (Nxx' - Nxx) (Nyy' - Nyy) (Nxy' - Nxy) ->
  lowest_factors D' a b Nxx' Nyy' Nxy' c m n fs' -> exists fs, lowest_factors D a b Nxx Nyy Nxy c m n fs /\ Forall2 Rle fs fs'.
Proof.
  intros D D' a b Nxx Nyy Nxy Nxx' Nyy' Nxy' c c0 ca d0 db m n fs' P P' HD HN C.
  destruct (look_any D a b Nxx Nyy Nxy c c0 ca d0 db m n P) as (idx & K & KG & V).
  destruct (look_any D' a b Nxx' Nyy' Nxy' c c0 ca d0 db m n P') as (idx' & K' & KG' & V').
  assert (E := same_calc _ _ _ (v_idx _ _ _ _ _ _ _ _ _ _ _ _ V) (v_idx _ _ _ _ _ _ _ _ _ _ _ _ V')). subst idx'.
  assert (Pn := v_pen _ _ _ _ _ _ _ _ _ _ _ _ V). assert (Pn' := v_pen _ _ _ _ _ _ _ _ _ _ _ _ V').
  apply (lowest_view _ _ _ _ _ _ _ _ _ _ _ _ _ V') in C. destruct (transfer K' KG' K KG fs' Pn' Pn) as (fs & L & F); [|exact C|exists fs; split; [apply (lowest_view _ _ _ _ _ _ _ _ _ _ _ _ _ V); exact L|exact F]].
  intros t j Ht U. apply (unstable_fam K' KG' t j Pn') in U. destruct U as (w & Fm). apply (unstable_fam K KG t j Pn). rewrite (v_len _ _ _ _ _ _ _ _ _ _ _ _ V') in Fm. rewrite (v_len _ _ _ _ _ _ _ _ _ _ _ _ V).
  exists w. intros q Nq. destruct (Fm q Nq) as (Nx & Ex). split; [exact Nx|]. rewrite (view_bil _ _ _ _ _ _ _ _ _ _ _ _ t _ V') in Ex. rewrite (view_bil _ _ _ _ _ _ _ _ _ _ _ _ t _ V). cbv zeta in *.
  set (z := combine_shapes a b (sw_idx idx) (ls (m * n) (comb j q w))) in *. assert (W : nice a b z) by apply nice_combine. destruct P as [Ha Hb _ _ _ _].
  assert (B := bending_le D D' a b z Ha Hb W HD). assert (G := load_le _ _ _ _ _ _ a b z Ha Hb W HN).
  assert (t * load_work Nxx Nyy Nxy a b z z <= t * load_work Nxx' Nyy' Nxy' a b z z) by (apply Rmult_le_compat_l; lra). lra.
Qed.

(** ** what a documented solver returns *)
Lemma answer_low n K KG k vals vecs j mu v : n = List.length K -> pencil K KG -> eigsh_result KG K k vals vecs -> low n (fm KG) (fm K) j mu v -> (j <= k)%nat -> (forall i, (i < j)%nat -> -1 <= mu i) ->
  forall i, (i < j)%nat -> fn vals i = mu i.
Proof.
  intros En Pn Er Lw Hk Hm. destruct (pencil_parts K KG Pn) as [S1 S2 SM SA PM]. rewrite <- En in S1, S2, SM, SA, PM.
  set (cf := fun i => match column vecs i with Ok x => fn x | Err _ => fun _ => 0 end). assert (Lv := er_count _ _ _ _ _ Er).
  assert (Cp : forall i, (i < k)%nat -> fn vals i <> 1 /\ pairf n (fm KG) (fm K) (fn vals i) (cf i) /\ exists x, column vecs i = Ok x /\ List.length x = n /\ cf i = fn x).
  { intros i Hi. destruct (er_pairs _ _ _ _ _ Er i (fn vals i)) as (N1 & x & Cx & Gx); [apply nth_error_nth'; lia|]. destruct (gen_pairf n KG K _ _ S1 S2 Gx) as (Lx & Px).
    split; [exact N1|]. unfold cf. rewrite Cx. split; [exact Px|]. exists x. auto. }
  assert (Co : orth n (fm K) k cf).
  { intros a b Ha Hb N. destruct (Cp a Ha) as (_ & _ & x & Cx & Lx & ->). destruct (Cp b Hb) as (_ & _ & y & Cy & Ly & ->). rewrite <- (inner_bil n K S1) by assumption. apply (er_orth _ _ _ _ _ Er a b); assumption. }
  assert (Sz : (k <= n)%nat) by (apply (too_many n (fm K) k cf PM Co); intros i Hi; apply (Cp i Hi)).
  assert (Srt : forall a b, (a <= b)%nat -> (b < k)%nat -> fn vals a <= fn vals b).
  { assert (S := er_sorted _ _ _ _ _ Er). clear - S Lv. rewrite <- Lv. clear Lv. induction S as [|x l S IH F]; intros a b Hab Hb; [cbn in Hb; lia|]. destruct b as [|b]; [replace a with 0%nat by lia; lra|]. destruct a as [|a].
    - rewrite Forall_forall in F. change (x <= nth b l 0). apply F, nth_In. cbn in Hb. lia.
    - apply (IH a b); cbn in Hb; lia. }
  assert (Sel : forall nu x, nu < 0 -> pairf n (fm KG) (fm K) nu x -> (forall i, (i < k)%nat -> bil n (fm K) (cf i) x = 0) -> forall i, (i < k)%nat -> Rabs (cayley (fn vals i)) <= Rabs (cayley nu)).
  { intros nu x Hn X Ox i Hi. apply (er_select _ _ _ _ _ Er nu (ls n x)); [apply pairf_gen; assumption|lra| |apply nth_In; lia].
    intros q u Hq Cu. destruct (Cp q Hq) as (_ & _ & u' & Cu' & Lu & Ec). assert (u' = u) by congruence. subst u'. rewrite (inner_bil n K S1) by (assumption || apply ls_length).
    rewrite (bil_ext n (fm K) _ _ (fn u) x) by (intros; try apply fn_ls; auto). rewrite <- Ec. apply Ox, Hq. }
  assert (Neg : forall i, (i < j)%nat -> fn vals i < 0).
  { intros i Hi. destruct (Rlt_le_dec (fn vals i) 0) as [Q|Q]; [exact Q|exfalso]. assert (Hm1 := proj1 (proj1 Lw (j - 1)%nat ltac:(lia))). set (t := -1 / mu (j - 1)%nat). assert (Ht := neg_pos _ Hm1). fold t in Ht.
    refine (no_family n (fm KG) (fm K) SA SM PM i (fn vals) cf t j v ltac:(lia) Hi _ _ _ _).
    - intros q Hq. apply Cp. lia.
    - intros a b Ha Hb. apply Co; lia.
    - intros nu x X Ox. destruct (Rlt_le_dec nu 0) as [N|N]; [exfalso|assert (0 <= t * nu) by (apply Rmult_le_pos; lra); lra].
      assert (All : forall q, (q < k)%nat -> bil n (fm K) (cf q) x = 0).
      { intros q Hq. destruct (le_lt_dec i q) as [G|G]; [|apply Ox, G]. assert (S := Srt i q G Hq). apply (pairf_orth n (fm KG) (fm K) (fn vals q) nu _ _ SA SM); [apply (Cp q Hq)|exact X|lra]. }
      assert (S := Sel nu x N X All i ltac:(lia)). rewrite <- (neg_twice nu) in S by lra. destruct (cayley_side _ _ (neg_pos nu N) (proj1 (Cp i ltac:(lia))) S) as (Q' & _). lra.
    - apply (low_fam n (fm KG) (fm K) SM PM j mu v j t Lw (le_n j)). intros q Hq. assert (mu q <= mu (j - 1)%nat) by (apply Lw; lia).
      assert (t * mu q <= t * mu (j - 1)%nat) by (apply Rmult_le_compat_l; lra). assert (t * mu (j - 1)%nat = -1) by (unfold t; field; lra). lra. }
  assert (Low : low n (fm KG) (fm K) j (fn vals) cf).
  { split; [intros i Hi; split; [apply Neg, Hi|apply Cp; lia]|]. split; [intros a b Ha Hb; apply Co; lia|]. split; [intros a b Ha Hb; apply Srt; lia|].
    intros nu x N X Ox i Hi. destruct (classic (forall q, (q < k)%nat -> bil n (fm K) (cf q) x = 0)) as [All|No].
    - assert (S := Sel nu x N X All i ltac:(lia)). rewrite <- (neg_twice nu) in S by lra. assert (Hl := neg_pos nu N). assert (Ni := Neg i Hi). assert (Hz := neg_pos _ Ni).
      destruct (cayley_side _ _ Hl (proj1 (Cp i ltac:(lia))) S) as (_ & Q).
      assert (G : forall nu x, nu < 0 -> pairf n (fm KG) (fm K) nu x -> -1 <= nu).
      { intros nu' x' N' X'. assert (L0 := low_le n (fm KG) (fm K) SA SM j mu v Lw nu' x' 0%nat N' X' ltac:(intros; lia) 0%nat (le_n 0) ltac:(lia)). assert (M0 := Hm 0%nat ltac:(lia)). lra. }
      assert (G1 := G nu x N X). assert (G2 := G (fn vals i) (cf i) Ni (proj1 (proj2 (Cp i ltac:(lia))))).
      assert (One : -1 / -1 = 1) by field.
      assert (L1 := proj1 (neg_le (-1) nu ltac:(lra) N) G1). assert (L2 := proj1 (neg_le (-1) (fn vals i) ltac:(lra) Ni) G2). rewrite One in L1, L2.
      apply (proj2 (neg_le (fn vals i) nu Ni N)). set (z := -1 / fn vals i) in *. set (l := -1 / nu) in *. rewrite !Rabs_left1 in Q by lra. lra.
    - apply not_all_ex_not in No. destruct No as (q & No). apply imply_to_and in No. destruct No as (Hq & Nq).
      assert (j <= q)%nat by (destruct (le_lt_dec j q); [assumption|exfalso; apply Nq, Ox; assumption]).
      destruct (Req_dec (fn vals q) nu) as [<-|Ne]; [apply Srt; lia|]. exfalso. apply Nq. apply (pairf_orth n (fm KG) (fm K) (fn vals q) nu); auto. apply (Cp q Hq). }
  intros i Hi. apply (low_unique n (fm KG) (fm K) SA SM PM j (fn vals) cf j mu v Low Lw i Hi Hi).
Qed.
(*@ C91: with a documented solver the analysis starts with the lowest positive factors, in ascending order and each as often as it has independent
    modes, as long as none of them is below one; all of them if there are as many as asked for. @*)
Lemma t_C91_reported : forall eigsh (t : tables RA) (D : @arr RA) a b Nxx Nyy Nxy c m n num (K KG : list (list R)) out vecs fs, documented eigsh ->
  calc_K_KG_D t D a b Nxx Nyy Nxy c m n = Ok (K, KG) -> pencil K KG -> lowest K KG fs -> Forall (fun l => 1 <= l) fs ->
  buckling_analysis eigsh t D a b Nxx Nyy Nxy c m n num = Ok (out, vecs) -> (List.length fs <= List.length out)%nat ->
  firstn (List.length fs) out = map Fin fs.
Proof.
  intros eigsh t D a b Nxx Nyy Nxy c m n num K KG out vecs fs Dc E Pn Lw F1 B Le.
  destruct (ba_result _ _ _ _ _ _ _ _ _ _ _ _ _ _ E _ _ Dc Pn B) as (vals & Pk & Er & ->). set (k := Z.to_nat (Z.min num (Z.of_nat (List.length KG) - 2))) in *.
  destruct (lowest_low K KG fs Pn Lw) as (v & L & Pos). assert (Lv := er_count _ _ _ _ _ Er). rewrite map_length in Le. rewrite Forall_forall in F1.
  assert (A := answer_low _ K KG k vals vecs _ _ v eq_refl Pn Er L ltac:(lia)). cbv beta in A. lapply A.
  - clear A. intros A. rewrite firstn_map. apply (nth_ext _ _ Infinite Infinite); [rewrite !map_length, firstn_length; lia|]. intros i Hi. rewrite map_length, firstn_length in Hi.
    assert (Hf : (i < List.length fs)%nat) by lia.
    rewrite (nth_indep (map neg_recip _) Infinite (neg_recip 0)) by (rewrite map_length, firstn_length; lia). rewrite (nth_indep (map Fin _) Infinite (Fin 0)) by (rewrite map_length; lia). rewrite !map_nth.
    replace (nth i (firstn (List.length fs) vals) 0) with (fn vals i).
    + rewrite A by exact Hf. assert (P1 := Pos i Hf). unfold neg_recip. destruct (Req_EM_T (-1 / fn fs i) 0) as [Z|_]; [assert (Q := factor_neg _ P1); lra|]. rewrite neg_twice by lra. reflexivity.
    + unfold fn. rewrite <- (firstn_skipn (List.length fs) vals) at 1. rewrite app_nth1 by (rewrite firstn_length; lia). reflexivity.
  - intros i Hi. assert (P1 : 1 <= fn fs i) by (apply F1, nth_In, Hi). assert (One : -1 / -1 = 1) by field. apply (proj2 (neg_le (-1) (-1 / fn fs i) ltac:(lra) (factor_neg (fn fs i) ltac:(lra)))). rewrite One, neg_twice by lra. exact P1.
Qed.
(** ** loads that compress every direction *)
Lemma over_in a b f g : 0 < a -> 0 < b -> (forall x y, 0 < x < a -> 0 < y < b -> f x y = g x y) -> over a b f = over a b g.
Proof.
  intros Ha Hb H. unfold over. apply RInt_ext. intros x Hx. rewrite Rmin_left, Rmax_right in Hx by lra. apply RInt_ext. intros y Hy. rewrite Rmin_left, Rmax_right in Hy by lra. apply H; assumption.
Qed.
Lemma compressed_neg D a b Nxx Nyy Nxy c c0 ca d0 db m n idx K KG cw : plate_any D a b c c0 ca d0 db -> view D a b Nxx Nyy Nxy c m n idx K KG -> compression Nxx Nyy Nxy ->
  List.length cw = (m * n)%nat -> nonzero cw -> quad_rows KG cw < 0.
Proof.
  intros P V (C1 & C2 & C3) L N. assert (Pd := pen_def _ _ (v_pen _ _ _ _ _ _ _ _ _ _ _ _ V) cw ltac:(rewrite L; symmetry; apply V) N).
  rewrite (v_K _ _ _ _ _ _ _ _ _ _ _ _ V) in Pd. rewrite (v_G _ _ _ _ _ _ _ _ _ _ _ _ V). set (w := combine_shapes a b (sw_idx idx) cw) in *. assert (W : nice a b w) by apply nice_combine.
  destruct P as [Ha Hb Sy PD Sp Rs].
  assert (Neg := load_add Nxx Nyy Nxy 0 0 0 a b w (-1) 0 Ha Hb W). replace (-1 * Nxx + 0 * 0) with (- Nxx) in Neg by ring. replace (-1 * Nyy + 0 * 0) with (- Nyy) in Neg by ring. replace (-1 * Nxy + 0 * 0) with (- Nxy) in Neg by ring.
  assert (NC : no_compression (- Nxx) (- Nyy) (- Nxy)) by (unfold no_compression; split; [lra|split; [lra|nra]]).
  assert (Q := over_nonneg a b (load_i (- Nxx) (- Nyy) (- Nxy) w) Ha Hb (nice_load _ _ _ _ _ _ W) ltac:(intros; apply form_nonneg, NC)). change (over a b (load_i (- Nxx) (- Nyy) (- Nxy) w)) with (load_work (- Nxx) (- Nyy) (- Nxy) a b w w) in Q.
  destruct (Rle_lt_or_eq_dec _ _ Q) as [Q'|Q']; [lra|exfalso].
  assert (Z := over_zero a b _ Ha Hb (nice_load a b _ _ _ w W) ltac:(intros; apply form_nonneg, NC) (eq_sym Q')).
  assert (Z' : forall x y, 0 < x < a -> 0 < y < b -> dx w x y = 0 /\ dy w x y = 0).
  { intros x y Hx Hy. specialize (Z x y Hx Hy). destruct (form_zero _ _ _ _ _ NC Z) as (E1 & E2). set (p := dx w x y) in *. set (q := dy w x y) in *.
    assert (Dt : 0 < Nxx * Nyy - Nxy ^ 2) by lra.
    assert (X1 : (Nxx * Nyy - Nxy ^ 2) * p = 0) by (transitivity (- Nyy * (- Nxx * p + - Nxy * q) + Nxy * (- Nxy * p + - Nyy * q)); [ring|rewrite E1, E2; ring]).
    assert (X2 : (Nxx * Nyy - Nxy ^ 2) * q = 0) by (transitivity (Nxy * (- Nxx * p + - Nxy * q) + - Nxx * (- Nxy * p + - Nyy * q)); [ring|rewrite E1, E2; ring]).
    apply Rmult_integral in X1. apply Rmult_integral in X2. destruct X1, X2; lra. }
  assert (Cv : forall x y, 0 < x < a -> 0 < y < b -> curvature w x y = vzero).
  { intros x y Hx Hy. assert (Lx : locally x (fun t => 0 < t < a)) by (apply (open_and (fun t => 0 < t) (fun t => t < a)); [apply open_gt|apply open_lt|exact Hx]).
    assert (Ly : locally y (fun t => 0 < t < b)) by (apply (open_and (fun t => 0 < t) (fun t => t < b)); [apply open_gt|apply open_lt|exact Hy]).
    assert (X1 : dx (dx w) x y = 0) by (unfold dx at 1; rewrite (Derive_ext_loc _ (fun _ => 0)); [apply Derive_const|revert Lx; apply filter_imp; intros t Ht; apply (Z' t y Ht Hy)]).
    assert (X2 : dy (dy w) x y = 0) by (unfold dy at 1; rewrite (Derive_ext_loc _ (fun _ => 0)); [apply Derive_const|revert Ly; apply filter_imp; intros t Ht; apply (Z' x t Hx Ht)]).
    assert (X3 : dx (dy w) x y = 0) by (unfold dx at 1; rewrite (Derive_ext_loc _ (fun _ => 0)); [apply Derive_const|revert Lx; apply filter_imp; intros t Ht; apply (Z' t y Ht Hy)]).
    unfold curvature, vzero. rewrite X1, X2, X3. f_equal; ring. }
  assert (B0 : bending D a b w w = 0).
  { unfold bending. rewrite (over_in a b _ (fun _ _ => 0) Ha Hb).
    - unfold over. rewrite !RInt_const. unfold scal. cbn. unfold mult. cbn. ring.
    - intros x y Hx Hy. rewrite (Cv x y Hx Hy). unfold dot, mvec, vzero. cbn. ring. }
  lra.
Qed.

Lemma all_low D a b Nxx Nyy Nxy c c0 ca d0 db m n idx K KG k : plate_any D a b c c0 ca d0 db -> view D a b Nxx Nyy Nxy c m n idx K KG -> compression Nxx Nyy Nxy -> (k <= m * n)%nat ->
  exists mu v, low (m * n) (fm KG) (fm K) k mu v.
Proof.
  intros P V C Hk. destruct (pencil_parts K KG (v_pen _ _ _ _ _ _ _ _ _ _ _ _ V)) as [S1 S2 SM SA PM]. rewrite (v_len _ _ _ _ _ _ _ _ _ _ _ _ V) in S1, S2, SM, SA, PM.
  destruct (sorted_basis _ _ _ SA SM PM) as (mu & v & Pv & O & S). exists mu, v. split; [|split; [intros i j Hi Hj; apply O; lia|split; [intros i j Hi Hj; apply S; lia|]]].
  - intros i Hi. split; [|apply Pv; lia]. assert (Pi := Pv i ltac:(lia)). assert (E := bil_pairf _ _ _ (v i) (v i) (mu i) Pi). assert (Q := PM (v i) (proj1 Pi)).
    assert (G : bil (m * n) (fm KG) (v i) (v i) < 0).
    { assert (X := compressed_neg D a b Nxx Nyy Nxy c c0 ca d0 db m n idx K KG (ls (m * n) (v i)) P V C (ls_length _ _)). rewrite (quad_bil _ KG S2) in X by apply ls_length.
      rewrite (bil_ext _ _ (fn (ls (m * n) (v i))) (fn (ls (m * n) (v i))) (v i) (v i)) in X by (intros; apply fn_ls; assumption). apply X.
      apply (nonzero_nz (m * n)); [apply ls_length|]. apply (nz_ext _ (v i)); [intros; symmetry; apply fn_ls; assumption|apply Pi]. }
    destruct (Rlt_le_dec (mu i) 0); [assumption|]. assert (0 <= mu i * bil (m * n) (fm K) (v i) (v i)) by (apply Rmult_le_pos; lra). lra.
  - intros nu x _ X Ox i Hi. destruct (complete _ _ _ mu v nu x SA SM PM Pv O X) as (q & Hq & Nq & <-).
    assert (k <= q)%nat by (destruct (le_lt_dec k q); [assumption|exfalso; apply Nq, Ox; assumption]). apply S; lia.
Qed.
(*@ C91: a plate compressed in every direction has as many positive factors as unknowns. @*)
Lemma t_C91_all : forall (D : mat3) a b Nxx Nyy Nxy c c0 ca d0 db m n k, plate_any D a b c c0 ca d0 db -> compression Nxx Nyy Nxy -> (k <= m * n)%nat ->
  exists fs, List.length fs = k /\ lowest_factors D a b Nxx Nyy Nxy c m n fs.
Proof.
  intros D a b Nxx Nyy Nxy c c0 ca d0 db m n k P C Hk. destruct (look_any D a b Nxx Nyy Nxy c c0 ca d0 db m n P) as (idx & K & KG & V).
  destruct (all_low D a b Nxx Nyy Nxy c c0 ca d0 db m n idx K KG k P V C Hk) as (mu & v & L). exists (map (fun k => -1 / mu k) (seq 0 k)). split; [rewrite map_length, seq_length; reflexivity|].
  apply (lowest_view _ _ _ _ _ _ _ _ _ _ _ _ _ V). apply (low_lowest K KG k mu v (v_pen _ _ _ _ _ _ _ _ _ _ _ _ V)). rewrite (v_len _ _ _ _ _ _ _ _ _ _ _ _ V). exact L.
Qed.
Lemma sorted_ge l fs : StronglySorted Rle (l :: fs) -> 1 <= l -> Forall (fun x => 1 <= x) (l :: fs).
Proof. intros S H. inversion S as [|? ? _ F]; subst. constructor; [exact H|]. eapply Forall_impl; [|exact F]. cbn. intros; lra. Qed.
(*@ C91: so for a plate that is compressed in every direction and does not buckle below its loads, the analysis returns exactly the lowest positive factors,
    in ascending order: no infinite one, no negative one, none left out. @*)
Lemma t_C91_list : forall eigsh (D : mat3) a b Nxx Nyy Nxy c c0 ca d0 db m n num out vecs, documented eigsh -> plate_any D a b c c0 ca d0 db -> compression Nxx Nyy Nxy ->
  (forall l, critical D a b Nxx Nyy Nxy c m n l -> 1 <= l) ->
  buckling_analysis eigsh exact_tables (as_arr D) a b Nxx Nyy Nxy c m n num = Ok (out, vecs) ->
  exists fs, out = map Fin fs /\ lowest_factors D a b Nxx Nyy Nxy c m n fs.
Proof.
  intros eigsh D a b Nxx Nyy Nxy c c0 ca d0 db m n num out vecs Dc P C H1 B. destruct (look_any D a b Nxx Nyy Nxy c c0 ca d0 db m n P) as (idx & K & KG & V).
  assert (E := v_calc _ _ _ _ _ _ _ _ _ _ _ _ V). assert (Pn := v_pen _ _ _ _ _ _ _ _ _ _ _ _ V).
  destruct (t_C59_count eigsh exact_tables (as_arr D) a b Nxx Nyy Nxy c m n num K KG Dc E) as (_ & Cnt). destruct (Cnt out vecs Pn B) as (Pk & Lo).
  destruct (t_C91_all D a b Nxx Nyy Nxy c c0 ca d0 db m n (List.length out) P C ltac:(lia)) as (fs & Lf & Lw). exists fs. split; [|exact Lw].
  assert (Lw' := proj1 (lowest_view _ _ _ _ _ _ _ _ _ _ _ _ _ V) Lw).
  rewrite <- (t_C91_reported eigsh exact_tables (as_arr D) a b Nxx Nyy Nxy c m n num K KG out vecs fs Dc E Pn Lw'); [rewrite Lf; symmetry; apply firstn_all| |exact B|lia].
  destruct fs as [|l fs]; [constructor|]. apply sorted_ge; [destruct Lw' as (vs & _ & _ & _ & S & _); exact S|]. apply H1. apply (t_C91_first D a b Nxx Nyy Nxy c c0 ca d0 db m n l fs P Lw).
Qed.
(*@ C91: and none of the reported factors grows under refinement. @*)
Lemma t_C91_reported_refine : forall eigsh (D : mat3) a b Nxx Nyy Nxy c c0 ca d0 db m n c' c0' ca' d0' db' m' n' num num' out vecs out' vecs' j x x',
  documented eigsh -> plate_any D a b c c0 ca d0 db -> plate_any D a b c' c0' ca' d0' db' -> compression Nxx Nyy Nxy ->
  softer c0' c0 -> softer ca' ca -> softer d0' d0 -> softer db' db ->
  (m + taken c0 + taken ca <= m' + taken c0' + taken ca')%nat -> (n + taken d0 + taken db <= n' + taken d0' + taken db')%nat ->
  (forall l, critical D a b Nxx Nyy Nxy c' m' n' l -> 1 <= l) ->
  buckling_analysis eigsh exact_tables (as_arr D) a b Nxx Nyy Nxy c m n num = Ok (out, vecs) ->
  buckling_analysis eigsh exact_tables (as_arr D) a b Nxx Nyy Nxy c' m' n' num' = Ok (out', vecs') ->
  nth_error out j = Some x -> nth_error out' j = Some x' -> exists l l', x = Fin l /\ x' = Fin l' /\ l' <= l.
Proof.
  intros eigsh D a b Nxx Nyy Nxy c c0 ca d0 db m n c' c0' ca' d0' db' m' n' num num' out vecs out' vecs' j x x' Dc P P' C S0 Sa T0 Tb Hm Hn H1 B B' Hx Hx'.
  destruct (t_C91_list eigsh D a b Nxx Nyy Nxy c' c0' ca' d0' db' m' n' num' out' vecs' Dc P' C H1 B') as (fs' & -> & L').
  assert (H1' : forall l, critical D a b Nxx Nyy Nxy c m n l -> 1 <= l).
  { intros l Cl. destruct (t_C65_refine D a b Nxx Nyy Nxy c c0 ca d0 db m n c' c0' ca' d0' db' m' n' l P P' S0 Sa T0 Tb Hm Hn Cl) as (l' & Cl' & Le). specialize (H1 l' Cl'). lra. }
  destruct (t_C91_list eigsh D a b Nxx Nyy Nxy c c0 ca d0 db m n num out vecs Dc P C H1' B) as (fs & -> & L).
  destruct (t_C91_refine D a b Nxx Nyy Nxy c c0 ca d0 db m n c' c0' ca' d0' db' m' n' fs P P' S0 Sa T0 Tb Hm Hn L) as (gs & G & F).
  rewrite nth_error_map in Hx, Hx'. destruct (nth_error fs j) as [l|] eqn:El; [|discriminate]. destruct (nth_error fs' j) as [l'|] eqn:El'; [|discriminate]. exists l, l'. split; [cbn in Hx; congruence|]. split; [cbn in Hx'; congruence|].
  assert (X : exists g, nth_error gs j = Some g /\ g <= l).
  { clear - F El. revert j El. induction F as [|y z gs fs Yz F IH]; intros j El; [destruct j; discriminate|]. destruct j as [|j]; cbn in El |- *; [exists y; split; [reflexivity|congruence]|apply IH, El]. }
  destruct X as (g & Eg & Le). destruct (look_any D a b Nxx Nyy Nxy c' c0' ca' d0' db' m' n' P') as (idx' & K' & KG' & V').
  apply (lowest_view _ _ _ _ _ _ _ _ _ _ _ _ _ V') in L', G. rewrite (t_C91_unique K' KG' fs' gs j l' g (v_pen _ _ _ _ _ _ _ _ _ _ _ _ V') L' G El' Eg). exact Le.
Qed.

(** ** examples *)
Definition K_ex : list (list R) := [[1; 0; 0]; [0; 1; 0]; [0; 0; 1]].
Definition G_ex : list (list R) := [[-1/2; 0; 0]; [0; 1; 0]; [0; 0; -1/2]].
Lemma pencil_ex : pencil K_ex G_ex.
Proof.
  constructor.
  - split; [reflexivity|repeat constructor].
  - split; [reflexivity|repeat constructor].
  - intros [|[|[|i]]] [|[|[|j]]]; cbn; try reflexivity; try (destruct i; reflexivity); try (destruct j; reflexivity); destruct i, j; reflexivity.
  - intros [|[|[|i]]] [|[|[|j]]]; cbn; try reflexivity; try (destruct i; reflexivity); try (destruct j; reflexivity); destruct i, j; reflexivity.
  - intros c L N. destruct c as [|x [|y [|z [|? ?]]]]; try discriminate L. unfold quad_rows, dot_list. cbn. unfold nonzero in N. assert (x <> 0 \/ y <> 0 \/ z <> 0) by (inversion N as [|? ? N1]; subst; [auto|]; inversion N1 as [|? ? N2]; subst; [auto|]; inversion N2 as [|? ? N3]; subst; [auto|]; inversion N3).
    assert (0 < x * x + y * y + z * z); [|lra]. assert (X := Rle_0_sqr x). assert (Y := Rle_0_sqr y). assert (Z := Rle_0_sqr z). unfold Rsqr in *.
    destruct H as [H|[H|H]]; apply Rsqr_pos_lt in H; unfold Rsqr in H; lra.
Qed.
(*@ C91 example: a factor with two independent modes is listed twice. @*)
Lemma t_C91_ex_lowest : pencil [[1; 0; 0]; [0; 1; 0]; [0; 0; 1]] [[-1/2; 0; 0]; [0; 1; 0]; [0; 0; -1/2]] /\
  lowest [[1; 0; 0]; [0; 1; 0]; [0; 0; 1]] [[-1/2; 0; 0]; [0; 1; 0]; [0; 0; -1/2]] [2; 2].
Proof.
  split; [exact pencil_ex|]. exists [[1; 0; 0]; [0; 0; 1]]. split; [reflexivity|]. split; [|split; [|split]].
  - intros [|[|i]] l v Hl Hv; cbn in Hl, Hv; try (destruct i; discriminate); assert (l = 2) by congruence; subst l; (split; [lra|]).
    + assert (v = [1; 0; 0]) by congruence. subst v. split; [reflexivity|]. split; [apply Exists_cons_hd; lra|]. unfold mat_vec, dot_list. cbn. repeat f_equal; lra.
    + assert (v = [0; 0; 1]) by congruence. subst v. split; [reflexivity|]. split; [do 2 apply Exists_cons_tl; apply Exists_cons_hd; lra|]. unfold mat_vec, dot_list. cbn. repeat f_equal; lra.
  - intros [|[|i]] [|[|j]] u v N Hu Hv; cbn in Hu, Hv; try (destruct i; discriminate); try (destruct j; discriminate); try lia; assert (E1 := f_equal (fun o => match o with Some x => x | None => [] end) Hu); assert (E2 := f_equal (fun o => match o with Some x => x | None => [] end) Hv); cbn in E1, E2; subst u v; unfold inner, mat_vec, dot_list; cbn; lra.
  - constructor; [constructor; [constructor|constructor]|]. constructor; [lra|constructor].
  - intros l v Hl (Lv & Nv & E) Or l' I. exfalso. destruct v as [|x [|y [|z [|? ?]]]]; try discriminate Lv. unfold mat_vec, dot_list in E. cbn in E.
    assert (O1 := Or _ (or_introl eq_refl)). assert (O2 := Or _ (or_intror (or_introl eq_refl))). unfold inner, mat_vec, dot_list in O1, O2. cbn in O1, O2.
    assert (E2 := f_equal (fun q => nth 1 q 0) E). cbn in E2. assert (Y : (1 + l) * y = 0) by lra. apply Rmult_integral in Y.
    unfold nonzero in Nv. rewrite Exists_exists in Nv. destruct Nv as (q & Iq & Nq). cbn in Iq. destruct Iq as [<-|[<-|[<-|[]]]]; lra.
Qed.
Definition G22b : list (list R) := [[-32/1575; 16/1575; 16/1575; -2/525]; [16/1575; -32/1575; -2/525; 16/1575]; [16/1575; -2/525; -32/1575; 16/1575]; [-2/525; 16/1575; 16/1575; -32/1575]].
Lemma pinned22b : calc_K_KG_D exact_tables (as_arr mid) 2 2 (-8) (-8) 0 (CStr "PINNED") 2 2 = Ok (K22, G22b).
Proof.
  assert (Ec : exists idx, compute_constraints (CStr "PINNED") 2 2 = Ok idx /\ sw_idx idx = [(1, 1); (1, 3); (3, 1); (3, 3)]%nat).
  { eexists. split; [vm_compute; reflexivity|reflexivity]. }
  destruct Ec as (idx & Ec & Es). rewrite (exact_fwd mid 2 2 (-8) (-8) 0 _ _ _ idx ltac:(lra) ltac:(lra) Ec).
  rewrite Es. cbn [map]. unfold kx, kGf, k33f, exact_e. cbn [fst snd e00 e10 e11 e20 e21 e22].
  destruct ints13_ok as (-> & -> & -> & -> & -> & -> & -> & -> & -> & -> & -> & ->). cbn [mid a11 a21 a22 a31 a32 a33].
  unfold K22, G22b. apply Ok_pair; repeat (apply f_equal2; [try lra; repeat (apply f_equal2; [lra|]); reflexivity|]); reflexivity.
Qed.
Lemma pencil22b : pencil K22 G22b.
Proof. apply (t_C42_pencil mid 2 2 (-8) (-8) 0 (CStr "PINNED") Pinned Pinned Pinned Pinned 2 2); try apply T_Perturb.pinned_ok; exact pinned22b. Qed.
Lemma some_inj {X} (x y d : X) : Some x = Some y -> x = y.
Proof. intros H. congruence. Qed.
Lemma lowest22b : lowest K22 G22b [1; 135/52; 135/52; 9/2].
Proof.
  exists [[1; -1; -1; 1]; [1; -1; 1; -1]; [1; 1; -1; -1]; [1; 1; 1; 1]]. split; [reflexivity|]. split; [|split; [|split]].
  - intros [|[|[|[|i]]]] l v Hl Hv; cbn [nth_error] in Hl, Hv; try (destruct i; discriminate); apply some_inj in Hl; try exact 0; apply some_inj in Hv; try exact []; subst l v; (split; [lra|]); (split; [reflexivity|]); (split; [left; lra|]);
      unfold K22, G22b; cbv [mat_vec dot_list map map2 rsum length repeat]; repeat (apply f_equal2; [field|]); reflexivity.
  - intros [|[|[|[|i]]]] [|[|[|[|j]]]] u v N Hu Hv; cbn [nth_error] in Hu, Hv; try (destruct i; discriminate); try (destruct j; discriminate); try lia; apply some_inj in Hu; try exact []; apply some_inj in Hv; try exact []; subst u v;
      unfold K22; cbv [inner mat_vec dot_list map map2 rsum]; field.
  - repeat (constructor; [|repeat (constructor; try lra)]); constructor.
  - intros l v Hl (Lv & Nv & E) Or l' I. exfalso. destruct (four v Lv) as (x & y & z & t & ->).
    assert (O1 := Or _ (or_introl eq_refl)). assert (O2 := Or _ (or_intror (or_introl eq_refl))). assert (O3 := Or _ (or_intror (or_intror (or_introl eq_refl)))). assert (O4 := Or _ (or_intror (or_intror (or_intror (or_introl eq_refl))))).
    unfold K22 in O1, O2, O3, O4. cbv [inner mat_vec dot_list map map2 rsum] in O1, O2, O3, O4.
    unfold nonzero in Nv. rewrite Exists_exists in Nv. destruct Nv as (q & Iq & Nq). cbn in Iq. destruct Iq as [<-|[<-|[<-|[<-|[]]]]]; lra.
Qed.
(*@ C91 example: a square pinned plate under equal compression in both directions has the factors 1, 135/52 twice, and 9/2; whatever the documented solver,
    the analysis reports the two lowest (it is asked for no more than m n - 2), and there is such a solver. @*)
Lemma t_C91_ex : plate_any mid 2 2 (CStr "PINNED") Pinned Pinned Pinned Pinned /\ compression (-8) (-8) 0 /\
  lowest_factors mid 2 2 (-8) (-8) 0 (CStr "PINNED") 2 2 [1; 135/52; 135/52; 9/2] /\
  (forall eigsh out vecs, documented eigsh -> buckling_analysis eigsh exact_tables (as_arr mid) 2 2 (-8) (-8) 0 (CStr "PINNED") 2 2 5 = Ok (out, vecs) -> out = [Fin 1; Fin (135/52)]) /\
  exists eigsh out vecs, documented eigsh /\ buckling_analysis eigsh exact_tables (as_arr mid) 2 2 (-8) (-8) 0 (CStr "PINNED") 2 2 5 = Ok (out, vecs).
Proof.
  assert (P : plate_any mid 2 2 (CStr "PINNED") Pinned Pinned Pinned Pinned) by exact (ok_any _ _ _ _ _ _ _ _ _ _ T_Perturb.pinned_ok).
  assert (C : compression (-8) (-8) 0) by (unfold compression; lra).
  assert (L : lowest_factors mid 2 2 (-8) (-8) 0 (CStr "PINNED") 2 2 [1; 135/52; 135/52; 9/2]) by (exists K22, G22b; split; [exact pinned22b|exact lowest22b]).
  split; [exact P|]. split; [exact C|]. split; [exact L|]. split.
  - intros eigsh out vecs Dc B. destruct (t_C91_list eigsh mid 2 2 (-8) (-8) 0 _ _ _ _ _ 2 2 5 out vecs Dc P C) as (fs & -> & Lf).
    + intros l (K & KG & E & Hl & F & _). destruct (t_C91_first _ _ _ _ _ _ _ _ _ _ _ _ _ _ _ P L) as (K' & KG' & E' & _ & _ & M). assert (Q := same_calc _ _ _ E E').
      assert (X := f_equal fst Q). assert (Y := f_equal snd Q). cbn [fst snd] in X, Y. subst K' KG'. apply M; assumption.
    + exact B.
    + destruct (t_C59_count eigsh exact_tables (as_arr mid) 2 2 (-8) (-8) 0 (CStr "PINNED") 2 2 5 K22 G22b Dc pinned22b) as (_ & Cnt). destruct (Cnt _ _ pencil22b B) as (_ & Lo). rewrite map_length in Lo. change (List.length fs = 2%nat) in Lo.
      destruct Lf as (K & KG & E & Lf). assert (Q := same_calc _ _ _ E pinned22b). assert (X := f_equal fst Q). assert (Y := f_equal snd Q). cbn [fst snd] in X, Y. subst K KG.
      destruct fs as [|f [|g [|? ?]]]; try discriminate Lo. rewrite (t_C91_unique K22 G22b [f; g] _ 0%nat f 1 pencil22b Lf lowest22b eq_refl eq_refl). rewrite (t_C91_unique K22 G22b [f; g] _ 1%nat g (135/52) pencil22b Lf lowest22b eq_refl eq_refl). reflexivity.
  - destruct (t_C74_analysis mid 2 2 (-8) (-8) 0 _ _ _ _ _ 2 2 5 T_Perturb.pinned_ok ltac:(lia) ltac:(lia)) as (eigsh & out & vecs & De & B & _); [unfold no_compression; lra|]. exists eigsh, out, vecs. split; assumption.
Qed.
