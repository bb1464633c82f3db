(** The buckling problem on lists and on functions. *)
From Coq Require Import Reals ZArith Lra Lia Sorting.Sorted.
From Coq Require Import List.
From Verif Require Import M_Py M_K M_RealArith M_Plot M_Buckling S_K S_Mat S_Ritz S_Eigen L_Quad.
Import ListNotations.
Open Scope R_scope.

Definition fn (v : list R) (i : nat) : R := nth i v 0.
Definition fm (M : list (list R)) (i j : nat) : R := nth j (nth i M []) 0.
Definition ls (n : nat) (x : nat -> R) : list R := map x (seq 0 n).
Lemma fn_ls n x i : (i < n)%nat -> fn (ls n x) i = x i.
Proof.
  intros H. unfold fn, ls. rewrite (nth_indep _ 0 (x 0%nat)) by (rewrite map_length, seq_length; exact H). rewrite map_nth, seq_nth by exact H. reflexivity.
Qed.
Lemma ls_length n x : length (ls n x) = n.
Proof. unfold ls. rewrite map_length, seq_length. reflexivity. Qed.
Lemma sm_shift n f : sm (S n) f = f 0%nat + sm n (fun i => f (S i)).
Proof. induction n as [|n IH]; [cbn [sm]; ring|]. change (sm (S (S n)) f) with (sm (S n) f + f (S n)). rewrite IH. cbn [sm]. ring. Qed.
Lemma dot_sm : forall n u v, length u = n -> length v = n -> dot_list u v = sm n (fun i => fn u i * fn v i).
Proof.
  induction n as [|n IH]; intros [|x u] [|y v] Hu Hv; try discriminate; [reflexivity|].
  rewrite sm_shift. unfold dot_list. cbn [map2 rsum fn nth]. change (rsum (map2 Rmult u v)) with (dot_list u v).
  rewrite IH by (cbn in *; lia). reflexivity.
Qed.
Section N.
Variables (n : nat) (M : list (list R)).
Hypothesis Sq : square n M.
Lemma row_len i : (i < n)%nat -> length (nth i M []) = n.
Proof.
  intros H. destruct Sq as [L F]. rewrite Forall_forall in F. apply F, nth_In. rewrite L. exact H.
Qed.
Lemma mat_vec_length v : length (mat_vec M v) = n.
Proof. unfold mat_vec. rewrite map_length. apply Sq. Qed.
Lemma mat_vec_at v i : length v = n -> (i < n)%nat -> fn (mat_vec M v) i = app n (fm M) (fn v) i.
Proof.
  intros Hv Hi. unfold fn, mat_vec. rewrite (nth_indep _ 0 (dot_list [] v)) by (rewrite map_length, (proj1 Sq); exact Hi).
  rewrite (map_nth (fun row => dot_list row v)). rewrite (dot_sm n) by (exact Hv || apply row_len, Hi). reflexivity.
Qed.
Lemma inner_bil u v : length u = n -> length v = n -> inner M u v = bil n (fm M) (fn u) (fn v).
Proof.
  intros Hu Hv. unfold inner. rewrite (dot_sm n) by (exact Hu || apply mat_vec_length). apply sm_ext. intros i Hi. rewrite mat_vec_at by assumption. reflexivity.
Qed.
Lemma quad_bil c : length c = n -> quad_rows M c = bil n (fm M) (fn c) (fn c).
Proof. intros H. apply (inner_bil c c H H). Qed.
Lemma entry_fm i j : (i < n)%nat -> (j < n)%nat -> entry M i j = Some (fm M i j).
Proof.
  intros Hi Hj. unfold entry, fm. assert (L := row_len i Hi). rewrite (nth_error_nth' M []) by (rewrite (proj1 Sq); exact Hi).
  apply nth_error_nth'. rewrite L. exact Hj.
Qed.
Lemma sym_f : sym_rows M -> symf n (fm M).
Proof. intros S i j Hi Hj. specialize (S i j). rewrite !entry_fm in S by assumption. congruence. Qed.
End N.
Lemma nonzero_nz n v : length v = n -> (nonzero v <-> nz n (fn v)).
Proof.
  intros L. unfold nonzero, nz. rewrite Exists_exists. split.
  - intros (x & I & N). destruct (In_nth _ _ 0 I) as (i & Hi & E). exists i. split; [lia|]. unfold fn. rewrite E. exact N.
  - intros (i & Hi & N). exists (fn v i). split; [apply nth_In; lia|exact N].
Qed.
Lemma pos_f n M : square n M -> (pos_def_rows M <-> pdf n (fm M)).
Proof.
  intros Sq. unfold pos_def_rows, pdf. rewrite (proj1 Sq). split.
  - intros P x Nx. specialize (P (ls n x) (ls_length n x)). rewrite (quad_bil n M Sq) in P by apply ls_length.
    rewrite (bil_ext n (fm M) _ _ x x) in P by (intros; apply fn_ls; assumption). apply P.
    rewrite (nonzero_nz n) by apply ls_length. destruct Nx as (i & Hi & N). exists i. split; [exact Hi|]. rewrite fn_ls by exact Hi. exact N.
  - intros P c L N. rewrite (quad_bil n M Sq) by exact L. apply P. apply nonzero_nz; assumption.
Qed.
Lemma list_fn (u v : list R) n : length u = n -> length v = n -> (forall i, (i < n)%nat -> fn u i = fn v i) -> u = v.
Proof. intros Hu Hv H. apply (nth_ext _ _ 0 0); [congruence|]. intros i Hi. apply H. lia. Qed.
Lemma fn_map2 (f : R -> R -> R) u v n i : length u = n -> length v = n -> (i < n)%nat -> fn (map2 f u v) i = f (fn u i) (fn v i).
Proof.
  revert u v i. induction n as [|n IH]; intros [|x u] [|y v] i Hu Hv Hi; try discriminate; [lia|].
  destruct i as [|i]; [reflexivity|]. cbn [map2]. unfold fn in *. cbn [nth]. apply IH; cbn in *; lia.
Qed.
Lemma map2_length (f : R -> R -> R) (u v : list R) : length u = length v -> length (map2 f u v) = length u.
Proof. revert v. induction u as [|x u IH]; intros [|y v] H; try discriminate; [reflexivity|]. cbn in *. rewrite IH by lia. reflexivity. Qed.
Lemma buckles_f n K KG l v : square n K -> square n KG ->
  (buckles K KG l v <-> length v = n /\ nz n (fn v) /\ forall i, (i < n)%nat -> app n (fm K) (fn v) i + l * app n (fm KG) (fn v) i = 0).
Proof.
  intros S1 S2. unfold buckles. rewrite (proj1 S1). split.
  - intros (L & N & E). split; [exact L|]. split; [apply nonzero_nz; assumption|]. intros i Hi.
    rewrite <- (mat_vec_at n K S1), <- (mat_vec_at n KG S2) by assumption.
    rewrite <- (fn_map2 (fun k g => k + l * g) _ _ n) by (exact Hi || (apply mat_vec_length; assumption)). rewrite E. unfold fn. apply nth_repeat.
  - intros (L & N & E). split; [exact L|]. split; [apply (nonzero_nz n); assumption|].
    apply (list_fn _ _ n).
    + rewrite map2_length by (rewrite !(mat_vec_length n) by assumption; reflexivity). apply mat_vec_length; assumption.
    + apply repeat_length.
    + intros i Hi. rewrite (fn_map2 _ _ _ n) by (exact Hi || (apply mat_vec_length; assumption)). rewrite !(mat_vec_at n) by assumption.
      rewrite E by exact Hi. unfold fn. rewrite nth_repeat. reflexivity.
Qed.
Lemma gen_pair_f n A M mu v : square n M -> square n A ->
  (gen_pair A M mu v <-> length v = n /\ nz n (fn v) /\ forall i, (i < n)%nat -> app n (fm A) (fn v) i = mu * app n (fm M) (fn v) i).
Proof.
  intros S1 S2. unfold gen_pair. rewrite (proj1 S1). split.
  - intros (L & N & E). split; [exact L|]. split; [apply nonzero_nz; assumption|]. intros i Hi.
    rewrite <- (mat_vec_at n A S2), <- (mat_vec_at n M S1) by assumption. rewrite E. unfold fn.
    rewrite (nth_indep _ 0 (mu * 0)) by (rewrite map_length, (mat_vec_length n M S1); exact Hi). apply map_nth.
  - intros (L & N & E). split; [exact L|]. split; [apply (nonzero_nz n); assumption|].
    apply (list_fn _ _ n).
    + apply mat_vec_length; assumption.
    + rewrite map_length. apply mat_vec_length; assumption.
    + intros i Hi. rewrite (mat_vec_at n A S2) by assumption. rewrite E by exact Hi. unfold fn at 2.
      rewrite (nth_indep _ 0 (mu * 0)) by (rewrite map_length, (mat_vec_length n M S1); exact Hi). rewrite map_nth.
      change (nth i (mat_vec M v) 0) with (fn (mat_vec M v) i). rewrite (mat_vec_at n M S1) by assumption. reflexivity.
Qed.

(** eigenpairs and buckling modes *)
Lemma pair_buckles K KG mu v : pencil K KG -> mu <> 0 -> (gen_pair KG K mu v <-> buckles K KG (-1 / mu) v).
Proof.
  intros [S1 S2 _ _ _] Hm. rewrite (gen_pair_f (length K)), (buckles_f (length K)) by assumption.
  split; intros (L & N & E); (split; [exact L|]; split; [exact N|]); intros i Hi; specialize (E i Hi).
  - rewrite E. field. exact Hm.
  - assert (Q : app (length K) (fm KG) (fn v) i = mu * (app (length K) (fm K) (fn v) i + -1 / mu * app (length K) (fm KG) (fn v) i) + app (length K) (fm KG) (fn v) i
      - mu * app (length K) (fm K) (fn v) i + mu * app (length K) (fm K) (fn v) i - mu * (app (length K) (fm K) (fn v) i + -1 / mu * app (length K) (fm KG) (fn v) i)) by ring.
    assert (P : mu * (app (length K) (fm K) (fn v) i + -1 / mu * app (length K) (fm KG) (fn v) i) = mu * app (length K) (fm K) (fn v) i - app (length K) (fm KG) (fn v) i) by (field; exact Hm).
    rewrite E in P. lra.
Qed.
Lemma buckles_pair K KG l v : pencil K KG -> l <> 0 -> buckles K KG l v -> gen_pair KG K (-1 / l) v.
Proof.
  intros P Hl B. apply (pair_buckles K KG _ v P).
  - unfold Rdiv. apply Rmult_integral_contrapositive_currified; [lra|apply Rinv_neq_0_compat; exact Hl].
  - replace (-1 / (-1 / l)) with l by (field; exact Hl). exact B.
Qed.
Lemma bil_app_l n M x y c : (forall i, (i < n)%nat -> app n M y i = c i) -> bil n M x y = sm n (fun i => x i * c i).
Proof. intros H. apply sm_ext. intros i Hi. rewrite H by exact Hi. reflexivity. Qed.
Lemma bil_pair n A M x y mu : (forall i, (i < n)%nat -> app n A y i = mu * app n M y i) -> bil n A x y = mu * bil n M x y.
Proof. intros H. unfold bil. rewrite <- sm_scal. apply sm_ext. intros i Hi. rewrite H by exact Hi. ring. Qed.
(** eigenvectors of different eigenvalues are K-orthogonal *)
Lemma pair_orth K KG mu nu u v : pencil K KG -> gen_pair KG K mu u -> gen_pair KG K nu v -> mu <> nu -> inner K u v = 0.
Proof.
  intros [S1 S2 S3 S4 _] U V N. set (n := length K) in *.
  apply (gen_pair_f n _ _ _ _ S1 S2) in U. apply (gen_pair_f n _ _ _ _ S1 S2) in V. destruct U as (Lu & _ & U), V as (Lv & _ & V).
  rewrite (inner_bil n K S1) by assumption.
  assert (E1 := bil_pair n (fm KG) (fm K) (fn u) (fn v) nu V). assert (E2 := bil_pair n (fm KG) (fm K) (fn v) (fn u) mu U).
  rewrite (bil_sym n (fm KG)) in E2 by (apply sym_f; assumption). rewrite (bil_sym n (fm K) (fn v)) in E2 by (apply sym_f; assumption).
  assert (Z : (nu - mu) * bil n (fm K) (fn u) (fn v) = 0) by lra. apply Rmult_integral in Z. destruct Z; [lra|assumption].
Qed.
