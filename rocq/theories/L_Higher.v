(** The lowest eigenvalues of a symmetric pencil by families of vectors. *)
From Coq Require Import Reals Lra Lia Arith Classical.
From Coq Require Import Sorting.Sorted Sorting.Permutation List.
From Verif Require Import L_Quad L_Spectral.
Import ListNotations.
Open Scope R_scope.

Definition comb (j : nat) (c : nat -> R) (w : nat -> nat -> R) : nat -> R := fun i => sm j (fun k => c k * w k i).
(** j independent vectors on whose combinations the form M + t A is nowhere positive *)
Definition fam (n : nat) (A M : nat -> nat -> R) (t : R) (j : nat) (w : nat -> nat -> R) : Prop :=
  forall c, nz j c -> nz n (comb j c w) /\ bil n (pen M A t) (comb j c w) (comb j c w) <= 0.
Definition low (n : nat) (A M : nat -> nat -> R) (j : nat) (mu : nat -> R) (v : nat -> nat -> R) : Prop :=
  (forall i, (i < j)%nat -> mu i < 0 /\ pairf n A M (mu i) (v i)) /\ orth n M j v /\
  (forall i k, (i <= k)%nat -> (k < j)%nat -> mu i <= mu k) /\
  (forall nu x, nu < 0 -> pairf n A M nu x -> (forall i, (i < j)%nat -> bil n M (v i) x = 0) -> forall i, (i < j)%nat -> mu i <= nu).

Section H.
Variables (n : nat) (A M : nat -> nat -> R).
Hypotheses (SA : symf n A) (SM : symf n M) (PM : pdf n M).

Lemma extend : forall d p mu v, (p + d = n)%nat -> (forall k, (k < p)%nat -> pairf n A M (mu k) (v k)) -> orth n M p v ->
  exists mu' v', (forall k, (k < p)%nat -> mu' k = mu k /\ v' k = v k) /\ (forall k, (k < n)%nat -> pairf n A M (mu' k) (v' k)) /\ orth n M n v'.
Proof.
  induction d as [|d IH]; intros p mu v Hp P O.
  - exists mu, v. replace p with n in * by lia. split; [intros; split; reflexivity|]. split; assumption.
  - destruct (next n A M p mu v SA SM PM ltac:(lia) P O) as (nu & x & Px & Ox).
    destruct (IH (Datatypes.S p) (fun k => if Nat.eqb k p then nu else mu k) (fun k => if Nat.eqb k p then x else v k)) as (mu' & v' & E & P' & O').
    + lia.
    + intros k Hk. destruct (Nat.eqb_spec k p); [exact Px|apply P; lia].
    + intros i j Hi Hj N. destruct (Nat.eqb_spec i p), (Nat.eqb_spec j p); [lia| | |apply O; lia].
      * rewrite bil_sym by exact SM. apply Ox. lia.
      * apply Ox. lia.
    + exists mu', v'. split; [|split; assumption]. intros k Hk. destruct (E k ltac:(lia)) as (E1 & E2). destruct (Nat.eqb_spec k p); [lia|]. split; assumption.
Qed.
Lemma expand v x : (forall k, (k < n)%nat -> nz n (v k)) -> orth n M n v ->
  forall i, (i < n)%nat -> x i = comb n (fun k => bil n M (v k) x / bil n M (v k) (v k)) v i.
Proof.
  intros N O. set (c := fun k => bil n M (v k) x / bil n M (v k) (v k)). set (y := fun i => 1 * x i + -1 * comb n c v i).
  assert (Z : forall k, (k < n)%nat -> bil n M (v k) y = 0).
  { intros k Hk. unfold y. rewrite bil_add_r. unfold comb. rewrite sm_bil, (sm_unit n _ k Hk).
    - unfold c. field. apply Rgt_not_eq. apply PM, N, Hk.
    - intros i Hi Ni. rewrite (O k i) by (assumption || lia). ring. }
  intros i Hi. apply NNPP. intros Q. assert (Ny : nz n y) by (exists i; split; [exact Hi|unfold y; lra]).
  set (w := fun k => if Nat.eqb k n then y else v k). assert (Datatypes.S n <= n)%nat; [|lia]. apply (too_many n M (Datatypes.S n) w PM).
  - intros a b Ha Hb Nab. unfold w. destruct (Nat.eqb_spec a n), (Nat.eqb_spec b n); [lia| | |apply O; lia].
    + rewrite bil_sym by exact SM. apply Z. lia.
    + apply Z. lia.
  - intros a Ha. unfold w. destruct (Nat.eqb_spec a n); [exact Ny|apply N; lia].
Qed.
Lemma energy_comb p mu v c t : (forall k, (k < p)%nat -> pairf n A M (mu k) (v k)) -> orth n M p v ->
  bil n (pen M A t) (comb p c v) (comb p c v) = sm p (fun k => (1 + t * mu k) * bil n M (v k) (v k) * (c k * c k)).
Proof.
  intros P O. unfold comb at 2. rewrite sm_bil. apply sm_ext. intros k Hk. rewrite bil_pen, (bil_pairf n A M _ _ (mu k) (P k Hk)), (bil_sym n M _ (v k) SM). unfold comb.
  rewrite sm_bil, (sm_unit p _ k Hk); [ring|]. intros i Hi Ni. rewrite (O k i) by (assumption || lia). ring.
Qed.
Lemma positive mu v x t : (forall k, (k < n)%nat -> pairf n A M (mu k) (v k)) -> orth n M n v -> nz n x ->
  (forall k, (k < n)%nat -> bil n M (v k) x = 0 \/ 0 < 1 + t * mu k) -> 0 < bil n (pen M A t) x x.
Proof.
  intros P O N H. assert (E := expand v x (fun k Hk => proj1 (P k Hk)) O). set (c := fun k => bil n M (v k) x / bil n M (v k) (v k)) in *.
  rewrite (bil_ext n _ x x (comb n c v) (comb n c v) E E), (energy_comb n mu v c t P O).
  assert (T : forall k, (k < n)%nat -> 0 <= (1 + t * mu k) * bil n M (v k) (v k) * (c k * c k)).
  { intros k Hk. assert (Q := PM (v k) (proj1 (P k Hk))). destruct (H k Hk) as [Z|Z]; [unfold c; rewrite Z; unfold Rdiv; rewrite !Rmult_0_l, Rmult_0_r; lra|].
    apply Rmult_le_pos; [apply Rmult_le_pos; lra|]. apply Rle_0_sqr. }
  destruct N as (i & Hi & Ni). rewrite (E i Hi) in Ni.
  assert (X : exists k, (k < n)%nat /\ c k <> 0).
  { apply NNPP. intros Q. apply Ni. unfold comb. apply sm_zero. intros k Hk. destruct (Req_dec (c k) 0) as [Z|Z]; [rewrite Z; ring|]. exfalso. apply Q. exists k. auto. }
  destruct X as (k & Hk & Nk). apply Rlt_le_trans with ((1 + t * mu k) * bil n M (v k) (v k) * (c k * c k)); [|apply (sm_le1 n _ T k Hk)].
  assert (Q := PM (v k) (proj1 (P k Hk))). apply Rmult_lt_0_compat; [apply Rmult_lt_0_compat; [|exact Q]|apply Rsqr_pos_lt; exact Nk].
  destruct (H k Hk) as [Z|Z]; [|exact Z]. exfalso. apply Nk. unfold c. rewrite Z. unfold Rdiv. ring.
Qed.
(** a family larger than p meets the complement of p eigenvectors *)
Lemma no_family p mu v t j w : (p <= n)%nat -> (p < j)%nat -> (forall k, (k < p)%nat -> pairf n A M (mu k) (v k)) -> orth n M p v ->
  (forall nu x, pairf n A M nu x -> (forall k, (k < p)%nat -> bil n M (v k) x = 0) -> 0 < 1 + t * nu) -> ~ fam n A M t j w.
Proof.
  intros Hp Hj P O S F. destruct (hom_solution j p (fun i k => bil n M (v i) (w k)) Hj) as (c & Nc & Ec). destruct (F c Nc) as (Nx & Ex). set (x := comb j c w) in *.
  assert (Ox : forall k, (k < p)%nat -> bil n M (v k) x = 0) by (intros k Hk; unfold x, comb; rewrite sm_bil, <- (Ec k Hk); apply sm_ext; intros; ring).
  destruct (extend (n - p) p mu v ltac:(lia) P O) as (mu' & v' & E & P' & O'). assert (Q := positive mu' v' x t P' O' Nx). lapply Q; [lra|].
  intros k Hk. destruct (le_lt_dec p k) as [L|L].
  - right. apply (S (mu' k) (v' k) (P' k Hk)). intros i Hi. destruct (E i Hi) as (_ & <-). apply O'; lia.
  - left. destruct (E k L) as (_ & ->). apply Ox, L.
Qed.
Lemma fam_size t j w : fam n A M t j w -> (j <= n)%nat.
Proof.
  intros F. destruct (le_lt_dec j n) as [L|L]; [exact L|exfalso]. destruct (hom_solution j n (fun i k => w k i) L) as (c & Nc & Ec). destruct (F c Nc) as ((i & Hi & Ni) & _).
  apply Ni. unfold comb. rewrite <- (Ec i Hi). apply sm_ext. intros; ring.
Qed.
Lemma low_size j mu v : low n A M j mu v -> (j <= n)%nat.
Proof. intros (P & O & _). apply (too_many n M j v PM O). intros i Hi. apply (P i Hi). Qed.
Lemma low_le j mu v : low n A M j mu v -> forall nu x p, nu < 0 -> pairf n A M nu x -> (forall i, (i < p)%nat -> (i < j)%nat -> bil n M (v i) x = 0) ->
  forall i, (i <= p)%nat -> (i < j)%nat -> mu i <= nu.
Proof.
  intros (P & O & S & L) nu x p Hn X Ox i Hi Hj. destruct (classic (forall k, (k < j)%nat -> bil n M (v k) x = 0)) as [Z|Z]; [apply (L nu x Hn X Z i Hj)|].
  apply not_all_ex_not in Z. destruct Z as (k & Z). apply imply_to_and in Z. destruct Z as (Hk & Nk).
  assert (p <= k)%nat by (destruct (le_lt_dec p k); [assumption|exfalso; apply Nk, Ox; assumption]).
  destruct (Req_dec (mu k) nu) as [<-|N]; [apply S; lia|]. exfalso. apply Nk. apply (pairf_orth n A M (mu k) nu); auto. apply (P k Hk).
Qed.
Lemma low_none j mu v p t q w : low n A M j mu v -> (p < j)%nat -> (p < q)%nat -> 0 <= t -> 0 < 1 + t * mu p -> ~ fam n A M t q w.
Proof.
  intros Lw Hp Hq Ht Hm. assert (Sz := low_size j mu v Lw). assert (Lw' := Lw). destruct Lw' as (P & O & S & L).
  apply (no_family p mu v t q w); [lia|exact Hq|intros k Hk; apply P; lia|intros a b Ha Hb; apply O; lia|].
  intros nu x X Ox. destruct (Rlt_le_dec nu 0) as [N|N]; [|assert (0 <= t * nu) by (apply Rmult_le_pos; assumption); lra].
  assert (Q := low_le j mu v Lw nu x p N X (fun i Hi _ => Ox i Hi) p (le_n p) Hp). assert (t * mu p <= t * nu) by (apply Rmult_le_compat_l; assumption). lra.
Qed.
Lemma low_fam j mu v p t : low n A M j mu v -> (p <= j)%nat -> (forall i, (i < p)%nat -> 1 + t * mu i <= 0) -> fam n A M t p v.
Proof.
  intros (P & O & S & L) Hp Ht c Nc.
  assert (Op : orth n M p v) by (intros a b Ha Hb; apply O; lia). split; [apply (comb_nz n M p v c PM Op); [intros i Hi; apply (P i ltac:(lia))|exact Nc]|].
  rewrite (energy_comb p mu v c t (fun k Hk => proj2 (P k ltac:(lia))) Op).
  replace 0 with (sm p (fun _ => 0)) by (apply sm_zero; reflexivity). apply sm_le. intros k Hk.
  assert (Q := PM (v k) (proj1 (proj2 (P k ltac:(lia))))). assert (D := Ht k Hk). assert (W := Rle_0_sqr (c k)). unfold Rsqr in W.
  assert (0 <= (- (1 + t * mu k)) * bil n M (v k) (v k) * (c k * c k)) by (apply Rmult_le_pos; [apply Rmult_le_pos; lra|exact W]). lra.
Qed.
(** a complete family in ascending order *)
Lemma sorted_basis : exists mu v, (forall k, (k < n)%nat -> pairf n A M (mu k) (v k)) /\ orth n M n v /\ forall i k, (i <= k)%nat -> (k < n)%nat -> mu i <= mu k.
Proof.
  destruct (basis n A M SA SM PM n (le_n n)) as (mu & v & P & O). destruct (sort_by mu (seq 0 n)) as (l & Pl & Sl).
  assert (Ln : length l = n) by (rewrite <- (Permutation_length Pl); apply seq_length). assert (Nl : NoDup l) by (apply (Permutation_NoDup Pl), seq_NoDup).
  assert (I : forall k, (k < n)%nat -> (nth k l 0 < n)%nat).
  { intros k Hk. assert (J : In (nth k l 0%nat) l) by (apply nth_In; lia). apply (Permutation_in _ (Permutation_sym Pl)) in J. apply in_seq in J. lia. }
  exists (fun k => mu (nth k l 0%nat)), (fun k => v (nth k l 0%nat)). split; [intros k Hk; apply P, I, Hk|]. split.
  - intros i j Hi Hj N. apply O; [apply I, Hi|apply I, Hj|]. intros E. apply N. apply (proj1 (NoDup_nth l 0%nat) Nl i j); lia || assumption.
  - intros i k Hi Hk. destruct (Nat.eq_dec i k) as [->|N]; [lra|]. rewrite <- (firstn_skipn k l) in Sl. apply (sorted_split mu _ _ Sl).
    + rewrite <- (firstn_skipn k l) at 1. rewrite app_nth1 by (rewrite firstn_length; lia). apply nth_In. rewrite firstn_length. lia.
    + rewrite <- (firstn_skipn k l) at 1. rewrite app_nth2 by (rewrite firstn_length; lia). rewrite firstn_length, Nat.min_l by lia. rewrite Nat.sub_diag. apply nth_In. rewrite skipn_length. lia.
Qed.
Lemma low_exists t j w : 0 < t -> fam n A M t j w -> exists mu v, low n A M j mu v /\ forall i, (i < j)%nat -> 1 + t * mu i <= 0.
Proof.
  intros Ht F. assert (Hj := fam_size t j w F). destruct sorted_basis as (mu & v & P & O & S).
  assert (T : forall i, (i < j)%nat -> 1 + t * mu i <= 0).
  { intros i Hi. destruct (Rle_lt_dec (1 + t * mu i) 0) as [Q|Q]; [exact Q|exfalso]. apply (no_family i mu v t j w) in F; [exact F|lia|exact Hi|intros k Hk; apply P; lia|intros a b Ha Hb; apply O; lia|].
    intros nu x X Ox. destruct (complete n A M mu v nu x SA SM PM P O X) as (k & Hk & Nk & <-).
    assert (i <= k)%nat by (destruct (le_lt_dec i k); [assumption|exfalso; apply Nk, Ox; assumption]).
    assert (t * mu i <= t * mu k) by (apply Rmult_le_compat_l; [lra|apply S; assumption]). lra. }
  exists mu, v. split; [|exact T]. split; [|split; [intros a b Ha Hb; apply O; lia|split]].
  - intros i Hi. split; [|apply P; lia]. specialize (T i Hi). destruct (Rlt_le_dec (mu i) 0); [assumption|]. assert (0 <= t * mu i) by (apply Rmult_le_pos; lra). lra.
  - intros i k Hi Hk. apply S; lia.
  - intros nu x _ X Ox i Hi. destruct (complete n A M mu v nu x SA SM PM P O X) as (k & Hk & Nk & <-).
    assert (j <= k)%nat by (destruct (le_lt_dec j k); [assumption|exfalso; apply Nk, Ox; assumption]). apply S; lia.
Qed.
Lemma low_unique j mu v j' mu' v' : low n A M j mu v -> low n A M j' mu' v' -> forall i, (i < j)%nat -> (i < j')%nat -> mu i = mu' i.
Proof.
  assert (H : forall j mu v j' mu' v', low n A M j mu v -> low n A M j' mu' v' -> forall i, (i < j)%nat -> (i < j')%nat -> mu' i <= mu i).
  { clear j mu v j' mu' v'. intros j mu v j' mu' v' L L' i Hi Hi'. destruct (Rle_lt_dec (mu' i) (mu i)) as [Q|Q]; [exact Q|exfalso].
    assert (N := proj1 (proj1 L i Hi)). assert (T : 0 < -1 / mu i) by (replace (-1 / mu i) with (/ (- mu i)) by (field; lra); apply Rinv_0_lt_compat; lra).
    assert (E : -1 / mu i * mu i = -1) by (field; lra).
    refine (low_none j' mu' v' i (-1 / mu i) (Datatypes.S i) v L' Hi' (Nat.lt_succ_diag_r i) ltac:(lra) _ _).
    - assert (-1 / mu i * mu i < -1 / mu i * mu' i) by (apply Rmult_lt_compat_l; assumption). lra.
    - apply (low_fam j mu v (Datatypes.S i) _ L Hi). intros k Hk. assert (mu k <= mu i) by (apply L; lia).
      assert (-1 / mu i * mu k <= -1 / mu i * mu i) by (apply Rmult_le_compat_l; lra). lra. }
  intros L L' i Hi Hi'. apply Rle_antisym; [apply (H j' mu' v' j mu v)|apply (H j mu v j' mu' v')]; assumption.
Qed.
End H.
