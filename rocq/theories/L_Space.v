(** The span of Bardell's functions. *)
From Coq Require Import Reals ZArith QArith Qreals Lra Lia Bool Sorted.
From Coquelicot Require Import Coquelicot.
From Coq Require Import List.
From Verif Require Import S_Mat S_Bardell S_Plate S_Shape S_Space L_Poly L_Shape L_FirstK L_Indep L_Legendre.
Import ListNotations.
Open Scope R_scope.

Lemma poly_reval p x : poly p x = reval p x. Proof. induction p as [|c p IH]; cbn [poly reval]; [|rewrite IH]; reflexivity. Qed.
Definition comb (N : nat) (c : nat -> R) (x : R) : R := rsum (map (fun i => c i * bardell i x) (seq 0 N)).
Definition span (N : nat) (w : R -> R) : Prop := exists c, forall x, w x = comb N c x.
Lemma comb_add N c d x : comb N (fun i => c i + d i) x = comb N c x + comb N d x.
Proof. unfold comb. rewrite <- rsum_add. apply rsum_ext. intros. ring. Qed.
Lemma comb_scal N k c x : comb N (fun i => k * c i) x = k * comb N c x.
Proof. unfold comb. rewrite <- rsum_mul. apply rsum_ext. intros. ring. Qed.
Lemma comb_S N c x : comb (S N) c x = comb N c x + c N * bardell N x.
Proof. unfold comb. rewrite seq_S, map_app, rsum_apply. cbn [map rsum Nat.add]. ring. Qed.
Lemma comb_ext N c d x : (forall i, (i < N)%nat -> c i = d i) -> comb N c x = comb N d x.
Proof. intros H. apply rsum_ext. intros i Hi. apply in_seq in Hi. rewrite H by lia. reflexivity. Qed.

(** ** every polynomial is a combination *)
Lemma reval_trunc N p x : (forall n, (N <= n)%nat -> nth n p 0 = 0) -> reval (firstn N p) x = reval p x.
Proof.
  revert N. induction p as [|c p IH]; intros N H; [rewrite firstn_nil; reflexivity|]. destruct N as [|N].
  - cbn [firstn]. symmetry. assert (Z : forall p, (forall n, nth n p 0 = 0) -> reval p x = 0).
    { clear. induction p as [|c p IH]; intros H; [reflexivity|]. cbn [reval]. rewrite (H 0%nat : c = 0), IH; [ring|]. intros n. apply (H (S n)). }
    apply Z. intros n. apply H. lia.
  - cbn [firstn reval]. rewrite IH; [reflexivity|]. intros n Hn. apply (H (S n)). lia.
Qed.
Lemma poly_span N : (4 <= N)%nat -> forall p, (forall n, (N <= n)%nat -> nth n p 0 = 0) -> span N (reval p).
Proof.
  intros HN. induction N as [|N IH]; intros p H; [lia|]. destruct (Nat.eq_dec N 3) as [->|N3].
  - clear IH. set (a := nth 0 p 0). set (b := nth 1 p 0). set (c := nth 2 p 0). set (d := nth 3 p 0).
    exists (fun i => match i with 0%nat => a - b + c - d | 1%nat => 2 * (b - 2 * c + 3 * d) | 2%nat => a + b + c + d | _ => 2 * (b + 2 * c + 3 * d) end).
    intros x. rewrite <- (reval_trunc 4) by exact H.
    assert (E : reval (firstn 4 p) x = a + x * (b + x * (c + x * d))).
    { unfold a, b, c, d. destruct p as [|p0 [|p1 [|p2 [|p3 p]]]]; cbn [firstn reval nth]; ring. }
    rewrite E. unfold comb. cbn [seq map rsum bardell]. field.
  - assert (T := coef_top N ltac:(lia)). set (t := nth N p 0). destruct (IH ltac:(lia) (radd p (rof (- (t / coef N N)) (bpoly N)))) as [c Hc].
    + intros n Hn. rewrite radd_nth, rof_nth. fold (coef N n). destruct (Nat.eq_dec n N) as [->|NE].
      * fold t. field. exact T.
      * rewrite H by lia. rewrite (coef_high N n) by lia. ring.
    + exists (fun i => if Nat.eqb i N then t / coef N N else c i). intros x. rewrite comb_S, Nat.eqb_refl.
      rewrite (comb_ext N _ c) by (intros i Hi; destruct (Nat.eqb_spec i N); [lia|reflexivity]).
      rewrite <- Hc, radd_eval, rof_eval, <- bardell_poly. ring.
Qed.
Lemma bardell_reval i N : (4 <= N)%nat -> (i < N)%nat -> exists p, (List.length p <= N)%nat /\ forall x, bardell i x = reval p x.
Proof.
  intros HN Hi. exists (firstn N (rof 1 (bpoly i))). split; [apply firstn_le_length|]. intros x.
  rewrite reval_trunc; [rewrite rof_eval, <- bardell_poly; ring|]. intros n Hn. rewrite rof_nth. fold (coef i n). rewrite coef_high by lia. ring.
Qed.
Lemma radd_length p : forall q, List.length (radd p q) = Nat.max (List.length p) (List.length q).
Proof. induction p as [|c p IH]; intros [|d q]; cbn [radd List.length]; try lia. rewrite IH. lia. Qed.
Definition rscal (c : R) (p : list R) := map (fun d => c * d) p.
Lemma rscal_eval c p x : reval (rscal c p) x = c * reval p x.
Proof. unfold rscal. induction p as [|d p IH]; cbn [map reval]; [ring|]. rewrite IH. ring. Qed.
Lemma rscal_length c p : List.length (rscal c p) = List.length p. Proof. apply map_length. Qed.
Lemma comb_poly N c : (4 <= N)%nat -> exists p, (List.length p <= N)%nat /\ forall x, comb N c x = reval p x.
Proof.
  intros HN. assert (G : forall M, (M <= N)%nat -> exists p, (List.length p <= N)%nat /\ forall x, comb M c x = reval p x).
  { induction M as [|M IH]; intros HM; [exists []; split; [cbn; lia|reflexivity]|]. destruct (IH ltac:(lia)) as (p & L & E).
    destruct (bardell_reval M N HN ltac:(lia)) as (q & Lq & Eq). exists (radd p (rscal (c M) q)). split.
    - rewrite radd_length, rscal_length. lia.
    - intros x. rewrite comb_S, E, Eq, radd_eval, rscal_eval. reflexivity. }
  apply G. lia.
Qed.
Lemma length_nth {p : list R} {N} : (List.length p <= N)%nat -> forall n, (N <= n)%nat -> nth n p 0 = 0.
Proof. intros L n Hn. apply nth_overflow. lia. Qed.

(** ** ends of a combination *)
Lemma bardell_is_derive i x : is_derive (bardell i) x (Derive (bardell i) x).
Proof. apply Derive_correct, bardell_ends. Qed.
Lemma comb_is_derive N c x : is_derive (comb N c) x (rsum (map (fun i => c i * Derive (bardell i) x) (seq 0 N))).
Proof. apply (rsum_derive (fun i y => c i * bardell i y) (fun i y => c i * Derive (bardell i) y)). intros i _. apply is_derive_scal, bardell_is_derive. Qed.
Definition pick4 (i : nat) (t : R * R * R * R) : R := match i with 0%nat => fst (fst (fst t)) | 1%nat => snd (fst (fst t)) | 2%nat => snd (fst t) | _ => snd t end.
Lemma ends_sum N (c : nat -> R) k : (k < 4)%nat -> (4 <= N)%nat ->
  rsum (map (fun i => c i * pick4 k (expected_ends i)) (seq 0 N)) = c k * (if Nat.even k then 1 else 1 / 2).
Proof.
  intros Hk HN. rewrite (seq_split_at 4 N) by exact HN. rewrite map_app, rsum_apply, (rsum_null _ (seq 4 _)).
  - destruct k as [|[|[|[|k]]]]; try lia; cbn [seq map rsum pick4 expected_ends fst snd Nat.even]; ring.
  - intros i Hi. apply in_seq in Hi. destruct i as [|[|[|[|i]]]]; try lia. cbn [expected_ends]. destruct k as [|[|[|k]]]; cbn [pick4 fst snd]; ring.
Qed.
Lemma comb_ends N c : (4 <= N)%nat -> comb N c (-1) = c 0%nat /\ Derive (comb N c) (-1) = c 1%nat / 2 /\ comb N c 1 = c 2%nat /\ Derive (comb N c) 1 = c 3%nat / 2.
Proof.
  intros HN. assert (Eb := fun i => proj2 (bardell_ends i)). unfold ends in Eb.
  assert (E0 : forall i, bardell i (-1) = pick4 0 (expected_ends i)) by (intros i; rewrite <- Eb; reflexivity).
  assert (E1 : forall i, Derive (bardell i) (-1) = pick4 1 (expected_ends i)) by (intros i; rewrite <- Eb; reflexivity).
  assert (E2 : forall i, bardell i 1 = pick4 2 (expected_ends i)) by (intros i; rewrite <- Eb; reflexivity).
  assert (E3 : forall i, Derive (bardell i) 1 = pick4 3 (expected_ends i)) by (intros i; rewrite <- Eb; reflexivity).
  repeat split.
  - unfold comb. rewrite (rsum_ext _ (fun i => c i * pick4 0 (expected_ends i))) by (intros; rewrite E0; reflexivity). rewrite ends_sum by lia. cbn [Nat.even]. ring.
  - rewrite (is_derive_unique _ _ _ (comb_is_derive N c (-1))). rewrite (rsum_ext _ (fun i => c i * pick4 1 (expected_ends i))) by (intros; rewrite E1; reflexivity).
    rewrite ends_sum by lia. cbn [Nat.even]. field.
  - unfold comb. rewrite (rsum_ext _ (fun i => c i * pick4 2 (expected_ends i))) by (intros; rewrite E2; reflexivity). rewrite ends_sum by lia. cbn [Nat.even]. ring.
  - rewrite (is_derive_unique _ _ _ (comb_is_derive N c 1)). rewrite (rsum_ext _ (fun i => c i * pick4 3 (expected_ends i))) by (intros; rewrite E3; reflexivity).
    rewrite ends_sum by lia. cbn [Nat.even]. field.
Qed.
Lemma meets_comb N c c0 c1 : (4 <= N)%nat -> meets c0 c1 (comb N c) <-> (forall i, (i < N)%nat -> ~ admissible c0 c1 i -> c i = 0).
Proof.
  intros HN. destruct (comb_ends N c HN) as (E0 & E1 & E2 & E3). unfold meets. rewrite E0, E1, E2, E3. split.
  - intros (H0 & H1 & H2 & H3) i Hi Na. unfold admissible in Na. rewrite <- allowedb_spec in Na.
    destruct i as [|[|[|[|i]]]]; cbn [allowedb] in Na; [..|congruence].
    + apply H0. destruct (holds_value c0); [reflexivity|exfalso; apply Na; reflexivity].
    + enough (c 1%nat / 2 = 0) by lra. apply H1. destruct (holds_slope c0); [reflexivity|exfalso; apply Na; reflexivity].
    + apply H2. destruct (holds_value c1); [reflexivity|exfalso; apply Na; reflexivity].
    + enough (c 3%nat / 2 = 0) by lra. apply H3. destruct (holds_slope c1); [reflexivity|exfalso; apply Na; reflexivity].
  - intros H. unfold admissible in H. repeat split; intros E;
      [rewrite (H 0%nat)|rewrite (H 1%nat)|rewrite (H 2%nat)|rewrite (H 3%nat)]; try lia; try lra; intros A; apply allowedb_spec in A; cbn [allowedb] in A; rewrite E in A; discriminate A.
Qed.

(** ** the admissible functions *)
Lemma first_k_filter c0 c1 m l : first_k (admissible c0 c1) m l -> (4 <= m + taken c0 + taken c1)%nat ->
  forall i, In i l <-> (i < m + taken c0 + taken c1)%nat /\ admissible c0 c1 i.
Proof.
  intros F H4 i. assert (Bl := admissible_below _ _ _ _ F). rewrite Forall_forall in Bl. destruct F as (L & Sl & P & D). rewrite Forall_forall in P.
  set (N := (m + taken c0 + taken c1)%nat) in *. set (al := allowedb (holds_value c0) (holds_slope c0) (holds_value c1) (holds_slope c1)).
  assert (I : incl l (filter al (seq 0 N))).
  { intros j Hj. apply filter_In. split; [apply in_seq; specialize (Bl j Hj); lia|apply allowedb_spec, P, Hj]. }
  assert (K := filter_count4 (holds_value c0) (holds_slope c0) (holds_value c1) (holds_slope c1) N H4). rewrite lost_taken in K. fold al in K.
  assert (J : incl (filter al (seq 0 N)) l) by (apply NoDup_length_incl; [apply sorted_nodup, Sl|lia|exact I]).
  split; [intros Hi; split; [apply Bl, Hi|apply P, Hi]|]. intros [Hi Ai]. apply J, filter_In. split; [apply in_seq; lia|]. apply allowedb_spec, Ai.
Qed.
(** dropping zero terms *)
Lemma rsum_restrict (g : nat -> R) l N : NoDup l -> (forall i, In i l -> (i < N)%nat) -> (forall i, (i < N)%nat -> ~ In i l -> g i = 0) ->
  rsum (map g l) = rsum (map g (seq 0 N)).
Proof.
  intros ND. revert g. induction ND as [|a l Na ND IH]; intros g B Z.
  - cbn [map rsum]. symmetry. apply rsum_null. intros i Hi. apply in_seq in Hi. apply Z; [lia|intros []].
  - cbn [map rsum]. assert (Ha := B a (or_introl eq_refl)).
    rewrite (rsum_ext g (fun i => (if Nat.eqb a i then 0 else g i)) l).
    2: { intros i Hi. destruct (Nat.eqb_spec a i) as [->|]; [contradiction|reflexivity]. }
    rewrite IH.
    + rewrite <- (Rmult_1_r (g a)), <- (rsum_pick N a (g a) (fun _ => 1) Ha), <- rsum_add. apply rsum_ext. intros i _. destruct (Nat.eqb_spec a i) as [->|]; ring.
    + intros i Hi. apply B. right. exact Hi.
    + intros i Hi Ni. destruct (Nat.eqb_spec a i) as [E|E]; [reflexivity|]. apply Z; [exact Hi|]. intros [X|X]; contradiction.
Qed.
Lemma comb_list c0 c1 m l c x : first_k (admissible c0 c1) m l -> (4 <= m + taken c0 + taken c1)%nat ->
  (forall i, (i < m + taken c0 + taken c1)%nat -> ~ admissible c0 c1 i -> c i = 0) ->
  rsum (map (fun i => c i * bardell i x) l) = comb (m + taken c0 + taken c1) c x.
Proof.
  intros F H4 Z. assert (M := first_k_filter _ _ _ _ F H4). apply rsum_restrict.
  - apply sorted_nodup, F.
  - intros i Hi. apply M, Hi.
  - intros i Hi Ni. rewrite Z; [ring|exact Hi|]. intros A. apply Ni, M. split; assumption.
Qed.
