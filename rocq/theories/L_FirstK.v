(** Bounds on the first admissible shape functions. *)
From Coq Require Import Bool Arith Lia List Sorted.
From Verif Require Import M_Py M_Plate S_Plate L_Plate.
Import ListNotations.
Open Scope nat_scope.

Definition allowedb (v0 s0 v1 s1 : bool) (i : nat) : bool :=
  match i with 0 => negb v0 | 1 => negb s0 | 2 => negb v1 | 3 => negb s1 | _ => true end.
Lemma allowedb_spec v0 s0 v1 s1 i : allowedb v0 s0 v1 s1 i = true <-> allowed v0 s0 v1 s1 i.
Proof.
  unfold allowed. destruct i as [|[|[|[|i]]]]; cbn [allowedb]; [destruct v0|destruct s0|destruct v1|destruct s1|];
    cbn; intuition (try congruence; try lia); discriminate.
Qed.
Definition b2n (b : bool) : nat := if b then 1 else 0.
Definition lost (v0 s0 v1 s1 : bool) : nat := b2n v0 + b2n s0 + b2n v1 + b2n s1.
Lemma filter_seq_ge4 v0 s0 v1 s1 k : forall n, 4 <= k -> filter (allowedb v0 s0 v1 s1) (seq k n) = seq k n.
Proof. intros n. revert k. induction n as [|n IH]; intros k H; [reflexivity|]. cbn [seq filter].
  destruct k as [|[|[|[|k]]]]; try lia. cbn [allowedb]. rewrite IH by lia. reflexivity. Qed.
Lemma filter_count v0 s0 v1 s1 x : x <= length (filter (allowedb v0 s0 v1 s1) (seq 0 x)) + lost v0 s0 v1 s1.
Proof.
  destruct (le_lt_dec 4 x) as [H|H].
  - replace x with (4 + (x - 4)) at 1 2 by lia. rewrite seq_app, filter_app, app_length, (filter_seq_ge4 _ _ _ _ (0 + 4)), seq_length by (cbn; lia).
    destruct v0, s0, v1, s1; cbn; lia.
  - destruct x as [|[|[|[|x]]]]; try lia; destruct v0, s0, v1, s1; cbn; lia.
Qed.
Lemma filter_count4 v0 s0 v1 s1 x : 4 <= x -> length (filter (allowedb v0 s0 v1 s1) (seq 0 x)) + lost v0 s0 v1 s1 = x.
Proof.
  intros H. replace x with (4 + (x - 4)) by lia. rewrite seq_app, filter_app, app_length, (filter_seq_ge4 _ _ _ _ (0 + 4)), seq_length by (cbn; lia).
  destruct v0, s0, v1, s1; cbn; lia.
Qed.
Lemma sorted_nodup (l : list nat) : StronglySorted lt l -> NoDup l.
Proof. induction 1 as [|a l H IH F]; constructor; [|exact IH]. intros I. rewrite Forall_forall in F. specialize (F a I). lia. Qed.

Lemma first_k_below v0 s0 v1 s1 m l : first_k (allowed v0 s0 v1 s1) m l -> Forall (fun i => i < m + lost v0 s0 v1 s1) l.
Proof.
  intros (L & S & P & D). apply Forall_forall. intros x Hx. apply Nat.nle_gt. intros C.
  assert (I : incl (x :: filter (allowedb v0 s0 v1 s1) (seq 0 x)) l).
  { intros y [<-|Hy]; [exact Hx|]. apply filter_In in Hy. destruct Hy as [H1 H2]. apply in_seq in H1. apply allowedb_spec in H2.
    apply (D y x Hx); [lia|exact H2]. }
  apply NoDup_incl_length in I.
  - cbn [length] in I. assert (K := filter_count v0 s0 v1 s1 x). lia.
  - constructor; [|apply NoDup_filter, seq_NoDup]. intros F. apply filter_In in F. destruct F as [F _]. apply in_seq in F. lia.
Qed.
Lemma first_k_reaches v0 s0 v1 s1 m l B : first_k (allowed v0 s0 v1 s1) m l -> 4 <= B -> B < m + lost v0 s0 v1 s1 ->
  exists i, In i l /\ B <= i.
Proof.
  intros (L & S & P & D) HB H.
  destruct (Exists_dec (fun i => B <= i) l (fun i => le_dec B i)) as [E|E]; [apply Exists_exists in E; exact E|]. exfalso.
  assert (I : incl l (filter (allowedb v0 s0 v1 s1) (seq 0 B))).
  { intros y Hy. apply filter_In. split.
    - apply in_seq. split; [lia|]. apply Nat.nle_gt. intros C. apply E, Exists_exists. exists y. split; [exact Hy|exact C].
    - apply allowedb_spec. rewrite Forall_forall in P. apply P, Hy. }
  apply NoDup_incl_length in I; [|apply sorted_nodup, S]. assert (K := filter_count4 v0 s0 v1 s1 B HB). lia.
Qed.
Lemma lost_taken c0 c1 : lost (holds_value c0) (holds_slope c0) (holds_value c1) (holds_slope c1) = taken c0 + taken c1.
Proof. destruct c0, c1; reflexivity. Qed.
Lemma admissible_below c0 c1 m l : first_k (admissible c0 c1) m l -> Forall (fun i => i < m + taken c0 + taken c1) l.
Proof. intros H. apply first_k_below in H. rewrite lost_taken in H. eapply Forall_impl; [|exact H]. cbn. intros. lia. Qed.
Lemma admissible_reaches c0 c1 m l B : first_k (admissible c0 c1) m l -> 4 <= B -> B < m + taken c0 + taken c1 -> exists i, In i l /\ B <= i.
Proof. intros H HB K. eapply first_k_reaches; [exact H|exact HB|]. rewrite lost_taken. lia. Qed.

Lemma row_major_in {A B} (l : list A) (r : list B) p x y : row_major l r p -> In (x, y) p -> In x l /\ In y r.
Proof.
  intros [L H] I. apply In_nth_error in I. destruct I as [k E].
  assert (K : k < length l * length r). { rewrite <- L. apply nth_error_Some. congruence. }
  assert (R : length r <> 0) by (intros Z; rewrite Z in K; lia).
  assert (Q : k = (k / length r) * length r + k mod length r) by (rewrite Nat.mul_comm; apply Nat.div_mod, R).
  assert (M := Nat.mod_upper_bound k (length r) R).
  assert (D : k / length r < length l) by (apply Nat.div_lt_upper_bound; lia).
  specialize (H _ _ D M). rewrite <- Q, E in H.
  destruct (nth_error l (k / length r)) eqn:E1; [|discriminate H]. destruct (nth_error r (k mod length r)) eqn:E2; [|discriminate H].
  injection H as -> ->. split; eapply nth_error_In; eassumption.
Qed.
Lemma row_major_in_conv {A B} (l : list A) (r : list B) p x y : row_major l r p -> In x l -> In y r -> In (x, y) p.
Proof.
  intros [L H] I J. apply In_nth_error in I. apply In_nth_error in J. destruct I as [a E]. destruct J as [b F].
  assert (Ha : a < length l) by (apply nth_error_Some; congruence).
  assert (Hb : b < length r) by (apply nth_error_Some; congruence).
  specialize (H a b Ha Hb). rewrite E, F in H. eapply nth_error_In. exact H.
Qed.
