(** Lemmas on the index sets. *)
From Coq Require Import Bool Arith String Ascii List Sorted Lia.
From Verif Require Import M_Py M_Plate S_Plate.
Import ListNotations.
Open Scope string_scope.
Open Scope list_scope.
Open Scope nat_scope.

(** the functions left after the four removals *)
Definition pick (v0 s0 v1 s1 : bool) (m : nat) : list nat :=
  (if v0 then [] else [0]) ++ (if s0 then [] else [1]) ++ (if v1 then [] else [2]) ++ (if s1 then [] else [3]) ++ seq 4 m.

Definition drop_b (b : bool) (x : nat) (l : list nat) : res (list nat) := if b then list_remove x l else Ok l.

Lemma drops v0 s0 v1 s1 m :
  (l <- drop_b v0 0 (seq 0 (m + 4)) ;; l <- drop_b s0 1 l ;; l <- drop_b v1 2 l ;; drop_b s1 3 l) = Ok (pick v0 s0 v1 s1 m).
Proof. replace (seq 0 (m + 4)) with (0 :: 1 :: 2 :: 3 :: seq 4 m).
  2:{ rewrite Nat.add_comm. reflexivity. }
  destruct v0, s0, v1, s1; reflexivity. Qed.

Lemma pick_length v0 s0 v1 s1 m : m <= List.length (pick v0 s0 v1 s1 m).
Proof. unfold pick. rewrite !app_length, seq_length. lia. Qed.

Lemma in_pick v0 s0 v1 s1 m i : In i (pick v0 s0 v1 s1 m) <-> allowed v0 s0 v1 s1 i /\ i < m + 4.
Proof. unfold pick, allowed. rewrite !in_app_iff, in_seq. destruct v0, s0, v1, s1; cbn [In]; intuition (try lia; try congruence). Qed.

Lemma seq_sorted k m : StronglySorted lt (seq k m).
Proof. revert k; induction m as [|m IH]; intros k; [constructor|]. cbn. constructor; [apply IH|].
  apply Forall_forall. intros x Hx. apply in_seq in Hx. lia. Qed.
Lemma pick_sorted v0 s0 v1 s1 m : StronglySorted lt (pick v0 s0 v1 s1 m).
Proof. assert (H : forall k, k < 4 -> Forall (lt k) (seq 4 m)).
  { intros k Hk. apply Forall_forall. intros x Hx. apply in_seq in Hx. lia. }
  pose proof (seq_sorted 4 m) as S4.
  unfold pick. destruct v0, s0, v1, s1; cbn [app];
  repeat first [exact S4 | apply SSorted_cons]; repeat first [apply H; lia | apply Forall_cons; [lia|]]. Qed.

Lemma firstn_sorted (l : list nat) : StronglySorted lt l -> forall k, StronglySorted lt (firstn k l).
Proof. induction 1 as [|x l Hs IH Hx]; intros [|k]; try constructor; [apply IH|].
  apply Forall_forall. intros y Hy. rewrite Forall_forall in Hx. apply Hx. rewrite <- (firstn_skipn k l). apply in_app_iff. left. exact Hy. Qed.
Lemma firstn_in {A} (l : list A) k x : In x (firstn k l) -> In x l.
Proof. intros H. rewrite <- (firstn_skipn k l). apply in_app_iff. left. exact H. Qed.
Lemma firstn_down (l : list nat) : StronglySorted lt l -> forall k i j, In j (firstn k l) -> i < j -> In i l -> In i (firstn k l).
Proof. induction 1 as [|x l Hs IH Hx]; intros k i j Hj Hij Hi; [destruct Hi|].
  destruct k as [|k]; [destruct Hj|]. cbn in *. destruct Hi as [->|Hi]; [left; reflexivity|]. right.
  destruct Hj as [->|Hj].
  - rewrite Forall_forall in Hx. specialize (Hx i Hi). lia.
  - exact (IH k i j Hj Hij Hi). Qed.

Lemma pick_first_k v0 s0 v1 s1 m : first_k (allowed v0 s0 v1 s1) m (firstn m (pick v0 s0 v1 s1 m)).
Proof. repeat split.
  - rewrite firstn_length. pose proof (pick_length v0 s0 v1 s1 m). lia.
  - apply firstn_sorted, pick_sorted.
  - apply Forall_forall. intros x Hx. apply firstn_in, in_pick in Hx. apply Hx.
  - intros i j Hj Hij Hi. apply (firstn_down _ (pick_sorted v0 s0 v1 s1 m) m i j Hj Hij).
    apply in_pick. split; [exact Hi|]. apply firstn_in, in_pick in Hj. lia. Qed.

Lemma sorted_nth_ge (l : list nat) : StronglySorted lt l -> forall i x, nth_error l i = Some x -> i <= x.
Proof. assert (G : forall l, StronglySorted lt l -> forall i x b, Forall (le b) l -> nth_error l i = Some x -> b + i <= x).
  { induction 1 as [|y t Hs IH Hy]; intros i x b Hb E; [destruct i; discriminate|].
    inversion Hb as [|? ? Hby Hbt]; subst. destruct i as [|i]; cbn in E.
    - injection E as <-. lia.
    - assert (K : Forall (le (S b)) t). { rewrite Forall_forall in Hy |- *. intros z Hz. specialize (Hy z Hz). lia. }
      specialize (IH i x (S b) K E). lia. }
  intros H i x E. apply (G l H i x 0); [|exact E]. apply Forall_forall. intros; lia. Qed.

Lemma product_row_major {A B} (l : list A) (r : list B) : row_major l r (product2 l r).
Proof. unfold product2. split; [apply prod_length|].
  induction l as [|x l IH]; intros a b Ha Hb; cbn in Ha; [lia|]. cbn [list_prod].
  destruct a as [|a].
  - cbn. rewrite nth_error_app1 by (rewrite map_length; exact Hb). rewrite nth_error_map.
    destruct (nth_error r b); reflexivity.
  - rewrite nth_error_app2 by (rewrite map_length; cbn; lia). rewrite map_length.
    replace (S a * List.length r + b - List.length r) with (a * List.length r + b) by (cbn; lia).
    cbn [nth_error]. apply IH; [lia|exact Hb]. Qed.

(** *** the result for edges whose contents are known *)
Definition mem (name : string) (e : edge) : bool :=
  match e with EStr s => substring_in name s | EList l => existsb (String.eqb name) l | EOther => false end.
Definition known (e : edge) : Prop := e <> EOther.
Lemma contains_known name e : known e -> contains name e = Ok (mem name e).
Proof. destruct e; [reflexivity|reflexivity|intros H; exfalso; apply H; reflexivity]. Qed.
Lemma drop_if_known name e x l : known e -> drop_if name e x l = drop_b (mem name e) x l.
Proof. intros H. unfold drop_if. rewrite contains_known by exact H. reflexivity. Qed.

Definition xs (t r : string) (e0 e1 : edge) (m : nat) : list nat :=
  firstn m (pick (mem t e0) (mem r e0) (mem t e1) (mem r e1) m).

Definition idx_of (e : edges) (m n : nat) : index_sets :=
  let um := xs "TX" "RX" (e_x0 e) (e_xa e) m in
  let vm := xs "TY" "RY" (e_x0 e) (e_xa e) m in
  let wm := xs "TZ" "RZ" (e_x0 e) (e_xa e) m in
  let un := xs "TX" "RX" (e_y0 e) (e_yb e) n in
  let su := product2 um un in let sv := product2 vm un in let sw := product2 wm un in
  Idx su sv sw (product2 su su) (product2 sv sv) (product2 sw sw).

Definition all_known (e : edges) : Prop := known (e_x0 e) /\ known (e_xa e) /\ known (e_y0 e) /\ known (e_yb e).

(** the bind chains of different variables commute because none fails *)
Lemma chain_ok v0 s0 v1 s1 m : exists l1 l2 l3,
  drop_b v0 0 (seq 0 (m + 4)) = Ok l1 /\ drop_b s0 1 l1 = Ok l2 /\ drop_b v1 2 l2 = Ok l3 /\ drop_b s1 3 l3 = Ok (pick v0 s0 v1 s1 m).
Proof. pose proof (drops v0 s0 v1 s1 m) as H.
  destruct (drop_b v0 0 (seq 0 (m + 4))) as [l1|]; [|discriminate]. cbn [bind] in H.
  destruct (drop_b s0 1 l1) as [l2|] eqn:E2; [|discriminate]. cbn [bind] in H.
  destruct (drop_b v1 2 l2) as [l3|] eqn:E3; [|discriminate]. cbn [bind] in H.
  exists l1, l2, l3. repeat split; assumption. Qed.

Lemma firstn_twice {A} n (l : list A) : firstn n (firstn n l) = firstn n l.
Proof. rewrite firstn_firstn. f_equal. lia. Qed.

Lemma bind_ok {X Y} (x : res X) (f : X -> res Y) y r : x = Ok y -> f y = r -> bind x f = r.
Proof. intros -> H. exact H. Qed.
Lemma bind_err {X Y} (x : res X) (f : X -> res Y) e : x = Err e -> bind x f = Err e.
Proof. intros ->. reflexivity. Qed.

Lemma compute_ok c m n e : resolve c = Ok e -> all_known e -> compute_constraints c m n = Ok (idx_of e m n).
Proof. intros R (K0 & Ka & L0 & Lb). unfold compute_constraints. rewrite R. cbn [bind].
  destruct (chain_ok (mem "TX" (e_x0 e)) (mem "RX" (e_x0 e)) (mem "TX" (e_xa e)) (mem "RX" (e_xa e)) m) as (a1 & a2 & a3 & A1 & A2 & A3 & A4).
  destruct (chain_ok (mem "TY" (e_x0 e)) (mem "RY" (e_x0 e)) (mem "TY" (e_xa e)) (mem "RY" (e_xa e)) m) as (b1 & b2 & b3 & B1 & B2 & B3 & B4).
  destruct (chain_ok (mem "TZ" (e_x0 e)) (mem "RZ" (e_x0 e)) (mem "TZ" (e_xa e)) (mem "RZ" (e_xa e)) m) as (c1 & c2 & c3 & C1 & C2 & C3 & C4).
  destruct (chain_ok (mem "TX" (e_y0 e)) (mem "RX" (e_y0 e)) (mem "TX" (e_yb e)) (mem "RX" (e_yb e)) n) as (d1 & d2 & d3 & D1 & D2 & D3 & D4).
  destruct (chain_ok (mem "TY" (e_y0 e)) (mem "RY" (e_y0 e)) (mem "TY" (e_yb e)) (mem "RY" (e_yb e)) n) as (f1 & f2 & f3 & F1 & F2 & F3 & F4).
  destruct (chain_ok (mem "TZ" (e_y0 e)) (mem "RZ" (e_y0 e)) (mem "TZ" (e_yb e)) (mem "RZ" (e_yb e)) n) as (g1 & g2 & g3 & G1 & G2 & G3 & G4).
  cbv zeta.
  do 24 (eapply bind_ok; [rewrite drop_if_known by assumption; eassumption|cbv beta]).
  rewrite firstn_twice. reflexivity. Qed.
