(** The stored integrals against the exact ones, for ranges of indices and smaller tolerances than in L_Tab.v. *)
From Coq Require Import Reals ZArith QArith Qreals Lra Lia Bool String.
From Coquelicot Require Import Coquelicot.
From Coq Require Import List.
From Verif Require Import M_Py M_K M_Tables M_Shape M_Expr M_RealArith S_Mat S_Bardell S_Energy L_Poly L_Shape L_Tab L_TabV.
Import ListNotations.
Open Scope R_scope.

(** the text is a constant within u/v of the integral *)
Definition entry_tol (u v : Z) (s : string) (p q : Z * list Z) : bool :=
  match text_poly s with
  | Some [x] =>
      let d := (fst p * fst q * scale)%Z in
      Z.leb (v * Z.abs (Qnum x * d - Zpos (Qden x) * zdot (snd p) (snd q))) (u * (Zpos (Qden x) * d))
  | _ => false
  end.
Fixpoint row_tol (u v : Z) (r : list string) (p : Z * list Z) (qs : list (Z * list Z)) : bool :=
  match r, qs with
  | [], [] => true
  | s :: r', q :: qs' => entry_tol u v s p q && row_tol u v r' p qs'
  | _, _ => false
  end.
Fixpoint tab_tol (u v : Z) (lo n : nat) (t : list (list string)) (ps qs : list (Z * list Z)) : bool :=
  match t, ps with
  | [], [] => true
  | r :: t', p :: ps' => row_tol u v (firstn n (skipn lo r)) p qs && tab_tol u v lo n t' ps' qs
  | _, _ => false
  end.
Definition part {X} (lo n : nat) (l : list X) : list X := firstn n (skipn lo l).
Definition range_tol (u v : Z) (lo n : nat) (t : list (list string)) (ps qs : list (Z * list Z)) : bool :=
  tab_tol u v lo n (part lo n t) (part lo n ps) (part lo n qs).

Lemma nth_error_part {X} (l : list X) lo n i : (i < n)%nat -> nth_error (part lo n l) i = nth_error l (lo + i).
Proof.
  intros H. unfold part. revert i n H. revert l. induction lo as [|lo IH]; intros l i n H.
  - cbn [skipn Nat.add]. revert n i H. induction l as [|x l IHl]; intros n i H; [rewrite firstn_nil; reflexivity|].
    destruct n as [|n]; [lia|]. destruct i as [|i]; [reflexivity|]. cbn [firstn nth_error]. apply IHl. lia.
  - destruct l as [|x l]; [cbn [skipn]; rewrite firstn_nil; destruct i; reflexivity|]. cbn [skipn Nat.add nth_error]. apply IH, H.
Qed.
Lemma row_tol_at u v r p qs : row_tol u v r p qs = true -> forall k q, nth_error qs k = Some q ->
  exists s, nth_error r k = Some s /\ entry_tol u v s p q = true.
Proof.
  revert qs. induction r as [|s r IH]; intros [|q0 qs] H k q Hk; cbn [row_tol] in H; try discriminate H.
  - destruct k; discriminate Hk.
  - apply andb_prop in H. destruct H as [H1 H2]. destruct k as [|k].
    + injection Hk as <-. exists s. split; [reflexivity|exact H1].
    + apply (IH qs H2 k q Hk).
Qed.
Lemma tab_tol_at u v lo n t ps qs : tab_tol u v lo n t ps qs = true -> forall i k p q, (k < n)%nat -> nth_error ps i = Some p -> nth_error qs k = Some q ->
  exists s, lookup t i (lo + k) = Ok s /\ entry_tol u v s p q = true.
Proof.
  revert ps. induction t as [|r t IH]; intros [|p0' ps] H i k p q Hkn Hi Hk; cbn [tab_tol] in H; try discriminate H.
  - destruct i; discriminate Hi.
  - apply andb_prop in H. destruct H as [H1 H2]. destruct i as [|i].
    + injection Hi as <-. destruct (row_tol_at _ _ _ _ _ H1 _ _ Hk) as (s & Hs & He). exists s.
      split; [|exact He]. fold (part lo n r) in Hs. rewrite nth_error_part in Hs by exact Hkn.
      unfold lookup. cbn [nth_error]. rewrite Hs. reflexivity.
    + destruct (IH ps H2 i k p q Hkn Hi Hk) as (s & Hs & He). exists s. split; [|exact He].
      unfold lookup in Hs |- *. cbn [nth_error]. exact Hs.
Qed.

Definition near (e : R) (r : res R) (x : R) : Prop := exists v, r = Ok v /\ Rabs (v - x) <= e.
Lemma range_value u v lo n t p q i k : range_tol u v lo n t (zlist p) (mlist q) = true -> (0 < v)%Z -> (p <= 2)%nat -> (q <= 2)%nat ->
  (lo + n <= 30)%nat -> (lo <= i < lo + n)%nat -> (lo <= k < lo + n)%nat ->
  near (IZR u / IZR v) (tab_at t i k) (exact_int p q i k).
Proof.
  intros H Hv Hp Hq Hn Hi Hk. destruct (zform_at p i ltac:(lia)) as (z & Z & Fz). destruct (zform_at q k ltac:(lia)) as (w & W & Fw).
  destruct (exact_int_form p q i k z w Hp Hq ltac:(lia) ltac:(lia) Fz Fw) as (-> & Pz & Pw).
  assert (Z' : nth_error (part lo n (zlist p)) (i - lo) = Some z) by (rewrite nth_error_part by lia; replace (lo + (i - lo))%nat with i by lia; exact Z).
  assert (W' : nth_error (part lo n (mlist q)) (k - lo) = Some (mform w))
    by (rewrite nth_error_part by lia; replace (lo + (k - lo))%nat with k by lia; apply mlist_at, W).
  destruct (tab_tol_at _ _ _ _ _ _ _ H (i - lo)%nat (k - lo)%nat z (mform w) ltac:(lia) Z' W') as (s & Hs & He).
  unfold lookup in Hs. rewrite nth_error_part in Hs by lia. replace (lo + (i - lo))%nat with i in Hs by lia. replace (lo + (k - lo))%nat with k in Hs by lia.
  change (lookup t i k = Ok s) in Hs.
  unfold entry_tol, text_poly in He. cbn [fst snd mform] in He. destruct (parse s) as [e|] eqn:P; [|discriminate He].
  destruct (to_poly e) as [[|x [|? ?]]|] eqn:T; try discriminate He.
  apply Z.leb_le, IZR_le in He. rewrite ?mult_IZR, ?abs_IZR, ?minus_IZR, ?mult_IZR in He.
  exists (Q2R x). unfold Q2R. apply IZR_lt in Hv.
  assert (Hd : 0 < IZR (Zpos (Qden x))) by (apply IZR_lt; reflexivity).
  assert (Hsc : 0 < IZR scale) by (apply IZR_lt; reflexivity).
  set (S := IZR scale) in *. clearbody S. set (d := IZR (Zpos (Qden x))) in *. set (m := IZR (Qnum x)) in *. set (N := IZR (zdot _ _)) in *.
  set (g := IZR (fst z)) in *. set (g' := IZR (fst w)) in *. set (U := IZR u) in *. set (V := IZR v) in *.
  assert (Huu : 0 < g * g' * S) by (repeat apply Rmult_lt_0_compat; assumption).
  split.
  - unfold tab_at. rewrite Hs. cbn [bind]. unfold eval. rewrite P, (to_poly_eval _ _ 0 0 T). cbn [qeval]. unfold Q2R. fold m d. f_equal. lra.
  - replace (m * / d - N / (g * g' * S)) with ((m * (g * g' * S) - d * N) * / (d * (g * g' * S))) by (field; repeat split; lra).
    assert (Hq' : 0 < d * (g * g' * S)) by (apply Rmult_lt_0_compat; assumption).
    rewrite Rabs_mult, (Rabs_right (/ _)) by (apply Rle_ge, Rlt_le, Rinv_0_lt_compat; assumption).
    apply (Rmult_le_reg_r (V * (d * (g * g' * S)))); [apply Rmult_lt_0_compat; assumption|].
    replace (Rabs (m * (g * g' * S) - d * N) * / (d * (g * g' * S)) * (V * (d * (g * g' * S)))) with (V * Rabs (m * (g * g' * S) - d * N)) by (field; repeat split; lra).
    replace (U / V * (V * (d * (g * g' * S)))) with (U * (d * (g * g' * S))) by (field; lra). exact He.
Qed.

(** all six tables at once *)
Definition all_tol (u v : Z) (lo n : nat) : bool :=
  range_tol u v lo n ii_FF z0 m0 && range_tol u v lo n ii_FXI_F z1 m0 && range_tol u v lo n ii_FXI_FXI z1 m1
  && range_tol u v lo n ii_FXIXI_F z2 m0 && range_tol u v lo n ii_FXIXI_FXI z2 m1 && range_tol u v lo n ii_FXIXI_FXIXI z2 m2.
Lemma all_value u v lo n i k : all_tol u v lo n = true -> (0 < v)%Z -> (lo + n <= 30)%nat -> (lo <= i < lo + n)%nat -> (lo <= k < lo + n)%nat ->
  let e := IZR u / IZR v in
  near e (t_ff stored_R i k) (exact_int 0 0 i k) /\ near e (t_fxi_f stored_R i k) (exact_int 1 0 i k) /\
  near e (t_fxi_fxi stored_R i k) (exact_int 1 1 i k) /\ near e (t_fxixi_f stored_R i k) (exact_int 2 0 i k) /\
  near e (t_fxixi_fxi stored_R i k) (exact_int 2 1 i k) /\ near e (t_fxixi_fxixi stored_R i k) (exact_int 2 2 i k).
Proof.
  intros H Hv Hn Hi Hk e. unfold all_tol in H. repeat (apply andb_prop in H; destruct H as [H ?]).
  split; [|split; [|split; [|split; [|split]]]]; apply (range_value u v lo n _ _ _ i k); try lia; assumption.
Qed.
Lemma exact_high : all_tol 0 1 4 26 = true. Proof. vm_cast_no_check (eq_refl true). Qed.
Lemma tol_10 : all_tol 1 1000000000000000 0 10 = true. Proof. vm_cast_no_check (eq_refl true). Qed.
Lemma tol_20 : all_tol 2 1000000000000 0 20 = true. Proof. vm_cast_no_check (eq_refl true). Qed.
Lemma near_0 r x : near (0 / 1) r x -> r = Ok x.
Proof. intros (v & -> & H). f_equal. assert (A := Rabs_pos (v - x)). assert (Z : Rabs (v - x) = 0) by lra. destruct (Req_dec (v - x) 0) as [E|E]; [lra|]. apply Rabs_no_R0 in E. lra. Qed.
