(** Linear independence of Bardell's functions on an interval. *)
From Coq Require Import Reals ZArith QArith Qreals Lra Lia.
From Coquelicot Require Import Coquelicot.
From Coq Require Import List.
From Verif Require Import S_Mat S_Bardell L_Poly L_Shape.
Import ListNotations.
Open Scope R_scope.

(** ** real polynomials *)
Lemma rsum_app l r : rsum (l ++ r) = rsum l + rsum r.
Proof. induction l as [|x l IH]; cbn [app rsum]; [ring|]. rewrite IH. ring. Qed.
Fixpoint reval (p : list R) (x : R) : R := match p with [] => 0 | c :: p' => c + x * reval p' x end.
Lemma reval_continuous p x : continuous (reval p) x.
Proof.
  induction p as [|c p IH].
  - apply (continuous_const (U := R_UniformSpace) (V := R_UniformSpace) 0).
  - apply (continuous_plus (V := R_NormedModule) (fun _ => c) (fun x => x * reval p x)).
    + apply (continuous_const (U := R_UniformSpace) (V := R_UniformSpace) c).
    + apply (continuous_mult (K := R_AbsRing) (fun x => x) (reval p)); [apply continuous_id|exact IH].
Qed.
Lemma reval_zero p : (forall x, -1 < x < 1 -> reval p x = 0) -> forall n, nth n p 0 = 0.
Proof.
  induction p as [|c p IH]; intros H n; [destruct n; reflexivity|].
  assert (C : c = 0) by (assert (E := H 0 ltac:(lra)); cbn [reval] in E; lra).
  assert (E : forall x, -1 < x < 1 -> x <> 0 -> reval p x = 0).
  { intros x Hx N. assert (E := H x Hx). cbn [reval] in E. rewrite C in E. assert (E' : x * reval p x = 0) by lra.
    apply Rmult_integral in E'. destruct E' as [E'|E']; [contradiction|exact E']. }
  assert (E0 : reval p 0 = 0).
  { destruct (Req_dec (reval p 0) 0) as [Z|Z]; [exact Z|exfalso].
    destruct (reval_continuous p 0 (fun z => z <> 0)) as [eps He].
    { exists (mkposreal _ (Rabs_pos_lt _ Z)). intros z Hz. change (Rabs (z - reval p 0) < Rabs (reval p 0)) in Hz. intros ->.
      rewrite Rminus_0_l, Rabs_Ropp in Hz. lra. }
    destruct eps as [eps Heps]. cbn in He. set (t := Rmin (eps / 2) (1 / 2)).
    assert (Ht : 0 < t) by (apply Rmin_glb_lt; lra). assert (T1 : t <= eps / 2) by apply Rmin_l. assert (T2 : t <= 1 / 2) by apply Rmin_r.
    apply (He t); [change (Rabs (t - 0) < eps); rewrite Rabs_right; lra|]. apply E; lra. }
  destruct n as [|n]; [exact C|]. cbn [nth]. apply IH. intros x Hx. destruct (Req_dec x 0) as [->|N]; [exact E0|apply E; assumption].
Qed.
Fixpoint radd (p q : list R) : list R :=
  match p, q with [], _ => q | _, [] => p | c :: p', d :: q' => c + d :: radd p' q' end.
Lemma radd_nth p : forall q n, nth n (radd p q) 0 = nth n p 0 + nth n q 0.
Proof. induction p as [|c p IH]; intros [|d q] [|n]; cbn [radd nth]; try ring. apply IH. Qed.
Lemma radd_eval p : forall q x, reval (radd p q) x = reval p x + reval q x.
Proof. induction p as [|c p IH]; intros [|d q] x; cbn [radd reval]; try ring. rewrite IH. ring. Qed.
Definition rof (c : R) (p : list Q) : list R := map (fun d => c * Q2R d) p.
Lemma rof_nth c p n : nth n (rof c p) 0 = c * Q2R (nth n p 0%Q).
Proof.
  unfold rof. destruct (le_lt_dec (List.length p) n) as [H|H].
  - rewrite !nth_overflow by (rewrite ?map_length; exact H). rewrite Q2R_0. ring.
  - rewrite (nth_indep _ 0 (c * Q2R 0)) by (rewrite map_length; exact H). apply (map_nth (fun d => c * Q2R d)).
Qed.
Lemma rof_eval c p x : reval (rof c p) x = c * qeval p x.
Proof. induction p as [|d p IH]; cbn [rof map reval qeval]; [ring|]. fold (rof c p). rewrite IH. ring. Qed.

(** ** coefficients of Bardell's functions *)
Definition coef (i n : nat) : R := Q2R (nth n (bpoly i) 0%Q).
Lemma qadd_nth p : forall q n, Q2R (nth n (qadd p q) 0%Q) = Q2R (nth n p 0%Q) + Q2R (nth n q 0%Q).
Proof.
  induction p as [|c p IH]; intros [|d q] [|n]; cbn [qadd nth]; rewrite ?Q2R_0, ?Q2R_red, ?Q2R_plus; try ring. apply IH.
Qed.
Lemma mono_nth c k n : Q2R (nth n (mono c k) 0%Q) = if Nat.eqb n k then Q2R c else 0.
Proof.
  revert n. induction k as [|k IH]; intros n; cbn [mono repeat app].
  - destruct n as [|[|n]]; cbn [nth Nat.eqb]; rewrite ?Q2R_0; reflexivity.
  - fold (mono c k). destruct n as [|n]; cbn [nth Nat.eqb]; [apply Q2R_0|apply IH].
Qed.
Lemma coef_sum i n : (4 <= i)%nat -> coef i n = rsum (map (fun m => if Nat.eqb n (i - 2 * m) then Q2R (bcoef i m) else 0) (seq 0 (S (i / 2)))).
Proof.
  intros Hi. unfold coef, bpoly. destruct i as [|[|[|[|i]]]]; try lia. set (l := seq 0 _). generalize l. clear l. intros l.
  induction l as [|m l IH]; [destruct n; apply Q2R_0|]. cbn [map fold_right rsum]. rewrite qadd_nth, mono_nth, IH. reflexivity.
Qed.
Lemma rsum_zero l : Forall (fun x => x = 0) l -> rsum l = 0.
Proof. induction 1 as [|x l H _ IH]; cbn [rsum]; [reflexivity|]. rewrite H, IH. ring. Qed.
Lemma coef_high i n : (4 <= n)%nat -> (i < n)%nat -> coef i n = 0.
Proof.
  intros Hn Hi. destruct (le_lt_dec 4 i) as [H|H].
  - rewrite coef_sum by exact H. apply rsum_zero, Forall_forall. intros x Ix. apply in_map_iff in Ix. destruct Ix as (m & <- & _).
    destruct (Nat.eqb n (i - 2 * m)) eqn:E; [apply Nat.eqb_eq in E; lia|reflexivity].
  - unfold coef. destruct i as [|[|[|[|i]]]]; try lia; cbn [bpoly]; (rewrite nth_overflow; [apply Q2R_0|cbn [List.length]; lia]).
Qed.
Lemma zfact_pos n : (0 < zfact n)%Z. Proof. induction n; cbn [zfact]; lia. Qed.
Lemma zdfact_pos n : (0 < zdfact n)%Z.
Proof. enough (H : (0 < zdfact n)%Z /\ (0 < zdfact (S n))%Z) by apply H. induction n as [|n [H1 H2]]; [split; reflexivity|].
  split; [exact H2|]. change (0 < Z.of_nat (S (S n)) * zdfact n)%Z. lia. Qed.
Lemma coef_top i : (4 <= i)%nat -> coef i i <> 0.
Proof.
  intros H. rewrite coef_sum by exact H. cbn [seq map rsum]. rewrite Nat.mul_0_r, Nat.sub_0_r, Nat.eqb_refl.
  rewrite rsum_zero.
  - rewrite Rplus_0_r. unfold bcoef. rewrite Q2R_red. unfold Q2R. cbn [Qnum Qden].
    apply Rmult_integral_contrapositive_currified; [|apply Rinv_neq_0_compat, not_0_IZR; discriminate].
    apply not_0_IZR. assert (P := zdfact_pos (2 * i - 2 * 0 - 5)). cbn [Z.of_nat]. rewrite Z.pow_0_r. lia.
  - apply Forall_forall. intros x Ix. apply in_map_iff in Ix. destruct Ix as (m & <- & Im). apply in_seq in Im.
    destruct (Nat.eqb i (i - 2 * m)) eqn:E; [apply Nat.eqb_eq in E; lia|reflexivity].
Qed.

(** ** independence *)
Lemma sum_coef (c : nat -> R) n l : (forall x, -1 < x < 1 -> rsum (map (fun i => c i * bardell i x) l) = 0) ->
  rsum (map (fun i => c i * coef i n) l) = 0.
Proof.
  intros H.
  assert (A : exists p, (forall x, reval p x = rsum (map (fun i => c i * bardell i x) l)) /\ (forall n, nth n p 0 = rsum (map (fun i => c i * coef i n) l))).
  { clear H. induction l as [|i l (p & P1 & P2)].
    - exists []. split; [reflexivity|]. intros [|k]; reflexivity.
    - exists (radd (rof (c i) (bpoly i)) p). split.
      + intros x. rewrite radd_eval, rof_eval, P1, <- bardell_poly. reflexivity.
      + intros k. rewrite radd_nth, rof_nth, P2. reflexivity. }
  destruct A as (p & P1 & P2). rewrite <- P2. apply reval_zero. intros x Hx. rewrite P1. apply H, Hx.
Qed.
Lemma indep N : forall c : nat -> R, (forall x, -1 < x < 1 -> rsum (map (fun i => c i * bardell i x) (seq 0 N)) = 0) -> forall i, (i < N)%nat -> c i = 0.
Proof.
  (* enough for N >= 4 *)
  assert (G : forall N (c : nat -> R), (4 <= N)%nat -> (forall x, -1 < x < 1 -> rsum (map (fun i => c i * bardell i x) (seq 0 N)) = 0) -> forall i, (i < N)%nat -> c i = 0).
  { clear N. intros N. induction N as [|N IH]; intros c HN H i Hi; [lia|].
    destruct (Nat.eq_dec N 3) as [->|N3].
    - clear IH. assert (E0 := sum_coef c 0 _ H). assert (E1 := sum_coef c 1 _ H). assert (E2 := sum_coef c 2 _ H). assert (E3 := sum_coef c 3 _ H).
      clear H. unfold coef in *. cbn [seq map rsum bpoly nth] in *. unfold Q2R in *. cbn [Qnum Qden] in *.
      destruct i as [|[|[|[|i]]]]; try lia; lra.
    - assert (E := sum_coef c N _ H). rewrite seq_S, map_app, rsum_app in E.
      rewrite (rsum_zero (map _ (seq 0 N))) in E.
      + cbn [map rsum Nat.add] in E. assert (T := coef_top N ltac:(lia)). assert (Z : c N = 0).
        { assert (E' : c N * coef N N = 0) by lra. apply Rmult_integral in E'. destruct E'; [assumption|contradiction]. }
        destruct (Nat.eq_dec i N) as [->|Ni]; [exact Z|]. apply (IH c ltac:(lia)); [|lia].
        intros x Hx. assert (Q := H x Hx). rewrite seq_S, map_app, rsum_app in Q. cbn [map rsum Nat.add] in Q. rewrite Z in Q. lra.
      + apply Forall_forall. intros x Ix. apply in_map_iff in Ix. destruct Ix as (k & <- & Ik). apply in_seq in Ik.
        rewrite coef_high by lia. ring. }
  intros c H i Hi. destruct (le_lt_dec 4 N) as [L|L]; [apply (G N c L H i Hi)|].
  assert (K := G 4%nat (fun i => if Nat.ltb i N then c i else 0) ltac:(lia)).
  assert (Z : (if Nat.ltb i N then c i else 0) = 0).
  { apply K; [|lia]. intros x Hx. replace 4%nat with (N + (4 - N))%nat by lia. rewrite seq_app, map_app, rsum_app.
    rewrite (rsum_zero (map _ (seq (0 + N) (4 - N)))).
    - rewrite Rplus_0_r, <- (H x Hx). f_equal. apply map_ext_in. intros k Ik. apply in_seq in Ik.
      destruct (Nat.ltb k N) eqn:E; [reflexivity|apply Nat.ltb_ge in E; lia].
    - apply Forall_forall. intros z Iz. apply in_map_iff in Iz. destruct Iz as (k & <- & Ik). apply in_seq in Ik.
      destruct (Nat.ltb k N) eqn:E; [apply Nat.ltb_lt in E; lia|ring]. }
  destruct (Nat.ltb i N) eqn:E; [exact Z|apply Nat.ltb_ge in E; lia].
Qed.

(** two variables, list of index pairs with coefficients *)
Definition pairc (l : list ((nat * nat) * R)) (i j : nat) : R :=
  rsum (map (fun p => if (Nat.eqb (fst (fst p)) i && Nat.eqb (snd (fst p)) j)%bool then snd p else 0) l).
Lemma rsum_plus {X} (f g : X -> R) l : rsum (map (fun x => f x + g x) l) = rsum (map f l) + rsum (map g l).
Proof. induction l as [|x l IH]; cbn [map rsum]; [ring|]. rewrite IH. ring. Qed.
Lemma rsum_scal_r {X} (f : X -> R) c l : rsum (map (fun x => f x * c) l) = rsum (map f l) * c.
Proof. induction l as [|x l IH]; cbn [map rsum]; [ring|]. rewrite IH. ring. Qed.
Lemma rsum_pick N k (v : R) (f : nat -> R) : (k < N)%nat -> rsum (map (fun i => (if Nat.eqb k i then v else 0) * f i) (seq 0 N)) = v * f k.
Proof.
  intros H. replace N with (k + S (N - S k))%nat by lia. rewrite seq_app, map_app, rsum_app. cbn [seq map rsum Nat.add].
  rewrite Nat.eqb_refl. rewrite !rsum_zero; [ring| |]; apply Forall_forall; intros z Iz; apply in_map_iff in Iz; destruct Iz as (j & <- & Ij);
    apply in_seq in Ij; (destruct (Nat.eqb k j) eqn:E; [apply Nat.eqb_eq in E; lia|ring]).
Qed.
Lemma regroup N l (f g : nat -> R) : Forall (fun p => (fst (fst p) < N)%nat /\ (snd (fst p) < N)%nat) l ->
  rsum (map (fun p => snd p * (f (fst (fst p)) * g (snd (fst p)))) l) =
  rsum (map (fun i => rsum (map (fun j => pairc l i j * g j) (seq 0 N)) * f i) (seq 0 N)).
Proof.
  induction 1 as [|[[i j] c] l [Hi Hj] _ IH].
  - cbn [map rsum]. symmetry. apply rsum_zero, Forall_forall. intros z Iz. apply in_map_iff in Iz. destruct Iz as (i & <- & _).
    rewrite rsum_zero; [ring|]. apply Forall_forall. intros z Iz. apply in_map_iff in Iz. destruct Iz as (j & <- & _). unfold pairc. cbn. ring.
  - cbn [map rsum fst snd] in *. rewrite IH. clear IH.
    transitivity (rsum (map (fun k => (if Nat.eqb i k then c * g j else 0) * f k) (seq 0 N)) + rsum (map (fun i => rsum (map (fun j => pairc l i j * g j) (seq 0 N)) * f i) (seq 0 N))).
    { rewrite rsum_pick by exact Hi. ring. }
    rewrite <- rsum_plus. f_equal. apply map_ext. intros k. rewrite <- Rmult_plus_distr_r. f_equal.
    transitivity (rsum (map (fun m => (if Nat.eqb j m then (if Nat.eqb i k then c else 0) else 0) * g m) (seq 0 N)) + rsum (map (fun j => pairc l k j * g j) (seq 0 N))).
    { rewrite rsum_pick by exact Hj. destruct (Nat.eqb i k); ring. }
    rewrite <- rsum_plus. f_equal. apply map_ext. intros m. unfold pairc at 2. cbn [map rsum fst snd]. fold (pairc l k m).
    destruct (Nat.eqb i k), (Nat.eqb j m); cbn [andb]; ring.
Qed.
Lemma pairc_in l : NoDup (map fst l) -> forall i j c, In ((i, j), c) l -> pairc l i j = c.
Proof.
  induction l as [|[[k m] d] l IH]; intros ND i j c I; [destruct I|]. cbn [map fst] in ND. inversion ND as [|? ? N1 N2]; subst.
  unfold pairc. cbn [map rsum fst snd]. fold (pairc l i j). destruct I as [E|I].
  - injection E as -> -> ->. rewrite !Nat.eqb_refl. cbn [andb]. unfold pairc. rewrite rsum_zero; [ring|].
    apply Forall_forall. intros z Iz. apply in_map_iff in Iz. destruct Iz as ([[k m] d'] & <- & Ik). cbn [fst snd].
    destruct (Nat.eqb k i && Nat.eqb m j)%bool eqn:E; [|reflexivity]. exfalso. apply andb_prop in E. destruct E as [E1 E2].
    apply Nat.eqb_eq in E1. apply Nat.eqb_eq in E2. subst. apply N1. apply (in_map fst) in Ik. exact Ik.
  - rewrite (IH N2 _ _ _ I). destruct (Nat.eqb k i && Nat.eqb m j)%bool eqn:E; [|ring]. exfalso. apply andb_prop in E. destruct E as [E1 E2].
    apply Nat.eqb_eq in E1. apply Nat.eqb_eq in E2. subst. apply N1. apply (in_map fst) in I. exact I.
Qed.
Lemma bound_exists (l : list ((nat * nat) * R)) : exists N, Forall (fun p => (fst (fst p) < N)%nat /\ (snd (fst p) < N)%nat) l.
Proof.
  induction l as [|[[i j] c] l [N H]]; [exists 0%nat; constructor|]. exists (S (N + i + j)). constructor; [cbn; lia|].
  eapply Forall_impl; [|exact H]. cbn. intros. lia.
Qed.
(** a combination of distinct products that vanishes on the open square has zero coefficients *)
Lemma indep2 l : NoDup (map fst l) ->
  (forall x y, -1 < x < 1 -> -1 < y < 1 -> rsum (map (fun p => snd p * (bardell (fst (fst p)) x * bardell (snd (fst p)) y)) l) = 0) ->
  Forall (fun p => snd p = 0) l.
Proof.
  intros ND H. destruct (bound_exists l) as [N B]. apply Forall_forall. intros [[i j] c] I. cbn [snd].
  assert (Hij : (i < N)%nat /\ (j < N)%nat) by (rewrite Forall_forall in B; apply (B _ I)).
  rewrite <- (pairc_in l ND i j c I).
  apply (indep N (fun j => pairc l i j)); [|apply Hij]. intros y Hy.
  apply (indep N (fun i => rsum (map (fun j => pairc l i j * bardell j y) (seq 0 N)))); [|apply Hij]. intros x Hx.
  rewrite <- (regroup N l (fun i => bardell i x) (fun j => bardell j y) B). apply H; assumption.
Qed.
