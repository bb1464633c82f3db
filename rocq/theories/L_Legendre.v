(** Derivatives of (x^2-1)^k: end values, orthogonality, and their relation to Bardell's functions. *)
From Coq Require Import Reals ZArith Lra Lia.
From Coquelicot Require Import Coquelicot.
From Coq Require Import List.
From Verif Require Import S_Mat S_Bardell S_Shape S_Energy.
Import ListNotations.
Open Scope R_scope.

(** ** m-th derivative of x^j *)
Fixpoint ff (j m : nat) : R := match m with O => 1 | S m' => ff j m' * (INR j - INR m') end.
Lemma ff_zero j m : (j < m)%nat -> ff j m = 0.
Proof.
  induction m as [|m IH]; intros H; [lia|]. cbn [ff]. destruct (Nat.eq_dec j m) as [->|N]; [ring|]. rewrite IH by lia. ring.
Qed.
Lemma ff_fact j m : (m <= j)%nat -> ff j m * INR (fact (j - m)) = INR (fact j).
Proof.
  induction m as [|m IH]; intros H; cbn [ff]; [rewrite Nat.sub_0_r; ring|]. rewrite <- (IH ltac:(lia)).
  replace (j - m)%nat with (S (j - S m)) by lia. rewrite fact_simpl, mult_INR. rewrite S_INR, (minus_INR j (S m)) by lia. rewrite S_INR. ring.
Qed.
Definition mono (j m : nat) (x : R) : R := ff j m * x ^ (j - m).
Lemma mono_derive j m x : is_derive (mono j m) x (mono j (S m) x).
Proof.
  unfold mono. destruct (Nat.lt_ge_cases m j) as [L|L].
  - evar_last. { apply is_derive_scal. apply is_derive_pow. apply is_derive_id. }
    cbn [ff]. replace (j - m)%nat with (S (j - S m)) by lia. cbn [Nat.pred]. rewrite S_INR, minus_INR, S_INR by lia. unfold one; cbn. ring.
  - rewrite (ff_zero j (S m)) by lia. replace (j - m)%nat with 0%nat by lia. cbn [pow].
    apply (is_derive_ext (fun _ => ff j m * 1)); [reflexivity|]. evar_last; [apply @is_derive_const|]. unfold zero; cbn. ring.
Qed.

(** ** finite sums *)
Lemma rsum_ext {X} (f g : X -> R) l : (forall x, In x l -> f x = g x) -> rsum (map f l) = rsum (map g l).
Proof. induction l as [|a l IH]; intros H; cbn [map rsum]; [reflexivity|]. rewrite H by (left; reflexivity). rewrite IH; [reflexivity|]. intros; apply H; right; assumption. Qed.
Lemma rsum_add {X} (f g : X -> R) l : rsum (map (fun x => f x + g x) l) = rsum (map f l) + rsum (map g l).
Proof. induction l as [|a l IH]; cbn [map rsum]; [ring|]. rewrite IH. ring. Qed.
Lemma rsum_mul {X} c (f : X -> R) l : rsum (map (fun x => c * f x) l) = c * rsum (map f l).
Proof. induction l as [|a l IH]; cbn [map rsum]; [ring|]. rewrite IH. ring. Qed.
Lemma rsum_null {X} (f : X -> R) l : (forall x, In x l -> f x = 0) -> rsum (map f l) = 0.
Proof. induction l as [|a l IH]; intros H; cbn [map rsum]; [reflexivity|]. rewrite H by (left; reflexivity). rewrite IH; [ring|]. intros; apply H; right; assumption. Qed.
Lemma rsum_apply (l r : list R) : rsum (l ++ r) = rsum l + rsum r.
Proof. induction l as [|a l IH]; cbn [List.app rsum]; [ring|]. rewrite IH. ring. Qed.
Lemma rsum_derive {X} (f g : X -> R -> R) l x : (forall k, In k l -> is_derive (f k) x (g k x)) -> is_derive (fun y => rsum (map (fun k => f k y) l)) x (rsum (map (fun k => g k x) l)).
Proof.
  induction l as [|a l IH]; intros H; cbn [map rsum].
  - apply (is_derive_ext (fun _ => 0)); [reflexivity|]. apply @is_derive_const.
  - apply (is_derive_plus (f a) (fun y => rsum (map (fun k => f k y) l))); [apply H; left; reflexivity|apply IH; intros; apply H; right; assumption].
Qed.
Lemma rsum_f_R0 f n : sum_f_R0 f n = rsum (map f (seq 0 (S n))).
Proof.
  induction n as [|n IH]; [cbn; ring|]. rewrite seq_S, map_app, rsum_apply. cbn [sum_f_R0]. rewrite IH. cbn [map rsum Nat.add]. ring.
Qed.

(** ** B k m = m-th derivative of (x^2-1)^k *)
Definition B (k m : nat) (x : R) : R := rsum (map (fun n => (-1) ^ n * Binomial.C k n * mono (2 * (k - n)) m x) (seq 0 (S k))).
Lemma B_derive k m x : is_derive (B k m) x (B k (S m) x).
Proof. apply (rsum_derive (fun n y => (-1) ^ n * Binomial.C k n * mono (2 * (k - n)) m y) (fun n y => (-1) ^ n * Binomial.C k n * mono (2 * (k - n)) (S m) y)). intros n _. apply is_derive_scal. apply mono_derive. Qed.
Lemma B_0 k x : B k 0 x = (x ^ 2 - 1) ^ k.
Proof.
  replace (x ^ 2 - 1) with (-1 + x ^ 2) by ring. rewrite binomial, rsum_f_R0. unfold B. apply rsum_ext. intros n _. unfold mono. cbn [ff]. rewrite Nat.sub_0_r, <- pow_mult. ring.
Qed.
Lemma B_high k m x : (2 * k < m)%nat -> B k m x = 0.
Proof. intros H. apply rsum_null. intros n _. unfold mono. rewrite ff_zero by lia. ring. Qed.
Lemma B_top k x : B k (2 * k) x = INR (fact (2 * k)).
Proof.
  unfold B. cbn [seq map rsum]. rewrite rsum_null.
  - unfold mono. rewrite Nat.sub_0_r, Nat.sub_diag. assert (H := ff_fact (2 * k) (2 * k) (le_n _)). rewrite Nat.sub_diag in H. cbn [fact INR] in H.
    rewrite <- H. unfold Binomial.C. rewrite Nat.sub_0_r. cbn [fact INR pow]. field. apply INR_fact_neq_0.
  - intros n Hn. apply in_seq in Hn. unfold mono. rewrite ff_zero by lia. ring.
Qed.
Lemma derive_uniq (f g : R -> R) (x l l' : R) : (forall y, f y = g y) -> is_derive f x l -> is_derive g x l' -> l = l'.
Proof. intros E H H'. apply (is_derive_ext g f) in H'; [|intros; symmetry; apply E]. rewrite <- (is_derive_unique _ _ _ H). apply is_derive_unique. exact H'. Qed.
Lemma B_1 k x : B (S k) 1 x = 2 * INR (S k) * x * (x ^ 2 - 1) ^ k.
Proof.
  apply (derive_uniq (B (S k) 0) (fun y => (y ^ 2 - 1) ^ S k) x); [intros y; apply B_0|apply B_derive|].
  auto_derive; [trivial|]. change (match k with 0%nat => 1 | S _ => INR k + 1 end) with (INR (S k)). rewrite ?Nat.sub_0_r. cbn [Nat.pred]. replace (x * (x * 1) + - (1)) with (x ^ 2 - 1) by ring. ring.
Qed.
(** Leibniz applied to (x^2-1) B' = 2 k x B *)
Lemma B_ode k m x : (x ^ 2 - 1) * B (S k) (S (S m)) x + (2 * INR (S m) - 2 * INR (S k)) * x * B (S k) (S m) x
  + (INR (S m) * INR m - 2 * INR (S k) * INR (S m)) * B (S k) m x = 0.
Proof.
  revert x. induction m as [|m IH]; intros x.
  - assert (E : forall y, (y ^ 2 - 1) * B (S k) 1 y + (- (2 * INR (S k))) * (y * B (S k) 0 y) = 0).
    { intros y. rewrite B_1, B_0. cbn [pow]. ring. }
    assert (D : is_derive (fun y => (y ^ 2 - 1) * B (S k) 1 y + (- (2 * INR (S k))) * (y * B (S k) 0 y)) x
      (((2 * x) * B (S k) 1 x + (x ^ 2 - 1) * B (S k) 2 x) + (- (2 * INR (S k))) * (1 * B (S k) 0 x + x * B (S k) 1 x))).
    { apply (is_derive_plus (fun y => (y ^ 2 - 1) * B (S k) 1 y) (fun y => (- (2 * INR (S k))) * (y * B (S k) 0 y))).
      - apply (is_derive_mult (fun y => y ^ 2 - 1) (B (S k) 1)); [auto_derive; [trivial|ring]|apply B_derive|intros; apply Rmult_comm].
      - apply is_derive_scal. apply (is_derive_mult (fun y => y) (B (S k) 0)); [apply @is_derive_id|apply B_derive|intros; apply Rmult_comm]. }
    apply (derive_uniq _ (fun _ => 0) x _ 0 E) in D; [|apply @is_derive_const]. rewrite <- D. change (INR 1) with 1. change (INR 0) with 0. ring.
  - set (a := 2 * INR (S m) - 2 * INR (S k)) in *. set (b := INR (S m) * INR m - 2 * INR (S k) * INR (S m)) in *.
    assert (E : forall y, (y ^ 2 - 1) * B (S k) (S (S m)) y + (a * (y * B (S k) (S m) y) + b * B (S k) m y) = 0) by (intros y; rewrite <- (IH y); ring).
    assert (D : is_derive (fun y => (y ^ 2 - 1) * B (S k) (S (S m)) y + (a * (y * B (S k) (S m) y) + b * B (S k) m y)) x
      (((2 * x) * B (S k) (S (S m)) x + (x ^ 2 - 1) * B (S k) (S (S (S m))) x) + (a * (1 * B (S k) (S m) x + x * B (S k) (S (S m)) x) + b * B (S k) (S m) x))).
    { apply (is_derive_plus (fun y => (y ^ 2 - 1) * B (S k) (S (S m)) y) (fun y => a * (y * B (S k) (S m) y) + b * B (S k) m y)).
      - apply (is_derive_mult (fun y => y ^ 2 - 1) (B (S k) (S (S m)))); [auto_derive; [trivial|ring]|apply B_derive|intros; apply Rmult_comm].
      - apply (is_derive_plus (fun y => a * (y * B (S k) (S m) y)) (fun y => b * B (S k) m y)); [|apply is_derive_scal; apply B_derive].
        apply is_derive_scal. apply (is_derive_mult (fun y => y) (B (S k) (S m))); [apply @is_derive_id|apply B_derive|intros; apply Rmult_comm]. }
    apply (derive_uniq _ (fun _ => 0) x _ 0 E) in D; [|apply @is_derive_const]. rewrite <- D. unfold a, b. rewrite !(S_INR (S m)), !(S_INR m). ring.
Qed.
Lemma B_end k m x : x = 1 \/ x = -1 -> (m < k)%nat -> B k m x = 0.
Proof.
  intros Hx. destruct k as [|k]; [lia|]. assert (U : x ^ 2 - 1 = 0) by (destruct Hx; subst; ring). assert (Nx : x <> 0) by (destruct Hx; subst; lra).
  induction m as [|m IH]; intros H.
  - rewrite B_0, U. cbn [pow]. ring.
  - assert (E := B_ode k m x). rewrite U, (IH ltac:(lia)) in E. assert (N : 2 * INR (S m) - 2 * INR (S k) <> 0). { apply lt_INR in H. lra. }
    apply Rmult_eq_reg_l with ((2 * INR (S m) - 2 * INR (S k)) * x); [lra|]. apply Rmult_integral_contrapositive. split; assumption.
Qed.

(** ** integrals over [-1, 1] *)
Definition smooth (f : R -> R) : Prop := forall x, continuous f x.
Lemma derive_smooth (f f' : R -> R) : (forall x, is_derive f x (f' x)) -> smooth f.
Proof. intros H x. apply (@ex_derive_continuous R_AbsRing R_NormedModule). exists (f' x). apply H. Qed.
Lemma B_smooth k m : smooth (B k m). Proof. apply (derive_smooth _ (B k (S m))). apply B_derive. Qed.
Lemma smooth_mult f g : smooth f -> smooth g -> smooth (fun x => f x * g x).
Proof. intros F G x. apply (continuous_mult f g); [apply F|apply G]. Qed.
Lemma smooth_RInt f a b : smooth f -> ex_RInt f a b.
Proof. intros H. apply (@ex_RInt_continuous R_CompleteNormedModule). intros; apply H. Qed.
Definition I (f : R -> R) : R := RInt f (-1) 1.
Lemma I_ext f g : (forall x, f x = g x) -> I f = I g.
Proof. intros H. apply RInt_ext. intros; apply H. Qed.
Lemma I_scal c f : smooth f -> I (fun x => c * f x) = c * I f.
Proof. intros H. apply (RInt_scal f). apply smooth_RInt. exact H. Qed.
Lemma I_plus f g : smooth f -> smooth g -> I (fun x => f x + g x) = I f + I g.
Proof. intros F G. apply (RInt_plus f g); apply smooth_RInt; assumption. Qed.
Lemma I_parts (f f' g g' : R -> R) : (forall x, is_derive f x (f' x)) -> (forall x, is_derive g x (g' x)) -> smooth f' -> smooth g' ->
  I (fun x => f' x * g x) = f 1 * g 1 - f (-1) * g (-1) - I (fun x => f x * g' x).
Proof.
  intros F G F' G'. assert (SF := derive_smooth f f' F). assert (SG := derive_smooth g g' G).
  assert (S1 := smooth_mult _ _ F' SG). assert (S2 := smooth_mult _ _ SF G').
  assert (E : is_RInt (fun x => f' x * g x + f x * g' x) (-1) 1 (f 1 * g 1 - f (-1) * g (-1))).
  { apply (is_RInt_derive (fun x => f x * g x)).
    - intros x _. apply (is_derive_mult f g x (f' x) (g' x)); [apply F|apply G|intros; apply Rmult_comm].
    - intros x _. apply (continuous_plus (fun y => f' y * g y) (fun y => f y * g' y)); [apply S1|apply S2]. }
  assert (E' := is_RInt_unique (V := R_CompleteNormedModule) _ _ _ _ E). clear E. assert (P := I_plus _ _ S1 S2). change (I (fun x => f' x * g x + f x * g' x) = f 1 * g 1 - f (-1) * g (-1)) in E'. rewrite P in E'. lra.
Qed.
Lemma B_parts k m (g : nat -> R -> R) l : (forall j x, is_derive (g j) x (g (S j) x)) -> (m <= k)%nat ->
  I (fun x => B k m x * g l x) = (-1) ^ m * I (fun x => B k 0 x * g (l + m)%nat x).
Proof.
  intros G. revert l. induction m as [|m IH]; intros l H.
  - cbn [pow]. rewrite Nat.add_0_r. ring.
  - rewrite (I_parts (B k m) (B k (S m)) (g l) (g (S l)) (B_derive k m) (G l) (B_smooth k (S m)) (derive_smooth _ _ (G (S l)))).
    rewrite !(B_end k m) by (auto; lia). rewrite (IH (S l)) by lia. replace (S l + m)%nat with (l + S m)%nat by lia. cbn [pow]. ring.
Qed.
Lemma B_orth k m (g : nat -> R -> R) l : (forall j x, is_derive (g j) x (g (S j) x)) -> (m <= k)%nat -> (forall x, g (l + m)%nat x = 0) ->
  I (fun x => B k m x * g l x) = 0.
Proof.
  intros G H Z. rewrite (B_parts k m g l G H). rewrite (I_ext _ (fun _ => 0)).
  - unfold I. rewrite RInt_const. unfold scal; cbn. unfold mult; cbn. ring.
  - intros x. rewrite Z. ring.
Qed.
Lemma B_norm0 k : I (fun x => B k 0 x * 1) * INR (fact (2 * k + 1)) = (-1) ^ k * 2 * (2 ^ k * INR (fact k)) ^ 2.
Proof.
  assert (C1 : forall x, is_derive (fun x => x) x ((fun _ => 1) x)) by (intros; apply @is_derive_id).
  assert (Cc : smooth (fun _ => 1)) by (intros x; apply continuous_const).
  assert (Ci : smooth (fun x => x)) by (apply (derive_smooth _ (fun _ => 1)); exact C1).
  induction k as [|k IH].
  - rewrite (I_ext _ (fun _ => 1)) by (intros x; rewrite B_0; cbn [pow]; ring). unfold I. rewrite RInt_const. unfold scal; cbn. unfold mult; cbn. ring.
  - assert (P := I_parts (B (S k) 0) (B (S k) 1) (fun x => x) (fun _ => 1) (B_derive (S k) 0) C1 (B_smooth (S k) 1) Cc).
    rewrite !(B_end (S k) 0) in P by (auto; lia).
    set (J := I (fun x => B (S k) 0 x * 1)) in *.
    assert (E : I (fun x => B (S k) 1 x * x) = 2 * INR (S k) * (J + I (fun x => B k 0 x * 1))).
    { unfold J. rewrite <- (I_plus (fun x => B (S k) 0 x * 1) (fun x => B k 0 x * 1)) by (apply (smooth_mult _ (fun _ => 1)); [apply B_smooth|exact Cc]).
      rewrite <- (I_scal (2 * INR (S k)) (fun x => B (S k) 0 x * 1 + B k 0 x * 1)).
      - apply I_ext. intros x. rewrite B_1, !B_0. cbn [pow]. ring.
      - intros x. apply (continuous_plus (fun x => B (S k) 0 x * 1) (fun x => B k 0 x * 1)); apply (smooth_mult _ (fun _ => 1)); try apply B_smooth; exact Cc. }
    rewrite E in P. set (J0 := I (fun x => B k 0 x * 1)) in *. clearbody J J0.
    assert (F : (2 * INR (S k) + 1) * J = - (2 * INR (S k) * J0)) by lra.
    replace (2 * S k + 1)%nat with (S (S (2 * k + 1))) by lia. rewrite (fact_simpl (S (2 * k + 1))), (fact_simpl (2 * k + 1)), (fact_simpl k), !mult_INR.
    assert (N1 : INR (S (S (2 * k + 1))) = 2 * INR (S k) + 1) by (rewrite !S_INR, plus_INR, mult_INR, S_INR; cbn; ring).
    assert (N2 : INR (S (2 * k + 1)) = 2 * INR (S k)) by (rewrite !S_INR, plus_INR, mult_INR; cbn; ring).
    rewrite N1, N2. cbn [pow].
    transitivity (((2 * INR (S k) + 1) * J) * (2 * INR (S k)) * INR (fact (2 * k + 1))); [ring|]. rewrite F.
    transitivity (- (2 * INR (S k) * (2 * INR (S k))) * (J0 * INR (fact (2 * k + 1)))); [ring|]. rewrite IH. ring.
Qed.
Lemma B_norm k : I (fun x => B k k x * B k k x) * (2 * INR k + 1) = 2 * (2 ^ k * INR (fact k)) ^ 2.
Proof.
  rewrite (B_parts k k (B k) k (B_derive k) (le_n k)).
  rewrite (I_ext _ (fun x => INR (fact (2 * k)) * (B k 0 x * 1))) by (intros x; replace (k + k)%nat with (2 * k)%nat by lia; rewrite B_top; ring).
  rewrite I_scal by (apply (smooth_mult _ (fun _ => 1)); [apply B_smooth|intros x; apply continuous_const]).
  assert (H := B_norm0 k). replace (2 * k + 1)%nat with (S (2 * k)) in H by lia. rewrite fact_simpl, mult_INR, S_INR, mult_INR in H. change (INR 2) with 2 in H.
  assert (S : (-1) ^ k * (-1) ^ k = 1). { rewrite <- Rpow_mult_distr. replace (-1 * -1) with 1 by ring. apply pow1. }
  transitivity ((-1) ^ k * (I (fun x => B k 0 x * 1) * ((2 * INR k + 1) * INR (fact (2 * k))))); [ring|]. rewrite H.
  transitivity (((-1) ^ k * (-1) ^ k) * 2 * (2 ^ k * INR (fact k)) ^ 2); [ring|]. rewrite S. ring.
Qed.

(** ** Bardell's functions *)
Lemma zfact_fact n : IZR (zfact n) = INR (fact n).
Proof. induction n as [|n IH]; [reflexivity|]. cbn [zfact]. rewrite mult_IZR, IH, <- INR_IZR_INZ, fact_simpl, mult_INR. reflexivity. Qed.
Lemma zdfact_SS n : zdfact (S (S n)) = (Z.of_nat (S (S n)) * zdfact n)%Z. Proof. reflexivity. Qed.
Lemma dfact_odd j : INR (fact (2 * j)) = IZR (zdfact (2 * j - 1)) * (2 ^ j * INR (fact j)).
Proof.
  induction j as [|j IH]; [cbn; ring|]. replace (2 * S j)%nat with (S (S (2 * j))) by lia. rewrite (fact_simpl (S (2 * j))), (fact_simpl (2 * j)), !mult_INR, IH, (fact_simpl j), mult_INR.
  assert (D : IZR (zdfact (S (S (2 * j)) - 1)) = INR (S (2 * j)) * IZR (zdfact (2 * j - 1))).
  { destruct j as [|j]; [cbn; ring|]. replace (S (S (2 * S j)) - 1)%nat with (S (S (2 * S j - 1))) by lia. rewrite zdfact_SS, mult_IZR, <- INR_IZR_INZ. f_equal. f_equal. lia. }
  rewrite D. cbn [pow]. assert (E : INR (S (S (2 * j))) = 2 * INR (S j)) by (rewrite !S_INR, mult_INR; cbn; ring). rewrite E. ring.
Qed.
Lemma seq_split_at n m : (n <= m)%nat -> seq 0 m = seq 0 n ++ seq n (m - n).
Proof. intros H. replace m with (n + (m - n))%nat at 1 by lia. rewrite seq_app. reflexivity. Qed.
Lemma fold_rsum (l : list R) : fold_right Rplus 0 l = rsum l.
Proof. induction l as [|a l IH]; cbn; [reflexivity|]. rewrite IH. reflexivity. Qed.
Lemma norm_pos k : 0 < 2 ^ k * INR (fact k).
Proof. apply Rmult_lt_0_compat; [apply pow_lt; lra|apply lt_0_INR, lt_O_fact]. Qed.
Lemma bardell_B i x : (4 <= i)%nat -> B (i - 2) (i - 4) x = 2 ^ (i - 2) * INR (fact (i - 2)) * bardell i x.
Proof.
  intros Hi. set (k := (i - 2)%nat). assert (Ei : bardell i x = rsum (map (fun n => bardell_term i n x) (seq 0 (S (i / 2))))).
  { destruct i as [|[|[|[|i]]]]; try lia. cbn [bardell]. rewrite fold_rsum. reflexivity. }
  rewrite Ei, <- rsum_mul. assert (Hk : (i / 2 <= k)%nat). { unfold k. assert (D := Nat.div_mod i 2 ltac:(lia)). lia. }
  unfold B. rewrite (seq_split_at (S (i / 2)) (S k)) by lia. rewrite map_app, rsum_apply, (rsum_null _ (seq (S (i / 2)) _)), Rplus_0_r.
  - apply rsum_ext. intros n Hn. apply in_seq in Hn. assert (D := Nat.div_mod i 2 ltac:(lia)). assert (Md := Nat.mod_upper_bound i 2 ltac:(lia)).
    unfold bardell_term, mono. rewrite !zfact_fact. replace (2 * (k - n) - (i - 4))%nat with (i - 2 * n)%nat by (unfold k; lia).
    assert (F := ff_fact (2 * (k - n)) (i - 4) ltac:(unfold k; lia)). replace (2 * (k - n) - (i - 4))%nat with (i - 2 * n)%nat in F by (unfold k; lia).
    rewrite dfact_odd in F. replace (2 * i - 2 * n - 5)%nat with (2 * (k - n) - 1)%nat by (unfold k; lia).
    assert (N1 := INR_fact_neq_0 (i - 2 * n)). assert (N2 := INR_fact_neq_0 n). assert (N3 := INR_fact_neq_0 (k - n)). assert (N4 : 2 ^ n <> 0) by (apply pow_nonzero; lra).
    assert (E2 : 2 ^ k = 2 ^ n * 2 ^ (k - n)) by (rewrite <- pow_add; f_equal; unfold k; lia).
    assert (FF : ff (2 * (k - n)) (i - 4) = IZR (zdfact (2 * (k - n) - 1)) * (2 ^ (k - n) * INR (fact (k - n))) / INR (fact (i - 2 * n))) by (rewrite <- F; field; exact N1).
    rewrite FF, E2. unfold Binomial.C. field. repeat split; assumption.
  - intros n Hn. apply in_seq in Hn. unfold mono. rewrite ff_zero; [ring|]. assert (D := Nat.div_mod i 2 ltac:(lia)). assert (Md := Nat.mod_upper_bound i 2 ltac:(lia)). unfold k. lia.
Qed.

(** the derivatives of Bardell's functions *)
Definition cubic (i : nat) : list R :=
  match i with 0%nat => [1/2; -3/4; 0; 1/4] | 1%nat => [1/8; -1/8; -1/8; 1/8] | 2%nat => [1/2; 3/4; 0; -1/4] | _ => [-1/8; -1/8; 1/8; 1/8] end.
Definition tower (i m : nat) (x : R) : R :=
  if Nat.ltb i 4 then rsum (map (fun j => nth j (cubic i) 0 * mono j m x) (seq 0 4))
  else / (2 ^ (i - 2) * INR (fact (i - 2))) * B (i - 2) (i - 4 + m) x.
Lemma tower_derive i m x : is_derive (tower i m) x (tower i (S m) x).
Proof.
  unfold tower. destruct (Nat.ltb i 4).
  - apply (rsum_derive (fun j y => nth j (cubic i) 0 * mono j m y) (fun j y => nth j (cubic i) 0 * mono j (S m) y)). intros j _. apply is_derive_scal. apply mono_derive.
  - replace (i - 4 + S m)%nat with (S (i - 4 + m)) by lia. apply is_derive_scal. apply B_derive.
Qed.
Lemma tower_0 i x : tower i 0 x = bardell i x.
Proof.
  unfold tower. destruct (Nat.ltb_spec i 4) as [L|L].
  - destruct i as [|[|[|[|i]]]]; try lia; cbn; unfold mono; cbn; field.
  - rewrite Nat.add_0_r, bardell_B by exact L. field. split; [apply INR_fact_neq_0|apply pow_nonzero; lra].
Qed.
Lemma tower_Derive_n (g : nat -> R -> R) f n : (forall j x, is_derive (g j) x (g (S j) x)) -> (forall x, f x = g 0%nat x) -> forall x, Derive_n f n x = g n x.
Proof.
  intros G E. induction n as [|n IH]; intros x; cbn [Derive_n]; [apply E|]. rewrite (Derive_ext _ (g n)) by exact IH. apply is_derive_unique. apply G.
Qed.
Lemma bardell_tower i n x : Derive_n (bardell i) n x = tower i n x.
Proof. apply (tower_Derive_n (tower i)); [apply tower_derive|intros y; symmetry; apply tower_0]. Qed.
Lemma tower_smooth i m : smooth (tower i m). Proof. apply (derive_smooth _ (tower i (S m))). apply tower_derive. Qed.
Lemma exact_int_tower p q i k : exact_int p q i k = I (fun x => tower i p x * tower k q x).
Proof. unfold exact_int, I. apply RInt_ext. intros x _. rewrite !bardell_tower. reflexivity. Qed.
Lemma tower_high i m x : (Nat.max i 3 < m)%nat -> tower i m x = 0.
Proof.
  intros H. unfold tower. destruct (Nat.ltb_spec i 4) as [L|L].
  - apply rsum_null. intros j Hj. apply in_seq in Hj. unfold mono. rewrite ff_zero by lia. ring.
  - rewrite B_high by lia. ring.
Qed.
Lemma tower_orth i k p q : (p <= 2)%nat -> (4 <= k)%nat -> (Nat.max i 3 + 4 < k + p + q)%nat -> I (fun x => tower k p x * tower i q x) = 0.
Proof.
  intros Hp Hk H. rewrite (I_ext _ (fun x => / (2 ^ (k - 2) * INR (fact (k - 2))) * (B (k - 2) (k - 4 + p) x * tower i q x))).
  - rewrite I_scal by (apply smooth_mult; [apply B_smooth|apply tower_smooth]). rewrite (B_orth (k - 2) (k - 4 + p) (tower i) q); [ring|apply tower_derive|lia|].
    intros x. apply tower_high. lia.
  - intros x. unfold tower at 1. destruct (Nat.ltb_spec k 4); [lia|]. ring.
Qed.
Lemma exact_int_sparse p q i k : (p <= 2)%nat -> (q <= 2)%nat -> (Nat.max i 3 + 4 < k + p + q)%nat \/ (Nat.max k 3 + 4 < i + p + q)%nat -> exact_int p q i k = 0.
Proof.
  intros Hp Hq [H|H]; rewrite exact_int_tower.
  - rewrite (I_ext _ (fun x => tower k q x * tower i p x)) by (intros; ring). apply tower_orth; lia.
  - apply tower_orth; lia.
Qed.
Lemma exact_int_diag i : (4 <= i)%nat -> exact_int 2 2 i i = 2 / (2 * INR i - 3).
Proof.
  intros H. rewrite exact_int_tower. set (k := (i - 2)%nat). assert (N := norm_pos k).
  rewrite (I_ext _ (fun x => / (2 ^ k * INR (fact k)) ^ 2 * (B k k x * B k k x))).
  - rewrite I_scal by (apply smooth_mult; apply B_smooth). assert (E := B_norm k). assert (Ei : INR i = INR k + 2) by (unfold k; rewrite minus_INR by lia; cbn; ring).
    assert (P := pos_INR k). replace (2 * INR i - 3) with (2 * INR k + 1) by lra.
    apply Rmult_eq_reg_r with (2 * INR k + 1); [|lra]. rewrite Rmult_assoc, E. field. split; [lra|]. split; [apply INR_fact_neq_0|apply pow_nonzero; lra].
  - intros x. unfold tower. destruct (Nat.ltb_spec i 4); [lia|]. fold k. replace (i - 4 + 2)%nat with k by (unfold k; lia). field. split; [apply INR_fact_neq_0|apply pow_nonzero; lra].
Qed.
Lemma bardell_ends i : (forall x, ex_derive (bardell i) x) /\ ends (bardell i) = expected_ends i.
Proof.
  assert (D : forall x, is_derive (bardell i) x (tower i 1 x)).
  { intros x. apply (is_derive_ext (tower i 0)); [apply tower_0|apply tower_derive]. }
  split; [intros x; eexists; apply D|]. unfold ends. rewrite !(is_derive_unique _ _ _ (D _)).
  destruct (Nat.lt_ge_cases i 4) as [L|L].
  - destruct i as [|[|[|[|i]]]]; try lia; cbn; unfold mono; cbn; apply f_equal2; try apply f_equal2; try apply f_equal2; field.
  - rewrite <- !tower_0. unfold tower. destruct (Nat.ltb_spec i 4); [lia|]. rewrite !B_end by (auto; lia). rewrite Rmult_0_r. destruct i as [|[|[|[|i]]]]; try lia. reflexivity.
Qed.
