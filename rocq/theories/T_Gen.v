(** Proofs of the theorems about the generators of the shape functions. *)
From Coq Require Import Reals ZArith Arith Lra Lia.
From Coquelicot Require Import Coquelicot.
From Coq Require Import List.
From Verif Require Import M_Py M_Gen S_Mat S_Bardell S_Shape S_Energy L_Legendre.
Import ListNotations.
Open Scope R_scope.

Lemma factorial2_odd j : factorial2 (2 * Z.of_nat j - 1) = Ok (IZR (zdfact (2 * j - 1))).
Proof.
  unfold factorial2. destruct j as [|j].
  - change (Ok (IZR (-1) * (-1) ^ Pos.to_nat 1 / (INR (fact (Pos.to_nat 1)) / (2 ^ 0 * INR (fact 0)))) = Ok (IZR 1)).
    f_equal. change (Pos.to_nat 1) with 1%nat. cbn [pow fact Nat.mul Nat.add INR]. field.
  - destruct (Z.leb_spec 0 (2 * Z.of_nat (S j) - 1)); [|lia]. f_equal. unfold factorial2_pos.
    assert (E : Z.even (2 * Z.of_nat (S j) - 1) = false). { rewrite <- Z.negb_odd. replace (2 * Z.of_nat (S j) - 1)%Z with (1 + 2 * Z.of_nat j)%Z by lia. rewrite Z.odd_add_mul_2. reflexivity. }
    rewrite E. replace ((2 * Z.of_nat (S j) - 1) / 2)%Z with (Z.of_nat j).
    2: { apply (Z.div_unique _ 2 _ 1); lia. }
    rewrite Nat2Z.id. replace (Z.to_nat (2 * Z.of_nat (S j) - 1)) with (2 * S j - 1)%nat by lia.
    assert (H0 := dfact_odd (S j)). rename H into Hz. rename H0 into H. replace (2 * S j)%nat with (S (2 * S j - 1)) in H at 1 by lia. rewrite fact_simpl, mult_INR in H.
    replace (S (2 * S j - 1)) with (2 * S j)%nat in H by lia. rewrite mult_INR, (fact_simpl j), mult_INR in H. change (INR 2) with 2 in H. cbn [pow] in H.
    assert (N1 := INR_fact_neq_0 j). assert (N2 : 2 ^ j <> 0) by (apply pow_nonzero; lra). assert (N3 : INR (S j) <> 0) by (apply not_0_INR; lia).
    apply Rmult_eq_reg_r with (2 * INR (S j) * (2 ^ j * INR (fact j))).
    + transitivity (2 * INR (S j) * INR (fact (2 * S j - 1))); [field; split; assumption|]. rewrite H. ring.
    + repeat apply Rmult_integral_contrapositive_currified; try assumption. lra.
Qed.
Lemma orth_loop (f : nat -> res R) (g : nat -> R) l s : (forall n, In n l -> f n = Ok (g n)) ->
  fold_left (fun acc n => s <- acc ;; t <- f n ;; Ok (s + t)) l (Ok s) = Ok (s + rsum (map g l)).
Proof.
  revert s. induction l as [|n l IH]; intros s H; cbn [fold_left map rsum]; [f_equal; ring|]. cbn [bind]. rewrite (H n (or_introl eq_refl)). cbn [bind].
  rewrite IH by (intros; apply H; right; assumption). f_equal. ring.
Qed.

(*@ C71: the generator _orth_polynomials, run on any index however large, yields the function of the literature formula: the
    terms with a negative factorial (complex infinity in sympy) contribute 0, and no double factorial raises. @*)
Lemma t_C71_generator : forall i x, gen_F i x = Ok (bardell i x).
Proof.
  intros i x. destruct (Nat.lt_ge_cases i 4) as [L|L].
  - destruct i as [|[|[|[|i]]]]; try lia; reflexivity.
  - assert (E1 : gen_F i x = orth_polynomials (Z.of_nat i + 1) x) by (destruct i as [|[|[|[|i]]]]; try lia; reflexivity).
    assert (E2 : bardell i x = rsum (map (fun n => bardell_term i n x) (seq 0 (S (i / 2))))).
    { destruct i as [|[|[|[|i]]]]; try lia. cbn [bardell]. rewrite fold_rsum. reflexivity. }
    rewrite E1, E2. unfold orth_polynomials.
    set (g := fun n => if Nat.leb (2 * n) i then bardell_term i n x else 0).
    assert (D := Nat.div_mod i 2 ltac:(lia)). assert (Md := Nat.mod_upper_bound i 2 ltac:(lia)).
    assert (Dz : ((Z.of_nat i + 1) / 2 = Z.of_nat ((i + 1) / 2))%Z) by (rewrite Nat2Z.inj_div, Nat2Z.inj_add; reflexivity).
    assert (D' := Nat.div_mod (i + 1) 2 ltac:(lia)). assert (Md' := Nat.mod_upper_bound (i + 1) 2 ltac:(lia)).
    rewrite (orth_loop (fun n => orth_term (Z.of_nat i + 1) (Z.of_nat n) x) g).
    + f_equal. rewrite Rplus_0_l, Dz. replace (Z.to_nat (Z.of_nat ((i + 1) / 2) + 1)) with (S ((i + 1) / 2)) by lia.
      rewrite (seq_split_at (S (i / 2)) (S ((i + 1) / 2))) by lia. rewrite map_app, rsum_apply, (rsum_null g (seq (S (i / 2)) _)).
      * rewrite Rplus_0_r. apply rsum_ext. intros n Hn. apply in_seq in Hn. unfold g. destruct (Nat.leb_spec (2 * n) i); [reflexivity|lia].
      * intros n Hn. apply in_seq in Hn. unfold g. destruct (Nat.leb_spec (2 * n) i); [lia|reflexivity].
    + intros n Hn. apply in_seq in Hn. rewrite Dz in Hn. replace (Z.to_nat (Z.of_nat ((i + 1) / 2) + 1)) with (S ((i + 1) / 2)) in Hn by lia.
      unfold orth_term. replace (2 * (Z.of_nat i + 1) - 2 * Z.of_nat n - 7)%Z with (2 * Z.of_nat (i - 2 - n) - 1)%Z by lia.
      rewrite factorial2_odd. cbn [bind]. f_equal. unfold factorial at 1. destruct (Z.ltb_spec (Z.of_nat n) 0); [lia|]. rewrite !Nat2Z.id.
      unfold factorial, g. destruct (Nat.leb_spec (2 * n) i).
      * destruct (Z.ltb_spec (Z.of_nat i + 1 - 2 * Z.of_nat n - 1) 0); [lia|]. cbn [smul sdiv].
        replace (Z.of_nat i + 1 - 2 * Z.of_nat n - 1)%Z with (Z.of_nat (i - 2 * n)) by lia. rewrite Nat2Z.id, <- pow_powerRZ. unfold bardell_term. rewrite !zfact_fact.
        replace (2 * i - 2 * n - 5)%nat with (2 * (i - 2 - n) - 1)%nat by lia. reflexivity.
      * destruct (Z.ltb_spec (Z.of_nat i + 1 - 2 * Z.of_nat n - 1) 0); [|lia]. cbn [smul sdiv]. ring.
Qed.

(*@ C71: from index 4 on, the functions are the (i-4)-th derivatives of (x^2-1)^(i-2), scaled: twice integrated Legendre polynomials. @*)
Lemma t_C71_rodrigues : forall i x, (4 <= i)%nat -> bardell i x = Derive_n (fun y => (y ^ 2 - 1) ^ (i - 2)) (i - 4) x / (2 ^ (i - 2) * INR (fact (i - 2))).
Proof.
  intros i x H. rewrite (tower_Derive_n (B (i - 2))); [|apply B_derive|intros y; symmetry; apply B_0]. rewrite bardell_B by exact H. field.
  split; [apply INR_fact_neq_0|apply pow_nonzero; lra].
Qed.

(*@ C71: for every index, however large, the generated function has the end values and slopes the constraint model relies on: 0 and 2
    carry a unit end value, 1 and 3 an end slope of one half, all others vanish with their slope at both ends. @*)
Lemma t_C71_ends : forall i, exists f, (forall x, gen_F i x = Ok (f x)) /\ (forall x, ex_derive f x) /\ ends f = expected_ends i.
Proof. intros i. exists (bardell i). destruct (bardell_ends i) as [A B]. split; [intros x; apply t_C71_generator|split; assumption]. Qed.

(*@ C71: the integrals of products of derivatives vanish away from the diagonal: functions i and k with derivatives p and q (at
    most 2) are orthogonal whenever |i - k| > 4 - p - q, the cubics counting as index 3. @*)
Lemma t_C71_sparse : forall p q i k, (p <= 2)%nat -> (q <= 2)%nat ->
  (Nat.max i 3 + 4 < k + p + q)%nat \/ (Nat.max k 3 + 4 < i + p + q)%nat -> exact_int p q i k = 0.
Proof. exact exact_int_sparse. Qed.

(*@ C71: the second derivatives are orthogonal to each other and to those of the cubics, with squared norm 2/(2i-3). @*)
Lemma t_C71_second : forall i k, (4 <= i)%nat -> exact_int 2 2 i k = (if Nat.eqb i k then 2 / (2 * INR i - 3) else 0) /\ exact_int 2 2 k i = exact_int 2 2 i k.
Proof.
  intros i k H. destruct (Nat.eqb_spec i k) as [<-|N]; [split; [apply exact_int_diag; exact H|reflexivity]|].
  assert (Z : exact_int 2 2 i k = 0) by (apply exact_int_sparse; lia). assert (Z' : exact_int 2 2 k i = 0) by (apply exact_int_sparse; lia). split; congruence.
Qed.

(*@ C71, concrete instances. @*)
Example t_C71_ex : exact_int 2 2 49 49 = 2 / 95 /\ exact_int 1 1 60 57 = 0 /\ exact_int 0 0 2 8 = 0 /\ exact_int 2 0 1 7 = 0.
Proof.
  repeat split; try (apply t_C71_sparse; cbn; lia). destruct (t_C71_second 49 49 ltac:(lia)) as [-> _]. rewrite Nat.eqb_refl. replace (2 * INR 49 - 3) with 95; [reflexivity|]. rewrite INR_IZR_INZ. cbn. lra.
Qed.
