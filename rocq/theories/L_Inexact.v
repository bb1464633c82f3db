(** Approximate eigenpairs of a symmetric pencil. *)
From Coq Require Import Reals Lra Lia Arith Classical.
From Coquelicot Require Import Rcomplements.
From Verif Require Import L_Quad L_Spectral L_Higher.
Open Scope R_scope.

Lemma amgm a b s : 0 < s -> a * b <= (s * (a * a) + b * b / s) / 2.
Proof.
  intros H. assert (Q := Rle_0_sqr (s * a - b)). unfold Rsqr in Q. assert (I : 0 < / s) by (apply Rinv_0_lt_compat, H).
  apply (Rmult_le_compat_l (/ s)) in Q; [|lra]. replace (/ s * ((s * a - b) * (s * a - b))) with (s * (a * a) - 2 * (a * b) + b * b / s) in Q by (field; lra). lra.
Qed.
Lemma sm_amgm n x y s : 0 < s -> sm n (fun i => x i * y i) <= (s * sq n x + sq n y / s) / 2.
Proof.
  intros H. replace ((s * sq n x + sq n y / s) / 2) with (sm n (fun i => (s * (x i * x i) + y i * y i / s) / 2)).
  - apply sm_le. intros i _. apply amgm, H.
  - unfold sq. rewrite (sm_ext n _ (fun i => s / 2 * (x i * x i) + / (2 * s) * (y i * y i))) by (intros; field; lra). rewrite sm_add, !sm_scal. field. lra.
Qed.
Lemma sm_const n c : sm n (fun _ => c) = INR n * c.
Proof. induction n as [|n IH]; [cbn; ring|]. cbn [sm]. rewrite IH, S_INR. ring. Qed.
(** a double sum of products *)
Lemma sm_pairs n (x y : nat -> R) : sm n (fun i => sm n (fun k => (x i * x i + x k * x k) / 2)) = INR n * sq n x.
Proof.
  rewrite (sm_ext n _ (fun i => INR n / 2 * (x i * x i) + sq n x / 2)).
  - rewrite sm_add, sm_scal, sm_const. unfold sq. field.
  - intros i _. rewrite (sm_ext n _ (fun k => x i * x i / 2 + / 2 * (x k * x k))) by (intros; field). rewrite sm_add, sm_const, sm_scal. unfold sq. field.
Qed.
Lemma sm_mult n f g : sm n f * sm n g = sm n (fun i => sm n (fun k => f i * g k)).
Proof. rewrite Rmult_comm, <- sm_scal. apply sm_ext. intros i _. rewrite sm_scal. ring. Qed.
Lemma sm_square n x : sm n x * sm n x <= INR n * sq n x.
Proof.
  rewrite sm_mult, <- (sm_pairs n x x). apply sm_le. intros i _. apply sm_le. intros k _. assert (Q := Rle_0_sqr (x i - x k)). unfold Rsqr in Q. lra.
Qed.

Section I.
Variables (n : nat) (A M : nat -> nat -> R) (u : R).
Hypotheses (SA : symf n A) (SM : symf n M) (PM : pdf n M) (Hu : 0 < u) (U : forall y, u * sq n y <= bil n M y y).

Lemma norm_comb mu v c : (forall k, (k < n)%nat -> pairf n A M (mu k) (v k)) -> orth n M n v ->
  bil n M (comb n c v) (comb n c v) = sm n (fun k => bil n M (v k) (v k) * (c k * c k)).
Proof.
  intros P O. assert (E := energy_comb n A M SM n mu v c 0 P O). rewrite bil_pen in E. replace (bil n M (comb n c v) (comb n c v)) with (bil n M (comb n c v) (comb n c v) + 0 * bil n A (comb n c v) (comb n c v)) by ring.
  rewrite E. apply sm_ext. intros; ring.
Qed.
Lemma form_comb mu v c : (forall k, (k < n)%nat -> pairf n A M (mu k) (v k)) -> orth n M n v ->
  bil n A (comb n c v) (comb n c v) = sm n (fun k => mu k * bil n M (v k) (v k) * (c k * c k)).
Proof.
  intros P O. assert (E := energy_comb n A M SM n mu v c 1 P O). rewrite bil_pen, (norm_comb mu v c P O) in E.
  replace (bil n A (comb n c v) (comb n c v)) with (sm n (fun k => (1 + 1 * mu k) * bil n M (v k) (v k) * (c k * c k)) + -1 * sm n (fun k => bil n M (v k) (v k) * (c k * c k))) by lra.
  rewrite <- sm_scal, <- sm_add. apply sm_ext. intros; ring.
Qed.
(** an approximate eigenpair has an eigenvalue nearby *)
Lemma enclose e x v : 0 <= e -> nz n v -> sq n (fun i => app n A v i - x * app n M v i) <= e * e * u * bil n M v v ->
  exists mu w, pairf n A M mu w /\ Rabs (mu - x) <= e.
Proof.
  intros He Nv H. destruct (basis n A M SA SM PM n (le_n n)) as (mu & w & P & O).
  destruct (classic (exists k, (k < n)%nat /\ Rabs (mu k - x) <= e)) as [(k & Hk & C)|No]; [exists (mu k), (w k); split; [apply P, Hk|exact C]|exfalso].
  assert (Far : forall k, (k < n)%nat -> e * e < (mu k - x) * (mu k - x)).
  { intros k Hk. assert (F : e < Rabs (mu k - x)) by (apply Rnot_le_lt; intros C; apply No; exists k; auto).
    replace ((mu k - x) * (mu k - x)) with (Rabs (mu k - x) * Rabs (mu k - x)) by (rewrite <- Rabs_mult; apply Rabs_right, Rle_ge, Rle_0_sqr). apply Rmult_le_0_lt_compat; lra. }
  assert (E := expand n M SM PM w v (fun k Hk => proj1 (P k Hk)) O). set (c := fun k => bil n M (w k) v / bil n M (w k) (w k)) in *.
  set (d := fun k => c k * (mu k - x)). set (y := comb n d w). set (r := fun i => app n A v i - x * app n M v i) in *.
  assert (Ry : forall i, (i < n)%nat -> r i = app n M y i).
  { intros i Hi. unfold r, y, comb. rewrite !(app_ext n _ v (comb n c w) i E). unfold comb. rewrite !sm_app.
    replace (sm n (fun k => c k * app n A (w k) i) - x * sm n (fun k => c k * app n M (w k) i)) with (sm n (fun k => c k * app n A (w k) i) + (- x) * sm n (fun k => c k * app n M (w k) i)) by ring.
    rewrite <- sm_scal, <- sm_add. apply sm_ext. intros k Hk. rewrite (proj2 (P k Hk) i Hi). unfold d. ring. }
  assert (Y1 : bil n M y y = sm n (fun i => y i * r i)) by (apply sm_ext; intros i Hi; rewrite Ry by exact Hi; reflexivity).
  assert (Y2 : bil n M y y <= e * e * bil n M v v).
  { assert (Q := sm_amgm n y r u Hu). rewrite <- Y1 in Q. specialize (U y).
    assert (sq n r / u <= e * e * bil n M v v). { apply (Rmult_le_reg_l u); [exact Hu|]. replace (u * (sq n r / u)) with (sq n r) by (field; lra). lra. } lra. }
  rewrite (bil_ext n M v v _ _ E E) in Y2. unfold y in Y2. rewrite (norm_comb mu w c P O), (norm_comb mu w d P O) in Y2.
  assert (D : 0 < sm n (fun k => bil n M (w k) (w k) * (d k * d k)) - e * e * sm n (fun k => bil n M (w k) (w k) * (c k * c k))); [|lra].
  replace (sm n (fun k => bil n M (w k) (w k) * (d k * d k)) - e * e * sm n (fun k => bil n M (w k) (w k) * (c k * c k)))
    with (sm n (fun k => bil n M (w k) (w k) * (d k * d k)) + - (e * e) * sm n (fun k => bil n M (w k) (w k) * (c k * c k))) by ring.
  rewrite <- sm_scal, <- sm_add.
  assert (T : forall k, (k < n)%nat -> 0 <= bil n M (w k) (w k) * (d k * d k) + - (e * e) * (bil n M (w k) (w k) * (c k * c k))).
  { intros k Hk. assert (Q := PM (w k) (proj1 (P k Hk))). assert (F := Far k Hk). unfold d.
    replace (bil n M (w k) (w k) * (c k * (mu k - x) * (c k * (mu k - x))) + - (e * e) * (bil n M (w k) (w k) * (c k * c k)))
      with (bil n M (w k) (w k) * (c k * c k) * ((mu k - x) * (mu k - x) - e * e)) by ring.
    apply Rmult_le_pos; [apply Rmult_le_pos; [lra|apply Rle_0_sqr]|lra]. }
  assert (X : exists k, (k < n)%nat /\ c k <> 0).
  { apply NNPP. intros Q. destruct Nv as (i & Hi & Ni). apply Ni. rewrite (E i Hi). unfold comb. apply sm_zero. intros k Hk. destruct (Req_dec (c k) 0) as [Z|Z]; [rewrite Z; ring|]. exfalso. apply Q. exists k. auto. }
  destruct X as (k & Hk & Nk). eapply Rlt_le_trans; [|apply (sm_le1 n _ T k Hk)]. assert (Q := PM (w k) (proj1 (P k Hk))). assert (F := Far k Hk). unfold d.
  replace (bil n M (w k) (w k) * (c k * (mu k - x) * (c k * (mu k - x))) + - (e * e) * (bil n M (w k) (w k) * (c k * c k)))
    with (bil n M (w k) (w k) * (c k * c k) * ((mu k - x) * (mu k - x) - e * e)) by ring.
  apply Rmult_lt_0_compat; [apply Rmult_lt_0_compat; [exact Q|apply Rsqr_pos_lt; exact Nk]|lra].
Qed.
(** several approximate eigenpairs with nearly orthonormal vectors *)
Lemma several j (w : nat -> nat -> R) (x : nat -> R) o e h z Z : 0 <= o -> 0 < h -> INR j * o < 1 -> INR j * (e * e) <= h * h * (1 - INR j * o) ->
  (forall i k, (i < j)%nat -> (k < j)%nat -> Rabs (bil n M (w i) (w k) - (if Nat.eqb i k then 1 else 0)) <= o) ->
  (forall i, (i < j)%nat -> - Z <= x i <= - z /\ sq n (fun p => app n A (w i) p - x i * app n M (w i) p) <= u * (e * e)) ->
  let d := (z - Z * o * INR j) / (1 + INR j * o) - h in 0 < d -> fam n A M (1 / d) j w.
Proof.
  intros Ho Hh Hjo Hjh Or Rs d Hd c Nc. set (X := comb j c w). set (C := sq j c). assert (HC : 0 < C) by (apply sq_pos, Nc). assert (J0 := pos_INR j).
  set (G := fun i k => bil n M (w i) (w k)).
  assert (Jo : 0 <= INR j * o) by (apply Rmult_le_pos; assumption).
  assert (BX : forall i, (i < j)%nat -> bil n M X (w i) = sm j (fun k => c k * G i k)).
  { intros i Hi. rewrite bil_sym by exact SM. unfold X, comb. rewrite sm_bil. reflexivity. }
  (* the norm of X *)
  assert (Sum : forall (y : nat -> R) Y, 0 <= Y -> (forall i, (i < j)%nat -> Rabs (y i) <= Y) ->
    Rabs (sm j (fun i => c i * y i * sm j (fun k => c k * G i k)) - sm j (fun i => y i * (c i * c i))) <= Y * o * INR j * C).
  { intros y Y HY By.
    replace (sm j (fun i => c i * y i * sm j (fun k => c k * G i k)) - sm j (fun i => y i * (c i * c i))) with (sm j (fun i => sm j (fun k => c i * y i * (c k * (G i k - (if Nat.eqb i k then 1 else 0)))))).
    - eapply Rle_trans; [apply sm_abs|]. replace (Y * o * INR j * C) with (Y * o * (INR j * C)) by ring. unfold C. rewrite <- (sm_pairs j c c), <- sm_scal. apply sm_le. intros i Hi.
      eapply Rle_trans; [apply sm_abs|]. rewrite <- sm_scal. apply sm_le. intros k Hk. rewrite !Rabs_mult.
      assert (B1 := By i Hi). assert (B2 := Or i k Hi Hk). fold (G i k) in B2.
      assert (Q : Rabs (c i) * Rabs (c k) <= (c i * c i + c k * c k) / 2).
      { assert (S := Rle_0_sqr (Rabs (c i) - Rabs (c k))). unfold Rsqr in S. assert (S1 : Rabs (c i) * Rabs (c i) = c i * c i) by (rewrite <- Rabs_mult; apply Rabs_right, Rle_ge, Rle_0_sqr).
        assert (S2 : Rabs (c k) * Rabs (c k) = c k * c k) by (rewrite <- Rabs_mult; apply Rabs_right, Rle_ge, Rle_0_sqr). lra. }
      replace (Rabs (c i) * Rabs (y i) * (Rabs (c k) * Rabs (G i k - (if Nat.eqb i k then 1 else 0)))) with (Rabs (y i) * Rabs (G i k - (if Nat.eqb i k then 1 else 0)) * (Rabs (c i) * Rabs (c k))) by ring.
      apply Rmult_le_compat; [apply Rmult_le_pos; apply Rabs_pos|apply Rmult_le_pos; apply Rabs_pos| |exact Q]. apply Rmult_le_compat; try apply Rabs_pos; assumption.
    - replace (sm j (fun i => y i * (c i * c i))) with (sm j (fun i => c i * y i * sm j (fun k => c k * (if Nat.eqb i k then 1 else 0)))).
      + unfold Rminus at 2. replace (- sm j (fun i => c i * y i * sm j (fun k => c k * (if Nat.eqb i k then 1 else 0)))) with (-1 * sm j (fun i => c i * y i * sm j (fun k => c k * (if Nat.eqb i k then 1 else 0)))) by ring.
        rewrite <- sm_scal, <- sm_add. apply sm_ext. intros i Hi.
        replace (c i * y i * sm j (fun k => c k * G i k) + -1 * (c i * y i * sm j (fun k => c k * (if Nat.eqb i k then 1 else 0)))) with (c i * y i * sm j (fun k => c k * G i k) + - (c i * y i) * sm j (fun k => c k * (if Nat.eqb i k then 1 else 0))) by ring.
        rewrite <- !sm_scal, <- sm_add. apply sm_ext. intros k Hk. ring.
      + apply sm_ext. intros i Hi. rewrite (sm_unit j _ i Hi); [rewrite Nat.eqb_refl; ring|]. intros k Hk Nk. destruct (Nat.eqb_spec i k) as [E|E]; [lia|ring]. }
  assert (Bil : forall B, bil n B X X = sm j (fun i => c i * bil n B X (w i))) by (intros B; unfold X at 2, comb; rewrite sm_bil; reflexivity).
  set (q := bil n M X X).
  assert (Hq : Rabs (q - C) <= INR j * o * C).
  { assert (S := Sum (fun _ => 1) 1 ltac:(lra) (fun _ _ => Req_le _ _ Rabs_R1)). unfold q. rewrite (Bil M).
    rewrite (sm_ext j (fun i => c i * bil n M X (w i)) (fun i => c i * 1 * sm j (fun k => c k * G i k))) by (intros i Hi; rewrite (BX i Hi); ring).
    replace C with (sm j (fun i => 1 * (c i * c i))) at 1 by (unfold C, sq; apply sm_ext; intros; ring). eapply Rle_trans; [exact S|]. right. ring. }
  apply Rcomplements.Rabs_le_between in Hq. assert (Lq : (1 - INR j * o) * C <= q) by lra. assert (Pq : 0 < q). { assert (0 < (1 - INR j * o) * C) by (apply Rmult_lt_0_compat; lra). lra. }
  assert (NX : nz n X). { apply NNPP. intros No. assert (Z0 : q = 0); [|lra]. unfold q, bil. apply sm_zero. intros i Hi. destruct (Req_dec (X i) 0) as [E|E]; [rewrite E; ring|]. exfalso. apply No. exists i. auto. }
  split; [exact NX|]. rewrite bil_pen. fold X q.
  (* the form of A *)
  set (r := fun i p => app n A (w i) p - x i * app n M (w i) p).
  assert (Ai : forall i, (i < j)%nat -> bil n A X (w i) = x i * bil n M X (w i) + sm n (fun p => X p * r i p)).
  { intros i Hi. unfold bil. rewrite <- sm_scal, <- sm_add. apply sm_ext. intros p Hp. unfold r. ring. }
  set (Rr := fun p => sm j (fun i => c i * r i p)).
  assert (EA : bil n A X X = sm j (fun i => c i * x i * sm j (fun k => c k * G i k)) + sm n (fun p => X p * Rr p)).
  { rewrite (Bil A). rewrite (sm_ext j _ (fun i => c i * x i * sm j (fun k => c k * G i k) + c i * sm n (fun p => X p * r i p))) by (intros i Hi; rewrite (Ai i Hi), (BX i Hi); ring).
    rewrite sm_add. f_equal. rewrite (sm_ext j _ (fun i => sm n (fun p => X p * (c i * r i p)))) by (intros i Hi; rewrite <- sm_scal; apply sm_ext; intros; ring).
    rewrite sm_swap. apply sm_ext. intros p Hp. unfold Rr. rewrite <- sm_scal. reflexivity. }
  destruct j as [|j']; [destruct Nc as (i & Hi & _); lia|]. set (j := Datatypes.S j') in *.
  assert (Hz : z <= Z) by (destruct (Rs 0%nat ltac:(unfold j; lia)); lra).
  assert (Hdz : 0 < z - Z * o * INR j).
  { destruct (Rlt_or_le 0 (z - Z * o * INR j)) as [Q|Q]; [exact Q|exfalso]. assert ((z - Z * o * INR j) / (1 + INR j * o) <= 0); [|unfold d in Hd; lra].
    unfold Rdiv. assert (0 < / (1 + INR j * o)) by (apply Rinv_0_lt_compat; lra). replace 0 with (0 * / (1 + INR j * o)) by ring. apply Rmult_le_compat_r; lra. }
  assert (HZ : 0 <= Z).
  { destruct (Rle_lt_dec 0 Z) as [Q|Q]; [exact Q|exfalso]. assert (Q' : - Z * (o * INR j) <= - Z * 1) by (apply Rmult_le_compat_l; lra). lra. }
  assert (T1 : sm j (fun i => c i * x i * sm j (fun k => c k * G i k)) <= - (z - Z * o * INR j) * C).
  { assert (Bx : forall i, (i < j)%nat -> Rabs (x i) <= Z).
    { intros i Hi. destruct (Rs i Hi) as (B & _). apply Rabs_le. split; [lra|]. assert (0 <= Z * o * INR j) by (apply Rmult_le_pos; [apply Rmult_le_pos; assumption|exact J0]). lra. }
    assert (S := Sum x Z HZ Bx).
    apply Rcomplements.Rabs_le_between in S. assert (S2 : sm j (fun i => x i * (c i * c i)) <= - z * C).
    { unfold C, sq. rewrite <- sm_scal. apply sm_le. intros i Hi. destruct (Rs i Hi) as (B & _). apply Rmult_le_compat_r; [apply Rle_0_sqr|lra]. } lra. }
  assert (RR : sq n Rr <= INR j * (u * (e * e)) * C).
  { unfold sq. eapply Rle_trans; [apply (sm_le n _ (fun p => INR j * sm j (fun i => c i * r i p * (c i * r i p))))|].
    - intros p Hp. apply (sm_square j (fun i => c i * r i p)).
    - rewrite sm_scal, sm_swap. replace (INR j * (u * (e * e)) * C) with (INR j * (u * (e * e) * C)) by ring. apply Rmult_le_compat_l; [exact J0|]. unfold C, sq. rewrite <- sm_scal. apply sm_le. intros i Hi.
      rewrite (sm_ext n _ (fun p => c i * c i * (r i p * r i p))) by (intros; ring). rewrite sm_scal. destruct (Rs i Hi) as (_ & B). rewrite Rmult_comm. apply Rmult_le_compat_r; [apply Rle_0_sqr|exact B]. }
  assert (T2 : sm n (fun p => X p * Rr p) <= h * q).
  { assert (Q := sm_amgm n X Rr (h * u) ltac:(apply Rmult_lt_0_compat; assumption)). specialize (U X). fold q in U.
    assert (h * u * sq n X <= h * q) by (rewrite Rmult_assoc; apply Rmult_le_compat_l; lra).
    assert (sq n Rr / (h * u) <= h * q); [|lra]. apply (Rmult_le_reg_l (h * u)); [apply Rmult_lt_0_compat; assumption|]. replace (h * u * (sq n Rr / (h * u))) with (sq n Rr) by (field; lra).
    eapply Rle_trans; [exact RR|]. replace (INR j * (u * (e * e)) * C) with (u * (INR j * (e * e)) * C) by ring. replace (h * u * (h * q)) with (u * (h * h) * q) by ring.
    apply Rle_trans with (u * (h * h * (1 - INR j * o)) * C); [apply Rmult_le_compat_r; [lra|]; apply Rmult_le_compat_l; lra|].
    replace (u * (h * h * (1 - INR j * o)) * C) with (u * (h * h) * ((1 - INR j * o) * C)) by ring. apply Rmult_le_compat_l; [|exact Lq]. apply Rmult_le_pos; [lra|apply Rle_0_sqr]. }
  assert (T3 : - (z - Z * o * INR j) * C <= - (d + h) * q).
  { replace (d + h) with ((z - Z * o * INR j) / (1 + INR j * o)) by (unfold d; ring). set (g := z - Z * o * INR j) in *.
    assert (I : 0 < / (1 + INR j * o)) by (apply Rinv_0_lt_compat; lra).
    assert (q / (1 + INR j * o) <= C). { apply (Rmult_le_reg_l (1 + INR j * o)); [lra|]. replace ((1 + INR j * o) * (q / (1 + INR j * o))) with q by (field; lra). lra. }
    replace (- (g / (1 + INR j * o)) * q) with (- (g * (q / (1 + INR j * o)))) by (field; lra). assert (g * (q / (1 + INR j * o)) <= g * C) by (apply Rmult_le_compat_l; lra). lra. }
  assert (FA : bil n A X X <= - d * q) by lra. apply (Rmult_le_compat_l (1 / d)) in FA; [|apply Rlt_le, Rdiv_lt_0_compat; lra].
  replace (1 / d * (- d * q)) with (- q) in FA by (field; lra). lra.
Qed.
(** replacing the eigenvalues and keeping the vectors *)
Definition rebuilt (mu : nat -> R) (v : nat -> nat -> R) (i j : nat) : R := sm n (fun k => mu k / bil n M (v k) (v k) * app n M (v k) i * app n M (v k) j).
Lemma rebuilt_sym mu v : symf n (rebuilt mu v).
Proof. intros i j _ _. apply sm_ext. intros; ring. Qed.
Lemma rebuilt_pair mu v : (forall k, (k < n)%nat -> nz n (v k)) -> orth n M n v -> forall k, (k < n)%nat -> pairf n (rebuilt mu v) M (mu k) (v k).
Proof.
  intros N O k Hk. split; [apply N, Hk|]. intros i Hi. unfold app at 1, rebuilt.
  rewrite (sm_ext n _ (fun j => sm n (fun p => mu p / bil n M (v p) (v p) * app n M (v p) i * app n M (v p) j * v k j))) by (intros; rewrite Rmult_comm, <- sm_scal; apply sm_ext; intros; ring).
  rewrite sm_swap. rewrite (sm_ext n _ (fun p => mu p / bil n M (v p) (v p) * app n M (v p) i * bil n M (v k) (v p))) by (intros p Hp; change (bil n M (v k) (v p)) with (sm n (fun j => v k j * app n M (v p) j)); rewrite <- sm_scal; apply sm_ext; intros; ring).
  rewrite (sm_unit n _ k Hk).
  - field. apply Rgt_not_eq. apply PM, N, Hk.
  - intros p Hp Np. rewrite (O k p Hk Hp) by lia. ring.
Qed.
Lemma rebuilt_near mu v mu' g : (forall k, (k < n)%nat -> pairf n A M (mu k) (v k)) -> orth n M n v -> (forall k, (k < n)%nat -> Rabs (mu' k - mu k) <= g) ->
  forall x, Rabs (bil n (rebuilt mu' v) x x - bil n A x x) <= g * bil n M x x.
Proof.
  intros P O C x. assert (N : forall k, (k < n)%nat -> nz n (v k)) by (intros k Hk; apply (P k Hk)).
  assert (E := expand n M SM PM v x N O). set (c := fun k => bil n M (v k) x / bil n M (v k) (v k)) in *. rewrite !(bil_ext n _ x x _ _ E E).
  assert (Q : bil n (rebuilt mu' v) (comb n c v) (comb n c v) = sm n (fun k => mu' k * bil n M (v k) (v k) * (c k * c k))).
  { assert (Pr := rebuilt_pair mu' v N O). assert (E1 := energy_comb n (rebuilt mu' v) M SM n mu' v c 1 Pr O). rewrite bil_pen, (norm_comb mu v c P O) in E1.
    replace (bil n (rebuilt mu' v) (comb n c v) (comb n c v)) with (sm n (fun k => (1 + 1 * mu' k) * bil n M (v k) (v k) * (c k * c k)) + -1 * sm n (fun k => bil n M (v k) (v k) * (c k * c k))) by lra.
    rewrite <- sm_scal, <- sm_add. apply sm_ext. intros; ring. }
  rewrite Q, (form_comb mu v c P O), (norm_comb mu v c P O).
  replace (sm n (fun k => mu' k * bil n M (v k) (v k) * (c k * c k)) - sm n (fun k => mu k * bil n M (v k) (v k) * (c k * c k)))
    with (sm n (fun k => mu' k * bil n M (v k) (v k) * (c k * c k)) + -1 * sm n (fun k => mu k * bil n M (v k) (v k) * (c k * c k))) by ring.
  rewrite <- !sm_scal, <- sm_add. eapply Rle_trans; [apply sm_abs|]. apply sm_le. intros k Hk. assert (Pk := PM (v k) (N k Hk)).
  replace (mu' k * bil n M (v k) (v k) * (c k * c k) + -1 * (mu k * bil n M (v k) (v k) * (c k * c k))) with ((mu' k - mu k) * (bil n M (v k) (v k) * (c k * c k))) by ring.
  assert (0 <= bil n M (v k) (v k) * (c k * c k)) by (apply Rmult_le_pos; [lra|apply Rle_0_sqr]). rewrite Rabs_mult, (Rabs_right (bil n M (v k) (v k) * (c k * c k))) by lra. apply Rmult_le_compat_r; [assumption|apply C, Hk].
Qed.
End I.
