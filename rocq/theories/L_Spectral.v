(** Symmetric pencils have complete sets of orthogonal eigenvectors. *)
From Coq Require Import Reals Lra Lia Arith Classical.
From Coq Require Import Sorting.Sorted Sorting.Permutation List.
From Verif Require Import L_Quad.
Import ListNotations.
Open Scope R_scope.

(** fewer equations than unknowns *)
Lemma hom_solution : forall n m (A : nat -> nat -> R), (m < n)%nat -> exists x, nz n x /\ forall i, (i < m)%nat -> app n A x i = 0.
Proof.
  induction n as [|n IH]; intros m A Hm; [lia|].
  destruct (classic (exists r, (r < m)%nat /\ A r n <> 0)) as [(r & Hr & Nr)|No].
  - destruct m as [|m]; [lia|].
    set (sk := fun i => if Nat.ltb i r then i else Datatypes.S i).
    destruct (IH m (fun i j => A (sk i) j - A (sk i) n * A r j / A r n) ltac:(lia)) as (x & (k & Hk & Nk) & E).
    set (y := fun j => if Nat.eqb j n then - app n A x r / A r n else x j).
    assert (Yx : forall i, app n A y i = app n A x i).
    { intros i. apply app_ext. intros j Hj. unfold y. destruct (Nat.eqb_spec j n); [lia|reflexivity]. }
    assert (Yn : y n = - app n A x r / A r n) by (unfold y; rewrite Nat.eqb_refl; reflexivity).
    exists y. split; [exists k; split; [lia|]; unfold y; destruct (Nat.eqb_spec k n); [lia|exact Nk]|].
    intros i Hi. change (app (Datatypes.S n) A y i) with (app n A y i + A i n * y n). rewrite Yx, Yn.
    destruct (Nat.eq_dec i r) as [->|Ni]; [field; exact Nr|].
    assert (X : exists i', (i' < m)%nat /\ sk i' = i).
    { destruct (lt_dec i r) as [L|L]; [exists i|exists (i - 1)%nat]; (split; [lia|]); unfold sk; destruct (Nat.ltb_spec (if Nat.ltb i r then i else (i - 1)%nat) r); destruct (Nat.ltb_spec i r); destruct (Nat.ltb_spec (i - 1) r); lia. }
    destruct X as (i' & Hi' & Si). specialize (E i' Hi').
    change (app n (fun _ j => A (sk i') j - A (sk i') n * A r j / A r n) x i' = 0) in E. rewrite Si in E. clear Si.
    assert (Q : app n (fun i1 j => A i j - A i n * A r j / A r n) x i' = app n A x i - A i n / A r n * app n A x r).
    { unfold app. replace (sm n (fun j => A i j * x j) - A i n / A r n * sm n (fun j => A r j * x j)) with (sm n (fun j => A i j * x j) + sm n (fun j => - (A i n / A r n) * (A r j * x j))) by (rewrite (sm_scal n (- (A i n / A r n)) (fun j => A r j * x j)); ring).
      rewrite <- sm_add. apply sm_ext. intros j Hj. field. exact Nr. }
    assert (E' : app n A x i - A i n / A r n * app n A x r = 0) by (rewrite <- Q; exact E).
    replace (A i n * (- app n A x r / A r n)) with (- (A i n / A r n * app n A x r)) by (field; exact Nr). lra.
  - exists (unitv n). split; [exists n; split; [lia|]; rewrite unitv_same; lra|]. intros i Hi. rewrite app_unit by lia.
    apply NNPP. intros N. apply No. exists i. auto.
Qed.
Lemma sm_bil n M x m c (v : nat -> nat -> R) : bil n M x (fun i => sm m (fun k => c k * v k i)) = sm m (fun k => c k * bil n M x (v k)).
Proof.
  induction m as [|m IH]; cbn [sm].
  - unfold bil, app. apply sm_zero. intros i _. rewrite sm_zero; [ring|]. intros j _. ring.
  - rewrite <- IH. replace (bil n M x (fun i => sm m (fun k => c k * v k i)) + c m * bil n M x (v m)) with (1 * bil n M x (fun i => sm m (fun k => c k * v k i)) + c m * bil n M x (v m)) by ring.
    rewrite <- bil_add_r. apply bil_ext; intros; ring.
Qed.
Lemma sm_app n M m c (v : nat -> nat -> R) i : app n M (fun j => sm m (fun k => c k * v k j)) i = sm m (fun k => c k * app n M (v k) i).
Proof.
  induction m as [|m IH]; cbn [sm].
  - unfold app. apply sm_zero. intros j _. ring.
  - rewrite <- IH. replace (app n M (fun j => sm m (fun k => c k * v k j)) i + c m * app n M (v m) i) with (1 * app n M (fun j => sm m (fun k => c k * v k j)) i + c m * app n M (v m) i) by ring.
    rewrite <- app_add. apply app_ext; intros; ring.
Qed.
Definition orth (n : nat) (M : nat -> nat -> R) (m : nat) (v : nat -> nat -> R) : Prop := forall i j, (i < m)%nat -> (j < m)%nat -> i <> j -> bil n M (v i) (v j) = 0.
(** a nonzero combination of orthogonal nonzero vectors is nonzero *)
Lemma comb_nz n M m v c : pdf n M -> orth n M m v -> (forall i, (i < m)%nat -> nz n (v i)) -> nz m c -> nz n (fun i => sm m (fun k => c k * v k i)).
Proof.
  intros P O N (k & Hk & Nk). apply NNPP. intros Z.
  assert (Z' : forall i, (i < n)%nat -> sm m (fun k => c k * v k i) = 0) by (intros i Hi; apply NNPP; intros Q; apply Z; exists i; auto).
  assert (B := sm_bil n M (v k) m c v). rewrite (sm_unit m _ k Hk) in B.
  2:{ intros i Hi Ni. rewrite O by (auto; lia). ring. }
  assert (B0 : bil n M (v k) (fun i => sm m (fun k => c k * v k i)) = 0).
  { unfold bil. apply sm_zero. intros i _. unfold app. rewrite sm_zero; [ring|]. intros j Hj. rewrite Z' by exact Hj. ring. }
  assert (Q := P (v k) (N k Hk)). rewrite B0 in B. assert (0 < Rabs (c k) * bil n M (v k) (v k)) by (apply Rmult_lt_0_compat; [apply Rabs_pos_lt; exact Nk|exact Q]).
  symmetry in B. apply Rmult_integral in B. destruct B; lra.
Qed.
Lemma too_many n M m v : pdf n M -> orth n M m v -> (forall i, (i < m)%nat -> nz n (v i)) -> (m <= n)%nat.
Proof.
  intros P O N. destruct (le_lt_dec m n) as [H|H]; [exact H|exfalso].
  destruct (hom_solution m n (fun i k => v k i) H) as (c & Nc & E). destruct (comb_nz n M m v c P O N Nc) as (i & Hi & Ni). apply Ni. rewrite <- (E i Hi). unfold app. apply sm_ext. intros; ring.
Qed.
(** a definite form dominates *)
Lemma dominate n M A : symf n M -> pdf n M -> exists c, 0 <= c /\ pdf n (pen A M c).
Proof.
  intros SM PM. destruct (uniform n M SM PM) as (u & Hu & B). destruct (bounded n A) as (C & HC & Bd). exists ((C + 1) / u).
  assert (H : 0 <= (C + 1) / u) by (apply Rlt_le, Rdiv_lt_0_compat; lra). split; [exact H|]. intros x Nx. rewrite bil_pen. specialize (B x). specialize (Bd x).
  assert (Sx := sq_pos n x Nx). assert (W := Rle_abs (- bil n A x x)). rewrite Rabs_Ropp in W.
  assert ((C + 1) / u * (u * sq n x) <= (C + 1) / u * bil n M x x) by (apply Rmult_le_compat_l; assumption).
  replace ((C + 1) / u * (u * sq n x)) with (C * sq n x + sq n x) in * by (field; lra). lra.
Qed.
Definition pairf (n : nat) (A M : nat -> nat -> R) (mu : R) (x : nat -> R) : Prop := nz n x /\ forall i, (i < n)%nat -> app n A x i = mu * app n M x i.
Lemma bil_pairf n A M x y mu : pairf n A M mu y -> bil n A x y = mu * bil n M x y.
Proof. intros [_ H]. unfold bil. rewrite <- sm_scal. apply sm_ext. intros i Hi. rewrite H by exact Hi. ring. Qed.
Lemma pairf_orth n A M mu nu x y : symf n A -> symf n M -> pairf n A M mu x -> pairf n A M nu y -> mu <> nu -> bil n M x y = 0.
Proof.
  intros SA SM X Y N. assert (E1 := bil_pairf n A M x y nu Y). assert (E2 := bil_pairf n A M y x mu X). rewrite (bil_sym n A y x SA), (bil_sym n M y x SM) in E2.
  assert (Z : (nu - mu) * bil n M x y = 0) by lra. apply Rmult_integral in Z. destruct Z; [lra|assumption].
Qed.
(** the largest eigenvalue *)
Lemma top n A M : (0 < n)%nat -> symf n A -> symf n M -> pdf n M -> exists mu x, pairf n A M mu x /\ forall y, bil n A y y <= mu * bil n M y y.
Proof.
  intros Hn SA SM PM. destruct (dominate n M A SM PM) as (c & Hc & Pc). set (B := pen A M c) in *. assert (SB := sym_pen n A M c SA SM). fold B in SB.
  set (G := fun i j => - B i j). assert (Ga : forall y i, app n G y i = - app n B y i) by (intros; unfold app, G; replace (- sm n (fun j => B i j * y j)) with (-1 * sm n (fun j => B i j * y j)) by ring; rewrite <- sm_scal; apply sm_ext; intros; ring).
  assert (Gb : forall x y, bil n G x y = - bil n B x y) by (intros; unfold bil; replace (- sm n (fun i => x i * app n B y i)) with (-1 * sm n (fun i => x i * app n B y i)) by ring; rewrite <- sm_scal; apply sm_ext; intros; rewrite Ga; ring).
  assert (SG : symf n G) by (intros i j Hi Hj; unfold G; rewrite SB by assumption; reflexivity).
  set (e := unitv 0). assert (Ne : nz n e) by (exists 0%nat; split; [exact Hn|]; unfold e; rewrite unitv_same; lra).
  assert (Q1 := PM e Ne). assert (Q2 := Pc e Ne).
  destruct (first_factor n M G (bil n M e e / bil n B e e) SM SG PM) as (l & v & Hl & Nv & Ev & Pl).
  { apply Rdiv_lt_0_compat; assumption. }
  { intros P. specialize (P e Ne). rewrite bil_pen, Gb in P. replace (bil n M e e / bil n B e e * - bil n B e e) with (- bil n M e e) in P by (field; lra). lra. }
  assert (Il : / l * l = 1) by (apply Rinv_l; lra). assert (Pil : 0 < / l) by (apply Rinv_0_lt_compat; lra).
  exists (/ l - c), v. split.
  - split; [exact Nv|]. intros i Hi. specialize (Ev i Hi). rewrite Ga in Ev. unfold B in Ev. rewrite app_pen in Ev.
    replace ((/ l - c) * app n M v i) with (/ l * (app n M v i + l * - (app n A v i + c * app n M v i)) + (/ l * l) * (app n A v i + c * app n M v i) - c * app n M v i) by ring. rewrite Ev, Il. ring.
  - intros y. destruct (classic (nz n y)) as [Ny|Zy].
    + assert (Bq := Pc y Ny). assert (Mq := PM y Ny). unfold B in Bq at 1.
      assert (Le : l * bil n B y y <= bil n M y y).
      { destruct (Rle_lt_dec (l * bil n B y y) (bil n M y y)) as [H|H]; [exact H|exfalso].
        assert (Ib : bil n M y y / bil n B y y * bil n B y y = bil n M y y) by (field; apply Rgt_not_eq; exact Bq).
        assert (T0 : 0 < bil n M y y / bil n B y y) by (apply Rdiv_lt_0_compat; assumption).
        assert (T1 : bil n M y y / bil n B y y < l) by (apply Rmult_lt_reg_r with (bil n B y y); [exact Bq|]; rewrite Ib; exact H).
        assert (W := Pl (bil n M y y / bil n B y y) ltac:(lra) y Ny). rewrite bil_pen, Gb in W. lra. }
      unfold B in Le. rewrite bil_pen in Le.
      assert (/ l * (l * (bil n A y y + c * bil n M y y)) <= / l * bil n M y y) by (apply Rmult_le_compat_l; lra).
      replace (/ l * (l * (bil n A y y + c * bil n M y y))) with ((/ l * l) * (bil n A y y + c * bil n M y y)) in H by ring. rewrite Il in H. lra.
    + assert (Z : forall i, (i < n)%nat -> y i = 0) by (intros i Hi; apply NNPP; intros Q; apply Zy; exists i; auto).
      assert (X : forall N, bil n N y y = 0) by (intros N; unfold bil; apply sm_zero; intros i Hi; rewrite Z by exact Hi; ring). rewrite !X. lra.
Qed.
(** one more eigenvector *)
Lemma next n A M m mu v : symf n A -> symf n M -> pdf n M -> (m < n)%nat -> (forall k, (k < m)%nat -> pairf n A M (mu k) (v k)) -> orth n M m v ->
  exists nu x, pairf n A M nu x /\ forall k, (k < m)%nat -> bil n M (v k) x = 0.
Proof.
  intros SA SM PM Hm Pv Ov. destruct (dominate n M A SM PM) as (S & HS & PS).
  set (h := fun k => bil n M (v k) (v k)). assert (Hh : forall k, (k < m)%nat -> 0 < h k) by (intros k Hk; apply PM; apply (Pv k Hk)).
  set (A' := fun i j => A i j - sm m (fun k => (mu k + S) / h k * app n M (v k) i * app n M (v k) j)).
  assert (SA' : symf n A') by (intros i j Hi Hj; unfold A'; rewrite (SA i j) by assumption; f_equal; apply sm_ext; intros; ring).
  assert (A'app : forall y i, app n A' y i = app n A y i - sm m (fun k => (mu k + S) / h k * app n M (v k) i * bil n M y (v k))).
  { intros y i. unfold app at 1, A'. transitivity (sm n (fun j => A i j * y j + -1 * sm m (fun k => (mu k + S) / h k * app n M (v k) i * (y j * app n M (v k) j)))).
    - apply sm_ext. intros j Hj. rewrite Rmult_minus_distr_r. replace (sm m (fun k => (mu k + S) / h k * app n M (v k) i * app n M (v k) j) * y j) with (y j * sm m (fun k => (mu k + S) / h k * app n M (v k) i * app n M (v k) j)) by ring. rewrite <- sm_scal.
      replace (sm m (fun i0 => y j * ((mu i0 + S) / h i0 * app n M (v i0) i * app n M (v i0) j))) with (sm m (fun k => (mu k + S) / h k * app n M (v k) i * (y j * app n M (v k) j))) by (apply sm_ext; intros; ring). ring.
    - rewrite sm_add, sm_scal, sm_swap. unfold app at 3. replace (sm m (fun j => sm n (fun i0 => (mu j + S) / h j * app n M (v j) i * (y i0 * app n M (v j) i0)))) with (sm m (fun k => (mu k + S) / h k * app n M (v k) i * bil n M y (v k))); [unfold app; ring|].
      apply sm_ext. intros k Hk. unfold bil. rewrite <- sm_scal. reflexivity. }
  assert (Av : forall k, (k < m)%nat -> pairf n A' M (- S) (v k)).
  { intros k Hk. split; [apply (Pv k Hk)|]. intros i Hi. rewrite A'app, (proj2 (Pv k Hk) i Hi), (sm_unit m _ k Hk).
    - fold (h k). field. apply Rgt_not_eq, Hh, Hk.
    - intros j Hj Nj. rewrite (Ov k j Hk Hj ltac:(lia)). ring. }
  destruct (top n A' M ltac:(lia) SA' SM PM) as (nu & x & Px & Mx).
  destruct (hom_solution n m (fun k j => app n M (v k) j) Hm) as (u & Nu & Eu).
  assert (Ou : forall k, (k < m)%nat -> bil n M u (v k) = 0).
  { intros k Hk. rewrite <- (Eu k Hk). unfold bil, app at 2. apply sm_ext. intros. ring. }
  assert (Bu : bil n A' u u = bil n A u u).
  { unfold bil at 1 2. apply sm_ext. intros i Hi. rewrite A'app, (sm_zero m); [ring|]. intros k Hk. rewrite (Ou k Hk). ring. }
  assert (Gt : - S < nu).
  { specialize (Mx u). rewrite Bu in Mx. specialize (PS u Nu). rewrite bil_pen in PS. specialize (PM u Nu). apply Rmult_lt_reg_r with (bil n M u u); lra. }
  assert (Ox : forall k, (k < m)%nat -> bil n M (v k) x = 0) by (intros k Hk; apply (pairf_orth n A' M (- S) nu _ _ SA' SM (Av k Hk) Px); lra).
  exists nu, x. split; [|exact Ox]. split; [apply Px|]. intros i Hi. destruct Px as [_ Px]. specialize (Px i Hi). rewrite A'app, (sm_zero m) in Px; [lra|].
  intros k Hk. rewrite (bil_sym n M x (v k) SM), (Ox k Hk). ring.
Qed.
Lemma basis n A M : symf n A -> symf n M -> pdf n M -> forall m, (m <= n)%nat -> exists mu v, (forall k, (k < m)%nat -> pairf n A M (mu k) (v k)) /\ orth n M m v.
Proof.
  intros SA SM PM. induction m as [|m IH]; intros Hm.
  - exists (fun _ => 0), (fun _ _ => 0). split; [intros; lia|intros i j Hi; lia].
  - destruct (IH ltac:(lia)) as (mu & v & P & O). destruct (next n A M m mu v SA SM PM ltac:(lia) P O) as (nu & x & Px & Ox).
    exists (fun k => if Nat.eqb k m then nu else mu k), (fun k => if Nat.eqb k m then x else v k). split.
    + intros k Hk. destruct (Nat.eqb_spec k m); [exact Px|apply P; lia].
    + intros i j Hi Hj N. destruct (Nat.eqb_spec i m), (Nat.eqb_spec j m); [lia| | |apply O; lia].
      * rewrite bil_sym by exact SM. apply Ox. lia.
      * apply Ox. lia.
Qed.
(** an eigenvector shares its eigenvalue with a member of the basis to which it is not orthogonal *)
Lemma complete n A M mu v nu x : symf n A -> symf n M -> pdf n M -> (forall k, (k < n)%nat -> pairf n A M (mu k) (v k)) -> orth n M n v -> pairf n A M nu x ->
  exists k, (k < n)%nat /\ bil n M (v k) x <> 0 /\ mu k = nu.
Proof.
  intros SA SM PM P O X. apply NNPP. intros No.
  assert (Z : forall k, (k < n)%nat -> bil n M (v k) x = 0).
  { intros k Hk. apply NNPP. intros Q. apply No. exists k. split; [exact Hk|]. split; [exact Q|]. apply NNPP. intros R. apply Q. apply (pairf_orth n A M (mu k) nu); auto. }
  set (w := fun k => if Nat.eqb k n then x else v k).
  assert (T := too_many n M (Datatypes.S n) w PM). assert (Datatypes.S n <= n)%nat; [apply T|lia].
  - intros i j Hi Hj N. unfold w. destruct (Nat.eqb_spec i n), (Nat.eqb_spec j n); [lia| | |apply O; lia].
    + rewrite bil_sym by exact SM. apply Z. lia.
    + apply Z. lia.
  - intros i Hi. unfold w. destruct (Nat.eqb_spec i n); [apply X|apply (P i); lia].
Qed.
(** sorting indices by a real key *)
Lemma insert_sorted (f : nat -> R) x l : StronglySorted (fun i j => f i <= f j) l -> exists l', Permutation (x :: l) l' /\ StronglySorted (fun i j => f i <= f j) l'.
Proof.
  induction l as [|y l IH]; intros H; [exists [x]; split; [apply Permutation_refl|repeat constructor]|].
  inversion H as [|? ? H1 H2]; subst. destruct (Rle_lt_dec (f x) (f y)) as [L|L].
  - exists (x :: y :: l). split; [apply Permutation_refl|]. constructor; [exact H|]. constructor; [exact L|]. rewrite Forall_forall in H2 |- *. intros z Hz. specialize (H2 z Hz). lra.
  - destruct (IH H1) as (l' & P & S). exists (y :: l'). split; [eapply Permutation_trans; [apply perm_swap|constructor; exact P]|]. constructor; [exact S|].
    rewrite Forall_forall in H2 |- *. intros z Hz. apply (Permutation_in z (Permutation_sym P)) in Hz. destruct Hz as [<-|Hz]; [lra|apply H2; exact Hz].
Qed.
Lemma sort_by (f : nat -> R) l : exists l', Permutation l l' /\ StronglySorted (fun i j => f i <= f j) l'.
Proof.
  induction l as [|x l (l' & P & S)]; [exists []; split; [apply Permutation_refl|constructor]|].
  destruct (insert_sorted f x l' S) as (l'' & P' & S'). exists l''. split; [|exact S']. eapply Permutation_trans; [constructor; exact P|exact P'].
Qed.
Lemma sorted_split (f : nat -> R) l l' : StronglySorted (fun i j => f i <= f j) (l ++ l') -> forall x y, In x l -> In y l' -> f x <= f y.
Proof.
  induction l as [|z l IH]; intros H x y Hx Hy; [destruct Hx|]. inversion H as [|? ? H1 H2]; subst. destruct Hx as [<-|Hx]; [|apply IH; assumption].
  rewrite Forall_forall in H2. apply H2. apply in_or_app. right. exact Hy.
Qed.
