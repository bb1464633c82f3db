(** Quadratic forms: uniform bounds, kernels and the first value at which a pencil stops being positive definite. *)
From Coq Require Import Reals Lra Lia Arith Classical.
Open Scope R_scope.

Fixpoint sm (n : nat) (f : nat -> R) : R := match n with O => 0 | S k => sm k f + f k end.
Lemma sm_ext n f g : (forall i, (i < n)%nat -> f i = g i) -> sm n f = sm n g.
Proof. induction n as [|n IH]; intros H; [reflexivity|]. cbn [sm]. rewrite IH by (intros; apply H; lia). rewrite H by lia. reflexivity. Qed.
Lemma sm_add n f g : sm n (fun i => f i + g i) = sm n f + sm n g.
Proof. induction n as [|n IH]; cbn [sm]; [ring|]. rewrite IH. ring. Qed.
Lemma sm_scal n c f : sm n (fun i => c * f i) = c * sm n f.
Proof. induction n as [|n IH]; cbn [sm]; [ring|]. rewrite IH. ring. Qed.
Lemma sm_zero n f : (forall i, (i < n)%nat -> f i = 0) -> sm n f = 0.
Proof. induction n as [|n IH]; intros H; [reflexivity|]. cbn [sm]. rewrite IH by (intros; apply H; lia). rewrite H by lia. ring. Qed.
Lemma sm_swap n m f : sm n (fun i => sm m (fun j => f i j)) = sm m (fun j => sm n (fun i => f i j)).
Proof.
  induction n as [|n IH]; cbn [sm]; [symmetry; apply sm_zero; reflexivity|]. rewrite IH, <- sm_add. reflexivity.
Qed.
Lemma sm_le n f g : (forall i, (i < n)%nat -> f i <= g i) -> sm n f <= sm n g.
Proof.
  induction n as [|n IH]; intros H; cbn [sm]; [lra|]. assert (sm n f <= sm n g) by (apply IH; intros; apply H; lia).
  assert (f n <= g n) by (apply H; lia). lra.
Qed.
Lemma sm_abs n f : Rabs (sm n f) <= sm n (fun i => Rabs (f i)).
Proof. induction n as [|n IH]; cbn [sm]; [rewrite Rabs_R0; lra|]. eapply Rle_trans; [apply Rabs_triang|]. lra. Qed.
Lemma sm_nonneg n f : (forall i, (i < n)%nat -> 0 <= f i) -> 0 <= sm n f.
Proof. intros H. rewrite <- (sm_zero n (fun _ => 0)) by reflexivity. apply sm_le. exact H. Qed.
Lemma sm_le1 n f : (forall i, (i < n)%nat -> 0 <= f i) -> forall k, (k < n)%nat -> f k <= sm n f.
Proof.
  induction n as [|n IH]; intros H k Hk; [lia|]. cbn [sm]. assert (0 <= f n) by (apply H; lia).
  assert (0 <= sm n f) by (apply sm_nonneg; intros; apply H; lia).
  destruct (Nat.eq_dec k n) as [->|N]; [lra|]. assert (f k <= sm n f) by (apply IH; [intros; apply H; lia|lia]). lra.
Qed.
Lemma sm_unit n f k : (k < n)%nat -> (forall i, (i < n)%nat -> i <> k -> f i = 0) -> sm n f = f k.
Proof.
  induction n as [|n IH]; intros Hk H; [lia|]. cbn [sm]. destruct (Nat.eq_dec k n) as [->|N].
  - rewrite sm_zero by (intros; apply H; lia). ring.
  - rewrite IH by (lia || (intros; apply H; lia)). rewrite (H n) by lia. ring.
Qed.

(** bilinear forms *)
Definition app (n : nat) (M : nat -> nat -> R) (y : nat -> R) (i : nat) : R := sm n (fun j => M i j * y j).
Definition bil (n : nat) (M : nat -> nat -> R) (x y : nat -> R) : R := sm n (fun i => x i * app n M y i).
Definition sq (n : nat) (x : nat -> R) : R := sm n (fun i => x i * x i).
Definition symf (n : nat) (M : nat -> nat -> R) : Prop := forall i j, (i < n)%nat -> (j < n)%nat -> M i j = M j i.
Definition nz (n : nat) (x : nat -> R) : Prop := exists i, (i < n)%nat /\ x i <> 0.
Definition pdf (n : nat) (M : nat -> nat -> R) : Prop := forall x, nz n x -> 0 < bil n M x x.
Lemma app_ext n M y z i : (forall j, (j < n)%nat -> y j = z j) -> app n M y i = app n M z i.
Proof. intros H. apply sm_ext. intros j Hj. rewrite H by exact Hj. reflexivity. Qed.
Lemma bil_ext n M x y x' y' : (forall j, (j < n)%nat -> x j = x' j) -> (forall j, (j < n)%nat -> y j = y' j) -> bil n M x y = bil n M x' y'.
Proof. intros H G. apply sm_ext. intros i Hi. rewrite H by exact Hi. rewrite (app_ext n M y y' i G). reflexivity. Qed.
Lemma bil_sym n M x y : symf n M -> bil n M x y = bil n M y x.
Proof.
  intros S. unfold bil, app.
  rewrite (sm_ext n _ (fun i => sm n (fun j => x i * (M i j * y j)))) by (intros; rewrite sm_scal; reflexivity).
  rewrite (sm_ext n (fun i => y i * _) (fun i => sm n (fun j => y i * (M i j * x j)))) by (intros; rewrite sm_scal; reflexivity).
  rewrite sm_swap. apply sm_ext. intros i Hi. apply sm_ext. intros j Hj. rewrite (S j i) by assumption. ring.
Qed.
Lemma app_add n M c y d z i : app n M (fun j => c * y j + d * z j) i = c * app n M y i + d * app n M z i.
Proof.
  unfold app. rewrite <- !sm_scal, <- sm_add. apply sm_ext. intros. ring.
Qed.
Lemma bil_add_r n M x c y d z : bil n M x (fun j => c * y j + d * z j) = c * bil n M x y + d * bil n M x z.
Proof.
  unfold bil. rewrite <- !sm_scal, <- sm_add. apply sm_ext. intros i _. rewrite app_add. ring.
Qed.
Lemma bil_add_l n M c x d y z : bil n M (fun j => c * x j + d * y j) z = c * bil n M x z + d * bil n M y z.
Proof. unfold bil. rewrite <- !sm_scal, <- sm_add. apply sm_ext. intros i _. ring. Qed.
Definition pen (K G : nat -> nat -> R) (t : R) (i j : nat) : R := K i j + t * G i j.
Lemma app_pen n K G t y i : app n (pen K G t) y i = app n K y i + t * app n G y i.
Proof. unfold app, pen. rewrite <- sm_scal, <- sm_add. apply sm_ext. intros. ring. Qed.
Lemma bil_pen n K G t x y : bil n (pen K G t) x y = bil n K x y + t * bil n G x y.
Proof. unfold bil. rewrite <- sm_scal, <- sm_add. apply sm_ext. intros. rewrite app_pen. ring. Qed.
Lemma sym_pen n K G t : symf n K -> symf n G -> symf n (pen K G t).
Proof. intros A B i j Hi Hj. unfold pen. rewrite (A i j), (B i j) by assumption. reflexivity. Qed.

(** ** a positive definite form is bounded below by a multiple of the squared length *)
Definition unitv (k i : nat) : R := if Nat.eqb i k then 1 else 0.
Lemma unitv_same k : unitv k k = 1. Proof. unfold unitv. rewrite Nat.eqb_refl. reflexivity. Qed.
Lemma unitv_other k i : i <> k -> unitv k i = 0.
Proof. unfold unitv. intros H. apply Nat.eqb_neq in H. rewrite H. reflexivity. Qed.
Lemma app_unit n M k i : (k < n)%nat -> app n M (unitv k) i = M i k.
Proof. intros Hk. unfold app. rewrite (sm_unit n _ k Hk). { rewrite unitv_same. ring. } intros j _ N. rewrite unitv_other by exact N. ring. Qed.
Lemma bil_unit_l n M k y : (k < n)%nat -> bil n M (unitv k) y = app n M y k.
Proof. intros Hk. unfold bil. rewrite (sm_unit n _ k Hk). { rewrite unitv_same. ring. } intros j _ N. rewrite unitv_other by exact N. ring. Qed.

Section Schur.
Variables (n : nat) (M : nat -> nat -> R).
Hypothesis S0 : symf (S n) M.
Hypothesis P0 : M n n <> 0.
Definition schur (i j : nat) : R := M i j - M i n * M n j / M n n.
Lemma schur_sym : symf n schur.
Proof. intros i j Hi Hj. unfold schur. rewrite (S0 i j), (S0 i n), (S0 n j) by lia. field. exact P0. Qed.
Lemma schur_bil x : bil (S n) M x x = M n n * (x n + app n M x n / M n n) ^ 2 + bil n schur x x.
Proof.
  set (s := app n M x n).
  assert (E1 : bil (S n) M x x = bil n M x x + 2 * (x n * s) + M n n * x n * x n).
  { unfold bil at 1. cbn [sm].
    rewrite (sm_ext n _ (fun i => x i * app n M x i + x n * (x i * M i n))) by (intros; unfold app; cbn [sm]; ring).
    rewrite sm_add, sm_scal. unfold app at 2. cbn [sm]. fold (app n M x n). fold s.
    assert (E : sm n (fun i => x i * M i n) = s).
    { unfold s, app. apply sm_ext. intros i Hi. rewrite (S0 i n) by lia. ring. }
    rewrite E. change (sm n (fun i => x i * app n M x i)) with (bil n M x x). ring. }
  assert (E2 : bil n schur x x = bil n M x x - s * s / M n n).
  { unfold bil. rewrite (sm_ext n (fun i => x i * app n schur x i) (fun i => x i * app n M x i + - (s / M n n) * (x i * M i n))).
    - rewrite sm_add, sm_scal. replace (sm n (fun i => x i * M i n)) with s; [field; exact P0|].
      unfold s, app. apply sm_ext. intros i Hi. rewrite (S0 i n) by lia. ring.
    - intros i Hi. unfold app at 1. rewrite (sm_ext n (fun j => schur i j * x j) (fun j => M i j * x j + - (M i n / M n n) * (M n j * x j))).
      + rewrite sm_add, sm_scal. fold (app n M x i). fold (app n M x n). fold s. field. exact P0.
      + intros j Hj. unfold schur. field. exact P0. }
  rewrite E1, E2. field. exact P0.
Qed.
End Schur.

Lemma uniform : forall n M, symf n M -> pdf n M -> exists u, 0 < u /\ forall x, u * sq n x <= bil n M x x.
Proof.
  induction n as [|n IH]; intros M S P.
  - exists 1. split; [lra|]. intros x. unfold sq, bil. cbn [sm]. lra.
  - assert (Ap : 0 < M n n).
    { assert (H := P (unitv n)). rewrite bil_unit_l, app_unit in H by lia. apply H. exists n. split; [lia|]. rewrite unitv_same. lra. }
    assert (Ap' : M n n <> 0) by lra.
    destruct (IH (schur n M) (schur_sym n M S Ap')) as (u & Hu & H).
    { intros y Ny. set (x := fun i => if Nat.eqb i n then - (app n M y n / M n n) else y i).
      assert (Ex : forall j, (j < n)%nat -> x j = y j).
      { intros j Hj. unfold x. destruct (Nat.eqb j n) eqn:E; [apply Nat.eqb_eq in E; lia|reflexivity]. }
      assert (Q : 0 < bil (Datatypes.S n) M x x).
      { apply P. destruct Ny as (i & Hi & Ni). exists i. split; [lia|]. rewrite Ex by exact Hi. exact Ni. }
      rewrite schur_bil in Q by assumption. replace (x n) with (- (app n M y n / M n n)) in Q by (unfold x; rewrite Nat.eqb_refl; reflexivity).
      rewrite (app_ext n M x y n Ex) in Q. rewrite (bil_ext n (schur n M) x x y y Ex Ex) in Q.
      replace (- (app n M y n / M n n) + app n M y n / M n n) with 0 in Q by ring. lra. }
    set (B := sq n (fun j => M n j / M n n)).
    assert (HB : 0 <= B) by (apply sm_nonneg; intros; apply Rle_0_sqr).
    set (v := Rmin (M n n / 2) (u / (2 * B + 1))).
    assert (Hv : 0 < v). { unfold v. apply Rmin_glb_lt; [lra|]. apply Rdiv_lt_0_compat; lra. }
    exists v. split; [exact Hv|]. intros x. rewrite schur_bil by assumption. specialize (H x).
    set (w := x n + app n M x n / M n n).
    (* Cauchy-Schwarz, coordinate by coordinate *)
    assert (CS : forall k p q, (sm k (fun j => p j * q j)) ^ 2 <= sm k (fun j => p j * p j) * sm k (fun j => q j * q j)).
    { clear. induction k as [|k IH]; intros p q; cbn [sm]; [lra|]. specialize (IH p q).
      set (a := sm k (fun j => p j * q j)) in *. set (b := sm k (fun j => p j * p j)) in *. set (c := sm k (fun j => q j * q j)) in *.
      assert (Hb : 0 <= b) by (apply sm_nonneg; intros; apply Rle_0_sqr). assert (Hc : 0 <= c) by (apply sm_nonneg; intros; apply Rle_0_sqr).
      assert (Z : 2 * a * (p k * q k) <= b * (q k * q k) + c * (p k * p k)).
      { destruct (Req_dec b 0) as [E|E].
        - rewrite E in IH. assert (a = 0). { assert (0 <= a ^ 2) by apply pow2_ge_0. assert (a ^ 2 = 0) by lra. destruct (Req_dec a 0); [assumption|]. exfalso. apply (pow_nonzero a 2 H1). assumption. }
          subst a. rewrite H, E. assert (0 <= c * (p k * p k)) by (apply Rmult_le_pos; [exact Hc|apply Rle_0_sqr]). lra.
        - assert (Y : 0 <= (b * q k - a * p k) ^ 2) by apply pow2_ge_0.
          assert (Pp : 0 <= p k * p k) by apply Rle_0_sqr.
          assert (X : a ^ 2 * (p k * p k) <= b * c * (p k * p k)) by (apply Rmult_le_compat_r; assumption).
          apply (Rmult_le_reg_l b); [lra|]. nra. }
      nra. }
    assert (A2 : (app n M x n / M n n) ^ 2 <= B * sq n x).
    { replace (app n M x n / M n n) with (sm n (fun j => M n j / M n n * x j)).
      - apply CS.
      - unfold app. unfold Rdiv at 2. rewrite Rmult_comm, <- sm_scal. apply sm_ext. intros. field. exact Ap'. }
    assert (X2 : x n * x n <= 2 * w ^ 2 + 2 * (B * sq n x)).
    { assert (0 <= (w + app n M x n / M n n) ^ 2) by apply pow2_ge_0. unfold w in *. nra. }
    assert (Hs : 0 <= sq n x) by (apply sm_nonneg; intros; apply Rle_0_sqr).
    change (sq (Datatypes.S n) x) with (sq n x + x n * x n).
    assert (V1 : v <= M n n / 2) by apply Rmin_l. assert (V2 : v * (2 * B + 1) <= u).
    { apply (Rle_trans _ (u / (2 * B + 1) * (2 * B + 1))); [apply Rmult_le_compat_r; [lra|apply Rmin_r]|]. right. field. lra. }
    assert (W : 0 <= w ^ 2) by apply pow2_ge_0.
    apply (Rle_trans _ (v * (2 * w ^ 2 + (2 * B + 1) * sq n x))); [apply Rmult_le_compat_l; lra|].
    assert (v * (2 * B + 1) * sq n x <= u * sq n x) by (apply Rmult_le_compat_r; assumption).
    assert (v * w ^ 2 <= M n n / 2 * w ^ 2) by (apply Rmult_le_compat_r; assumption). lra.
Qed.
(** every form is bounded above *)
Lemma bounded n G : exists C, 0 <= C /\ forall x, Rabs (bil n G x x) <= C * sq n x.
Proof.
  exists (sm n (fun i => sm n (fun j => Rabs (G i j)))).
  split; [apply sm_nonneg; intros; apply sm_nonneg; intros; apply Rabs_pos|]. intros x.
  unfold bil. eapply Rle_trans; [apply sm_abs|].
  rewrite Rmult_comm, <- sm_scal. apply sm_le. intros i Hi. rewrite Rabs_mult. unfold app.
  eapply Rle_trans; [apply Rmult_le_compat_l; [apply Rabs_pos|apply sm_abs]|]. rewrite <- !sm_scal. apply sm_le. intros j Hj.
  rewrite Rabs_mult. assert (Ai : x i * x i <= sq n x) by (apply (sm_le1 n (fun i => x i * x i)); [intros; apply Rle_0_sqr|exact Hi]).
  assert (Aj : x j * x j <= sq n x) by (apply (sm_le1 n (fun i => x i * x i)); [intros; apply Rle_0_sqr|exact Hj]).
  assert (Z : Rabs (x i) * Rabs (x j) <= sq n x).
  { assert (T := pow2_ge_0 (Rabs (x i) - Rabs (x j))). assert (Rabs (x i) * Rabs (x i) = x i * x i) by (rewrite <- Rabs_mult; apply Rabs_pos_eq, Rle_0_sqr).
    assert (Rabs (x j) * Rabs (x j) = x j * x j) by (rewrite <- Rabs_mult; apply Rabs_pos_eq, Rle_0_sqr). nra. }
  assert (Pg := Rabs_pos (G i j)). nra.
Qed.
Lemma sq_pos n x : nz n x -> 0 < sq n x.
Proof.
  intros (i & Hi & N). assert (x i * x i <= sq n x) by (apply (sm_le1 n (fun i => x i * x i)); [intros; apply Rle_0_sqr|exact Hi]).
  assert (0 < x i * x i) by (apply Rsqr_pos_lt; exact N). lra.
Qed.
(** a vector at which a non-negative form vanishes is in the kernel *)
Lemma kernel n M x : symf n M -> (forall y, 0 <= bil n M y y) -> bil n M x x = 0 -> forall i, (i < n)%nat -> app n M x i = 0.
Proof.
  intros S P Z i Hi. rewrite <- bil_unit_l by exact Hi. set (e := unitv i). set (p := bil n M e x). set (q := bil n M e e).
  assert (Hq : 0 <= q) by apply P.
  assert (H : forall t, 0 <= 2 * t * p + t ^ 2 * q).
  { intros t. assert (Q := P (fun j => 1 * x j + t * e j)). rewrite bil_add_r, !bil_add_l in Q.
    rewrite (bil_sym n M x e S) in Q. fold p q in Q. rewrite Z in Q. lra. }
  destruct (Req_dec p 0) as [E|E]; [exact E|exfalso].
  specialize (H (- p / (q + 1))).
  assert (Y : 2 * (- p / (q + 1)) * p + (- p / (q + 1)) ^ 2 * q = - (p ^ 2 * (q + 2) / (q + 1) ^ 2)) by (field; lra).
  rewrite Y in H. assert (0 < p ^ 2 * (q + 2) / (q + 1) ^ 2).
  { apply Rdiv_lt_0_compat; [|apply pow_lt; lra]. apply Rmult_lt_0_compat; [|lra]. replace (p ^ 2) with (p * p) by ring. apply Rsqr_pos_lt, E. }
  lra.
Qed.

(** ** the first factor *)
Lemma first_factor n K G s : symf n K -> symf n G -> pdf n K -> 0 < s -> ~ pdf n (pen K G s) ->
  exists l v, 0 < l <= s /\ nz n v /\ (forall i, (i < n)%nat -> app n K v i + l * app n G v i = 0) /\
  forall t, 0 <= t < l -> pdf n (pen K G t).
Proof.
  intros SK SG PK Hs Ns.
  set (E := fun t => 0 <= t <= s /\ forall u, 0 <= u <= t -> pdf n (pen K G u)).
  assert (E0 : E 0).
  { split; [lra|]. intros u Hu x Nx. replace u with 0 by lra. rewrite bil_pen. specialize (PK x Nx). lra. }
  destruct (completeness E) as (l & U & Lst).
  { exists s. intros t [H _]. lra. }
  { exists 0. exact E0. }
  assert (Hl : 0 <= l <= s). { split; [apply U, E0|]. apply Lst. intros t [H _]. lra. }
  assert (Below : forall t, 0 <= t < l -> pdf n (pen K G t)).
  { intros t Ht. destruct (classic (exists t', E t' /\ t < t')) as [(t' & [_ E'] & L')|N]; [apply E'; lra|].
    exfalso. assert (l <= t); [|lra]. apply Lst. intros t' Et'. destruct (Rle_or_lt t' t); [assumption|]. exfalso. apply N. exists t'. auto. }
  (* open at positive definite points *)
  assert (Open : forall t, 0 <= t -> pdf n (pen K G t) -> exists d, 0 < d /\ forall u, t <= u <= t + d -> pdf n (pen K G u)).
  { intros t Ht Pt. destruct (uniform n (pen K G t) (sym_pen n K G t SK SG) Pt) as (u & Hu & B). destruct (bounded n G) as (C & HC & Bd).
    exists (u / (2 * (C + 1))). split; [apply Rdiv_lt_0_compat; lra|]. intros r Hr x Nx.
    assert (Sx := sq_pos n x Nx). specialize (B x). specialize (Bd x). rewrite bil_pen in B |- *.
    assert (Rabs ((r - t) * bil n G x x) <= u / 2 * sq n x).
    { rewrite Rabs_mult, (Rabs_pos_eq (r - t)) by lra.
      apply (Rle_trans _ (u / (2 * (C + 1)) * (C * sq n x))).
      - apply Rmult_le_compat; [lra|apply Rabs_pos|lra|exact Bd].
      - assert (I : u / (2 * (C + 1)) * C <= u / 2).
        { apply (Rmult_le_reg_r (2 * (C + 1))); [lra|]. replace (u / (2 * (C + 1)) * C * (2 * (C + 1))) with (u * C) by (field; lra).
          replace (u / 2 * (2 * (C + 1))) with (u * C + u) by field. lra. }
        rewrite <- Rmult_assoc. apply Rmult_le_compat_r; lra. }
    assert (- (u / 2 * sq n x) <= (r - t) * bil n G x x). { assert (W := Rle_abs (- ((r - t) * bil n G x x))). rewrite Rabs_Ropp in W. lra. }
    assert (0 < u * sq n x) by (apply Rmult_lt_0_compat; assumption). lra. }
  assert (Nl : ~ pdf n (pen K G l)).
  { intros Pl. destruct (Rle_lt_or_eq_dec l s (proj2 Hl)) as [Lt|Eq]; [|subst l; contradiction].
    destruct (Open l (proj1 Hl) Pl) as (d & Hd & Od).
    assert (Em : E (Rmin s (l + d))).
    { split. { split; [apply Rmin_glb; lra|apply Rmin_l]. }
      intros u Hu. assert (u <= l + d) by (eapply Rle_trans; [apply Hu|apply Rmin_r]).
      destruct (Rlt_or_le u l); [apply Below; lra|apply Od; lra]. }
    assert (Q := U _ Em). assert (l < Rmin s (l + d)) by (apply Rmin_glb_lt; lra). lra. }
  assert (L0 : 0 < l).
  { destruct (Rle_lt_or_eq_dec 0 l (proj1 Hl)) as [|Eq]; [assumption|]. exfalso. apply Nl. rewrite <- Eq. apply (proj2 E0). lra. }
  (* non-negative at l *)
  assert (Semi : forall y, 0 <= bil n (pen K G l) y y).
  { intros y. destruct (classic (nz n y)) as [Ny|Zy].
    - destruct (Rle_or_lt 0 (bil n (pen K G l) y y)) as [|Neg]; [assumption|exfalso].
      assert (Kp := PK y Ny). rewrite bil_pen in Neg. set (k := bil n K y y) in *. set (g := bil n G y y) in *.
      assert (Hg : g < 0) by nra.
      (* at t = -k/g < l the form vanishes *)
      set (t := k / - g). assert (Ht : 0 <= t < l).
      { unfold t. split; [apply Rlt_le, Rdiv_lt_0_compat; lra|]. apply (Rmult_lt_reg_r (- g)); [lra|]. replace (k / - g * - g) with k by (field; lra). lra. }
      specialize (Below t Ht y Ny). rewrite bil_pen in Below. fold k g in Below. replace (t * g) with (- k) in Below by (unfold t; field; lra). lra.
    - assert (Z : forall i, (i < n)%nat -> y i = 0).
      { intros i Hi. destruct (Req_dec (y i) 0); [assumption|]. exfalso. apply Zy. exists i. auto. }
      unfold bil. rewrite sm_zero; [lra|]. intros i Hi. rewrite Z by exact Hi. ring. }
  assert (Ex : exists v, nz n v /\ bil n (pen K G l) v v = 0).
  { apply NNPP. intros N. apply Nl. intros x Nx. destruct (Rle_lt_or_eq_dec 0 _ (Semi x)) as [|Eq]; [assumption|]. exfalso. apply N. exists x. auto. }
  destruct Ex as (v & Nv & Zv). exists l, v. split; [lra|]. split; [exact Nv|]. split; [|exact Below].
  intros i Hi. rewrite <- app_pen. apply (kernel n (pen K G l) v (sym_pen n K G l SK SG) Semi Zv i Hi).
Qed.
