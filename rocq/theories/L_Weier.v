(** Polynomials in two variables as lists of terms, and the approximation of continuous functions by them. *)
From Coq Require Import Reals Lra Lia.
From Coquelicot Require Import Coquelicot.
From Coq Require Import List.
From Verif Require Import S_Mat.
Import ListNotations.
Open Scope R_scope.

(** ** terms *)
Definition tm : Type := R * (nat * nat).
Definition tval (t : tm) (x y : R) : R := fst t * (x ^ fst (snd t) * y ^ snd (snd t)).
Definition ev (l : list tm) (x y : R) : R := rsum (map (fun t => tval t x y) l).
Lemma ev_nil x y : ev [] x y = 0. Proof. reflexivity. Qed.
Lemma ev_cons t l x y : ev (t :: l) x y = tval t x y + ev l x y. Proof. reflexivity. Qed.
Lemma ev_app l r x y : ev (l ++ r) x y = ev l x y + ev r x y.
Proof. induction l as [|t l IH]; cbn [List.app]; rewrite ?ev_cons, ?ev_nil; [ring|rewrite IH; ring]. Qed.
Definition sc (c : R) (l : list tm) : list tm := map (fun t => (c * fst t, snd t)) l.
Lemma ev_sc c l x y : ev (sc c l) x y = c * ev l x y.
Proof. induction l as [|t l IH]; cbn [sc map]; rewrite ?ev_cons, ?ev_nil; [ring|]. fold (sc c l). rewrite IH. unfold tval. cbn [fst snd]. ring. Qed.
(** multiplication by x and by y *)
Definition mx (l : list tm) : list tm := map (fun t => (fst t, (S (fst (snd t)), snd (snd t)))) l.
Lemma ev_mx l x y : ev (mx l) x y = x * ev l x y.
Proof. induction l as [|t l IH]; cbn [mx map]; rewrite ?ev_cons, ?ev_nil; [ring|]. fold (mx l). rewrite IH. unfold tval. cbn [fst snd pow]. ring. Qed.
Definition swap (l : list tm) : list tm := map (fun t => (fst t, (snd (snd t), fst (snd t)))) l.
Lemma ev_swap l x y : ev (swap l) x y = ev l y x.
Proof. induction l as [|t l IH]; cbn [swap map]; rewrite ?ev_cons, ?ev_nil; [ring|]. fold (swap l). rewrite IH. unfold tval. cbn [fst snd pow]. ring. Qed.
Lemma swap_swap l : swap (swap l) = l.
Proof. induction l as [|[c [i j]] l IH]; [reflexivity|]. exact (f_equal (cons (c, (i, j))) IH). Qed.

(** ** the expectation of a function of the number of successes among n trials *)
Fixpoint ex (n : nat) (x : R) (g : nat -> R) : R :=
  match n with O => g 0%nat | S n' => (1 - x) * ex n' x g + x * ex n' x (fun k => g (S k)) end.
Lemma ex_ext n x : forall g h, (forall k, g k = h k) -> ex n x g = ex n x h.
Proof. induction n as [|n IH]; intros g h H; cbn [ex]; [apply H|]. rewrite (IH g h H), (IH (fun k => g (S k)) (fun k => h (S k))) by (intros; apply H). reflexivity. Qed.
Lemma ex_lin n x a b : forall g h, ex n x (fun k => a * g k + b * h k) = a * ex n x g + b * ex n x h.
Proof. induction n as [|n IH]; intros g h; cbn [ex]; [reflexivity|]. rewrite IH, (IH (fun k => g (S k)) (fun k => h (S k))). ring. Qed.
Lemma ex_const n x c : ex n x (fun _ => c) = c.
Proof. induction n as [|n IH]; cbn [ex]; [reflexivity|]. rewrite IH. ring. Qed.
Lemma ex_mono n x : 0 <= x <= 1 -> forall g h, (forall k, (k <= n)%nat -> g k <= h k) -> ex n x g <= ex n x h.
Proof.
  intros Hx. induction n as [|n IH]; intros g h H; cbn [ex]; [apply H; lia|].
  apply Rplus_le_compat; apply Rmult_le_compat_l; try lra; apply IH; intros; apply H; lia.
Qed.
Lemma ex_shift n x : forall g, ex n x (fun k => g (S k)) = ex n x (fun k => g (1 + k)%nat). Proof. reflexivity. Qed.
Lemma ex_id n x : ex n x INR = INR n * x.
Proof.
  assert (G : forall m, ex n x (fun k => INR (m + k)) = INR n * x + INR m).
  { induction n as [|n IH]; intros m; cbn [ex]; [rewrite Nat.add_0_r; cbn [INR]; ring|].
    rewrite IH, (ex_ext n x _ (fun k => INR (S m + k))) by (intros k; f_equal; lia). rewrite IH, !S_INR. ring. }
  rewrite (ex_ext n x INR (fun k => INR (0 + k))) by reflexivity. rewrite G. cbn [INR]. ring.
Qed.
Lemma ex_sq n x : ex n x (fun k => INR k ^ 2) = INR n * x * (1 - x) + (INR n * x) ^ 2.
Proof.
  assert (H : forall m, ex n x (fun k => INR (m + k)) = INR n * x + INR m).
  { induction n as [|n IH]; intros m; cbn [ex]; [rewrite Nat.add_0_r; cbn [INR]; ring|].
    rewrite IH, (ex_ext n x _ (fun k => INR (S m + k))) by (intros k; f_equal; lia). rewrite IH, !S_INR. ring. }
  assert (G : forall m, ex n x (fun k => INR (m + k) ^ 2) = INR n * x * (1 - x) + (INR n * x + INR m) ^ 2).
  { clear H. induction n as [|n IH]; intros m; cbn [ex]; [rewrite Nat.add_0_r; cbn [INR]; ring|].
    rewrite IH, (ex_ext n x _ (fun k => INR (S m + k) ^ 2)) by (intros k; do 2 f_equal; lia). rewrite IH, !S_INR. ring. }
  rewrite (ex_ext n x _ (fun k => INR (0 + k) ^ 2)) by reflexivity. rewrite G. cbn [INR]. ring.
Qed.
(** the spread of the success rate *)
Lemma ex_var n x : (0 < n)%nat -> ex n x (fun k => (INR k / INR n - x) ^ 2) = x * (1 - x) / INR n.
Proof.
  intros Hn. assert (N : INR n <> 0) by (apply not_0_INR; lia).
  rewrite (ex_ext n x _ (fun k => / INR n ^ 2 * INR k ^ 2 + 1 * (- (2 * x / INR n) * INR k + x ^ 2 * 1))) by (intros k; field; exact N).
  rewrite (ex_lin n x (/ INR n ^ 2) 1 (fun k => INR k ^ 2) (fun k => - (2 * x / INR n) * INR k + x ^ 2 * 1)).
  rewrite (ex_lin n x (- (2 * x / INR n)) (x ^ 2) INR (fun _ => 1)), ex_const, ex_id, ex_sq. field. exact N.
Qed.
Lemma var_le n x : (0 < n)%nat -> x * (1 - x) / INR n <= / INR n.
Proof.
  intros Hn. assert (N : 0 < INR n) by (apply lt_0_INR; lia). unfold Rdiv. rewrite <- (Rmult_1_l (/ INR n)) at 2.
  apply Rmult_le_compat_r; [left; apply Rinv_0_lt_compat, N|]. assert (S := pow2_ge_0 (x - 1/2)). lra.
Qed.
(** as a polynomial *)
Fixpoint bx (n : nat) (g : nat -> list tm) : list tm :=
  match n with O => g 0%nat | S n' => bx n' g ++ sc (-1) (mx (bx n' g)) ++ mx (bx n' (fun k => g (S k))) end.
Lemma ev_bx n x y : forall g, ev (bx n g) x y = ex n x (fun k => ev (g k) x y).
Proof. induction n as [|n IH]; intros g; [reflexivity|]. cbn [bx ex]. rewrite !ev_app, ev_sc, !ev_mx, !IH. ring. Qed.

(** ** the approximation on the unit square *)
Lemma cont_bounded (f : R -> R -> R) a b : 0 < a -> 0 < b -> (forall x y, 0 <= x <= a -> 0 <= y <= b -> continuity_2d_pt f x y) ->
  exists M, 0 < M /\ forall x y, 0 <= x <= a -> 0 <= y <= b -> Rabs (f x y) <= M.
Proof.
  intros Ha Hb C. destruct (uniform_continuity_2d f 0 a 0 b C (mkposreal 1 Rlt_0_1)) as [d Hd]. cbn [pos] in Hd.
  assert (Pd := cond_pos d).
  destruct (archimed (Rmax a b / d)) as [Hz _]. set (N := Z.to_nat (up (Rmax a b / d))).
  assert (Pm : 0 < Rmax a b) by (apply Rlt_le_trans with a; [exact Ha|apply Rmax_l]).
  assert (P0 : 0 < Rmax a b / d) by (apply Rdiv_lt_0_compat; assumption).
  assert (HN : Rmax a b / d < INR N).
  { unfold N. rewrite INR_IZR_INZ, Z2Nat.id; [exact Hz|]. apply le_IZR. lra. }
  assert (PN : 0 < INR N) by lra.
  assert (G : forall (g : R -> R) c, 0 < c <= Rmax a b -> (forall s t, 0 <= s <= c -> 0 <= t <= c -> Rabs (t - s) < d -> Rabs (g t - g s) < 1) ->
    forall x, 0 <= x <= c -> Rabs (g x) <= Rabs (g 0) + INR N).
  { intros g c Hc Hg x Hx.
    assert (Q : forall k, (k <= N)%nat -> Rabs (g (INR k / INR N * x)) <= Rabs (g 0) + INR k).
    { induction k as [|k IH]; intros Hk.
      - cbn [INR]. unfold Rdiv. rewrite !Rmult_0_l. lra.
      - assert (I := IH ltac:(lia)). rewrite S_INR.
        assert (K0 : 0 <= INR k) by apply pos_INR. assert (KN : INR k + 1 <= INR N) by (rewrite <- S_INR; apply le_INR, Hk).
        assert (B : forall j, 0 <= j <= INR N -> 0 <= j / INR N * x <= c).
        { intros j Hj. assert (0 <= j / INR N) by (apply Rdiv_le_0_compat; lra). assert (j / INR N <= 1) by (apply Rmult_le_reg_r with (INR N); [exact PN|]; unfold Rdiv; rewrite Rmult_assoc, Rinv_l by lra; lra).
          split; [apply Rmult_le_pos; lra|]. apply Rle_trans with (1 * x); [apply Rmult_le_compat_r; lra|lra]. }
        assert (L : Rabs (g ((INR k + 1) / INR N * x) - g (INR k / INR N * x)) < 1).
        { apply Hg; [apply B; lra|apply B; lra|]. replace ((INR k + 1) / INR N * x - INR k / INR N * x) with (x / INR N) by (field; lra).
          rewrite Rabs_right by (apply Rle_ge, Rdiv_le_0_compat; lra). apply Rle_lt_trans with (Rmax a b / INR N).
          - unfold Rdiv. apply Rmult_le_compat_r; [left; apply Rinv_0_lt_compat, PN|lra].
          - apply Rmult_lt_reg_r with (INR N); [exact PN|]. unfold Rdiv at 1. rewrite Rmult_assoc, Rinv_l, Rmult_1_r by lra.
            apply Rmult_lt_reg_r with (/ d); [apply Rinv_0_lt_compat, Pd|]. replace (d * INR N * / d) with (INR N) by (field; lra). exact HN. }
        assert (T := Rabs_triang (g ((INR k + 1) / INR N * x) - g (INR k / INR N * x)) (g (INR k / INR N * x))).
        replace (g ((INR k + 1) / INR N * x) - g (INR k / INR N * x) + g (INR k / INR N * x)) with (g ((INR k + 1) / INR N * x)) in T by ring. lra. }
    specialize (Q N (le_n N)). replace (INR N / INR N * x) with x in Q by (field; lra). exact Q. }
  exists (Rabs (f 0 0) + INR N + INR N + 1). split; [assert (A := Rabs_pos (f 0 0)); lra|]. intros x y Hx Hy.
  assert (Z : Rabs (0 - 0) < d) by (rewrite Rminus_0_r, Rabs_R0; exact Pd).
  assert (A := G (fun t => f t 0) a (conj Ha (Rmax_l a b)) ltac:(intros s t Hs Ht L; apply Hd; try lra; exact Z) x Hx).
  assert (B := G (fun t => f x t) b (conj Hb (Rmax_r a b)) ltac:(intros s t Hs Ht L; apply Hd; try lra; rewrite Rminus_eq_0, Rabs_R0; exact Pd) y Hy).
  cbn beta in A, B. lra.
Qed.
Lemma near_sq (f : R -> R -> R) eps : (forall x y, 0 <= x <= 1 -> 0 <= y <= 1 -> continuity_2d_pt f x y) -> 0 < eps ->
  exists K, 0 < K /\ forall x y s t, 0 <= x <= 1 -> 0 <= y <= 1 -> 0 <= s <= 1 -> 0 <= t <= 1 ->
    Rabs (f s t - f x y) <= eps + K * ((s - x) ^ 2 + (t - y) ^ 2).
Proof.
  intros C He. destruct (cont_bounded f 1 1 Rlt_0_1 Rlt_0_1 C) as (M & PM & HM). destruct (uniform_continuity_2d f 0 1 0 1 C (mkposreal eps He)) as [d Hd]. cbn [pos] in Hd.
  assert (Pd := cond_pos d). assert (Pd2 : 0 < d ^ 2) by (apply pow_lt, Pd). exists (2 * M / d ^ 2). split; [apply Rdiv_lt_0_compat; lra|].
  intros x y s t Hx Hy Hs Ht. assert (K : 0 < 2 * M / d ^ 2) by (apply Rdiv_lt_0_compat; lra).
  assert (S1 := pow2_ge_0 (s - x)). assert (S2 := pow2_ge_0 (t - y)).
  assert (Far : d ^ 2 <= (s - x) ^ 2 + (t - y) ^ 2 -> Rabs (f s t - f x y) <= eps + 2 * M / d ^ 2 * ((s - x) ^ 2 + (t - y) ^ 2)).
  { intros F. assert (A := Rabs_triang (f s t) (- f x y)). rewrite Rabs_Ropp in A. assert (B1 := HM s t Hs Ht). assert (B2 := HM x y Hx Hy).
    assert (2 * M / d ^ 2 * d ^ 2 <= 2 * M / d ^ 2 * ((s - x) ^ 2 + (t - y) ^ 2)) by (apply Rmult_le_compat_l; lra).
    replace (2 * M / d ^ 2 * d ^ 2) with (2 * M) in H by (field; lra). unfold Rminus. lra. }
  assert (SqA : forall u, d <= Rabs u -> d ^ 2 <= u ^ 2) by (intros u Hu; rewrite <- (pow2_abs u); apply pow_incr; lra).
  destruct (Rlt_le_dec (Rabs (s - x)) d) as [L1|L1]; [|apply Far; assert (Q := SqA _ L1); lra].
  destruct (Rlt_le_dec (Rabs (t - y)) d) as [L2|L2]; [|apply Far; assert (Q := SqA _ L2); lra].
  assert (Q := Hd x y s t Hx Hy Hs Ht L1 L2). assert (0 <= 2 * M / d ^ 2 * ((s - x) ^ 2 + (t - y) ^ 2)) by (apply Rmult_le_pos; lra). lra.
Qed.
Lemma weier_unit (f : R -> R -> R) eps : (forall x y, 0 <= x <= 1 -> 0 <= y <= 1 -> continuity_2d_pt f x y) -> 0 < eps ->
  exists l, forall x y, 0 <= x <= 1 -> 0 <= y <= 1 -> Rabs (ev l x y - f x y) <= eps.
Proof.
  intros C He. destruct (near_sq f (eps / 2) C ltac:(lra)) as (K & PK & HK).
  destruct (archimed (4 * K / eps)) as [Hz _]. set (n := Z.to_nat (up (4 * K / eps))).
  assert (P0 : 0 < 4 * K / eps) by (apply Rdiv_lt_0_compat; lra).
  assert (Hn : 4 * K / eps < INR n) by (unfold n; rewrite INR_IZR_INZ, Z2Nat.id; [exact Hz|apply le_IZR; lra]).
  assert (PN : 0 < INR n) by lra. assert (n0 : (0 < n)%nat) by (apply INR_lt; exact PN).
  assert (IJ : forall k, (k <= n)%nat -> 0 <= INR k / INR n <= 1).
  { intros k Hk. split; [apply Rdiv_le_0_compat; [apply pos_INR|exact PN]|]. apply Rmult_le_reg_r with (INR n); [exact PN|]. unfold Rdiv. rewrite Rmult_assoc, Rinv_l, Rmult_1_r, Rmult_1_l by lra. apply le_INR, Hk. }
  set (v := fun i j => f (INR i / INR n) (INR j / INR n)).
  set (l := bx n (fun i => swap (bx n (fun j => [(v i j, (0, 0)%nat)])))).
  assert (El : forall x y, ev l x y = ex n x (fun i => ex n y (v i))).
  { intros x y. unfold l. rewrite ev_bx. apply ex_ext. intros i. rewrite ev_swap, ev_bx. apply ex_ext. intros j. rewrite ev_cons, ev_nil. unfold tval. cbn [fst snd pow]. ring. }
  exists l. intros x y Hx Hy. rewrite El.
  set (e := fun i j => eps / 2 + K * ((INR i / INR n - x) ^ 2 + (INR j / INR n - y) ^ 2)).
  assert (Be : forall i j, (i <= n)%nat -> (j <= n)%nat -> f x y - e i j <= v i j <= f x y + e i j).
  { intros i j Hi Hj. assert (Q := HK x y _ _ Hx Hy (IJ i Hi) (IJ j Hj)). fold (v i j) in Q. fold (e i j) in Q. apply Rabs_le_between' in Q. lra. }
  assert (Ee : forall s, ex n x (fun i => ex n y (fun j => f x y + s * e i j)) = f x y + s * (eps / 2 + K * (x * (1 - x) / INR n + y * (1 - y) / INR n))).
  { intros s. rewrite (ex_ext n x _ (fun i => 1 * (f x y + s * (eps / 2 + K * (y * (1 - y) / INR n))) + s * K * (INR i / INR n - x) ^ 2)).
    - rewrite (ex_lin n x 1 (s * K) (fun _ => f x y + s * (eps / 2 + K * (y * (1 - y) / INR n))) (fun i => (INR i / INR n - x) ^ 2)), ex_const, ex_var by exact n0. ring.
    - intros i. rewrite (ex_ext n y _ (fun j => 1 * (f x y + s * (eps / 2) + s * K * (INR i / INR n - x) ^ 2) + s * K * (INR j / INR n - y) ^ 2)) by (intros j; unfold e; ring).
      rewrite (ex_lin n y 1 (s * K) (fun _ => f x y + s * (eps / 2) + s * K * (INR i / INR n - x) ^ 2) (fun j => (INR j / INR n - y) ^ 2)), ex_const, ex_var by exact n0. ring. }
  assert (Up : ex n x (fun i => ex n y (v i)) <= ex n x (fun i => ex n y (fun j => f x y + 1 * e i j))).
  { apply ex_mono; [exact Hx|]. intros i Hi. apply ex_mono; [exact Hy|]. intros j Hj. assert (Q := Be i j Hi Hj). lra. }
  assert (Lo : ex n x (fun i => ex n y (fun j => f x y + -1 * e i j)) <= ex n x (fun i => ex n y (v i))).
  { apply ex_mono; [exact Hx|]. intros i Hi. apply ex_mono; [exact Hy|]. intros j Hj. assert (Q := Be i j Hi Hj). lra. }
  rewrite Ee in Up, Lo. assert (V1 := var_le n x n0). assert (V2 := var_le n y n0).
  assert (KN : K * (/ INR n + / INR n) <= eps / 2).
  { apply Rmult_le_reg_r with (INR n); [exact PN|]. replace (K * (/ INR n + / INR n) * INR n) with (2 * K) by (field; lra).
    apply Rmult_le_reg_r with (2 / eps); [apply Rdiv_lt_0_compat; lra|]. replace (2 * K * (2 / eps)) with (4 * K / eps) by (field; lra). replace (eps / 2 * INR n * (2 / eps)) with (INR n) by (field; lra). lra. }
  assert (KV : K * (x * (1 - x) / INR n + y * (1 - y) / INR n) <= K * (/ INR n + / INR n)) by (apply Rmult_le_compat_l; lra).
  apply Rabs_le_between. lra.
Qed.
(** composition with a scaling of the axes *)
Definition rescale (p q : R) (l : list tm) : list tm := map (fun t => (fst t * p ^ fst (snd t) * q ^ snd (snd t), snd t)) l.
Lemma ev_rescale p q l x y : ev (rescale p q l) x y = ev l (p * x) (q * y).
Proof. induction l as [|t l IH]; cbn [rescale map]; rewrite ?ev_cons, ?ev_nil; [ring|]. fold (rescale p q l). rewrite IH. unfold tval. cbn [fst snd]. rewrite !Rpow_mult_distr. ring. Qed.
Lemma cont_scale (f : R -> R -> R) a b x y : 0 < a -> 0 < b -> continuity_2d_pt f (a * x) (b * y) -> continuity_2d_pt (fun s t => f (a * s) (b * t)) x y.
Proof.
  intros Ha Hb C eps. destruct (C eps) as [d Hd]. assert (Pd := cond_pos d). assert (Pm : 0 < Rmax a b) by (apply Rlt_le_trans with a; [exact Ha|apply Rmax_l]).
  assert (P : 0 < d / Rmax a b) by (apply Rdiv_lt_0_compat; assumption). exists (mkposreal _ P). cbn [pos]. intros u v Hu Hv.
  assert (G : forall c z, 0 < c <= Rmax a b -> Rabs z < d / Rmax a b -> Rabs (c * z) < d).
  { intros c z Hc Hz. rewrite Rabs_mult, (Rabs_right c) by lra. apply Rle_lt_trans with (Rmax a b * Rabs z); [apply Rmult_le_compat_r; [apply Rabs_pos|lra]|].
    apply Rmult_lt_reg_l with (/ Rmax a b); [apply Rinv_0_lt_compat, Pm|]. rewrite <- Rmult_assoc, Rinv_l, Rmult_1_l by lra. unfold Rdiv in Hz. lra. }
  apply Hd; [replace (a * u - a * x) with (a * (u - x)) by ring|replace (b * v - b * y) with (b * (v - y)) by ring]; apply G; try assumption; split; try assumption; [apply Rmax_l|apply Rmax_r].
Qed.
(** on the plate *)
Lemma weier (f : R -> R -> R) a b eps : 0 < a -> 0 < b -> (forall x y, 0 <= x <= a -> 0 <= y <= b -> continuity_2d_pt f x y) -> 0 < eps ->
  exists l, forall x y, 0 <= x <= a -> 0 <= y <= b -> Rabs (ev l x y - f x y) <= eps.
Proof.
  intros Ha Hb C He.
  assert (In1 : forall c z, 0 < c -> 0 <= z <= 1 -> 0 <= c * z <= c) by (intros c z Hc Hz; split; [apply Rmult_le_pos; lra|rewrite <- (Rmult_1_r c) at 2; apply Rmult_le_compat_l; lra]).
  destruct (weier_unit (fun s t => f (a * s) (b * t)) eps) as [l Hl]; [|exact He|].
  { intros x y Hx Hy. apply cont_scale; [exact Ha|exact Hb|]. apply C; apply In1; assumption. }
  exists (rescale (/ a) (/ b) l). intros x y Hx Hy. rewrite ev_rescale.
  assert (In2 : forall c z, 0 < c -> 0 <= z <= c -> 0 <= / c * z <= 1).
  { intros c z Hc Hz. assert (P := Rinv_0_lt_compat c Hc). split; [apply Rmult_le_pos; lra|]. rewrite <- (Rinv_l c) by lra. apply Rmult_le_compat_l; lra. }
  assert (Q := Hl (/ a * x) (/ b * y) (In2 a x Ha Hx) (In2 b y Hb Hy)). cbn beta in Q.
  replace (a * (/ a * x)) with x in Q by (field; lra). replace (b * (/ b * y)) with y in Q by (field; lra). exact Q.
Qed.
