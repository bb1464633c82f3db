(** Approximation of smooth deflections, with their derivatives and edge conditions, by polynomials. *)
From Coq Require Import Reals Lra Lia FunctionalExtensionality.
From Coquelicot Require Import Coquelicot.
From Coq Require Import List.
From Verif Require Import S_Mat S_Plate S_Energy S_Limit L_Weier.
Import ListNotations.
Open Scope R_scope.

(** ** derivatives and antiderivatives of terms *)
Definition dX (l : list tm) : list tm := map (fun t => (INR (fst (snd t)) * fst t, (pred (fst (snd t)), snd (snd t)))) l.
Definition aX (l : list tm) : list tm := map (fun t => (fst t / INR (S (fst (snd t))), (S (fst (snd t)), snd (snd t)))) l.
Definition dY (l : list tm) : list tm := map (fun t => (INR (snd (snd t)) * fst t, (fst (snd t), pred (snd (snd t))))) l.
Definition atx (x0 : R) (l : list tm) : list tm := map (fun t => (fst t * x0 ^ fst (snd t), (0%nat, snd (snd t)))) l.
Lemma dY_swap l : dY (swap l) = swap (dX l). Proof. unfold dY, swap, dX. rewrite !map_map. reflexivity. Qed.
Lemma dX_swap l : dX (swap l) = swap (dY l). Proof. unfold dY, swap, dX. rewrite !map_map. reflexivity. Qed.
Lemma dX_dY l : dX (dY l) = dY (dX l). Proof. unfold dY, dX. rewrite !map_map. apply map_ext. intros [c [i j]]. cbn [fst snd]. f_equal. ring. Qed.
Lemma dX_aX l : dX (aX l) = l.
Proof.
  unfold dX, aX. rewrite map_map. rewrite <- (map_id l) at 2. apply map_ext. intros [c [i j]]. cbn [fst snd pred]. f_equal. field. apply not_0_INR. lia.
Qed.
Lemma dY_aX l : dY (aX l) = aX (dY l).
Proof. unfold dY, aX. rewrite !map_map. apply map_ext. intros [c [i j]]. cbn [fst snd]. f_equal. unfold Rdiv. ring. Qed.
Lemma dY_mx l : dY (mx l) = mx (dY l). Proof. unfold dY, mx. rewrite !map_map. reflexivity. Qed.
Lemma dY_atx x0 l : dY (atx x0 l) = atx x0 (dY l).
Proof. unfold dY, atx. rewrite !map_map. apply map_ext. intros [c [i j]]. cbn [fst snd]. f_equal. ring. Qed.
Lemma dY_sc c l : dY (sc c l) = sc c (dY l). Proof. unfold dY, sc. rewrite !map_map. apply map_ext. intros [d [i j]]. cbn [fst snd]. f_equal. ring. Qed.
Lemma dX_sc c l : dX (sc c l) = sc c (dX l). Proof. unfold dX, sc. rewrite !map_map. apply map_ext. intros [d [i j]]. cbn [fst snd]. f_equal. ring. Qed.
Lemma dY_app l r : dY (l ++ r) = dY l ++ dY r. Proof. apply map_app. Qed.
Lemma dX_app l r : dX (l ++ r) = dX l ++ dX r. Proof. apply map_app. Qed.
Lemma ev_atx x0 l x y : ev (atx x0 l) x y = ev l x0 y.
Proof. induction l as [|t l IH]; cbn [atx map]; rewrite ?ev_cons, ?ev_nil; [ring|]. fold (atx x0 l). rewrite IH. unfold tval. cbn [fst snd pow]. ring. Qed.
Lemma ev_aX0 l y : ev (aX l) 0 y = 0.
Proof. induction l as [|t l IH]; cbn [aX map]; rewrite ?ev_cons, ?ev_nil; [ring|]. fold (aX l). rewrite IH. unfold tval. cbn [fst snd pow]. ring. Qed.
Lemma ev_dX l x y : is_derive (fun t => ev l t y) x (ev (dX l) x y).
Proof.
  induction l as [|[c [i j]] l IH]; [exact (is_derive_const (K := R_AbsRing) (V := R_NormedModule) 0 x)|]. cbn [dX map]. fold (dX l).
  apply (is_derive_ext (fun t => tval (c, (i, j)) t y + ev l t y)); [reflexivity|]. rewrite ev_cons.
  apply (is_derive_plus (fun t => tval (c, (i, j)) t y) (fun t => ev l t y)); [|exact IH]. unfold tval. cbn [fst snd].
  auto_derive; [exact I|]. ring.
Qed.
Lemma ev_dY l x y : is_derive (fun t => ev l x t) y (ev (dY l) x y).
Proof.
  assert (H := ev_dX (swap l) y x). rewrite dX_swap, ev_swap in H. apply (is_derive_ext (fun t => ev (swap l) t x)); [intros t; apply ev_swap|exact H].
Qed.
Definition DD (p q : nat) (l : list tm) : list tm := Nat.iter p dX (Nat.iter q dY l).
Lemma dX_iterY q l : dX (Nat.iter q dY l) = Nat.iter q dY (dX l).
Proof. induction q as [|q IH]; [reflexivity|]. cbn [Nat.iter nat_rect]. change (nat_rect _ l (fun _ => dY) q) with (Nat.iter q dY l). change (dX (dY (Nat.iter q dY l)) = dY (Nat.iter q dY (dX l))). rewrite dX_dY, IH. reflexivity. Qed.
Lemma DD_x p q l : DD (S p) q l = dX (DD p q l). Proof. reflexivity. Qed.
Lemma DD_y p q l : DD p (S q) l = dY (DD p q l).
Proof.
  induction p as [|p IH]; [reflexivity|]. rewrite !DD_x, IH. apply dX_dY.
Qed.
Lemma DD_swap p q l : DD p q (swap l) = swap (DD q p l).
Proof.
  revert p. induction q as [|q IH]; intros p.
  - induction p as [|p IH]; [reflexivity|]. rewrite DD_x, IH, dX_swap, DD_y. reflexivity.
  - rewrite DD_y, IH, dY_swap, DD_x. reflexivity.
Qed.
(** ** continuity and bounds *)
Lemma cont_pow1 i x y : continuity_2d_pt (fun u _ => u ^ i) x y.
Proof. induction i as [|i IH]; [apply (continuity_2d_pt_const x y 1)|]. apply (continuity_2d_pt_mult (fun u _ => u) (fun u _ => u ^ i)); [apply continuity_2d_pt_id1|exact IH]. Qed.
Lemma cont_pow2 i x y : continuity_2d_pt (fun _ v => v ^ i) x y.
Proof. induction i as [|i IH]; [apply (continuity_2d_pt_const x y 1)|]. apply (continuity_2d_pt_mult (fun _ v => v) (fun _ v => v ^ i)); [apply continuity_2d_pt_id2|exact IH]. Qed.
Lemma ev_cont l x y : continuity_2d_pt (ev l) x y.
Proof.
  induction l as [|[c [i j]] l IH]; [apply (continuity_2d_pt_const x y 0)|].
  apply (continuity_2d_pt_plus (tval (c, (i, j))) (ev l)); [|exact IH]. unfold tval. cbn [fst snd].
  apply (continuity_2d_pt_mult (fun _ _ => c) (fun u v => u ^ i * v ^ j)); [apply continuity_2d_pt_const|].
  apply (continuity_2d_pt_mult (fun u _ => u ^ i) (fun _ v => v ^ j)); [apply cont_pow1|apply cont_pow2].
Qed.
Lemma ev_derivatives l : derivatives (ev l) (fun p q => ev (DD p q l)).
Proof.
  constructor.
  - reflexivity.
  - intros p q x y _ _. apply ev_dX.
  - intros p q x y _ _. rewrite DD_y. apply ev_dY.
  - intros p q x y _ _. apply ev_cont.
Qed.
Lemma dx_ev l : dx (ev l) = ev (dX l).
Proof. apply functional_extensionality; intros x; apply functional_extensionality; intros y. apply is_derive_unique, ev_dX. Qed.
Lemma dy_ev l : dy (ev l) = ev (dY l).
Proof. apply functional_extensionality; intros x; apply functional_extensionality; intros y. apply is_derive_unique, ev_dY. Qed.

(** ** extension of an approximation along x *)
Lemma grow (f g : R -> R) c e0 e1 : 0 < c -> (forall t, is_derive f t (g t)) -> Rabs (f 0) <= e0 -> (forall t, 0 <= t <= c -> Rabs (g t) <= e1) ->
  forall t, 0 <= t <= c -> Rabs (f t) <= e0 + c * e1.
Proof.
  intros Hc Df H0 H1 t Ht. destruct (MVT_gen f 0 t g) as (z & Hz & E).
  - intros z _. apply Df.
  - intros z _. apply continuity_pt_filterlim, (ex_derive_continuous (V := R_NormedModule)). eexists. apply Df.
  - rewrite Rmin_left, Rmax_right in Hz by lra. rewrite Rminus_0_r in E.
    assert (P1 : 0 <= e1) by (apply Rle_trans with (Rabs (g 0)); [apply Rabs_pos|apply H1; lra]).
    replace (f t) with (f 0 + g z * t) by lra. apply Rle_trans with (Rabs (f 0) + Rabs (g z * t)); [apply Rabs_triang|].
    apply Rplus_le_compat; [exact H0|]. rewrite Rabs_mult, (Rabs_right t) by lra. rewrite Rmult_comm. apply Rmult_le_compat; [lra|apply Rabs_pos|lra|apply H1; lra].
Qed.
Definition build (f g u : list tm) : list tm := atx 0 f ++ mx (atx 0 g) ++ aX (aX u).
Lemma dY_build f g u : dY (build f g u) = build (dY f) (dY g) (dY u).
Proof. unfold build. rewrite !dY_app, dY_mx, !dY_atx, !dY_aX. reflexivity. Qed.
Lemma iterY_build q f g u : Nat.iter q dY (build f g u) = build (Nat.iter q dY f) (Nat.iter q dY g) (Nat.iter q dY u).
Proof.
  induction q as [|q IH]; [reflexivity|]. change (dY (Nat.iter q dY (build f g u)) = build (dY (Nat.iter q dY f)) (dY (Nat.iter q dY g)) (dY (Nat.iter q dY u))).
  rewrite IH. apply dY_build.
Qed.
Lemma ev_build f g u x y : ev (build f g u) x y = ev f 0 y + x * ev g 0 y + ev (aX (aX u)) x y.
Proof. unfold build. rewrite !ev_app, ev_mx, !ev_atx. ring. Qed.
Lemma ev_build1 f g u x y : ev (dX (build f g u)) x y = ev g 0 y + ev (aX u) x y.
Proof.
  rewrite <- (is_derive_unique _ _ _ (ev_dX (build f g u) x y)). rewrite (Derive_ext _ (fun t => ev f 0 y + t * ev g 0 y + ev (aX (aX u)) t y)) by (intros; apply ev_build).
  apply is_derive_unique. evar_last.
  - apply (is_derive_plus (fun t => ev f 0 y + t * ev g 0 y) (fun t => ev (aX (aX u)) t y)); [|apply ev_dX].
    instantiate (1 := ev g 0 y). auto_derive; [exact I|]. ring.
  - rewrite dX_aX. reflexivity.
Qed.
Lemma ev_build2 f g u x y : ev (dX (dX (build f g u))) x y = ev u x y.
Proof.
  rewrite <- (is_derive_unique _ _ _ (ev_dX (dX (build f g u)) x y)). rewrite (Derive_ext _ (fun t => ev g 0 y + ev (aX u) t y)) by (intros; apply ev_build1).
  apply is_derive_unique. evar_last.
  - apply (is_derive_plus (fun _ => ev g 0 y) (fun t => ev (aX u) t y)); [apply @is_derive_const|apply ev_dX].
  - rewrite dX_aX. unfold plus, zero; cbn. ring.
Qed.
Lemma ext_x a (Ha : 0 < a) (B : R -> Prop) f g u (W : nat -> field) e :
  (forall p (x y : R), (p < 2)%nat -> is_derive (fun t => W p t y) x (W (S p) x y)) ->
  (forall x y, 0 <= x <= a -> B y -> Rabs (ev u x y - W 2%nat x y) <= e) -> (forall y, B y -> Rabs (ev f 0 y - W 0%nat 0 y) <= e) -> (forall y, B y -> Rabs (ev g 0 y - W 1%nat 0 y) <= e) ->
  forall p x y, (p <= 2)%nat -> 0 <= x <= a -> B y -> Rabs (ev (Nat.iter p dX (build f g u)) x y - W p x y) <= e * (1 + a + a * a).
Proof.
  intros Dw Hu Hf Hg p x y Hp Hx Hy.
  assert (e0 : 0 <= e) by (eapply Rle_trans; [apply Rabs_pos|exact (Hf y Hy)]).
  assert (D2 : forall t, 0 <= t <= a -> Rabs (ev (dX (dX (build f g u))) t y - W 2%nat t y) <= e) by (intros t Ht; rewrite ev_build2; apply Hu; assumption).
  assert (D1 : forall t, 0 <= t <= a -> Rabs (ev (dX (build f g u)) t y - W 1%nat t y) <= e + a * e).
  { apply (grow (fun t => ev (dX (build f g u)) t y - W 1%nat t y) (fun t => ev (dX (dX (build f g u))) t y - W 2%nat t y) a e e Ha).
    - intros t. apply (is_derive_minus (fun t => ev (dX (build f g u)) t y) (fun t => W 1%nat t y)); [apply ev_dX|apply Dw; lia].
    - rewrite ev_build1, ev_aX0, Rplus_0_r. apply Hg, Hy.
    - exact D2. }
  assert (D0 : forall t, 0 <= t <= a -> Rabs (ev (build f g u) t y - W 0%nat t y) <= e + a * (e + a * e)).
  { apply (grow (fun t => ev (build f g u) t y - W 0%nat t y) (fun t => ev (dX (build f g u)) t y - W 1%nat t y) a e (e + a * e) Ha).
    - intros t. apply (is_derive_minus (fun t => ev (build f g u) t y) (fun t => W 0%nat t y)); [apply ev_dX|apply Dw; lia].
    - rewrite ev_build, ev_aX0, Rmult_0_l, !Rplus_0_r. apply Hf, Hy.
    - exact D1. }
  assert (P1 : 0 <= a * e) by (apply Rmult_le_pos; lra). assert (P2 : 0 <= a * (a * e)) by (apply Rmult_le_pos; lra).
  destruct p as [|[|[|p]]]; [| | |lia]; cbn [Nat.iter nat_rect].
  - specialize (D0 x Hx). lra.
  - specialize (D1 x Hx). lra.
  - specialize (D2 x Hx). lra.
Qed.

Lemma cont_line_x (f : field) x y : continuity_2d_pt f x 0 -> continuity_2d_pt (fun u _ => f u 0) x y.
Proof. intros C eps. destruct (C eps) as [d Hd]. exists d. intros u v Hu _. apply Hd; [exact Hu|]. rewrite Rminus_0_r, Rabs_R0. apply cond_pos. Qed.
Lemma cont_line_y (f : field) x y : continuity_2d_pt f 0 y -> continuity_2d_pt (fun _ v => f 0 v) x y.
Proof. intros C eps. destruct (C eps) as [d Hd]. exists d. intros u v _ Hv. apply Hd; [|exact Hv]. rewrite Rminus_0_r, Rabs_R0. apply cond_pos. Qed.

Section Plate.
Variables (a b : R) (Ha : 0 < a) (Hb : 0 < b).
Lemma iterY_swap q l : Nat.iter q dY (swap l) = swap (Nat.iter q dX l). Proof. exact (DD_swap 0 q l). Qed.
Lemma approx_y (U : nat -> field) eps : (forall q (x y : R), (q < 2)%nat -> is_derive (fun t => U q x t) y (U (S q) x y)) ->
  (forall q x y, (q <= 2)%nat -> continuity_2d_pt (U q) x y) -> 0 < eps ->
  exists l, forall q x y, (q <= 2)%nat -> 0 <= x <= a -> 0 <= y <= b -> Rabs (ev (Nat.iter q dY l) x y - U q x y) <= eps.
Proof.
  intros DU CU He. assert (PK : 0 < 1 + b + b * b) by (assert (0 < b * b) by (apply Rmult_lt_0_compat; assumption); lra).
  set (e := eps / (1 + b + b * b)). assert (Pe : 0 < e) by (apply Rdiv_lt_0_compat; assumption).
  destruct (weier (U 2%nat) a b e Ha Hb (fun x y _ _ => CU 2%nat x y ltac:(lia)) Pe) as [u Hu].
  destruct (weier (fun x _ => U 0%nat x 0) a b e Ha Hb (fun x y _ _ => cont_line_x _ x y (CU 0%nat x 0 ltac:(lia))) Pe) as [f Hf].
  destruct (weier (fun x _ => U 1%nat x 0) a b e Ha Hb (fun x y _ _ => cont_line_x _ x y (CU 1%nat x 0 ltac:(lia))) Pe) as [g Hg].
  exists (swap (build (swap f) (swap g) (swap u))). intros q x y Hq Hx Hy. rewrite iterY_swap, ev_swap.
  replace eps with (e * (1 + b + b * b)) by (unfold e; field; lra).
  apply (ext_x b Hb (fun x => 0 <= x <= a) (swap f) (swap g) (swap u) (fun q y x => U q x y) e); try assumption.
  - intros p t s Hp. apply DU, Hp.
  - intros t s Ht Hs. rewrite ev_swap. apply Hu; assumption.
  - intros s Hs. rewrite ev_swap. apply Hf; lra.
  - intros s Hs. rewrite ev_swap. apply Hg; lra.
Qed.
Definition close (l : list tm) (W : nat -> nat -> field) (e : R) : Prop :=
  forall p q x y, (p <= 2)%nat -> (q <= 2)%nat -> 0 <= x <= a -> 0 <= y <= b -> Rabs (ev (DD p q l) x y - W p q x y) <= e.
Lemma approx_any w W eps : derivatives w W -> 0 < eps -> exists l, close l W eps.
Proof.
  intros [_ Dx Dy Ct] He. assert (PK : 0 < 1 + a + a * a) by (assert (0 < a * a) by (apply Rmult_lt_0_compat; assumption); lra).
  set (e := eps / (1 + a + a * a)). assert (Pe : 0 < e) by (apply Rdiv_lt_0_compat; assumption).
  destruct (approx_y (fun q => W 2%nat q) e) as [u Hu]; [intros; apply Dy; lia|intros; apply Ct; lia|exact Pe|].
  destruct (approx_y (fun q _ y => W 0%nat q 0 y) e) as [f Hf]; [intros; apply (Dy 0%nat); lia|intros; apply cont_line_y, Ct; lia|exact Pe|].
  destruct (approx_y (fun q _ y => W 1%nat q 0 y) e) as [g Hg]; [intros; apply (Dy 1%nat); lia|intros; apply cont_line_y, Ct; lia|exact Pe|].
  exists (build f g u). intros p q x y Hp Hq Hx Hy. unfold DD. rewrite iterY_build.
  replace eps with (e * (1 + a + a * a)) by (unfold e; field; lra).
  apply (ext_x a Ha (fun y => 0 <= y <= b) _ _ _ (fun p => W p q) e); try assumption.
  - intros; apply Dx; lia.
  - intros; apply Hu; lia || assumption.
  - intros; apply (Hf q 0 y0); lia || lra.
  - intros; apply (Hg q 0 y0); lia || lra.
Qed.
End Plate.

(** ** correction of the edge values along x *)
Definition mulx (h l : list tm) : list tm := flat_map (fun t => map (fun s => (fst t * fst s, ((fst (snd t) + fst (snd s))%nat, snd (snd s)))) l) h.
Lemma ev_mul1 c i j l x y : ev (map (fun s : R * (nat * nat) => (c * fst s, ((i + fst (snd s))%nat, snd (snd s)))) l) x y = tval (c, (i, j)) x 1 * ev l x y.
Proof.
  induction l as [|[d [k m]] l IHl]; [cbn [map]; rewrite !ev_nil; ring|]. cbn [map]. rewrite !ev_cons, IHl. unfold tval. cbn [fst snd]. rewrite pow_add, pow1. ring.
Qed.
Lemma ev_mulx h l x y : ev (mulx h l) x y = ev h x 1 * ev l x y.
Proof.
  induction h as [|[c [i j]] h IH]; [cbn [mulx flat_map]; rewrite !ev_nil; ring|]. cbn [mulx flat_map fst snd]. fold (mulx h l). rewrite ev_app, IH, ev_cons.
  rewrite (ev_mul1 c i j). ring.
Qed.
Lemma map_flat {A B C} (f : B -> C) (g : A -> list B) l : map f (flat_map g l) = flat_map (fun x => map f (g x)) l.
Proof. induction l as [|x l IH]; [reflexivity|]. cbn [flat_map]. rewrite map_app, IH. reflexivity. Qed.
Lemma flat_map_map {A B C} (f : A -> B) (g : B -> list C) l : flat_map g (map f l) = flat_map (fun x => g (f x)) l.
Proof. induction l as [|x l IH]; [reflexivity|]. cbn [flat_map map]. rewrite IH. reflexivity. Qed.
Lemma flat_map_eq {A B} (f g : A -> list B) l : (forall x, f x = g x) -> flat_map f l = flat_map g l.
Proof. intros H. induction l as [|x l IH]; [reflexivity|]. cbn [flat_map]. rewrite H, IH. reflexivity. Qed.
Lemma dY_mulx h l : dY (mulx h l) = mulx h (dY l).
Proof.
  unfold dY, mulx. rewrite map_flat. apply flat_map_eq. intros [c [i j]]. rewrite !map_map. apply map_ext. intros [d [k m]]. cbn [fst snd]. f_equal. ring.
Qed.
Lemma dX_mulx h x0 l : dX (mulx h (atx x0 l)) = mulx (dX h) (atx x0 l).
Proof.
  unfold dX, mulx, atx. rewrite map_flat, flat_map_map. apply flat_map_eq. intros [c [i j]]. rewrite !map_map. apply map_ext. intros [d [k m]]. cbn [fst snd].
  rewrite !Nat.add_0_r. f_equal. ring.
Qed.
Definition corr (on : bool) (h : list tm) (x0 : R) (s : list tm) : list tm := if on then sc (-1) (mulx h (atx x0 s)) else [].
Lemma dY_corr on h x0 s : dY (corr on h x0 s) = corr on h x0 (dY s).
Proof. destruct on; [|reflexivity]. cbn [corr]. rewrite dY_sc, dY_mulx, dY_atx. reflexivity. Qed.
Lemma dX_corr on h x0 s : dX (corr on h x0 s) = corr on (dX h) x0 s.
Proof. destruct on; [|reflexivity]. cbn [corr]. rewrite dX_sc, dX_mulx. reflexivity. Qed.
Lemma ev_corr on h x0 s x y : ev (corr on h x0 s) x y = if on then - (ev h x 1 * ev s x0 y) else 0.
Proof. destruct on; [|reflexivity]. cbn [corr]. rewrite ev_sc, ev_mulx, ev_atx. ring. Qed.

Section Edge.
Variables (a : R) (Ha : 0 < a) (v0 s0 va sa : bool).
(** the Hermite cubics of [0,a] *)
Definition h0 : list tm := [(1, (0, 0)%nat); (- (3 / a ^ 2), (2, 0)%nat); (2 / a ^ 3, (3, 0)%nat)].
Definition h1 : list tm := [(1, (1, 0)%nat); (- (2 / a), (2, 0)%nat); (1 / a ^ 2, (3, 0)%nat)].
Definition h2 : list tm := [(3 / a ^ 2, (2, 0)%nat); (- (2 / a ^ 3), (3, 0)%nat)].
Definition h3 : list tm := [(- (1 / a), (2, 0)%nat); (1 / a ^ 2, (3, 0)%nat)].
Lemma ends4 : (ev h0 0 1 = 1 /\ ev (dX h0) 0 1 = 0 /\ ev h0 a 1 = 0 /\ ev (dX h0) a 1 = 0) /\
  (ev h1 0 1 = 0 /\ ev (dX h1) 0 1 = 1 /\ ev h1 a 1 = 0 /\ ev (dX h1) a 1 = 0) /\
  (ev h2 0 1 = 0 /\ ev (dX h2) 0 1 = 0 /\ ev h2 a 1 = 1 /\ ev (dX h2) a 1 = 0) /\
  (ev h3 0 1 = 0 /\ ev (dX h3) 0 1 = 0 /\ ev h3 a 1 = 0 /\ ev (dX h3) a 1 = 1).
Proof. unfold h0, h1, h2, h3, dX, ev, tval. cbn [map fst snd rsum pred INR pow]. repeat split; field; lra. Qed.
Definition fixx (l : list tm) : list tm :=
  l ++ corr v0 h0 0 l ++ corr s0 h1 0 (dX l) ++ corr va h2 a l ++ corr sa h3 a (dX l).
Lemma dY_fixx l : dY (fixx l) = fixx (dY l).
Proof. unfold fixx. rewrite !dY_app, !dY_corr, !dX_dY. reflexivity. Qed.
Lemma iterY_fixx q l : Nat.iter q dY (fixx l) = fixx (Nat.iter q dY l).
Proof. induction q as [|q IH]; [reflexivity|]. change (dY (Nat.iter q dY (fixx l)) = fixx (dY (Nat.iter q dY l))). rewrite IH. apply dY_fixx. Qed.
Definition pick (on : bool) (z : R) : R := if on then z else 0.
Lemma ev_fixx p l x y : ev (Nat.iter p dX (fixx l)) x y =
  ev (Nat.iter p dX l) x y - pick v0 (ev (Nat.iter p dX h0) x 1 * ev l 0 y) - pick s0 (ev (Nat.iter p dX h1) x 1 * ev (dX l) 0 y)
  - pick va (ev (Nat.iter p dX h2) x 1 * ev l a y) - pick sa (ev (Nat.iter p dX h3) x 1 * ev (dX l) a y).
Proof.
  assert (E : forall m k0 k1 k2 k3 l0 l1, Nat.iter p dX (m ++ corr v0 k0 0 l0 ++ corr s0 k1 0 l1 ++ corr va k2 a l0 ++ corr sa k3 a l1) =
    Nat.iter p dX m ++ corr v0 (Nat.iter p dX k0) 0 l0 ++ corr s0 (Nat.iter p dX k1) 0 l1 ++ corr va (Nat.iter p dX k2) a l0 ++ corr sa (Nat.iter p dX k3) a l1).
  { induction p as [|p IH]; intros; [reflexivity|]. assert (It : forall m, Nat.iter (S p) dX m = dX (Nat.iter p dX m)) by reflexivity. rewrite !It, IH, !dX_app, !dX_corr. reflexivity. }
  unfold fixx. rewrite E, !ev_app, !ev_corr. unfold pick. destruct v0, s0, va, sa; ring.
Qed.
Lemma fixx_held l y : (v0 = true -> ev (fixx l) 0 y = 0) /\ (s0 = true -> ev (dX (fixx l)) 0 y = 0) /\
  (va = true -> ev (fixx l) a y = 0) /\ (sa = true -> ev (dX (fixx l)) a y = 0).
Proof.
  assert (E0 := fun x => ev_fixx 0 l x y). assert (E1 := fun x => ev_fixx 1 l x y). cbn [Nat.iter nat_rect] in E0, E1.
  destruct ends4 as ((A1 & A2 & A3 & A4) & (B1 & B2 & B3 & B4) & (C1 & C2 & C3 & C4) & (D1 & D2 & D3 & D4)).
  repeat split; intros H.
  - rewrite E0, A1, B1, C1, D1, H. unfold pick. destruct s0, va, sa; ring.
  - rewrite E1, A2, B2, C2, D2, H. unfold pick. destruct v0, va, sa; ring.
  - rewrite E0, A3, B3, C3, D3, H. unfold pick. destruct v0, s0, sa; ring.
  - rewrite E1, A4, B4, C4, D4, H. unfold pick. destruct v0, s0, va; ring.
Qed.
Lemma dX_null l y : (forall x, ev l x y = 0) -> forall x, ev (dX l) x y = 0.
Proof.
  intros H x. rewrite <- (is_derive_unique _ _ _ (ev_dX l x y)). rewrite (Derive_ext _ (fun _ => 0)) by exact H. apply Derive_const.
Qed.
Lemma fixx_keeps l y : (forall x, ev l x y = 0) -> forall x, ev (fixx l) x y = 0.
Proof.
  intros H x. assert (H' := dX_null l y H). assert (E := ev_fixx 0 l x y). cbn [Nat.iter nat_rect] in E. rewrite E, !H, !H'. unfold pick. destruct v0, s0, va, sa; ring.
Qed.
End Edge.
Lemma bound3 a h : 0 < a -> exists M, 0 < M /\ forall p x, (p <= 2)%nat -> 0 <= x <= a -> Rabs (ev (Nat.iter p dX h) x 1) <= M.
Proof.
  intros Ha. assert (G : forall p, exists M, 0 < M /\ forall x, 0 <= x <= a -> Rabs (ev (Nat.iter p dX h) x 1) <= M).
  { intros p. destruct (cont_bounded (ev (Nat.iter p dX h)) a 1 Ha Rlt_0_1 (fun x y _ _ => ev_cont _ x y)) as (M & P & H). exists M. split; [exact P|]. intros x Hx. apply H; lra. }
  destruct (G 0%nat) as (M0 & P0 & H0). destruct (G 1%nat) as (M1 & P1 & H1). destruct (G 2%nat) as (M2 & P2 & H2). exists (M0 + M1 + M2). split; [lra|].
  intros [|[|[|p]]] x Hp Hx; [specialize (H0 x Hx)|specialize (H1 x Hx)|specialize (H2 x Hx)|lia]; lra.
Qed.
Lemma close_fixx a b v0 s0 va sa : 0 < a -> 0 < b -> exists C, 0 < C /\ forall l W e, close a b l W e ->
  (forall q y, (q <= 2)%nat -> 0 <= y <= b -> (v0 = true -> W 0%nat q 0 y = 0) /\ (s0 = true -> W 1%nat q 0 y = 0) /\ (va = true -> W 0%nat q a y = 0) /\ (sa = true -> W 1%nat q a y = 0)) ->
  close a b (fixx a v0 s0 va sa l) W (C * e).
Proof.
  intros Ha Hb. destruct (bound3 a (h0 a) Ha) as (M0 & P0 & H0). destruct (bound3 a (h1 a) Ha) as (M1 & P1 & H1).
  destruct (bound3 a (h2 a) Ha) as (M2 & P2 & H2). destruct (bound3 a (h3 a) Ha) as (M3 & P3 & H3).
  exists (1 + M0 + M1 + M2 + M3). split; [lra|]. intros l W e Cl Ed p q x y Hp Hq Hx Hy. unfold DD. rewrite iterY_fixx, ev_fixx.
  set (m := Nat.iter q dY l). destruct (Ed q y Hq Hy) as (Z0 & Z1 & Z2 & Z3).
  assert (B := Cl p q x y Hp Hq Hx Hy). unfold DD in B. fold m in B.
  assert (e0 : 0 <= e) by (eapply Rle_trans; [apply Rabs_pos|exact B]).
  assert (Pk : forall on h M z, (on = true -> Rabs z <= e) -> 0 < M -> Rabs h <= M -> Rabs (pick on (h * z)) <= M * e).
  { intros on h M z Hz HM Hh. unfold pick. destruct on.
    - rewrite Rabs_mult. apply Rmult_le_compat; try apply Rabs_pos; [exact Hh|apply Hz; reflexivity].
    - rewrite Rabs_R0. apply Rmult_le_pos; lra. }
  assert (K0 := Pk v0 _ M0 (ev m 0 y) ltac:(intros T; assert (Q := Cl 0%nat q 0 y ltac:(lia) Hq ltac:(lra) Hy); rewrite (Z0 T), Rminus_0_r in Q; exact Q) P0 (H0 p x Hp Hx)).
  assert (K1 := Pk s0 _ M1 (ev (dX m) 0 y) ltac:(intros T; assert (Q := Cl 1%nat q 0 y ltac:(lia) Hq ltac:(lra) Hy); rewrite (Z1 T), Rminus_0_r in Q; exact Q) P1 (H1 p x Hp Hx)).
  assert (K2 := Pk va _ M2 (ev m a y) ltac:(intros T; assert (Q := Cl 0%nat q a y ltac:(lia) Hq ltac:(lra) Hy); rewrite (Z2 T), Rminus_0_r in Q; exact Q) P2 (H2 p x Hp Hx)).
  assert (K3 := Pk sa _ M3 (ev (dX m) a y) ltac:(intros T; assert (Q := Cl 1%nat q a y ltac:(lia) Hq ltac:(lra) Hy); rewrite (Z3 T), Rminus_0_r in Q; exact Q) P3 (H3 p x Hp Hx)).
  apply Rabs_le_between in B, K0, K1, K2, K3. apply Rabs_le_between. lra.
Qed.
(** ** the derivatives of a deflection along its held edges *)
Lemma zero_deriv (f g : R -> R) c : 0 < c -> (forall t : R, is_derive f t (g t)) -> (forall t eps, 0 < eps -> exists d, 0 < d /\ forall s, Rabs (s - t) < d -> Rabs (g s - g t) < eps) ->
  (forall t, 0 <= t <= c -> f t = 0) -> forall t, 0 <= t <= c -> g t = 0.
Proof.
  intros Hc Df Cg Zf.
  assert (In' : forall t, 0 < t < c -> g t = 0).
  { intros t Ht. rewrite <- (is_derive_unique _ _ _ (Df t)). rewrite (Derive_ext_loc f (fun _ => 0)); [apply Derive_const|].
    assert (P : 0 < Rmin t (c - t)) by (apply Rmin_pos; lra). exists (mkposreal _ P). intros s Hs. apply Zf.
    unfold ball in Hs. cbn in Hs. unfold AbsRing_ball, abs, minus, plus, opp in Hs. cbn in Hs. apply Rabs_lt_between in Hs. assert (X := Rmin_l t (c - t)). assert (Y := Rmin_r t (c - t)). lra. }
  intros t Ht. destruct (Req_dec (g t) 0) as [E|E]; [exact E|exfalso]. destruct (Cg t (Rabs (g t)) (Rabs_pos_lt _ E)) as (d & Pd & H).
  assert (Q : exists s, 0 < s < c /\ Rabs (s - t) < d).
  { assert (P : 0 < Rmin d c) by (apply Rmin_pos; lra). assert (X := Rmin_l d c). assert (Y := Rmin_r d c). destruct (Rle_lt_dec t (c / 2)) as [L|L].
    - exists (t + Rmin d c / 4). split; [lra|]. rewrite Rabs_right; lra.
    - exists (t - Rmin d c / 4). split; [lra|]. rewrite Rabs_left; lra. }
  destruct Q as (s & Hs & Ls). specialize (H s Ls). rewrite (In' s Hs) in H. unfold Rminus in H. rewrite Rplus_0_l, Rabs_Ropp in H. lra.
Qed.
Lemma edge_derivs w W (x0 b : R) p : 0 < b -> derivatives w W -> (p <= 2)%nat -> (forall y, 0 <= y <= b -> W p 0%nat x0 y = 0) ->
  forall q y, (q <= 2)%nat -> 0 <= y <= b -> W p q x0 y = 0.
Proof.
  intros Hb [_ _ Dy Ct] Hp Z. assert (St : forall q, (q < 2)%nat -> (forall y, 0 <= y <= b -> W p q x0 y = 0) -> forall y, 0 <= y <= b -> W p (S q) x0 y = 0).
  { intros q Hq Zq. apply (zero_deriv (fun t => W p q x0 t) (fun t => W p (S q) x0 t) b Hb); [intros t; apply Dy; lia| |exact Zq].
    intros t eps Pe. destruct (Ct p (S q) x0 t Hp ltac:(lia) (mkposreal eps Pe)) as [d Hd]. exists d. split; [apply cond_pos|]. intros s Hs. apply Hd; [|exact Hs]. rewrite Rminus_eq_0, Rabs_R0. apply cond_pos. }
  intros [|[|[|q]]] y Hq Hy; [apply Z, Hy|apply St; [lia|exact Z|exact Hy]|apply St; [lia|apply St; [lia|exact Z]|exact Hy]|lia].
Qed.
Definition flipped (W : nat -> nat -> field) : nat -> nat -> field := fun p q x y => W q p y x.
Lemma flip_derivs w W : derivatives w W -> derivatives (fun x y => w y x) (flipped W).
Proof.
  intros [Z Dx Dy Ct]. unfold flipped. constructor.
  - intros x y. apply Z.
  - intros p q x y Hp Hq. apply Dy; assumption.
  - intros p q x y Hp Hq. apply Dx; assumption.
  - intros p q x y Hp Hq eps. destruct (Ct q p y x Hq Hp eps) as [d Hd]. exists d. intros u v Hu Hv. apply Hd; assumption.
Qed.
Lemma close_flip a b l W e : close a b l W e -> close b a (swap l) (flipped W) e.
Proof. intros H p q x y Hp Hq Hx Hy. rewrite DD_swap, ev_swap. apply H; assumption. Qed.
Lemma flipped2 W : flipped (flipped W) = W. Proof. reflexivity. Qed.
Lemma derivs_dx w W x y : derivatives w W -> dx w x y = W 1%nat 0%nat x y.
Proof.
  intros [Z Dx _ _]. apply is_derive_unique. apply (is_derive_ext (fun t => W 0%nat 0%nat t y)); [intros t; apply Z|apply Dx; lia].
Qed.
Lemma derivs_dy w W x y : derivatives w W -> dy w x y = W 0%nat 1%nat x y.
Proof.
  intros [Z _ Dy _]. apply is_derive_unique. apply (is_derive_ext (fun t => W 0%nat 0%nat x t)); [intros t; apply Z|apply Dy; lia].
Qed.

(** ** a deflection of the plate is approximated by polynomial deflections of the plate *)
From Verif Require Import S_Space.
Lemma approx a b c0 ca d0 db w W eps : 0 < a -> 0 < b -> derivatives w W -> kept a b c0 ca d0 db w -> 0 < eps ->
  exists l, close a b l W eps /\ fits a b c0 ca d0 db (ev l).
Proof.
  intros Ha Hb Dw [K0 Ka L0 Lb] He.
  destruct (close_fixx a b (holds_value c0) (holds_slope c0) (holds_value ca) (holds_slope ca) Ha Hb) as (C1 & P1 & F1).
  destruct (close_fixx b a (holds_value d0) (holds_slope d0) (holds_value db) (holds_slope db) Hb Ha) as (C2 & P2 & F2).
  destruct (approx_any a b Ha Hb w W (eps / (C1 * C2)) Dw ltac:(apply Rdiv_lt_0_compat; [exact He|apply Rmult_lt_0_compat; assumption])) as [l0 A0].
  set (T1 := fixx a (holds_value c0) (holds_slope c0) (holds_value ca) (holds_slope ca)). set (T2 := fixx b (holds_value d0) (holds_slope d0) (holds_value db) (holds_slope db)).
  assert (A1 : close a b (T1 l0) W (C1 * (eps / (C1 * C2)))).
  { apply F1; [exact A0|]. intros q y Hq Hy. repeat split; intros E.
    - apply (edge_derivs w W 0 b 0 Hb Dw ltac:(lia)); try assumption. intros s Hs. rewrite (dv_zero _ _ Dw). apply K0; assumption.
    - apply (edge_derivs w W 0 b 1 Hb Dw ltac:(lia)); try assumption. intros s Hs. rewrite <- (derivs_dx w W _ _ Dw). apply K0; assumption.
    - apply (edge_derivs w W a b 0 Hb Dw ltac:(lia)); try assumption. intros s Hs. rewrite (dv_zero _ _ Dw). apply Ka; assumption.
    - apply (edge_derivs w W a b 1 Hb Dw ltac:(lia)); try assumption. intros s Hs. rewrite <- (derivs_dx w W _ _ Dw). apply Ka; assumption. }
  assert (Df := flip_derivs w W Dw).
  assert (A2 : close b a (T2 (swap (T1 l0))) (flipped W) (C2 * (C1 * (eps / (C1 * C2))))).
  { apply F2; [apply close_flip, A1|]. intros q y Hq Hy. repeat split; intros E.
    - apply (edge_derivs _ _ 0 a 0 Ha Df ltac:(lia)); try assumption. intros s Hs. unfold flipped. rewrite (dv_zero _ _ Dw). apply L0; assumption.
    - apply (edge_derivs _ _ 0 a 1 Ha Df ltac:(lia)); try assumption. intros s Hs. unfold flipped. rewrite <- (derivs_dy w W _ _ Dw). apply L0; assumption.
    - apply (edge_derivs _ _ b a 0 Ha Df ltac:(lia)); try assumption. intros s Hs. unfold flipped. rewrite (dv_zero _ _ Dw). apply Lb; assumption.
    - apply (edge_derivs _ _ b a 1 Ha Df ltac:(lia)); try assumption. intros s Hs. unfold flipped. rewrite <- (derivs_dy w W _ _ Dw). apply Lb; assumption. }
  replace (C2 * (C1 * (eps / (C1 * C2)))) with eps in A2 by (field; split; lra).
  exists (swap (T2 (swap (T1 l0)))). split; [exact (close_flip _ _ _ _ _ A2)|].
  assert (X := fixx_held a Ha (holds_value c0) (holds_slope c0) (holds_value ca) (holds_slope ca) l0). fold T1 in X.
  assert (Y := fixx_held b Hb (holds_value d0) (holds_slope d0) (holds_value db) (holds_slope db) (swap (T1 l0))). fold T2 in Y.
  assert (KV : forall x0, (forall y, ev (T1 l0) x0 y = 0) -> forall y, ev (swap (T2 (swap (T1 l0)))) x0 y = 0).
  { intros x0 H y. rewrite ev_swap. apply fixx_keeps. intros z. rewrite ev_swap. apply H. }
  assert (KS : forall x0, (forall y, ev (dX (T1 l0)) x0 y = 0) -> forall y, ev (dX (swap (T2 (swap (T1 l0))))) x0 y = 0).
  { intros x0 H y. rewrite dX_swap, ev_swap. unfold T2. rewrite dY_fixx. apply fixx_keeps. intros z. rewrite dY_swap, ev_swap. apply H. }
  constructor; rewrite ?dx_ev, ?dy_ev; split; intros E.
  - apply KV. intros y. apply X, E.
  - apply KS. intros y. apply X, E.
  - apply KV. intros y. apply X, E.
  - apply KS. intros y. apply X, E.
  - intros x. rewrite ev_swap. apply Y, E.
  - intros x. rewrite dY_swap, ev_swap. apply Y, E.
  - intros x. rewrite ev_swap. apply Y, E.
  - intros x. rewrite dY_swap, ev_swap. apply Y, E.
Qed.
