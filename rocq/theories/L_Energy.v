(** Polynomial fields on the plate: derivatives, integrals, products. *)
From Coq Require Import Reals ZArith QArith Qreals Lra Lia FunctionalExtensionality.
From Coquelicot Require Import Coquelicot.
From Coq Require Import List.
From Verif Require Import S_Mat S_Bardell S_Energy L_Poly L_Shape.
Import ListNotations.
Open Scope R_scope.

(** ** one variable, on [0,a] *)
Definition at_ (a : R) (p : list Q) : R -> R := fun x => qeval p (2 * x / a - 1).
Lemma at_derive a p x : is_derive (at_ a p) x (2 / a * at_ a (qderiv p) x).
Proof.
  unfold at_. apply (is_derive_comp (qeval p) (fun x => 2 * x / a - 1)); [apply qeval_derive|].
  auto_derive; [trivial|unfold Rdiv; ring].
Qed.
Lemma at_continuous a p x : continuous (at_ a p) x.
Proof. apply (ex_derive_continuous (at_ a p)). eexists. apply at_derive. Qed.
Definition integral (p : list Q) : R := RInt (qeval p) (-1) 1.
Lemma integral_is p : is_RInt (qeval p) (-1) 1 (integral p).
Proof. apply (RInt_correct (V := R_CompleteNormedModule) (qeval p)). eexists. apply qint_RInt. Qed.
Lemma at_RInt a p : a <> 0 -> is_RInt (at_ a p) 0 a (a / 2 * integral p).
Proof.
  intros Ha.
  assert (H : is_RInt (fun y => scal (2 / a) (qeval p (2 / a * y + -1))) 0 a (integral p)).
  { apply (is_RInt_comp_lin (qeval p) (2 / a) (-1) 0 a).
    replace (2 / a * 0 + -1) with (-1) by ring. replace (2 / a * a + -1) with 1 by (field; exact Ha). apply integral_is. }
  apply (is_RInt_ext (fun y => scal (a / 2) (scal (2 / a) (qeval p (2 / a * y + -1))))).
  { intros x _. unfold at_. change (a / 2 * (2 / a * qeval p (2 / a * x + -1)) = qeval p (2 * x / a - 1)).
    replace (2 * x / a - 1) with (2 / a * x + -1) by (unfold Rdiv; ring). field. exact Ha. }
  apply @is_RInt_scal. exact H.
Qed.

(** ** two variables *)
Definition term := (R * (list Q * list Q))%type.
Definition tval (a b : R) (t : term) : field := fun x y => fst t * (at_ a (fst (snd t)) x * at_ b (snd (snd t)) y).
Definition pf (a b : R) (l : list term) : field := fun x y => rsum (map (fun t => tval a b t x y) l).
Definition integ (a b : R) (l : list term) : R :=
  rsum (map (fun t => fst t * (a / 2 * integral (fst (snd t)) * (b / 2 * integral (snd (snd t))))) l).
Definition nice (a b : R) (f : field) : Prop := exists l, f = pf a b l.

Lemma rsum_app l r : rsum (l ++ r) = rsum l + rsum r.
Proof. induction l as [|x l IH]; cbn [app rsum]; [ring|]. rewrite IH. ring. Qed.
Lemma pf_app a b l r x y : pf a b (l ++ r) x y = pf a b l x y + pf a b r x y.
Proof. unfold pf. rewrite map_app, rsum_app. reflexivity. Qed.
Lemma rsum_scal c l : c * rsum l = rsum (map (Rmult c) l).
Proof. induction l as [|x l IH]; cbn [map rsum]; [ring|]. rewrite <- IH. ring. Qed.

Lemma field_ext (f g : field) : (forall x y, f x y = g x y) -> f = g.
Proof. intros H. apply functional_extensionality. intros x. apply functional_extensionality. intros y. apply H. Qed.

Section N.
Variables a b : R.
Lemma nice_term c p q : nice a b (fun x y => c * (at_ a p x * at_ b q y)).
Proof. exists [(c, (p, q))]. apply field_ext. intros. unfold pf, tval. cbn [map rsum fst snd]. ring. Qed.
Lemma nice_zero : nice a b (fun _ _ => 0).
Proof. exists []. reflexivity. Qed.
Lemma nice_add f g : nice a b f -> nice a b g -> nice a b (fun x y => f x y + g x y).
Proof. intros [l ->] [r ->]. exists (l ++ r). apply field_ext. intros. rewrite pf_app. reflexivity. Qed.
Lemma nice_scal c f : nice a b f -> nice a b (fun x y => c * f x y).
Proof.
  intros [l ->]. exists (map (fun t => (c * fst t, snd t)) l). apply field_ext. intros. unfold pf. rewrite map_map, rsum_scal, map_map.
  f_equal. apply map_ext. intros. unfold tval. cbn [fst snd]. ring.
Qed.
Lemma nice_mul f g : nice a b f -> nice a b g -> nice a b (fun x y => f x y * g x y).
Proof.
  intros [l ->] [r ->]. induction l as [|[c [p q]] l IH].
  - eapply (eq_ind _ (nice a b) nice_zero). apply field_ext. intros. unfold pf. cbn [map rsum]. ring.
  - assert (H1 : nice a b (fun x y => tval a b (c, (p, q)) x y * pf a b r x y)).
    { clear IH l. induction r as [|[d [s t]] r IH].
      - eapply (eq_ind _ (nice a b) nice_zero). apply field_ext. intros. unfold pf. cbn [map rsum]. ring.
      - eapply (eq_ind _ (nice a b) (nice_add _ _ (nice_term (c * d) (qmul p s) (qmul q t)) IH)). apply field_ext. intros x y.
        unfold pf, tval, at_. cbn [map rsum fst snd]. rewrite !qeval_mul. ring. }
    eapply (eq_ind _ (nice a b) (nice_add _ _ H1 IH)). apply field_ext. intros x y. unfold pf. cbn [map rsum]. ring.
Qed.

(** derivatives *)
Lemma dx_term c p q : dx (fun x y => c * (at_ a p x * at_ b q y)) = fun x y => 2 / a * c * (at_ a (qderiv p) x * at_ b q y).
Proof.
  apply field_ext. intros x y. unfold dx. apply is_derive_unique.
  apply (is_derive_ext (fun t => scal (c * at_ b q y) (at_ a p t))).
  { intros t. change (c * at_ b q y * at_ a p t = c * (at_ a p t * at_ b q y)). ring. }
  evar_last; [apply @is_derive_scal, at_derive|]. change (c * at_ b q y * (2 / a * at_ a (qderiv p) x) = 2 / a * c * (at_ a (qderiv p) x * at_ b q y)). ring.
Qed.
Lemma dy_term c p q : dy (fun x y => c * (at_ a p x * at_ b q y)) = fun x y => 2 / b * c * (at_ a p x * at_ b (qderiv q) y).
Proof.
  apply field_ext. intros x y. unfold dy. apply is_derive_unique.
  apply (is_derive_ext (fun t => scal (c * at_ a p x) (at_ b q t))).
  { intros t. change (c * at_ a p x * at_ b q t = c * (at_ a p x * at_ b q t)). ring. }
  evar_last; [apply @is_derive_scal, at_derive|]. change (c * at_ a p x * (2 / b * at_ b (qderiv q) y) = 2 / b * c * (at_ a p x * at_ b (qderiv q) y)). ring.
Qed.
Lemma pf_derive_x l x y : is_derive (fun t => pf a b l t y) x (pf a b (map (fun t => (2 / a * fst t, (qderiv (fst (snd t)), snd (snd t)))) l) x y).
Proof.
  unfold pf. induction l as [|[c [p q]] l IH]; cbn [map rsum].
  - apply @is_derive_const.
  - evar_last; [apply (is_derive_plus (K := R_AbsRing) (V := R_NormedModule)); [|exact IH]|].
    + unfold tval. cbn [fst snd]. apply (is_derive_ext (fun t => scal (c * at_ b q y) (at_ a p t))).
      { intros t. change (c * at_ b q y * at_ a p t = c * (at_ a p t * at_ b q y)). ring. }
      apply @is_derive_scal, at_derive.
    + change (c * at_ b q y * (2 / a * at_ a (qderiv p) x) + rsum (map (fun t => tval a b t x y) (map (fun t => (2 / a * fst t, (qderiv (fst (snd t)), snd (snd t)))) l))
        = tval a b (2 / a * c, (qderiv p, q)) x y + rsum (map (fun t => tval a b t x y) (map (fun t => (2 / a * fst t, (qderiv (fst (snd t)), snd (snd t)))) l))).
      unfold tval at 2. cbn [fst snd]. ring.
Qed.
Lemma pf_derive_y l x y : is_derive (fun t => pf a b l x t) y (pf a b (map (fun t => (2 / b * fst t, (fst (snd t), qderiv (snd (snd t))))) l) x y).
Proof.
  unfold pf. induction l as [|[c [p q]] l IH]; cbn [map rsum].
  - apply @is_derive_const.
  - evar_last; [apply (is_derive_plus (K := R_AbsRing) (V := R_NormedModule)); [|exact IH]|].
    + unfold tval. cbn [fst snd]. apply (is_derive_ext (fun t => scal (c * at_ a p x) (at_ b q t))).
      { intros t. change (c * at_ a p x * at_ b q t = c * (at_ a p x * at_ b q t)). ring. }
      apply @is_derive_scal, at_derive.
    + change (c * at_ a p x * (2 / b * at_ b (qderiv q) y) + rsum (map (fun t => tval a b t x y) (map (fun t => (2 / b * fst t, (fst (snd t), qderiv (snd (snd t))))) l))
        = tval a b (2 / b * c, (p, qderiv q)) x y + rsum (map (fun t => tval a b t x y) (map (fun t => (2 / b * fst t, (fst (snd t), qderiv (snd (snd t))))) l))).
      unfold tval at 2. cbn [fst snd]. ring.
Qed.
Lemma nice_dx f : nice a b f -> nice a b (dx f).
Proof. intros [l ->]. eexists. apply field_ext. intros x y. apply is_derive_unique, pf_derive_x. Qed.
Lemma nice_dy f : nice a b f -> nice a b (dy f).
Proof. intros [l ->]. eexists. apply field_ext. intros x y. apply is_derive_unique, pf_derive_y. Qed.
Lemma nice_ex_dx f x y : nice a b f -> ex_derive (fun t => f t y) x.
Proof. intros [l ->]. eexists. apply pf_derive_x. Qed.
Lemma nice_ex_dy f x y : nice a b f -> ex_derive (fun t => f x t) y.
Proof. intros [l ->]. eexists. apply pf_derive_y. Qed.
Lemma dx_add f g : nice a b f -> nice a b g -> dx (fun x y => f x y + g x y) = fun x y => dx f x y + dx g x y.
Proof. intros F G. apply field_ext. intros x y. unfold dx. apply (Derive_plus (fun t => f t y) (fun t => g t y)); apply nice_ex_dx; assumption. Qed.
Lemma dy_add f g : nice a b f -> nice a b g -> dy (fun x y => f x y + g x y) = fun x y => dy f x y + dy g x y.
Proof. intros F G. apply field_ext. intros x y. unfold dy. apply (Derive_plus (fun t => f x t) (fun t => g x t)); apply nice_ex_dy; assumption. Qed.
Lemma dx_scal c f : dx (fun x y => c * f x y) = fun x y => c * dx f x y.
Proof. apply field_ext. intros x y. apply Derive_scal. Qed.
Lemma dy_scal c f : dy (fun x y => c * f x y) = fun x y => c * dy f x y.
Proof. apply field_ext. intros x y. apply Derive_scal. Qed.

(** integrals *)
Hypotheses (Ha : a <> 0) (Hb : b <> 0).
Lemma pf_inner l x : is_RInt (fun y => pf a b l x y) 0 b (rsum (map (fun t => fst t * (at_ a (fst (snd t)) x * (b / 2 * integral (snd (snd t))))) l)).
Proof.
  unfold pf. induction l as [|[c [p q]] l IH]; cbn [map rsum].
  - evar_last; [apply @is_RInt_const|]. change ((b - 0) * 0 = 0). ring.
  - evar_last; [apply (is_RInt_plus (V := R_NormedModule)); [|exact IH]|].
    + unfold tval. cbn [fst snd]. apply (is_RInt_ext (fun t => scal (c * at_ a p x) (at_ b q t))).
      { intros t _. change (c * at_ a p x * at_ b q t = c * (at_ a p x * at_ b q t)). ring. }
      apply (is_RInt_scal (V := R_NormedModule)), at_RInt, Hb.
    + cbn [fst snd]. change (c * at_ a p x * (b / 2 * integral q) + rsum (map (fun t => fst t * (at_ a (fst (snd t)) x * (b / 2 * integral (snd (snd t))))) l) = c * (at_ a p x * (b / 2 * integral q)) + rsum (map (fun t => fst t * (at_ a (fst (snd t)) x * (b / 2 * integral (snd (snd t))))) l)). ring.
Qed.
Lemma pf_outer l : is_RInt (fun x => RInt (fun y => pf a b l x y) 0 b) 0 a (integ a b l).
Proof.
  apply (is_RInt_ext (fun x => rsum (map (fun t => fst t * (at_ a (fst (snd t)) x * (b / 2 * integral (snd (snd t))))) l))).
  { intros x _. symmetry. apply is_RInt_unique, pf_inner. }
  unfold integ. induction l as [|[c [p q]] l IH]; cbn [map rsum].
  - evar_last; [apply @is_RInt_const|]. change ((a - 0) * 0 = 0). ring.
  - evar_last; [apply (is_RInt_plus (V := R_NormedModule)); [|exact IH]|].
    + cbn [fst snd]. apply (is_RInt_ext (fun t => scal (c * (b / 2 * integral q)) (at_ a p t))).
      { intros t _. change (c * (b / 2 * integral q) * at_ a p t = c * (at_ a p t * (b / 2 * integral q))). ring. }
      apply (is_RInt_scal (V := R_NormedModule)), at_RInt, Ha.
    + cbn [fst snd]. match goal with |- plus ?u ?v = ?w + ?z => change (c * (b / 2 * integral q) * (a / 2 * integral p) + v = w + z) end. ring.
Qed.
Lemma over_pf l : over a b (pf a b l) = integ a b l.
Proof. unfold over. apply is_RInt_unique, pf_outer. Qed.
Lemma over_add f g : nice a b f -> nice a b g -> over a b (fun x y => f x y + g x y) = over a b f + over a b g.
Proof.
  intros [l ->] [r ->]. rewrite !over_pf. transitivity (over a b (pf a b (l ++ r))).
  - f_equal. apply field_ext. intros. symmetry. apply pf_app.
  - rewrite over_pf. unfold integ. rewrite map_app, rsum_app. reflexivity.
Qed.
Lemma over_scal c f : nice a b f -> over a b (fun x y => c * f x y) = c * over a b f.
Proof.
  intros [l ->]. transitivity (over a b (pf a b (map (fun t => (c * fst t, snd t)) l))).
  - f_equal. apply field_ext. intros. unfold pf. rewrite map_map, rsum_scal, map_map. f_equal. apply map_ext. intros. unfold tval. cbn [fst snd]. ring.
  - rewrite !over_pf. unfold integ. rewrite rsum_scal, !map_map. f_equal. apply map_ext. intros. cbn [fst snd]. ring.
Qed.
Lemma over_term c p q : over a b (fun x y => c * (at_ a p x * at_ b q y)) = c * (a / 2 * integral p * (b / 2 * integral q)).
Proof.
  transitivity (over a b (pf a b [(c, (p, q))])).
  - f_equal. apply field_ext. intros. unfold pf, tval. cbn [map rsum fst snd]. ring.
  - rewrite over_pf. unfold integ. cbn [map rsum fst snd]. ring.
Qed.
Lemma over_ext f g : (forall x y, f x y = g x y) -> over a b f = over a b g.
Proof. intros H. f_equal. apply field_ext, H. Qed.

(** sign *)
Lemma nice_inner_ex f x : nice a b f -> ex_RInt (fun y => f x y) 0 b.
Proof. intros [l ->]. eexists. apply pf_inner. Qed.
Lemma nice_outer_ex f : nice a b f -> ex_RInt (fun x => RInt (fun y => f x y) 0 b) 0 a.
Proof. intros [l ->]. eexists. apply pf_outer. Qed.
End N.
Lemma over_nonneg a b f : 0 < a -> 0 < b -> nice a b f -> (forall x y, 0 <= f x y) -> 0 <= over a b f.
Proof.
  intros Ha Hb N P. unfold over. apply RInt_ge_0; [lra|apply nice_outer_ex; [lra|lra|exact N]|].
  intros x _. apply RInt_ge_0; [lra|apply (nice_inner_ex a b); [lra|exact N]|]. intros. apply P.
Qed.

(** ** zero integral of a non-negative field *)
Lemma RInt_zero (h : R -> R) u v : u < v -> (forall x, continuous h x) -> (forall x, 0 <= h x) -> RInt h u v = 0 -> forall x, u < x < v -> h x = 0.
Proof.
  intros Huv C P Z x [Hx1 Hx2]. destruct (Req_dec (h x) 0) as [E|N]; [exact E|exfalso].
  assert (Hp : 0 < h x) by (specialize (P x); lra).
  assert (ex : forall s t, ex_RInt h s t) by (intros; apply (ex_RInt_continuous (V := R_CompleteNormedModule)); intros; apply C).
  destruct (C x (fun z => 0 < z)) as [eps He].
  { exists (mkposreal _ Hp). intros z Hz. change (Rabs (z - h x) < h x) in Hz. apply Rabs_def2 in Hz. lra. }
  destruct eps as [eps Heps]. cbn in He.
  set (s := Rmax u (x - eps / 2)). set (t := Rmin v (x + eps / 2)).
  assert (Hs : u <= s < x) by (unfold s; split; [apply Rmax_l|apply Rmax_lub_lt; lra]).
  assert (Hs' : x - eps / 2 <= s) by apply Rmax_r.
  assert (Ht : x < t <= v) by (unfold t; split; [apply Rmin_glb_lt; lra|apply Rmin_l]).
  assert (Ht' : t <= x + eps / 2) by apply Rmin_r.
  assert (G : 0 < RInt h s t).
  { apply RInt_gt_0; [lra| |intros; apply C]. intros z Hz. apply He. change (Rabs (z - x) < eps). apply Rabs_def1; lra. }
  assert (G1 : 0 <= RInt h u s) by (apply RInt_ge_0; [lra|apply ex|intros; apply P]).
  assert (G2 : 0 <= RInt h t v) by (apply RInt_ge_0; [lra|apply ex|intros; apply P]).
  assert (E : RInt h u v = RInt h u s + RInt h s t + RInt h t v).
  { rewrite <- (RInt_Chasles h u t v (ex _ _) (ex _ _)), <- (RInt_Chasles h u s t (ex _ _) (ex _ _)). reflexivity. }
  lra.
Qed.
Lemma nice_cont_x a b f y x : nice a b f -> continuous (fun t => f t y) x.
Proof. intros N. apply (ex_derive_continuous (V := R_NormedModule) (fun t => f t y)), (nice_ex_dx a b); exact N. Qed.
Lemma nice_cont_y a b f x y : nice a b f -> continuous (fun t => f x t) y.
Proof. intros N. apply (ex_derive_continuous (V := R_NormedModule) (fun t => f x t)), (nice_ex_dy a b); exact N. Qed.
Lemma nice_inner_cont a b f x : b <> 0 -> nice a b f -> continuous (fun x => RInt (fun y => f x y) 0 b) x.
Proof.
  intros Hb [l ->].
  apply (continuous_ext (fun t => pf a b (map (fun t => (fst t * (b / 2 * integral (snd (snd t))), (fst (snd t), [1%Q]))) l) t 0)).
  - intros t. symmetry. etransitivity; [apply is_RInt_unique, (pf_inner a b Hb)|]. unfold pf. rewrite map_map. f_equal. apply map_ext.
    intros [c [p q]]. unfold tval, at_ at 3. cbn [fst snd qeval]. rewrite Q2R_1. ring.
  - apply (nice_cont_x a b). eexists. reflexivity.
Qed.
Lemma over_zero a b f : 0 < a -> 0 < b -> nice a b f -> (forall x y, 0 <= f x y) -> over a b f = 0 ->
  forall x y, 0 < x < a -> 0 < y < b -> f x y = 0.
Proof.
  intros Ha Hb N P Z x y Hx Hy.
  assert (G : RInt (fun y => f x y) 0 b = 0).
  { apply (RInt_zero (fun x => RInt (fun y => f x y) 0 b) 0 a Ha); [intros; apply (nice_inner_cont a b); [lra|exact N]| |exact Z|exact Hx].
    intros t. apply RInt_ge_0; [lra|apply (nice_inner_ex a b); [lra|exact N]|intros; apply P]. }
  apply (RInt_zero (fun y => f x y) 0 b Hb); [intros; apply (nice_cont_y a b); exact N|intros; apply P|exact G|exact Hy].
Qed.

(** ** zero second derivatives *)
Lemma nice_is_dx a b f x y : nice a b f -> is_derive (fun t => f t y) x (dx f x y).
Proof. intros N. apply Derive_correct, (nice_ex_dx a b), N. Qed.
Lemma nice_is_dy a b f x y : nice a b f -> is_derive (fun t => f x t) y (dy f x y).
Proof. intros N. apply Derive_correct, (nice_ex_dy a b), N. Qed.
Lemma const_on (h : R -> R) u v : u < v -> (forall x, continuous h x) -> (forall x, u < x < v -> is_derive h x 0) ->
  forall x, u <= x <= v -> h x = h u.
Proof.
  intros Huv C D x Hx. destruct (Req_dec x u) as [->|N]; [reflexivity|].
  destruct (MVT_gen h u x (fun _ => 0)) as (c & _ & E).
  - intros z Hz. rewrite Rmin_left, Rmax_right in Hz by lra. apply D. lra.
  - intros z _. apply continuity_pt_filterlim, C.
  - lra.
Qed.
Lemma affine a b w : 0 < a -> 0 < b -> nice a b w ->
  (forall x y, 0 < x < a -> 0 < y < b -> dx (dx w) x y = 0 /\ dy (dy w) x y = 0 /\ dx (dy w) x y = 0) ->
  exists w0 bx by_, (forall x y, 0 <= x <= a -> 0 <= y <= b -> w x y = w0 + bx * x + by_ * y) /\
    (forall x y, 0 <= x <= a -> 0 < y < b -> dx w x y = bx) /\ (forall x y, 0 < x < a -> 0 <= y <= b -> dy w x y = by_).
Proof.
  intros Ha Hb N Z.
  assert (Nx := nice_dx a b _ N). assert (Ny := nice_dy a b _ N).
  assert (X1 : forall x y, 0 <= x <= a -> 0 < y < b -> dx w x y = dx w 0 y).
  { intros x y Hx Hy. apply (const_on (fun x => dx w x y) 0 a Ha); [intros; apply (nice_cont_x a b), Nx| |exact Hx].
    intros z Hz. destruct (Z z y Hz Hy) as (E & _). rewrite <- E. apply (nice_is_dx a b), Nx. }
  assert (X2 : forall x y, 0 <= x <= a -> 0 < y < b -> dy w x y = dy w 0 y).
  { intros x y Hx Hy. apply (const_on (fun x => dy w x y) 0 a Ha); [intros; apply (nice_cont_x a b), Ny| |exact Hx].
    intros z Hz. destruct (Z z y Hz Hy) as (_ & _ & E). rewrite <- E. apply (nice_is_dx a b), Ny. }
  assert (Y1 : forall x y, 0 < x < a -> 0 <= y <= b -> dy w x y = dy w x 0).
  { intros x y Hx Hy. apply (const_on (fun y => dy w x y) 0 b Hb); [intros; apply (nice_cont_y a b), Ny| |exact Hy].
    intros z Hz. destruct (Z x z Hx Hz) as (_ & E & _). rewrite <- E. apply (nice_is_dy a b), Ny. }
  assert (Lx : forall x y, 0 <= x <= a -> 0 < y < b -> w x y = w 0 y + x * dx w 0 y).
  { intros x y Hx Hy. assert (E : w x y - x * dx w 0 y = w 0 y - 0 * dx w 0 y); [|lra].
    apply (const_on (fun x => w x y - x * dx w 0 y) 0 a Ha); [| |exact Hx].
    - intros z. apply (continuous_minus (V := R_NormedModule) (fun x => w x y) (fun x => x * dx w 0 y)); [apply (nice_cont_x a b), N|].
      apply (continuous_scal_l (K := R_AbsRing) (V := R_NormedModule) (fun x => x)). apply continuous_id.
    - intros z Hz. evar_last.
      + apply (is_derive_minus (K := R_AbsRing) (V := R_NormedModule) (fun x => w x y) (fun x => x * dx w 0 y)).
        * apply (nice_is_dx a b), N.
        * apply (is_derive_scal_l (K := R_AbsRing) (V := R_NormedModule) (fun x => x)). apply @is_derive_id.
      + change (dx w z y - 1 * dx w 0 y = 0). rewrite X1 by (try assumption; lra). ring. }
  assert (Hm : 0 < a / 2 < a) by lra. assert (Hn : 0 < b / 2 < b) by lra.
  set (g := dy w (a / 2) 0).
  assert (DY : forall x y, 0 <= x <= a -> 0 < y < b -> dy w x y = g).
  { intros x y Hx Hy. rewrite X2 by assumption. rewrite <- (X2 (a / 2) y) by (try assumption; lra). apply Y1; lra. }
  assert (Ly : forall x y, 0 <= x <= a -> 0 <= y <= b -> w x y = w x 0 + y * g).
  { intros x y Hx Hy. assert (E : w x y - y * g = w x 0 - 0 * g); [|lra].
    apply (const_on (fun y => w x y - y * g) 0 b Hb); [| |exact Hy].
    - intros z. apply (continuous_minus (V := R_NormedModule) (fun y => w x y) (fun y => y * g)); [apply (nice_cont_y a b), N|].
      apply (continuous_scal_l (K := R_AbsRing) (V := R_NormedModule) (fun x => x)). apply continuous_id.
    - intros z Hz. evar_last.
      + apply (is_derive_minus (K := R_AbsRing) (V := R_NormedModule) (fun y => w x y) (fun y => y * g)).
        * apply (nice_is_dy a b), N.
        * apply (is_derive_scal_l (K := R_AbsRing) (V := R_NormedModule) (fun x => x)). apply @is_derive_id.
      + change (dy w x z - 1 * g = 0). rewrite DY by assumption. ring. }
  set (h := dx w 0 (b / 2)).
  assert (W : forall x y, 0 <= x <= a -> 0 <= y <= b -> w x y = w 0 0 + h * x + g * y).
  { intros x y Hx Hy. rewrite (Ly x y) by assumption.
    assert (E1 := Lx x (b / 2) Hx Hn). rewrite (Ly x (b / 2)), (Ly 0 (b / 2)) in E1 by lra. fold h in E1. lra. }
  assert (DX : forall y, 0 < y < b -> dx w 0 y = h).
  { intros y Hy. assert (E1 := Lx a y ltac:(lra) Hy). rewrite (W a y), (W 0 y) in E1 by lra.
    assert (a * (dx w 0 y - h) = 0) by lra. apply Rmult_integral in H. destruct H; lra. }
  exists (w 0 0), h, g. split; [exact W|]. split.
  - intros x y Hx Hy. rewrite X1 by assumption. apply DX, Hy.
  - intros x y Hx Hy. rewrite Y1 by assumption. transitivity (dy w x (b / 2)); [symmetry; apply Y1; lra|apply DY; lra].
Qed.
