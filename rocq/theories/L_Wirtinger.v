(** Wirtinger's inequality with the sharp constants, by a Picone identity. *)
From Coq Require Import Reals Lra Lia.
From Coquelicot Require Import Coquelicot.
From Coq Require Import List.
Open Scope R_scope.

Section P.
Variables (g g' : R -> R).
Hypothesis Dg : forall x, is_derive g x (g' x).
Hypothesis Cg' : forall x, continuous g' x.
Lemma cont_g x : continuous g x.
Proof. apply (ex_derive_continuous (V := R_NormedModule) g). exists (g' x). apply Dg. Qed.
Lemma cont_sq (f : R -> R) : (forall x, continuous f x) -> forall x, continuous (fun x => f x ^ 2) x.
Proof.
  intros C x. apply (continuous_ext (fun x => f x * f x)); [intros t; change (@eq R (f t * f t) (f t ^ 2)); ring|].
  apply (continuous_mult f f); apply C.
Qed.
Lemma int_sq (f : R -> R) u v : (forall x, continuous f x) -> ex_RInt (fun x => f x ^ 2) u v.
Proof. intros C. apply (ex_RInt_continuous (V := R_CompleteNormedModule)). intros. apply cont_sq, C. Qed.

Lemma picone u v k c : u <= v -> (forall x, u <= x <= v -> - (PI / 2) < k * (x - c) < PI / 2) ->
  k ^ 2 * RInt (fun x => g x ^ 2) u v - (k * tan (k * (v - c)) * g v ^ 2 - k * tan (k * (u - c)) * g u ^ 2) <= RInt (fun x => g' x ^ 2) u v.
Proof.
  intros Huv Hc. set (h := fun x => k ^ 2 * (1 + tan (k * (x - c)) ^ 2) * g x ^ 2 + 2 * k * tan (k * (x - c)) * g x * g' x).
  assert (Cos : forall x, u <= x <= v -> cos (k * (x - c)) <> 0) by (intros x Hx; apply Rgt_not_eq, cos_gt_0; apply Hc; exact Hx).
  assert (DT : forall x, u <= x <= v -> is_derive (fun x => tan (k * (x - c))) x (k * (1 + tan (k * (x - c)) ^ 2))).
  { intros x Hx. specialize (Cos x Hx). unfold tan. auto_derive; [exact Cos|]. change (x + - c) with (x - c). assert (S := sin2_cos2 (k * (x - c))). unfold Rsqr in S. revert S Cos.
    generalize (sin (k * (x - c))) (cos (k * (x - c))). intros s co S Cn. field. exact Cn. }
  assert (CT : forall x, u <= x <= v -> continuous (fun x => tan (k * (x - c))) x).
  { intros x Hx. apply (ex_derive_continuous (V := R_NormedModule) (fun x => tan (k * (x - c)))). eexists. apply DT, Hx. }
  assert (I : is_RInt h u v (k * tan (k * (v - c)) * g v ^ 2 - k * tan (k * (u - c)) * g u ^ 2)).
  { apply (is_RInt_derive (V := R_CompleteNormedModule) (fun x => k * tan (k * (x - c)) * g x ^ 2) h).
    - rewrite Rmin_left, Rmax_right by exact Huv. intros x Hx.
      assert (E : is_derive (fun x => k * (tan (k * (x - c)) * (g x * g x))) x (k * (k * (1 + tan (k * (x - c)) ^ 2) * (g x * g x) + tan (k * (x - c)) * (g' x * g x + g x * g' x)))).
      { apply is_derive_scal. apply (is_derive_mult (fun x => tan (k * (x - c))) (fun x => g x * g x)); [apply DT, Hx| |intros; apply Rmult_comm].
        apply (is_derive_mult g g); [apply Dg|apply Dg|intros; apply Rmult_comm]. }
      apply (is_derive_ext (fun x => k * (tan (k * (x - c)) * (g x * g x)))); [intros t; change (@eq R (k * (tan (k * (t - c)) * (g t * g t))) (k * tan (k * (t - c)) * g t ^ 2)); ring|]. evar_last; [exact E|]. unfold h. ring.
    - rewrite Rmin_left, Rmax_right by exact Huv. intros x Hx. unfold h.
      assert (T2 : continuous (fun x => tan (k * (x - c)) ^ 2) x).
      { apply (continuous_ext (fun x => tan (k * (x - c)) * tan (k * (x - c)))); [intros t; change (@eq R (tan (k * (t - c)) * tan (k * (t - c))) (tan (k * (t - c)) ^ 2)); ring|]. apply (continuous_mult (fun x => tan (k * (x - c))) (fun x => tan (k * (x - c)))); apply CT, Hx. }
      apply (continuous_plus (V := R_NormedModule) (fun x => k ^ 2 * (1 + tan (k * (x - c)) ^ 2) * g x ^ 2) (fun x => 2 * k * tan (k * (x - c)) * g x * g' x)).
      + apply (continuous_mult (fun x => k ^ 2 * (1 + tan (k * (x - c)) ^ 2)) (fun x => g x ^ 2)); [|apply cont_sq, cont_g].
        apply (continuous_mult (fun x => k ^ 2) (fun x => 1 + tan (k * (x - c)) ^ 2)); [apply continuous_const|].
        apply (continuous_plus (V := R_NormedModule) (fun _ => 1) (fun x => tan (k * (x - c)) ^ 2)); [apply continuous_const|exact T2].
      + apply (continuous_mult (fun x => 2 * k * tan (k * (x - c)) * g x) g'); [|apply Cg'].
        apply (continuous_mult (fun x => 2 * k * tan (k * (x - c))) g); [|apply cont_g].
        apply (continuous_mult (fun x => 2 * k) (fun x => tan (k * (x - c)))); [apply continuous_const|apply CT, Hx]. }
  assert (Eh : ex_RInt h u v) by (eexists; exact I). apply (is_RInt_unique (V := R_CompleteNormedModule) h u v) in I. rewrite <- I.
  assert (E2 := int_sq g u v cont_g). assert (E3 := int_sq g' u v Cg').
  assert (Q : RInt (fun x => k ^ 2 * g x ^ 2 - h x) u v = k ^ 2 * RInt (fun x => g x ^ 2) u v - RInt h u v).
  { rewrite (RInt_minus (V := R_CompleteNormedModule) (fun x => k ^ 2 * g x ^ 2) h); [|apply (ex_RInt_scal (V := R_CompleteNormedModule) (fun x => g x ^ 2)); exact E2|exact Eh].
    rewrite (RInt_scal (V := R_CompleteNormedModule) (fun x => g x ^ 2)) by exact E2. reflexivity. }
  rewrite <- Q. apply RInt_le; [exact Huv| |exact E3|].
  - apply (ex_RInt_minus (V := R_CompleteNormedModule) (fun x => k ^ 2 * g x ^ 2) h); [apply (ex_RInt_scal (V := R_CompleteNormedModule) (fun x => g x ^ 2)); exact E2|exact Eh].
  - intros x _. unfold h. assert (S := pow2_ge_0 (g' x + k * tan (k * (x - c)) * g x)). nra.
Qed.

(** passing to the limit in the constant *)
Lemma sharp q G H : 0 < q -> 0 <= G -> (forall k, 0 < k < q -> k ^ 2 * G <= H) -> q ^ 2 * G <= H.
Proof.
  intros Hq HG A. destruct (Rle_lt_dec (q ^ 2 * G) H) as [L|L]; [exact L|exfalso].
  assert (HG' : 0 < G) by (assert (X := A (q / 2) ltac:(lra)); destruct (Req_dec G 0) as [E|E]; [subst G; lra|lra]).
  set (d := (q ^ 2 * G - H) / (4 * q * G)). assert (Hd : 0 < d) by (apply Rdiv_lt_0_compat; [lra|apply Rmult_lt_0_compat; lra]).
  set (k := Rmax (q / 2) (q - d)). assert (Hk : 0 < k < q) by (unfold k; split; [apply Rlt_le_trans with (q / 2); [lra|apply Rmax_l]|apply Rmax_lub_lt; lra]).
  assert (X := A k Hk). assert (Kd : q - d <= k) by apply Rmax_r.
  assert (E : 4 * q * G * d = q ^ 2 * G - H) by (unfold d; field; split; lra).
  assert (q ^ 2 - k ^ 2 <= 2 * q * d) by nra. assert (G * (q ^ 2 - k ^ 2) <= G * (2 * q * d)) by (apply Rmult_le_compat_l; lra). lra.
Qed.
Lemma sq_nonneg (f : R -> R) u v : u <= v -> (forall x, continuous f x) -> 0 <= RInt (fun x => f x ^ 2) u v.
Proof. intros Huv C. apply RInt_ge_0; [exact Huv|apply int_sq, C|intros; apply pow2_ge_0]. Qed.

(** zero at both ends *)
Lemma wirtinger a : 0 < a -> g 0 = 0 -> g a = 0 -> (PI / a) ^ 2 * RInt (fun x => g x ^ 2) 0 a <= RInt (fun x => g' x ^ 2) 0 a.
Proof.
  intros Ha G0 Ga. assert (Pp := PI_RGT_0). apply sharp; [apply Rdiv_lt_0_compat; lra|apply sq_nonneg; [lra|exact cont_g]|].
  intros k [K1 K2]. assert (Ka : k * a < PI) by (apply Rmult_lt_compat_r with (r := a) in K2; [|exact Ha]; replace (PI / a * a) with PI in K2 by (field; lra); exact K2).
  assert (P := picone 0 a k (a / 2) ltac:(lra)). rewrite G0, Ga in P. assert (Q := P ltac:(intros x Hx; nra)). lra.
Qed.
(** zero at one end *)
Lemma wirtinger_half a : 0 < a -> g 0 = 0 -> (PI / (2 * a)) ^ 2 * RInt (fun x => g x ^ 2) 0 a <= RInt (fun x => g' x ^ 2) 0 a.
Proof.
  intros Ha G0. assert (Pp := PI_RGT_0). apply sharp; [apply Rdiv_lt_0_compat; lra|apply sq_nonneg; [lra|exact cont_g]|].
  intros k [K1 K2]. assert (Ka : k * a < PI / 2) by (apply Rmult_lt_compat_r with (r := a) in K2; [|exact Ha]; replace (PI / (2 * a) * a) with (PI / 2) in K2 by (field; lra); exact K2).
  assert (P := picone 0 a k a ltac:(lra)). rewrite G0 in P. replace (k * (a - a)) with 0 in P by ring. rewrite tan_0 in P.
  assert (Q := P ltac:(intros x Hx; nra)). lra.
Qed.
Lemma wirtinger_half_r a : 0 < a -> g a = 0 -> (PI / (2 * a)) ^ 2 * RInt (fun x => g x ^ 2) 0 a <= RInt (fun x => g' x ^ 2) 0 a.
Proof.
  intros Ha G0. assert (Pp := PI_RGT_0). apply sharp; [apply Rdiv_lt_0_compat; lra|apply sq_nonneg; [lra|exact cont_g]|].
  intros k [K1 K2]. assert (Ka : k * a < PI / 2) by (apply Rmult_lt_compat_r with (r := a) in K2; [|exact Ha]; replace (PI / (2 * a) * a) with (PI / 2) in K2 by (field; lra); exact K2).
  assert (P := picone 0 a k 0 ltac:(lra)). rewrite G0 in P. replace (k * (0 - 0)) with 0 in P by ring. rewrite tan_0 in P.
  assert (Q := P ltac:(intros x Hx; nra)). lra.
Qed.
End P.

(** equal values at both ends and mean zero (Hurwitz) *)
Lemma wirtinger_mean (g g' : R -> R) a : (forall x, is_derive g x (g' x)) -> (forall x, continuous g' x) -> 0 < a -> g 0 = g a -> RInt g 0 a = 0 ->
  (2 * PI / a) ^ 2 * RInt (fun x => g x ^ 2) 0 a <= RInt (fun x => g' x ^ 2) 0 a.
Proof.
  intros Dg Cg' Ha Ge Me. assert (Pp := PI_RGT_0). assert (Cg := cont_g g g' Dg).
  apply sharp; [apply Rdiv_lt_0_compat; lra|apply sq_nonneg; [lra|exact Cg]|].
  intros k [K1 K2]. assert (Ka : k * a < 2 * PI) by (apply Rmult_lt_compat_r with (r := a) in K2; [|exact Ha]; replace (2 * PI / a * a) with (2 * PI) in K2 by (field; lra); exact K2).
  (* a point where the function takes the same value half a length later *)
  destruct (IVT_cor (fun t => g (t + a / 2) - g t) 0 (a / 2)) as (z & Hz & Ez).
  { intros t. apply continuity_pt_filterlim. apply (continuous_minus (V := R_NormedModule) (fun t => g (t + a / 2)) g); [|apply Cg].
    apply (continuous_comp (fun t => t + a / 2) g); [|apply Cg].
    apply (continuous_plus (V := R_NormedModule) (fun t => t) (fun _ => a / 2)); [apply continuous_id|apply continuous_const]. }
  { lra. }
  { cbv beta. rewrite Rplus_0_l. replace (a / 2 + a / 2) with a by field. rewrite <- Ge. assert (S := pow2_ge_0 (g (a / 2) - g 0)). nra. }
  set (m := g z) in *. assert (Em : g (z + a / 2) = m) by lra. clear Ez.
  set (h := fun x => g x - m). 
  assert (Dh : forall x, is_derive h x (g' x)).
  { intros x. unfold h. evar_last; [apply (is_derive_minus (K := R_AbsRing) (V := R_NormedModule) g (fun _ => m)); [apply Dg|apply @is_derive_const]|]. unfold minus, plus, opp, zero. cbn. ring. }
  assert (Ch := cont_g h g' Dh).
  assert (h1 : h z = 0) by (unfold h, m; ring). assert (h2 : h (z + a / 2) = 0) by (unfold h; lra). assert (h3 : h 0 = h a) by (unfold h; lra).
  assert (Ht : forall t, - (a / 4) <= t <= a / 4 -> - (PI / 2) < k * t < PI / 2).
  { intros t Ht. assert (k * t <= k * (a / 4)) by (apply Rmult_le_compat_l; lra). assert (k * (- (a / 4)) <= k * t) by (apply Rmult_le_compat_l; lra). lra. }
  assert (P1 := picone h g' Dh Cg' z (z + a / 2) k (z + a / 4) ltac:(lra) ltac:(intros x Hx; apply Ht; lra)).
  assert (P2 := picone h g' Dh Cg' (z + a / 2) a k (z + 3 * a / 4) ltac:(lra) ltac:(intros x Hx; apply Ht; lra)).
  assert (P3 := picone h g' Dh Cg' 0 z k (z - a / 4) ltac:(lra) ltac:(intros x Hx; apply Ht; lra)).
  rewrite h1, h2 in P1. rewrite h2 in P2. rewrite h1, h3 in P3.
  replace (k * (0 - (z - a / 4))) with (k * (a - (z + 3 * a / 4))) in P3 by field.
  assert (S1 : forall f : R -> R, (forall x, continuous f x) -> RInt (fun x => f x ^ 2) 0 a = RInt (fun x => f x ^ 2) 0 z + RInt (fun x => f x ^ 2) z (z + a / 2) + RInt (fun x => f x ^ 2) (z + a / 2) a).
  { intros f Cf. rewrite <- (RInt_Chasles (V := R_CompleteNormedModule) (fun x => f x ^ 2) 0 (z + a / 2) a), <- (RInt_Chasles (V := R_CompleteNormedModule) (fun x => f x ^ 2) 0 z (z + a / 2)) by (apply int_sq, Cf). reflexivity. }
  assert (Q : k ^ 2 * RInt (fun x => h x ^ 2) 0 a <= RInt (fun x => g' x ^ 2) 0 a).
  { rewrite (S1 h Ch), (S1 g' Cg'). lra. }
  assert (E : RInt (fun x => h x ^ 2) 0 a = RInt (fun x => g x ^ 2) 0 a + m ^ 2 * a).
  { assert (Ig : is_RInt g 0 a 0) by (evar_last; [apply (RInt_correct (V := R_CompleteNormedModule)), (ex_RInt_continuous (V := R_CompleteNormedModule)); intros; apply Cg|exact Me]).
    apply (is_RInt_unique (V := R_CompleteNormedModule)). apply (is_RInt_ext (V := R_NormedModule) (fun x => plus (g x ^ 2) (plus (scal (-2 * m) (g x)) (m ^ 2)))).
    { intros x _. unfold h. change (g x ^ 2 + (-2 * m * g x + m ^ 2) = (g x - m) ^ 2). ring. }
    evar_last; [apply (is_RInt_plus (V := R_NormedModule)); [apply (RInt_correct (V := R_CompleteNormedModule)), int_sq, Cg|apply (is_RInt_plus (V := R_NormedModule)); [apply (is_RInt_scal (V := R_NormedModule)); exact Ig|apply @is_RInt_const]]|].
    change (RInt (fun x => g x ^ 2) 0 a + (-2 * m * 0 + (a - 0) * m ^ 2) = RInt (fun x => g x ^ 2) 0 a + m ^ 2 * a). ring. }
  rewrite E in Q. assert (0 <= k ^ 2 * (m ^ 2 * a)) by (apply Rmult_le_pos; [apply pow2_ge_0|apply Rmult_le_pos; [apply pow2_ge_0|lra]]). lra.
Qed.

(** ** the second mode: no function held at both ends has a negative integral of (g'' + k^2 g)(g'' + 4 k^2 g), k = PI / a *)
Lemma bounded_on (f : R -> R) a : 0 < a -> (forall x, continuous f x) -> exists B, 0 < B /\ forall x, 0 <= x <= a -> Rabs (f x) <= B.
Proof.
  intros Ha C. assert (C' : forall x, continuous (fun x => Rabs (f x)) x) by (intros x; apply (continuous_comp f Rabs); [apply C|apply continuous_Rabs]).
  destruct (continuity_ab_maj (fun x => Rabs (f x)) 0 a ltac:(lra)) as (M & H & _).
  - intros c _. apply continuity_pt_filterlim, C'.
  - exists (Rabs (f M) + 1). split; [assert (Q := Rabs_pos (f M)); lra|]. intros x Hx. specialize (H x Hx). cbv beta in H. lra.
Qed.
Section S2.
Variables (g g' g'' : R -> R) (a : R).
Hypotheses (Dg : forall x, is_derive g x (g' x)) (Dg' : forall x, is_derive g' x (g'' x)) (Cg'' : forall x, continuous g'' x).
Hypotheses (Ha : 0 < a) (G0 : g 0 = 0) (Ga : g a = 0).
Let k := PI / a.
Let c := a / 2.
Let u x := g'' x + k ^ 2 * g x.
Let F x := u x ^ 2 - 3 * k ^ 2 * (g' x ^ 2 - k ^ 2 * g x ^ 2).
Let Cg : forall x, continuous g x := cont_g g g' Dg.
Let Cg' : forall x, continuous g' x := cont_g g' g'' Dg'.
Lemma k_pos : 0 < k. Proof. apply Rdiv_lt_0_compat; [apply PI_RGT_0|exact Ha]. Qed.
Lemma ka : k * a = PI. Proof. unfold k. field. lra. Qed.
Lemma Cu x : continuous u x.
Proof. apply (continuous_plus (V := R_NormedModule) g'' (fun x => k ^ 2 * g x)); [apply Cg''|]. apply (continuous_mult (fun _ => k ^ 2) g); [apply continuous_const|apply Cg]. Qed.
Lemma CF x : continuous F x.
Proof.
  apply (continuous_minus (V := R_NormedModule) (fun x => u x ^ 2) (fun x => 3 * k ^ 2 * (g' x ^ 2 - k ^ 2 * g x ^ 2))); [apply cont_sq, Cu|].
  apply (continuous_mult (fun _ => 3 * k ^ 2) (fun x => g' x ^ 2 - k ^ 2 * g x ^ 2)); [apply continuous_const|].
  apply (continuous_minus (V := R_NormedModule) (fun x => g' x ^ 2) (fun x => k ^ 2 * g x ^ 2)); [apply cont_sq, Cg'|].
  apply (continuous_mult (fun _ => k ^ 2) (fun x => g x ^ 2)); [apply continuous_const|apply cont_sq, Cg].
Qed.
Let C x := cos (k * (x - c)).
Let S x := sin (k * (x - c)).
Let p x := g' x * C x + k * (g x * S x).
Lemma p_derive x : is_derive p x (u x * C x).
Proof.
  unfold p, C, S. assert (E : is_derive (fun x => g' x * cos (k * (x - c)) + k * (g x * sin (k * (x - c)))) x
    ((g'' x * cos (k * (x - c)) + g' x * (- (k * sin (k * (x - c))))) + k * (g' x * sin (k * (x - c)) + g x * (k * cos (k * (x - c)))))).
  { assert (D1 : is_derive (fun x => cos (k * (x - c))) x (- (k * sin (k * (x - c))))) by (auto_derive; [trivial|change (x + - c) with (x - c); ring]).
    assert (D2 : is_derive (fun x => sin (k * (x - c))) x (k * cos (k * (x - c)))) by (auto_derive; [trivial|change (x + - c) with (x - c); ring]).
    apply (is_derive_plus (K := R_AbsRing) (V := R_NormedModule)).
    - apply (is_derive_mult g' (fun x => cos (k * (x - c)))); [apply Dg'|exact D1|intros; apply Rmult_comm].
    - apply is_derive_scal. apply (is_derive_mult g (fun x => sin (k * (x - c)))); [apply Dg|exact D2|intros; apply Rmult_comm]. }
  evar_last; [exact E|]. unfold u. ring.
Qed.
Lemma C_pos x : 0 < x < a -> 0 < C x.
Proof.
  intros Hx. assert (K := k_pos). assert (A := ka). apply cos_gt_0; unfold c.
  - assert (0 < k * x) by (apply Rmult_lt_0_compat; lra). lra.
  - assert (k * x < k * a) by (apply Rmult_lt_compat_l; lra). lra.
Qed.
Lemma C_sin x : C x = sin (k * x).
Proof. unfold C, c. replace (k * (x - a / 2)) with (k * x - PI / 2) by (rewrite <- ka; field). rewrite cos_minus, cos_PI2, sin_PI2. ring. Qed.
Lemma C_mirror x : C (a - x) = C x.
Proof. unfold C, c. rewrite <- cos_neg. f_equal. field. Qed.
Lemma C_low x : 0 <= x <= a / 3 -> k * x / 2 <= C x.
Proof.
  intros Hx. rewrite C_sin. destruct (Req_dec x 0) as [->|N]; [rewrite Rmult_0_r, sin_0; lra|].
  destruct (MVT_gen (fun x => sin (k * x)) 0 x (fun x => k * cos (k * x))) as (z & Hz & E).
  - intros z _. auto_derive; [trivial|ring].
  - intros z _. apply continuity_pt_filterlim. apply (ex_derive_continuous (V := R_NormedModule) (fun x => sin (k * x))). auto_derive. trivial.
  - rewrite Rmin_left, Rmax_right in Hz by lra. rewrite Rmult_0_r, sin_0 in E.
    assert (1 / 2 <= cos (k * z)).
    { rewrite <- cos_PI3. assert (K := k_pos). assert (A := ka). apply cos_decr_1; try (assert (P := PI_RGT_0)); [apply Rmult_le_pos; lra| |lra|lra|].
      - assert (k * z <= k * a) by (apply Rmult_le_compat_l; lra). lra.
      - assert (k * z <= k * (a / 3)) by (apply Rmult_le_compat_l; lra). lra. }
    assert (0 <= (k * x) * (cos (k * z) - 1 / 2)) by (apply Rmult_le_pos; [apply Rmult_le_pos; [left; apply k_pos|lra]|lra]). lra.
Qed.
(** the integral away from the ends *)
Lemma inside s : 0 < s < a / 2 ->
  - (3 * k) * (p (a - s) ^ 2 + p s ^ 2) / C s ^ 3 <= RInt F s (a - s).
Proof.
  intros Hs. assert (K := k_pos).
  set (T x := S x / C x).
  set (B x := 3 * k * (T x * (k ^ 2 * g x ^ 2 - (p x / C x) ^ 2))).
  set (q x := (u x + 3 * k * T x * (p x / C x)) ^ 2).
  assert (Cn : forall x, s <= x <= a - s -> C x <> 0) by (intros x Hx; apply Rgt_not_eq, C_pos; lra).
  assert (DT : forall x, s <= x <= a - s -> is_derive T x (k * (1 + T x ^ 2))).
  { intros x Hx. specialize (Cn x Hx). unfold T, S, C in *. auto_derive; [exact Cn|]. change (x + - c) with (x - c). assert (Q := sin2_cos2 (k * (x - c))). unfold Rsqr in Q. revert Q Cn.
    generalize (sin (k * (x - c))) (cos (k * (x - c))). intros s0 co Q Cn. field. exact Cn. }
  assert (DV : forall x, s <= x <= a - s -> is_derive (fun x => p x / C x) x (u x + k * T x * (p x / C x))).
  { intros x Hx. specialize (Cn x Hx).
    assert (DC : is_derive C x (- (k * S x))) by (unfold C, S; auto_derive; [trivial|change (x + - c) with (x - c); ring]).
    evar_last; [apply (is_derive_div p C x _ _ (p_derive x) DC Cn)|]. unfold T. field. exact Cn. }
  assert (DB : forall x, s <= x <= a - s -> is_derive B x (F x - q x)).
  { intros x Hx. assert (E : is_derive (fun x => 3 * k * (T x * (k ^ 2 * (g x * g x) - (p x / C x) * (p x / C x)))) x
      (3 * k * (k * (1 + T x ^ 2) * (k ^ 2 * (g x * g x) - (p x / C x) * (p x / C x))
        + T x * (k ^ 2 * (g' x * g x + g x * g' x) - ((u x + k * T x * (p x / C x)) * (p x / C x) + (p x / C x) * (u x + k * T x * (p x / C x))))))).
    { apply is_derive_scal. apply (is_derive_mult T (fun x => k ^ 2 * (g x * g x) - p x / C x * (p x / C x))); [apply DT, Hx| |intros; apply Rmult_comm].
      apply (is_derive_minus (K := R_AbsRing) (V := R_NormedModule) (fun x => k ^ 2 * (g x * g x)) (fun x => p x / C x * (p x / C x))).
      - apply is_derive_scal. apply (is_derive_mult g g); [apply Dg|apply Dg|intros; apply Rmult_comm].
      - apply (is_derive_mult (fun x => p x / C x) (fun x => p x / C x)); [apply DV, Hx|apply DV, Hx|intros; apply Rmult_comm]. }
    apply (is_derive_ext (fun x => 3 * k * (T x * (k ^ 2 * (g x * g x) - (p x / C x) * (p x / C x))))).
    { intros t. unfold B. change (@eq R (3 * k * (T t * (k ^ 2 * (g t * g t) - p t / C t * (p t / C t)))) (3 * k * (T t * (k ^ 2 * g t ^ 2 - (p t / C t) ^ 2)))). ring. }
    evar_last; [exact E|]. assert (Ev : p x / C x = g' x + k * T x * g x) by (unfold p, T; field; apply Cn, Hx).
    unfold F, q. rewrite Ev. ring. }
  assert (CFq : forall x, s <= x <= a - s -> continuous (fun x => F x - q x) x).
  { intros x Hx. apply (continuous_minus (V := R_NormedModule) F q); [apply CF|]. unfold q.
    assert (CT : continuous T x) by (apply (ex_derive_continuous (V := R_NormedModule) T); eexists; apply DT, Hx).
    assert (CV : continuous (fun x => p x / C x) x) by (apply (ex_derive_continuous (V := R_NormedModule) (fun x => p x / C x)); eexists; apply DV, Hx).
    assert (CW : continuous (fun x => u x + 3 * k * T x * (p x / C x)) x).
    { apply (continuous_plus (V := R_NormedModule) u (fun x => 3 * k * T x * (p x / C x))); [apply Cu|]. apply (continuous_mult (fun x => 3 * k * T x) (fun x => p x / C x)); [|exact CV].
      apply (continuous_mult (fun _ => 3 * k) T); [apply continuous_const|exact CT]. }
    apply (continuous_ext (fun x => (u x + 3 * k * T x * (p x / C x)) * (u x + 3 * k * T x * (p x / C x)))).
    - intros t. change (@eq R ((u t + 3 * k * T t * (p t / C t)) * (u t + 3 * k * T t * (p t / C t))) ((u t + 3 * k * T t * (p t / C t)) ^ 2)). ring.
    - apply (continuous_mult (fun x => u x + 3 * k * T x * (p x / C x)) (fun x => u x + 3 * k * T x * (p x / C x))); exact CW. }
  assert (I : is_RInt (fun x => F x - q x) s (a - s) (B (a - s) - B s)).
  { apply (is_RInt_derive (V := R_CompleteNormedModule) B (fun x => F x - q x)); rewrite Rmin_left, Rmax_right by lra; assumption. }
  assert (L : B (a - s) - B s <= RInt F s (a - s)).
  { rewrite <- (is_RInt_unique (V := R_CompleteNormedModule) _ _ _ _ I). apply RInt_le; [lra|eexists; exact I|apply (ex_RInt_continuous (V := R_CompleteNormedModule)); intros; apply CF|].
    intros x _. assert (Q := pow2_ge_0 (u x + 3 * k * T x * (p x / C x))). unfold q. lra. }
  refine (Rle_trans _ _ _ _ L).
  (* the boundary terms *)
  assert (Cs : 0 < C s) by (apply C_pos; lra).
  assert (Sm : S (a - s) = - S s) by (unfold S, c; rewrite <- sin_neg; f_equal; field).
  assert (Ss : - 1 <= S s <= 0).
  { split; [apply SIN_bound|]. unfold S, c. replace (k * (s - a / 2)) with (- (k * (a / 2 - s))) by ring. rewrite sin_neg.
    assert (0 <= sin (k * (a / 2 - s))); [|lra]. apply sin_ge_0; [apply Rmult_le_pos; lra|]. assert (k * (a / 2 - s) <= k * a) by (apply Rmult_le_compat_l; lra). rewrite ka in *. lra. }
  unfold B, T. rewrite Sm, C_mirror.
  replace (3 * k * (- S s / C s * (k ^ 2 * g (a - s) ^ 2 - (p (a - s) / C s) ^ 2)) - 3 * k * (S s / C s * (k ^ 2 * g s ^ 2 - (p s / C s) ^ 2)))
    with (3 * k * (- S s / C s * (k ^ 2 * (g (a - s) ^ 2 + g s ^ 2))) - (3 * k) * (- S s) * (p (a - s) ^ 2 + p s ^ 2) / C s ^ 3) by (field; lra).
  assert (P1 : 0 <= 3 * k * (- S s / C s * (k ^ 2 * (g (a - s) ^ 2 + g s ^ 2)))).
  { apply Rmult_le_pos; [lra|]. apply Rmult_le_pos; [apply Rmult_le_pos; [lra|left; apply Rinv_0_lt_compat, Cs]|].
    apply Rmult_le_pos; [apply pow2_ge_0|]. assert (X := pow2_ge_0 (g (a - s))). assert (Y := pow2_ge_0 (g s)). lra. }
  assert (P2 : 3 * k * (- S s) * (p (a - s) ^ 2 + p s ^ 2) / C s ^ 3 <= 3 * k * (p (a - s) ^ 2 + p s ^ 2) / C s ^ 3).
  { unfold Rdiv. apply Rmult_le_compat_r; [left; apply Rinv_0_lt_compat, pow_lt, Cs|].
    assert (X := pow2_ge_0 (p (a - s))). assert (Y := pow2_ge_0 (p s)).
    apply Rmult_le_compat_r; [lra|]. assert (3 * k * - S s <= 3 * k * 1) by (apply Rmult_le_compat_l; lra). lra. }
  replace (- (3 * k) * (p (a - s) ^ 2 + p s ^ 2) / C s ^ 3) with (- (3 * k * (p (a - s) ^ 2 + p s ^ 2) / C s ^ 3)) by (field; lra). lra.
Qed.
(** near the ends *)
Lemma p_small U s : (forall x, 0 <= x <= a -> Rabs (u x) <= U) -> 0 < s < a / 2 -> Rabs (p s) <= U * s * C s /\ Rabs (p (a - s)) <= U * s * C s.
Proof.
  intros HU Hs. assert (K := k_pos). assert (A := ka). assert (Pp := PI_RGT_0).
  assert (Cm : forall x, 0 <= x <= s -> 0 <= C x <= C s).
  { intros x Hx. rewrite !C_sin. assert (k * x <= k * s) by (apply Rmult_le_compat_l; lra). assert (0 <= k * x) by (apply Rmult_le_pos; lra). assert (k * s < k * (a / 2)) by (apply Rmult_lt_compat_l; lra). split.
    - apply sin_ge_0; lra.
    - apply sin_incr_1; lra. }
  assert (Z0 : p 0 = 0). { unfold p. rewrite G0. rewrite C_sin. rewrite Rmult_0_r, sin_0. ring. }
  assert (Za : p a = 0). { unfold p. rewrite Ga. replace a with (a - 0) at 2 by ring. rewrite C_mirror, C_sin, Rmult_0_r, sin_0. ring. }
  assert (Cp : forall x, continuity_pt p x) by (intros x; apply continuity_pt_filterlim, (ex_derive_continuous (V := R_NormedModule) p); eexists; apply p_derive).
  assert (U0 : 0 <= U) by (assert (X := HU 0 ltac:(lra)); assert (Y := Rabs_pos (u 0)); lra).
  split.
  - destruct (MVT_gen p 0 s (fun x => u x * C x)) as (z & Hz & E); [intros; apply p_derive|intros; apply Cp|]. rewrite Rmin_left, Rmax_right in Hz by lra. rewrite Z0 in E.
    replace (p s) with (u z * C z * (s - 0)) by lra. rewrite !Rabs_mult. rewrite (Rabs_right (s - 0)) by lra. destruct (Cm z ltac:(lra)) as [C1 C2]. rewrite (Rabs_right (C z)) by lra.
    specialize (HU z ltac:(lra)). assert (Q := Rabs_pos (u z)). assert (Rabs (u z) * C z <= U * C s) by (apply Rmult_le_compat; lra). 
    assert (Rabs (u z) * C z * (s - 0) <= U * C s * (s - 0)) by (apply Rmult_le_compat_r; lra). lra.
  - destruct (MVT_gen p (a - s) a (fun x => u x * C x)) as (z & Hz & E); [intros; apply p_derive|intros; apply Cp|]. rewrite Rmin_left, Rmax_right in Hz by lra. rewrite Za in E.
    replace (p (a - s)) with (- (u z * C z * (a - (a - s)))) by lra. rewrite Rabs_Ropp, !Rabs_mult. rewrite (Rabs_right (a - (a - s))) by lra.
    destruct (Cm (a - z) ltac:(lra)) as [C1 C2]. rewrite C_mirror in C1, C2. rewrite (Rabs_right (C z)) by lra.
    specialize (HU z ltac:(lra)). assert (Q := Rabs_pos (u z)). assert (Rabs (u z) * C z <= U * C s) by (apply Rmult_le_compat; lra). 
    assert (Rabs (u z) * C z * (a - (a - s)) <= U * C s * (a - (a - s))) by (apply Rmult_le_compat_r; lra). lra.
Qed.
Lemma second : 0 <= RInt F 0 a.
Proof.
  destruct (bounded_on u a Ha Cu) as (U & U0 & HU). destruct (bounded_on F a Ha CF) as (B & B0 & HB). assert (K := k_pos).
  destruct (Rle_lt_dec 0 (RInt F 0 a)) as [L|L]; [exact L|exfalso].
  set (W := 12 * U ^ 2 + 2 * B). assert (W0 : 0 < W) by (unfold W; assert (0 <= U ^ 2) by apply pow2_ge_0; lra).
  set (s := Rmin (a / 3) (- RInt F 0 a / (2 * W))).
  assert (Hs : 0 < s <= a / 3) by (unfold s; split; [apply Rmin_glb_lt; [lra|apply Rdiv_lt_0_compat; lra]|apply Rmin_l]).
  assert (Hw : W * s < - RInt F 0 a).
  { assert (s <= - RInt F 0 a / (2 * W)) by apply Rmin_r. assert (W * s <= W * (- RInt F 0 a / (2 * W))) by (apply Rmult_le_compat_l; lra).
    replace (W * (- RInt F 0 a / (2 * W))) with (- RInt F 0 a / 2) in H0 by (field; lra). lra. }
  assert (I := inside s ltac:(lra)). destruct (p_small U s HU ltac:(lra)) as [P1 P2].
  assert (Cl := C_low s ltac:(lra)). assert (Cs : 0 < C s) by (apply C_pos; lra).
  assert (Bd : 3 * k * (p (a - s) ^ 2 + p s ^ 2) / C s ^ 3 <= 12 * U ^ 2 * s).
  { assert (Q : forall x, Rabs x <= U * s * C s -> x ^ 2 <= (U * s * C s) ^ 2) by (intros x Hx; rewrite <- (pow2_abs x); apply pow_incr; split; [apply Rabs_pos|exact Hx]).
    assert (Q1 := Q _ P1). assert (Q2 := Q _ P2).
    apply Rle_trans with (3 * k * (2 * (U * s * C s) ^ 2) / C s ^ 3).
    - unfold Rdiv. apply Rmult_le_compat_r; [left; apply Rinv_0_lt_compat, pow_lt, Cs|]. apply Rmult_le_compat_l; lra.
    - replace (3 * k * (2 * (U * s * C s) ^ 2) / C s ^ 3) with (12 * U ^ 2 * s * (k * s / 2 / C s)) by (field; lra).
      rewrite <- (Rmult_1_r (12 * U ^ 2 * s)) at 2. apply Rmult_le_compat_l; [apply Rmult_le_pos; [assert (0 <= U ^ 2) by apply pow2_ge_0; lra|lra]|].
      apply Rmult_le_reg_r with (C s); [exact Cs|]. unfold Rdiv. rewrite Rmult_assoc, Rinv_l by lra. lra. }
  assert (ex : forall x y, ex_RInt F x y) by (intros; apply (ex_RInt_continuous (V := R_CompleteNormedModule)); intros; apply CF).
  assert (Ch : RInt F 0 a = RInt F 0 s + RInt F s (a - s) + RInt F (a - s) a).
  { rewrite <- (RInt_Chasles (V := R_CompleteNormedModule) F 0 (a - s) a (ex _ _) (ex _ _)), <- (RInt_Chasles (V := R_CompleteNormedModule) F 0 s (a - s) (ex _ _) (ex _ _)). reflexivity. }
  assert (E1 : - (B * s) <= RInt F 0 s).
  { assert (X := RInt_const (V := R_CompleteNormedModule) 0 s (- B)). change (RInt (fun _ => - B) 0 s = (s - 0) * - B) in X.
    replace (- (B * s)) with ((s - 0) * - B) by ring. rewrite <- X. apply RInt_le; [lra|apply ex_RInt_const|apply ex|]. intros x Hx. specialize (HB x ltac:(lra)). apply Rabs_le_between in HB. lra. }
  assert (E2 : - (B * s) <= RInt F (a - s) a).
  { assert (X := RInt_const (V := R_CompleteNormedModule) (a - s) a (- B)). change (RInt (fun _ => - B) (a - s) a = (a - (a - s)) * - B) in X.
    replace (- (B * s)) with ((a - (a - s)) * - B) by ring. rewrite <- X. apply RInt_le; [lra|apply ex_RInt_const|apply ex|]. intros x Hx. specialize (HB x ltac:(lra)). apply Rabs_le_between in HB. lra. }
  replace (- (3 * k) * (p (a - s) ^ 2 + p s ^ 2) / C s ^ 3) with (- (3 * k * (p (a - s) ^ 2 + p s ^ 2) / C s ^ 3)) in I by (field; lra).
  unfold W in Hw. lra.
Qed.
End S2.
