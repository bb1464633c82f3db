(** Energies of smooth deflections and of the polynomials close to them. *)
From Coq Require Import Reals ZArith Lra Lia Bool FunctionalExtensionality.
From Coquelicot Require Import Coquelicot.
From Coq Require Import List.
From Verif Require Import S_Plate S_Mat S_Energy S_Space S_Limit L_Weier L_Approx.
Import ListNotations.
Open Scope R_scope.

(** ** integrals of continuous fields *)
Definition cont2 (f : field) : Prop := forall x y, continuity_2d_pt f x y.
Lemma slice_y f x y : continuity_2d_pt f x y -> continuous (fun t => f x t) y.
Proof.
  intros H. apply filterlim_locally. intros eps. destruct (H eps) as [d Hd]. exists d. intros t Ht. apply (Hd x t); [rewrite Rminus_eq_0, Rabs_R0; apply cond_pos|exact Ht].
Qed.
Lemma inner_ex f x b : cont2 f -> ex_RInt (fun y => f x y) 0 b.
Proof. intros C. apply (ex_RInt_continuous (V := R_CompleteNormedModule)). intros y _. apply slice_y, C. Qed.
Lemma inner_le f g x x' b e : 0 < b -> cont2 f -> cont2 g -> (forall y, 0 <= y <= b -> f x y <= g x' y + e) ->
  RInt (fun y => f x y) 0 b <= RInt (fun y => g x' y) 0 b + b * e.
Proof.
  intros Hb Cf Cg H. assert (E : RInt (fun y => g x' y + e) 0 b = RInt (fun y => g x' y) 0 b + b * e).
  { rewrite (RInt_plus (V := R_CompleteNormedModule) (fun y => g x' y) (fun _ => e)); [|apply inner_ex, Cg|apply ex_RInt_const].
    rewrite RInt_const. unfold plus, scal; cbn; unfold mult; cbn. ring. }
  rewrite <- E. apply RInt_le; [lra|apply inner_ex, Cf| |intros y Hy; apply H; lra].
  apply (ex_RInt_plus (V := R_CompleteNormedModule) (fun y => g x' y) (fun _ => e)); [apply inner_ex, Cg|apply ex_RInt_const].
Qed.
Lemma inner_cont f b : 0 < b -> cont2 f -> forall x0, continuous (fun x => RInt (fun y => f x y) 0 b) x0.
Proof.
  intros Hb C x0. apply filterlim_locally. intros eps.
  assert (Pe : 0 < eps / (2 * b)) by (apply Rdiv_lt_0_compat; [apply cond_pos|lra]).
  destruct (uniform_continuity_2d f (x0 - 1) (x0 + 1) 0 b (fun x y _ _ => C x y) (mkposreal _ Pe)) as [d Hd]. cbn in Hd.
  assert (Pm : 0 < Rmin d 1) by (apply Rmin_pos; [apply cond_pos|lra]). exists (mkposreal _ Pm). intros x Hx.
  assert (Hx' : Rabs (x - x0) < Rmin d 1) by exact Hx. assert (M1 := Rmin_l d 1). assert (M2 := Rmin_r d 1).
  assert (K : forall y, 0 <= y <= b -> Rabs (f x y - f x0 y) < eps / (2 * b)).
  { intros y Hy. assert (Q : Rabs (x - x0) < 1) by lra. apply Rabs_lt_between in Q. apply Hd; try lra. rewrite Rminus_eq_0, Rabs_R0. apply cond_pos. }
  change (Rabs (RInt (fun y => f x y) 0 b - RInt (fun y => f x0 y) 0 b) < eps). assert (Pe' := cond_pos eps).
  assert (I1 := inner_le f f x x0 b (eps / (2 * b)) Hb C C ltac:(intros y Hy; specialize (K y Hy); apply Rabs_lt_between in K; lra)).
  assert (I2 := inner_le f f x0 x b (eps / (2 * b)) Hb C C ltac:(intros y Hy; specialize (K y Hy); apply Rabs_lt_between in K; lra)).
  replace (b * (eps / (2 * b))) with (eps / 2) in I1, I2 by (field; lra). apply Rabs_lt_between. lra.
Qed.
Lemma outer_ex f a b : 0 < b -> cont2 f -> ex_RInt (fun x => RInt (fun y => f x y) 0 b) 0 a.
Proof. intros Hb C. apply (ex_RInt_continuous (V := R_CompleteNormedModule)). intros x _. apply inner_cont; assumption. Qed.
Lemma over_le_e a b f g e : 0 < a -> 0 < b -> cont2 f -> cont2 g -> (forall x y, 0 <= x <= a -> 0 <= y <= b -> f x y <= g x y + e) ->
  over a b f <= over a b g + a * b * e.
Proof.
  intros Ha Hb Cf Cg H. unfold over. assert (E : RInt (fun x => RInt (fun y => g x y) 0 b + b * e) 0 a = RInt (fun x => RInt (fun y => g x y) 0 b) 0 a + a * b * e).
  { rewrite (RInt_plus (V := R_CompleteNormedModule) (fun x => RInt (fun y => g x y) 0 b) (fun _ => b * e)); [|apply outer_ex; assumption|apply ex_RInt_const].
    rewrite RInt_const. unfold plus, scal; cbn; unfold mult; cbn. ring. }
  rewrite <- E. apply RInt_le; [lra|apply outer_ex; assumption| |intros x Hx; apply inner_le; try assumption; intros y Hy; apply H; lra].
  apply (ex_RInt_plus (V := R_CompleteNormedModule) (fun x => RInt (fun y => g x y) 0 b) (fun _ => b * e)); [apply outer_ex; assumption|apply ex_RInt_const].
Qed.
Lemma over_close a b f g e : 0 < a -> 0 < b -> cont2 f -> cont2 g -> (forall x y, 0 <= x <= a -> 0 <= y <= b -> Rabs (f x y - g x y) <= e) ->
  Rabs (over a b f - over a b g) <= a * b * e.
Proof.
  intros Ha Hb Cf Cg H. assert (X := over_le_e a b f g e Ha Hb Cf Cg ltac:(intros x y Hx Hy; specialize (H x y Hx Hy); apply Rabs_le_between in H; lra)).
  assert (Y := over_le_e a b g f e Ha Hb Cg Cf ltac:(intros x y Hx Hy; specialize (H x y Hx Hy); apply Rabs_le_between in H; lra)). apply Rabs_le_between. lra.
Qed.
Lemma over_null a b : over a b (fun _ _ => 0) = 0.
Proof. unfold over. rewrite (RInt_ext (V := R_CompleteNormedModule) _ (fun _ => 0)); [|intros; rewrite RInt_const]; try (rewrite RInt_const); unfold scal; cbn; unfold mult; cbn; ring. Qed.
Lemma over_pos a b f : 0 < a -> 0 < b -> cont2 f -> (forall x y, 0 <= x <= a -> 0 <= y <= b -> 0 <= f x y) -> 0 <= over a b f.
Proof.
  intros Ha Hb Cf H. assert (X := over_le_e a b (fun _ _ => 0) f 0 Ha Hb (fun x y => continuity_2d_pt_const x y 0) Cf ltac:(intros; specialize (H x y); lra)). rewrite over_null in X. lra.
Qed.
Lemma cont2_add f g : cont2 f -> cont2 g -> cont2 (fun x y => f x y + g x y).
Proof. intros F G x y. apply continuity_2d_pt_plus; [apply F|apply G]. Qed.
Lemma cont2_mul f g : cont2 f -> cont2 g -> cont2 (fun x y => f x y * g x y).
Proof. intros F G x y. apply continuity_2d_pt_mult; [apply F|apply G]. Qed.
Lemma cont2_const c : cont2 (fun _ _ => c). Proof. intros x y. apply continuity_2d_pt_const. Qed.

(** ** the energies written with the derivatives *)
Section Forms.
Variables (w : field) (W : nat -> nat -> field) (Dw : derivatives w W).
Lemma d_x : dx w = W 1%nat 0%nat. Proof. apply functional_extensionality; intros x; apply functional_extensionality; intros y. apply derivs_dx, Dw. Qed.
Lemma d_y : dy w = W 0%nat 1%nat. Proof. apply functional_extensionality; intros x; apply functional_extensionality; intros y. apply derivs_dy, Dw. Qed.
Lemma d_xx : dx (dx w) = W 2%nat 0%nat.
Proof. rewrite d_x. apply functional_extensionality; intros x; apply functional_extensionality; intros y. apply is_derive_unique, (dv_x _ _ Dw); lia. Qed.
Lemma d_yy : dy (dy w) = W 0%nat 2%nat.
Proof. rewrite d_y. apply functional_extensionality; intros x; apply functional_extensionality; intros y. apply is_derive_unique, (dv_y _ _ Dw); lia. Qed.
Lemma d_xy : dx (dy w) = W 1%nat 1%nat.
Proof. rewrite d_y. apply functional_extensionality; intros x; apply functional_extensionality; intros y. apply is_derive_unique, (dv_x _ _ Dw); lia. Qed.
Definition bend_at (D : mat3) : field := fun x y => dot (V3 (- W 2%nat 0%nat x y) (- W 0%nat 2%nat x y) (-2 * W 1%nat 1%nat x y)) (mvec D (V3 (- W 2%nat 0%nat x y) (- W 0%nat 2%nat x y) (-2 * W 1%nat 1%nat x y))).
Definition load_at (Nxx Nyy Nxy : R) : field := fun x y => Nxx * W 1%nat 0%nat x y * W 1%nat 0%nat x y + Nyy * W 0%nat 1%nat x y * W 0%nat 1%nat x y + Nxy * (W 1%nat 0%nat x y * W 0%nat 1%nat x y + W 0%nat 1%nat x y * W 1%nat 0%nat x y).
Lemma bending_W D a b : bending D a b w w = over a b (bend_at D).
Proof. unfold bending, curvature, bend_at. rewrite d_xx, d_yy, d_xy. reflexivity. Qed.
Lemma load_W Nxx Nyy Nxy a b : load_work Nxx Nyy Nxy a b w w = over a b (load_at Nxx Nyy Nxy).
Proof. unfold load_work, load_at. rewrite d_x, d_y. reflexivity. Qed.
Lemma W_cont p q : (p <= 2)%nat -> (q <= 2)%nat -> cont2 (W p q).
Proof. intros Hp Hq x y. apply (dv_cont _ _ Dw); assumption. Qed.
Lemma bend_cont D : cont2 (bend_at D).
Proof.
  assert (A := W_cont 2 0 ltac:(lia) ltac:(lia)). assert (B := W_cont 0 2 ltac:(lia) ltac:(lia)). assert (C := W_cont 1 1 ltac:(lia) ltac:(lia)).
  intros x y. apply (continuity_2d_pt_ext (fun x y => a11 D * (W 2%nat 0%nat x y * W 2%nat 0%nat x y) + (a12 D + a21 D) * (W 2%nat 0%nat x y * W 0%nat 2%nat x y) + 2 * (a13 D + a31 D) * (W 2%nat 0%nat x y * W 1%nat 1%nat x y)
    + a22 D * (W 0%nat 2%nat x y * W 0%nat 2%nat x y) + 2 * (a23 D + a32 D) * (W 0%nat 2%nat x y * W 1%nat 1%nat x y) + 4 * a33 D * (W 1%nat 1%nat x y * W 1%nat 1%nat x y))).
  - intros u v. unfold bend_at, dot, mvec. cbn [vx vy vz]. ring.
  - repeat first [apply cont2_add|apply cont2_mul|apply cont2_const|assumption].
Qed.
Lemma load_cont Nxx Nyy Nxy : cont2 (load_at Nxx Nyy Nxy).
Proof.
  assert (A := W_cont 1 0 ltac:(lia) ltac:(lia)). assert (B := W_cont 0 1 ltac:(lia) ltac:(lia)). unfold load_at.
  repeat first [apply (cont2_add (fun x y => _) (fun x y => _))|apply (cont2_mul (fun x y => _) (fun x y => _))|apply cont2_const|assumption].
Qed.
Lemma W_bounded a b : 0 < a -> 0 < b -> exists M, 0 < M /\ forall p q x y, (p + q <= 2)%nat -> 0 <= x <= a -> 0 <= y <= b -> Rabs (W p q x y) <= M.
Proof.
  intros Ha Hb. assert (G : forall p q, (p <= 2)%nat -> (q <= 2)%nat -> exists M, 0 < M /\ forall x y, 0 <= x <= a -> 0 <= y <= b -> Rabs (W p q x y) <= M).
  { intros p q Hp Hq. destruct (cont_bounded (W p q) a b Ha Hb (fun x y _ _ => W_cont p q Hp Hq x y)) as (M & P & H). exists M. split; [exact P|]. intros. apply H; assumption. }
  destruct (G 0%nat 0%nat ltac:(lia) ltac:(lia)) as (M0 & P0 & H0). destruct (G 1%nat 0%nat ltac:(lia) ltac:(lia)) as (M1 & P1 & H1). destruct (G 0%nat 1%nat ltac:(lia) ltac:(lia)) as (M2 & P2 & H2).
  destruct (G 2%nat 0%nat ltac:(lia) ltac:(lia)) as (M3 & P3 & H3). destruct (G 1%nat 1%nat ltac:(lia) ltac:(lia)) as (M4 & P4 & H4). destruct (G 0%nat 2%nat ltac:(lia) ltac:(lia)) as (M5 & P5 & H5).
  exists (M0 + M1 + M2 + M3 + M4 + M5). split; [lra|]. intros [|[|[|p]]] [|[|[|q]]] x y Hpq Hx Hy; try lia;
    [specialize (H0 x y Hx Hy)|specialize (H2 x y Hx Hy)|specialize (H5 x y Hx Hy)|specialize (H1 x y Hx Hy)|specialize (H4 x y Hx Hy)|specialize (H3 x y Hx Hy)]; lra.
Qed.
End Forms.

(** ** nearby fields have nearby energies *)
Lemma prod_close M e c u u' v v' : 0 <= e <= 1 -> Rabs u <= M -> Rabs v <= M -> Rabs (u' - u) <= e -> Rabs (v' - v) <= e -> Rabs (c * (u' * v') - c * (u * v)) <= Rabs c * (e * (2 * M + 1)).
Proof.
  intros He Hu Hv Du Dv. rewrite <- Rmult_minus_distr_l, Rabs_mult. apply Rmult_le_compat_l; [apply Rabs_pos|].
  replace (u' * v' - u * v) with ((u' - u) * (v' - v) + (u' - u) * v + u * (v' - v)) by ring.
  eapply Rle_trans; [apply Rabs_triang|]. eapply Rle_trans; [apply Rplus_le_compat_r, Rabs_triang|]. rewrite !Rabs_mult.
  assert (P1 := Rabs_pos (u' - u)). assert (P2 := Rabs_pos (v' - v)). assert (P3 := Rabs_pos u). assert (P4 := Rabs_pos v).
  assert (Rabs (u' - u) * Rabs (v' - v) <= e * 1) by (apply Rmult_le_compat; lra).
  assert (Rabs (u' - u) * Rabs v <= e * M) by (apply Rmult_le_compat; lra).
  assert (Rabs u * Rabs (v' - v) <= M * e) by (apply Rmult_le_compat; lra). lra.
Qed.
Definition size3 (D : mat3) : R := Rabs (a11 D) + Rabs (a12 D + a21 D) + Rabs (2 * (a13 D + a31 D)) + Rabs (a22 D) + Rabs (2 * (a23 D + a32 D)) + Rabs (4 * a33 D).
Lemma energies_close a b w W : 0 < a -> 0 < b -> derivatives w W -> forall D Nxx Nyy Nxy, exists C, 0 < C /\ forall l e, 0 <= e <= 1 -> close a b l W e ->
  Rabs (bending D a b (ev l) (ev l) - bending D a b w w) <= C * e /\ Rabs (load_work Nxx Nyy Nxy a b (ev l) (ev l) - load_work Nxx Nyy Nxy a b w w) <= C * e.
Proof.
  intros Ha Hb Dw D Nxx Nyy Nxy. destruct (W_bounded w W Dw a b Ha Hb) as (M & PM & HM).
  set (S1 := size3 D). set (S2 := Rabs Nxx + Rabs Nyy + Rabs (2 * Nxy)).
  assert (P1 : 0 <= S1) by (unfold S1, size3; repeat match goal with |- context[Rabs ?z] => let q := fresh in assert (q := Rabs_pos z); revert q; generalize (Rabs z); intros end; lra).
  assert (P2 : 0 <= S2) by (unfold S2; repeat match goal with |- context[Rabs ?z] => let q := fresh in assert (q := Rabs_pos z); revert q; generalize (Rabs z); intros end; lra).
  assert (Pab : 0 < a * b) by (apply Rmult_lt_0_compat; assumption).
  exists (a * b * ((S1 + S2 + 1) * (2 * M + 1))). split; [apply Rmult_lt_0_compat; [exact Pab|apply Rmult_lt_0_compat; lra]|]. intros l e He Cl.
  assert (Dl := ev_derivatives l). assert (e0 := proj1 He).
  assert (Pr : forall p q r s c x y, (p + q <= 2)%nat -> (r + s <= 2)%nat -> 0 <= x <= a -> 0 <= y <= b ->
    Rabs (c * (ev (DD p q l) x y * ev (DD r s l) x y) - c * (W p q x y * W r s x y)) <= Rabs c * (e * (2 * M + 1))).
  { intros p q r s c x y Hpq Hrs Hx Hy. apply prod_close; [exact He|apply HM; assumption|apply HM; assumption|apply Cl; try assumption; lia|apply Cl; try assumption; lia]. }
  assert (Me : 0 <= e * (2 * M + 1)) by (apply Rmult_le_pos; lra).
  split.
  - rewrite (bending_W _ _ Dl), (bending_W _ _ Dw). eapply Rle_trans; [apply (over_close a b _ _ (S1 * (e * (2 * M + 1))) Ha Hb (bend_cont _ _ Dl D) (bend_cont _ _ Dw D))|].
    + intros x y Hx Hy. assert (Q1 := Pr 2%nat 0%nat 2%nat 0%nat (a11 D) x y ltac:(lia) ltac:(lia) Hx Hy). assert (Q2 := Pr 2%nat 0%nat 0%nat 2%nat (a12 D + a21 D) x y ltac:(lia) ltac:(lia) Hx Hy).
      assert (Q3 := Pr 2%nat 0%nat 1%nat 1%nat (2 * (a13 D + a31 D)) x y ltac:(lia) ltac:(lia) Hx Hy). assert (Q4 := Pr 0%nat 2%nat 0%nat 2%nat (a22 D) x y ltac:(lia) ltac:(lia) Hx Hy).
      assert (Q5 := Pr 0%nat 2%nat 1%nat 1%nat (2 * (a23 D + a32 D)) x y ltac:(lia) ltac:(lia) Hx Hy). assert (Q6 := Pr 1%nat 1%nat 1%nat 1%nat (4 * a33 D) x y ltac:(lia) ltac:(lia) Hx Hy).
      unfold S1, size3, bend_at, dot, mvec. cbn [vx vy vz]. apply Rabs_le_between in Q1, Q2, Q3, Q4, Q5, Q6. apply Rabs_le_between. lra.
    + rewrite !Rmult_assoc. do 2 (apply Rmult_le_compat_l; [lra|]). replace ((S1 + S2 + 1) * ((2 * M + 1) * e)) with ((S1 + S2 + 1) * (e * (2 * M + 1))) by ring. apply Rmult_le_compat_r; lra.
  - rewrite (load_W _ _ Dl), (load_W _ _ Dw). eapply Rle_trans; [apply (over_close a b _ _ (S2 * (e * (2 * M + 1))) Ha Hb (load_cont _ _ Dl Nxx Nyy Nxy) (load_cont _ _ Dw Nxx Nyy Nxy))|].
    + intros x y Hx Hy. assert (Q1 := Pr 1%nat 0%nat 1%nat 0%nat Nxx x y ltac:(lia) ltac:(lia) Hx Hy). assert (Q2 := Pr 0%nat 1%nat 0%nat 1%nat Nyy x y ltac:(lia) ltac:(lia) Hx Hy).
      assert (Q3 := Pr 1%nat 0%nat 0%nat 1%nat (2 * Nxy) x y ltac:(lia) ltac:(lia) Hx Hy).
      unfold S2, load_at. apply Rabs_le_between in Q1, Q2, Q3. apply Rabs_le_between. lra.
    + rewrite !Rmult_assoc. do 2 (apply Rmult_le_compat_l; [lra|]). replace ((S1 + S2 + 1) * ((2 * M + 1) * e)) with ((S1 + S2 + 1) * (e * (2 * M + 1))) by ring. apply Rmult_le_compat_r; lra.
Qed.
(** every deflection has polynomial neighbours with nearly its energies *)
Lemma neighbours a b c0 ca d0 db w D Nxx Nyy Nxy eps : 0 < a -> 0 < b -> deflection a b c0 ca d0 db w -> 0 < eps -> exists l, fits a b c0 ca d0 db (ev l) /\
  Rabs (bending D a b (ev l) (ev l) - bending D a b w w) < eps /\ Rabs (load_work Nxx Nyy Nxy a b (ev l) (ev l) - load_work Nxx Nyy Nxy a b w w) < eps.
Proof.
  intros Ha Hb [[W Dw] Kw] He. destruct (energies_close a b w W Ha Hb Dw D Nxx Nyy Nxy) as (C & PC & H).
  set (e := Rmin 1 (eps / (2 * C))). assert (Pe : 0 < e) by (apply Rmin_pos; [lra|apply Rdiv_lt_0_compat; lra]). assert (M1 := Rmin_l 1 (eps / (2 * C))). assert (M2 := Rmin_r 1 (eps / (2 * C))). fold e in M1, M2.
  destruct (approx a b c0 ca d0 db w W e Ha Hb Dw Kw Pe) as (l & Cl & Fl). exists l. split; [exact Fl|]. destruct (H l e ltac:(lra) Cl) as [H1 H2].
  assert (C * e <= eps / 2). { replace (eps / 2) with (C * (eps / (2 * C))) by (field; lra). apply Rmult_le_compat_l; lra. } lra.
Qed.
(** ** polynomials *)
Lemma fits_kept a b c0 ca d0 db w : fits a b c0 ca d0 db w -> kept a b c0 ca d0 db w.
Proof. intros [[A B] [C D] [E F] [G H]]. constructor; intros z _; split; intros Q; auto. Qed.
Lemma ev_deflection a b c0 ca d0 db l : fits a b c0 ca d0 db (ev l) -> deflection a b c0 ca d0 db (ev l).
Proof. intros F. split; [eexists; apply ev_derivatives|apply fits_kept, F]. Qed.
Fixpoint row (q : list R) : list tm := match q with [] => [] | c :: q' => (c, (0, 0)%nat) :: swap (mx (swap (row q'))) end.
Lemma ev_row q x y : ev (row q) x y = poly q y.
Proof. revert x. induction q as [|c q IH]; intros x; [reflexivity|]. cbn [row poly]. rewrite ev_cons, ev_swap, ev_mx, ev_swap, IH. unfold tval. cbn [fst snd pow]. ring. Qed.
Fixpoint table (P : list (list R)) : list tm := match P with [] => [] | q :: P' => row q ++ mx (table P') end.
Lemma ev_table P x y : ev (table P) x y = poly (map (fun q => poly q y) P) x.
Proof. induction P as [|q P IH]; [reflexivity|]. cbn [table map poly]. rewrite ev_app, ev_mx, ev_row, IH. reflexivity. Qed.
Lemma bipoly_ev k l w : bipoly k l w -> exists t, w = ev t.
Proof. intros (P & _ & _ & H). exists (table P). apply functional_extensionality; intros x; apply functional_extensionality; intros y. rewrite ev_table. apply H. Qed.
