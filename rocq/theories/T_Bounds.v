(** Proofs of the classical bounds of the buckling factor. *)
From Coq Require Import QArith Qreals Reals ZArith Lra Lia Bool String Classical FunctionalExtensionality.
From Coquelicot Require Import Coquelicot.
From Coq Require Import List.
From Verif Require Import M_Py M_Plate M_K M_RealArith M_Plot M_Buckling M_Tables S_Plate S_Mat S_Bardell S_Energy S_K S_Ritz S_Eigen S_Compare S_Space S_Bounds L_Quad L_Eigen L_Plate L_FirstK L_K L_KR L_Poly L_Shape L_TabV L_Energy L_Ritz L_Wirtinger T_Plate T_Shape T_K T_Energy T_Buckling T_Compare T_Space T_Stored T_Solver.
Import ListNotations.
Open Scope R_scope.

(** ** integrals over the plate in the other order *)
Definition flip (f : field) : field := fun y x => f x y.
Lemma flip_pf a b l : flip (pf a b l) = pf b a (map (fun t => (fst t, (snd (snd t), fst (snd t)))) l).
Proof. apply field_ext. intros y x. unfold flip, pf. rewrite map_map. f_equal. apply map_ext. intros t. unfold tval. cbn [fst snd]. ring. Qed.
Lemma nice_flip a b f : nice a b f -> nice b a (flip f).
Proof. intros [l ->]. rewrite flip_pf. eexists. reflexivity. Qed.
Lemma over_flip a b f : a <> 0 -> b <> 0 -> nice a b f -> over b a (flip f) = over a b f.
Proof.
  intros Ha Hb [l ->]. rewrite flip_pf, !over_pf by assumption. unfold integ. rewrite map_map. f_equal. apply map_ext. intros t. cbn [fst snd]. ring.
Qed.
Lemma dx_dy a b f : nice a b f -> dx (dy f) = dy (dx f).
Proof.
  intros [l ->]. 
  assert (X : dx (pf a b l) = pf a b (map (fun t => (2 / a * fst t, (qderiv (fst (snd t)), snd (snd t)))) l)) by (apply field_ext; intros x y; apply is_derive_unique, pf_derive_x).
  assert (Y : dy (pf a b l) = pf a b (map (fun t => (2 / b * fst t, (fst (snd t), qderiv (snd (snd t))))) l)) by (apply field_ext; intros x y; apply is_derive_unique, pf_derive_y).
  rewrite X, Y. apply field_ext. intros x y. transitivity (pf a b (map (fun t => (2 / a * (2 / b * fst t), (qderiv (fst (snd t)), qderiv (snd (snd t))))) l) x y).
  - unfold dx. etransitivity; [apply is_derive_unique, pf_derive_x|]. rewrite map_map. reflexivity.
  - symmetry. unfold dy. etransitivity; [apply is_derive_unique, pf_derive_y|]. rewrite map_map. unfold pf. rewrite !map_map. f_equal. apply map_ext. intros t. unfold tval. cbn [fst snd]. ring.
Qed.
Lemma over_inner_le a b f g : 0 < a -> 0 < b -> nice a b f -> nice a b g ->
  (forall x, RInt (fun y => f x y) 0 b <= RInt (fun y => g x y) 0 b) -> over a b f <= over a b g.
Proof. intros Ha Hb F G H. unfold over. apply RInt_le; [lra|apply nice_outer_ex; lra || exact F|apply nice_outer_ex; lra || exact G|]. intros x _. apply H. Qed.
Lemma nice_sq a b f : nice a b f -> nice a b (fun x y => f x y ^ 2).
Proof. intros F. eapply (eq_ind _ (nice a b) (nice_mul a b f f F F)). apply field_ext. intros. ring. Qed.

Ltac nt := lazymatch goal with |- nice _ _ _ => repeat first [assumption|apply nice_sq|apply nice_add|apply nice_scal|apply nice_mul|apply nice_dx|apply nice_dy] | _ => lra end.

(** integration by parts *)
Lemma parts_y a b f g : 0 < a -> 0 < b -> nice a b f -> nice a b g -> (forall x, f x 0 * g x 0 = 0) -> (forall x, f x b * g x b = 0) ->
  over a b (fun x y => dy f x y * g x y) = - over a b (fun x y => f x y * dy g x y).
Proof.
  intros Ha Hb F G E0 Eb. assert (Fy := nice_dy a b f F). assert (Gy := nice_dy a b g G).
  assert (Z : over a b (fun x y => dy f x y * g x y + f x y * dy g x y) = 0); [|rewrite over_add in Z by (lra || apply nice_mul; assumption); lra].
  unfold over. etransitivity; [apply (RInt_ext (V := R_CompleteNormedModule) _ (fun _ => 0))|rewrite RInt_const; unfold scal; cbn; unfold mult; cbn; ring].
  intros x _. apply (is_RInt_unique (V := R_CompleteNormedModule)).
  evar_last; [apply (is_RInt_derive (V := R_CompleteNormedModule) (fun y => f x y * g x y))|].
  - intros y _. apply (is_derive_mult (fun y => f x y) (fun y => g x y)); [apply (nice_is_dy a b), F|apply (nice_is_dy a b), G|intros; apply Rmult_comm].
  - intros y _. apply (nice_cont_y a b (fun x y => dy f x y * g x y + f x y * dy g x y)). apply nice_add; apply nice_mul; assumption.
  - rewrite E0, Eb. unfold minus, plus, opp; cbn. ring.
Qed.
Lemma parts_x a b f g : 0 < a -> 0 < b -> nice a b f -> nice a b g -> (forall y, f 0 y * g 0 y = 0) -> (forall y, f a y * g a y = 0) ->
  over a b (fun x y => dx f x y * g x y) = - over a b (fun x y => f x y * dx g x y).
Proof.
  intros Ha Hb F G E0 Ea. assert (Fx := nice_dx a b f F). assert (Gx := nice_dx a b g G).
  rewrite <- (over_flip a b (fun x y => dx f x y * g x y)), <- (over_flip a b (fun x y => f x y * dx g x y)) by (lra || apply nice_mul; assumption).
  apply (parts_y b a (flip f) (flip g) Hb Ha (nice_flip a b f F) (nice_flip a b g G)); intros; [apply E0|apply Ea].
Qed.

(** ** Wirtinger's inequality on the plate *)
Section W.
Variables (a b : R) (Ha : 0 < a) (Hb : 0 < b).
Definition I2 (f : field) : R := over a b (fun x y => f x y ^ 2).
Lemma I2_nonneg f : nice a b f -> 0 <= I2 f.
Proof. intros F. unfold I2. apply (over_nonneg a b (fun x y => f x y ^ 2)); [exact Ha|exact Hb|apply nice_sq, F|intros; apply pow2_ge_0]. Qed.
Lemma lift_y k f : nice a b f -> (forall x, k ^ 2 * RInt (fun y => f x y ^ 2) 0 b <= RInt (fun y => dy f x y ^ 2) 0 b) -> k ^ 2 * I2 f <= I2 (dy f).
Proof.
  intros F H. unfold I2. rewrite <- over_scal by (lra || apply nice_sq, F). apply over_inner_le; [exact Ha|exact Hb|apply nice_scal, nice_sq, F|apply nice_sq, nice_dy, F|].
  intros x. rewrite (RInt_scal (V := R_CompleteNormedModule) (fun y => f x y ^ 2)); [apply H|]. apply (nice_inner_ex a b ltac:(lra) (fun x y => f x y ^ 2)), nice_sq, F.
Qed.
End W.
Lemma lift_x a b k f : 0 < a -> 0 < b -> nice a b f -> (forall y, k ^ 2 * RInt (fun x => f x y ^ 2) 0 a <= RInt (fun x => dx f x y ^ 2) 0 a) -> k ^ 2 * I2 a b f <= I2 a b (dx f).
Proof.
  intros Ha Hb F H. unfold I2. rewrite <- (over_flip a b (fun x y => f x y ^ 2)), <- (over_flip a b (fun x y => dx f x y ^ 2)) by (lra || apply nice_sq; try apply nice_dx; exact F).
  apply (lift_y b a Hb Ha k (flip f) (nice_flip a b f F)). exact H.
Qed.
Section W2.
Variables (a b : R) (Ha : 0 < a) (Hb : 0 < b) (f : field) (F : nice a b f).
Let Dx := fun y x => nice_is_dx a b f x y F.
Let Cx := fun y x => nice_cont_x a b (dx f) y x (nice_dx a b f F).
Lemma held_x : (forall y, f 0 y = 0) -> (forall y, f a y = 0) -> (PI / a) ^ 2 * I2 a b f <= I2 a b (dx f).
Proof. intros E0 Ea. apply lift_x; [exact Ha|exact Hb|exact F|]. intros y. apply (wirtinger (fun x => f x y) (fun x => dx f x y) (Dx y) (Cx y) a Ha (E0 y) (Ea y)). Qed.
Lemma left_x : (forall y, f 0 y = 0) -> (PI / (2 * a)) ^ 2 * I2 a b f <= I2 a b (dx f).
Proof. intros E0. apply lift_x; [exact Ha|exact Hb|exact F|]. intros y. apply (wirtinger_half (fun x => f x y) (fun x => dx f x y) (Dx y) (Cx y) a Ha (E0 y)). Qed.
Lemma right_x : (forall y, f a y = 0) -> (PI / (2 * a)) ^ 2 * I2 a b f <= I2 a b (dx f).
Proof. intros E0. apply lift_x; [exact Ha|exact Hb|exact F|]. intros y. apply (wirtinger_half_r (fun x => f x y) (fun x => dx f x y) (Dx y) (Cx y) a Ha (E0 y)). Qed.
(** the slope of a function with equal values at both ends *)
Lemma mean_x : (forall y, f 0 y = f a y) -> (forall y, dx f 0 y = dx f a y) -> (2 * PI / a) ^ 2 * I2 a b (dx f) <= I2 a b (dx (dx f)).
Proof.
  intros E Es. apply lift_x; [exact Ha|exact Hb|apply nice_dx, F|]. intros y.
  apply (wirtinger_mean (fun x => dx f x y) (fun x => dx (dx f) x y)).
  - intros x. apply (nice_is_dx a b), nice_dx, F.
  - intros x. apply (nice_cont_x a b), nice_dx, nice_dx, F.
  - exact Ha.
  - apply Es.
  - apply (is_RInt_unique (V := R_CompleteNormedModule)). evar_last; [apply (is_RInt_derive (V := R_CompleteNormedModule) (fun x => f x y)); [intros; apply Dx|intros; apply Cx]|].
    rewrite E. unfold minus, plus, opp; cbn. ring.
Qed.
(** a function held at both ends: its slope and its curvature *)
Lemma bend_x k : (forall y, f 0 y = 0) -> (forall y, f a y = 0) -> I2 a b (dx (dx f)) + k ^ 2 * I2 a b f >= 2 * k * I2 a b (dx f).
Proof.
  intros E0 Ea. assert (F1 := nice_dx a b f F). assert (F2 := nice_dx a b _ F1).
  assert (P := parts_x a b f (dx f) Ha Hb F F1 ltac:(intros; rewrite E0; ring) ltac:(intros; rewrite Ea; ring)).
  assert (Q := I2_nonneg a b Ha Hb (fun x y => dx (dx f) x y + k * f x y) (nice_add a b _ _ F2 (nice_scal a b k f F))). unfold I2 in *.
  assert (E : over a b (fun x y => (dx (dx f) x y + k * f x y) ^ 2) = over a b (fun x y => dx (dx f) x y ^ 2) + 2 * k * over a b (fun x y => f x y * dx (dx f) x y) + k ^ 2 * over a b (fun x y => f x y ^ 2)).
  { rewrite <- !over_scal by nt. rewrite <- !over_add by nt.
    apply over_ext. intros. ring. }
  assert (P' : over a b (fun x y => dx f x y ^ 2) = - over a b (fun x y => f x y * dx (dx f) x y)) by (rewrite <- P; apply over_ext; intros; ring).
  rewrite E in Q. rewrite P'. lra.
Qed.
End W2.
Lemma flip_dx f : flip (dx f) = dy (flip f). Proof. reflexivity. Qed.
Lemma I2_flip a b f : 0 < a -> 0 < b -> nice a b f -> I2 b a (flip f) = I2 a b f.
Proof. intros Ha Hb F. unfold I2. rewrite <- (over_flip a b (fun x y => f x y ^ 2)) by (lra || apply nice_sq, F). reflexivity. Qed.
Lemma held_y a b f : 0 < a -> 0 < b -> nice a b f -> (forall x, f x 0 = 0) -> (forall x, f x b = 0) -> (PI / b) ^ 2 * I2 a b f <= I2 a b (dy f).
Proof.
  intros Ha Hb F E0 Eb. assert (H := held_x b a Hb Ha (flip f) (nice_flip a b f F) E0 Eb).
  rewrite (I2_flip a b f Ha Hb F) in H. change (dx (flip f)) with (flip (dy f)) in H. rewrite (I2_flip a b (dy f) Ha Hb (nice_dy a b f F)) in H. exact H.
Qed.
Lemma bend_y a b f k : 0 < a -> 0 < b -> nice a b f -> (forall x, f x 0 = 0) -> (forall x, f x b = 0) -> I2 a b (dy (dy f)) + k ^ 2 * I2 a b f >= 2 * k * I2 a b (dy f).
Proof.
  intros Ha Hb F E0 Eb. assert (F1 := nice_dy a b f F). assert (F2 := nice_dy a b _ F1). assert (H := bend_x b a Hb Ha (flip f) (nice_flip a b f F) k E0 Eb).
  change (dx (dx (flip f))) with (flip (dy (dy f))) in H. change (dx (flip f)) with (flip (dy f)) in H. rewrite !I2_flip in H by assumption. exact H.
Qed.

(** ** a deflection held on all edges *)
Section H.
Variables (a b : R) (Ha : 0 < a) (Hb : 0 < b) (w : field) (W : nice a b w).
Hypotheses (E0 : forall y, w 0 y = 0) (Ea : forall y, w a y = 0) (F0 : forall x, w x 0 = 0) (Fb : forall x, w x b = 0).
Let Wx := nice_dx a b w W. Let Wy := nice_dy a b w W. Let Wxx := nice_dx a b _ Wx. Let Wyy := nice_dy a b _ Wy. Let Wxy := nice_dx a b _ Wy.
Lemma dy_zero (f : field) x : (forall y, f x y = 0) -> forall y, dy f x y = 0.
Proof. intros H y. unfold dy. rewrite (Derive_ext (fun t => f x t) (fun _ => 0)) by exact H. apply Derive_const. Qed.
Lemma dx_zero (f : field) y : (forall x, f x y = 0) -> forall x, dx f x y = 0.
Proof. intros H x. unfold dx. rewrite (Derive_ext (fun t => f t y) (fun _ => 0)) by exact H. apply Derive_const. Qed.
Lemma mixed_int : over a b (fun x y => dx (dx w) x y * dy (dy w) x y) = I2 a b (dx (dy w)).
Proof.
  rewrite (parts_x a b (dx w) (dy (dy w)) Ha Hb Wx Wyy).
  2:{ intros y. rewrite (dy_zero (dy w) 0); [ring|]. apply dy_zero, E0. }
  2:{ intros y. rewrite (dy_zero (dy w) a); [ring|]. apply dy_zero, Ea. }
  rewrite (dx_dy a b (dy w) Wy).
  assert (Q := parts_y a b (dx w) (dx (dy w)) Ha Hb Wx Wxy ltac:(intros x; rewrite (dx_zero w 0 F0); ring) ltac:(intros x; rewrite (dx_zero w b Fb); ring)).
  rewrite <- Q. rewrite <- (dx_dy a b w W). unfold I2. apply over_ext. intros. ring.
Qed.
Lemma mixed_x : (PI / b) ^ 2 * I2 a b (dx w) <= I2 a b (dx (dy w)).
Proof. rewrite (dx_dy a b w W). apply held_y; [exact Ha|exact Hb|exact Wx|apply dx_zero, F0|apply dx_zero, Fb]. Qed.
Lemma mixed_y : (PI / a) ^ 2 * I2 a b (dy w) <= I2 a b (dx (dy w)).
Proof. apply held_x; [exact Ha|exact Hb|exact Wy|apply dy_zero, E0|apply dy_zero, Ea]. Qed.
Lemma curve_x : (PI / a) ^ 2 * I2 a b (dx w) <= I2 a b (dx (dx w)).
Proof.
  assert (H1 := held_x a b Ha Hb w W E0 Ea). assert (H2 := bend_x a b Ha Hb w W ((PI / a) ^ 2) E0 Ea).
  assert (Q := pow2_ge_0 (PI / a)). assert ((PI / a) ^ 2 * ((PI / a) ^ 2 * I2 a b w) <= (PI / a) ^ 2 * I2 a b (dx w)) by (apply Rmult_le_compat_l; assumption). lra.
Qed.
Lemma curve_y : (PI / b) ^ 2 * I2 a b (dy w) <= I2 a b (dy (dy w)).
Proof.
  assert (H1 := held_y a b w Ha Hb W F0 Fb). assert (H2 := bend_y a b w ((PI / b) ^ 2) Ha Hb W F0 Fb).
  assert (Q := pow2_ge_0 (PI / b)). assert ((PI / b) ^ 2 * ((PI / b) ^ 2 * I2 a b w) <= (PI / b) ^ 2 * I2 a b (dy w)) by (apply Rmult_le_compat_l; assumption). lra.
Qed.
Lemma curve_yy : (PI / b) ^ 4 * I2 a b w <= I2 a b (dy (dy w)).
Proof.
  assert (H1 := held_y a b w Ha Hb W F0 Fb). assert (H2 := curve_y).
  assert (Q := pow2_ge_0 (PI / b)). assert ((PI / b) ^ 2 * ((PI / b) ^ 2 * I2 a b w) <= (PI / b) ^ 2 * I2 a b (dy w)) by (apply Rmult_le_compat_l; assumption). lra.
Qed.
Lemma second_x : 0 <= I2 a b (dx (dx w)) - 5 * (PI / a) ^ 2 * I2 a b (dx w) + 4 * (PI / a) ^ 4 * I2 a b w.
Proof.
  set (k := PI / a).
  assert (P := parts_x a b w (dx w) Ha Hb W Wx ltac:(intros; rewrite E0; ring) ltac:(intros; rewrite Ea; ring)).
  set (F := fun x y => (dx (dx w) x y + k ^ 2 * w x y) ^ 2 + - (3 * k ^ 2) * (dx w x y ^ 2 + - k ^ 2 * w x y ^ 2)).
  assert (NF : nice a b F) by (unfold F; nt).
  assert (Z : 0 <= over a b F).
  { rewrite <- (over_flip a b F) by (lra || exact NF).
    assert (NZ : nice b a (fun _ _ => 0)) by apply nice_zero.
    replace 0 with (over b a (fun _ _ => 0)).
    2:{ assert (Q := over_scal b a ltac:(lra) ltac:(lra) 0 (fun _ _ => 0) NZ). rewrite Rmult_0_l in Q. etransitivity; [|exact Q]. apply over_ext. intros. ring. }
    apply over_inner_le; [exact Hb|exact Ha|exact NZ|apply nice_flip, NF|]. intros y.
    assert (Zc : RInt (fun _ => 0) 0 a = 0) by (rewrite RInt_const; unfold scal; cbn; unfold mult; cbn; ring). rewrite Zc.
    unfold flip, F. eapply Rle_trans; [apply (second (fun x => w x y) (fun x => dx w x y) (fun x => dx (dx w) x y) a)|right; apply RInt_ext; intros x _].
    - intros x. apply (nice_is_dx a b), W.
    - intros x. apply (nice_is_dx a b), Wx.
    - intros x. apply (nice_cont_x a b), Wxx.
    - exact Ha.
    - apply E0.
    - apply Ea.
    - cbv beta. change (@eq R ((dx (dx w) x y + (PI / a) ^ 2 * w x y) ^ 2 - 3 * (PI / a) ^ 2 * (dx w x y ^ 2 - (PI / a) ^ 2 * w x y ^ 2)) ((dx (dx w) x y + k ^ 2 * w x y) ^ 2 + - (3 * k ^ 2) * (dx w x y ^ 2 + - k ^ 2 * w x y ^ 2))). unfold k. ring. }
  unfold I2 in *.
  assert (E : over a b F = over a b (fun x y => dx (dx w) x y ^ 2) + 2 * k ^ 2 * over a b (fun x y => w x y * dx (dx w) x y) + - (3 * k ^ 2) * over a b (fun x y => dx w x y ^ 2) + 4 * k ^ 4 * over a b (fun x y => w x y ^ 2)).
  { unfold F. rewrite <- !over_scal by nt. rewrite <- !over_add by nt. apply over_ext. intros. ring. }
  assert (P' : over a b (fun x y => dx w x y ^ 2) = - over a b (fun x y => w x y * dx (dx w) x y)) by (rewrite <- P; apply over_ext; intros; ring).
  rewrite E in Z. nra.
Qed.
(** the energy without coupling of bending and twisting *)
Lemma ortho_energy D : symmetric D -> orthotropic D ->
  bending D a b w w = a11 D * I2 a b (dx (dx w)) + 2 * mixed_stiffness D * I2 a b (dx (dy w)) + a22 D * I2 a b (dy (dy w)).
Proof.
  intros Sy [O1 O2]. rewrite bending_expand by (lra || assumption).
  assert (S1 : a21 D = a12 D) by exact (f_equal a12 Sy). assert (S2 : a31 D = a13 D) by exact (f_equal a13 Sy). assert (S3 : a32 D = a23 D) by exact (f_equal a23 Sy).
  rewrite S1, S2, S3, O1, O2.
  assert (X : over a b (fun x y => dy (dy w) x y * dx (dx w) x y) = over a b (fun x y => dx (dx w) x y * dy (dy w) x y)) by (apply over_ext; intros; ring).
  rewrite X, mixed_int. unfold I2, mixed_stiffness.
  assert (Sq : forall f : field, over a b (fun x y => f x y * f x y) = over a b (fun x y => f x y ^ 2)) by (intros f; apply over_ext; intros; ring).
  rewrite !Sq. ring.
Qed.
End H.

(** ** the deflection of a factor *)
Lemma eig D a b Nxx Nyy Nxy c c0 ca d0 db m n (K KG : list (list R)) l : plate_any D a b c c0 ca d0 db ->
  calc_K_KG_D exact_tables (as_arr D) a b Nxx Nyy Nxy c m n = Ok (K, KG) -> factor K KG l ->
  exists w, nice a b w /\ fits a b c0 ca d0 db w /\ 0 < bending D a b w w /\ bending D a b w w + l * load_work Nxx Nyy Nxy a b w w = 0.
Proof.
  intros Pk H (v & Bv). destruct (look_any D a b Nxx Nyy Nxy c c0 ca d0 db m n Pk) as (idx & K' & KG' & V).
  assert (E12 := same_calc _ _ _ H (v_calc _ _ _ _ _ _ _ _ _ _ _ _ V)). injection E12 as <- <-.
  assert (Z := buckles_zero K KG l v (v_pen _ _ _ _ _ _ _ _ _ _ _ _ V) Bv). destruct Bv as (Lv & Nv & _).
  assert (Pd := pen_def _ _ (v_pen _ _ _ _ _ _ _ _ _ _ _ _ V) v Lv Nv).
  rewrite (v_K _ _ _ _ _ _ _ _ _ _ _ _ V) in Z, Pd. rewrite (v_G _ _ _ _ _ _ _ _ _ _ _ _ V) in Z.
  exists (combine_shapes a b (sw_idx idx) v). split; [apply nice_combine|]. split; [|split; assumption].
  destruct Pk as [Ha Hb Sy PD Sp Rs]. destruct (named_struct c c0 ca d0 db m n Sp) as (idx' & fx & fy & E' & Fx & Fy & RM).
  assert (E1 := same_calc _ _ _ E' (v_idx _ _ _ _ _ _ _ _ _ _ _ _ V)). subst idx'.
  assert (Ad : forall p, In p (sw_idx idx) -> S_Plate.admissible c0 ca (fst p) /\ S_Plate.admissible d0 db (snd p)).
  { intros [i j] I. destruct (row_major_in _ _ _ _ _ RM I) as [Ix Iy]. destruct Fx as (_ & _ & Px & _). destruct Fy as (_ & _ & Py & _). rewrite Forall_forall in Px, Py. split; [apply Px, Ix|apply Py, Iy]. }
  constructor; split; intros Hh s.
  - eapply edge_x0; eassumption.
  - eapply slope_x0; eassumption.
  - eapply edge_xa; eassumption.
  - eapply slope_xa; eassumption.
  - eapply edge_y0; eassumption.
  - eapply slope_y0; eassumption.
  - eapply edge_yb; eassumption.
  - eapply slope_yb; eassumption.
Qed.
Lemma load_x N a b w : 0 < a -> 0 < b -> nice a b w -> load_work (- N) 0 0 a b w w = - N * I2 a b (dx w).
Proof.
  intros Ha Hb W. rewrite load_expand by (lra || assumption). unfold I2.
  assert (Sq : over a b (fun x y => dx w x y * dx w x y) = over a b (fun x y => dx w x y ^ 2)) by (apply over_ext; intros; ring). rewrite Sq. ring.
Qed.
Lemma load_xy P Q a b w : 0 < a -> 0 < b -> nice a b w -> load_work (- P) (- Q) 0 a b w w = - (P * I2 a b (dx w) + Q * I2 a b (dy w)).
Proof.
  intros Ha Hb W. rewrite load_expand by (lra || assumption). unfold I2.
  assert (Sq : over a b (fun x y => dx w x y * dx w x y) = over a b (fun x y => dx w x y ^ 2)) by (apply over_ext; intros; ring).
  assert (Sr : over a b (fun x y => dy w x y * dy w x y) = over a b (fun x y => dy w x y ^ 2)) by (apply over_ext; intros; ring). rewrite Sq, Sr. ring.
Qed.
(** a bound on the energy bounds the load *)
Lemma bound_load B N l X E : 0 < E -> 0 <= X -> B * X <= E -> E + l * (- N * X) = 0 -> B <= l * N.
Proof. intros HE HX HB Z. assert (0 < X) by (destruct HX as [HX| <-]; [exact HX|exfalso; nra]). apply Rmult_le_reg_r with X; [assumption|]. nra. Qed.

(** ** the stiffness of a strip *)
Lemma strip_split D : symmetric D -> pos_def D -> let m := a22 D * a33 D - a23 D * a32 D in 0 < m /\ 0 < a22 D /\ 0 < a33 D /\
  forall x y z, quad D (V3 x y z) = strip_stiffness D * x ^ 2 + quad D (V3 0 (y + (a33 D * a12 D - a23 D * a13 D) * x / m) (z + (a22 D * a13 D - a23 D * a12 D) * x / m)).
Proof.
  intros Sy Pd m. assert (S1 : a21 D = a12 D) by exact (f_equal a12 Sy). assert (S2 : a31 D = a13 D) by exact (f_equal a13 Sy). assert (S3 : a32 D = a23 D) by exact (f_equal a23 Sy).
  assert (P2 := Pd (V3 0 1 0) ltac:(intros E; injection E; lra)). assert (P3 := Pd (V3 0 0 1) ltac:(intros E; injection E; lra)).
  assert (Pm := Pd (V3 0 (- a23 D) (a22 D))). unfold quad, dot, mvec in *. cbn [vx vy vz] in *. rewrite S3 in *.
  assert (H2 : 0 < a22 D) by lra. assert (H3 : 0 < a33 D) by lra.
  assert (Hm : 0 < m).
  { unfold m. specialize (Pm ltac:(intros E; injection E; lra)). apply Rmult_lt_reg_l with (a22 D); [exact H2|]. rewrite S3. lra. }
  repeat split; try assumption. intros x y z. unfold strip_stiffness, det3. fold m. rewrite S1, S2, S3.
  assert (Em : m = a22 D * a33 D - a23 D * a23 D) by (unfold m; rewrite S3; reflexivity).
  clear -Hm Em. rewrite Em in *. clear Em m. field. lra.
Qed.

(** ** bounds from below *)
(*@ C79: the stiffness of a strip is what is left of the bending energy when the other two curvatures adjust freely. @*)
Lemma t_C79_strip : forall D, symmetric D -> pos_def D -> 0 < strip_stiffness D /\ (forall e, strip_stiffness D * vx e ^ 2 <= quad D e) /\
  forall x, exists e, vx e = x /\ quad D e = strip_stiffness D * x ^ 2.
Proof.
  intros D Sy Pd. destruct (strip_split D Sy Pd) as (Hm & H2 & H3 & Q).
  set (m := a22 D * a33 D - a23 D * a32 D) in *.
  assert (Z0 : quad D (V3 0 0 0) = 0) by (unfold quad, dot, mvec; cbn [vx vy vz]; ring).
  assert (At : forall x, quad D (V3 x (- ((a33 D * a12 D - a23 D * a13 D) * x / m)) (- ((a22 D * a13 D - a23 D * a12 D) * x / m))) = strip_stiffness D * x ^ 2).
  { intros x. rewrite Q. match goal with |- _ + quad D (V3 0 ?y ?z) = _ => replace y with 0 by ring; replace z with 0 by ring end. rewrite Z0. ring. }
  split; [|split].
  - assert (P := At 1). assert (Q1 := Pd (V3 1 (- ((a33 D * a12 D - a23 D * a13 D) * 1 / m)) (- ((a22 D * a13 D - a23 D * a12 D) * 1 / m))) ltac:(intros E; injection E; lra)). lra.
  - intros [x y z]. cbn [vx]. rewrite Q. assert (S : pos_semidef D).
    { intros v. destruct (Req_dec (quad D v) 0) as [E|E]; [lra|]. left. apply Pd. intros ->. apply E. exact Z0. }
    match goal with |- _ <= _ + quad D ?v => assert (P := S v) end. lra.
  - intros x. eexists. split; [|apply At]. reflexivity.
Qed.
Lemma slopes c0 ca f a b d0 db w : 0 < a -> 0 < b -> nice a b w -> euler_column c0 ca f -> fits a b c0 ca d0 db w ->
  0 <> f /\ (PI / (f * a)) ^ 2 * I2 a b (dx w) <= I2 a b (dx (dx w)).
Proof.
  intros Ha Hb W C [[X0 S0] [Xa Sa] _ _]. inversion C; subst.
  - split; [lra|]. rewrite Rmult_1_l. apply curve_x; auto.
  - split; [lra|]. assert (H := mean_x a b Ha Hb w W ltac:(intros; rewrite (X0 eq_refl), (Xa eq_refl); reflexivity) ltac:(intros; rewrite (S0 eq_refl), (Sa eq_refl); reflexivity)).
    replace (PI / (1 / 2 * a)) with (2 * PI / a) by (field; lra). exact H.
  - split; [lra|]. apply left_x; auto. apply nice_dx, W.
  - split; [lra|]. apply right_x; auto. apply nice_dx, W.
Qed.
Lemma energy_column D a b c0 ca d0 db w f : 0 < a -> 0 < b -> symmetric D -> pos_def D -> nice a b w -> euler_column c0 ca f -> fits a b c0 ca d0 db w ->
  strip_stiffness D * (PI / (f * a)) ^ 2 * I2 a b (dx w) <= bending D a b w w.
Proof.
  intros Ha Hb Sy PD W C Ft.
  destruct (t_C79_strip D Sy PD) as (S0 & S1 & _).
  destruct (slopes c0 ca f a b d0 db w Ha Hb W C Ft) as (_ & Sl).
  assert (Le := bending_le (M3 (strip_stiffness D) 0 0 0 0 0 0 0 0) D a b w Ha Hb W).
  rewrite (bending_expand (M3 (strip_stiffness D) 0 0 0 0 0 0 0 0)) in Le by (lra || assumption || reflexivity). cbn [a11 a12 a13 a21 a22 a23 a31 a32 a33] in Le.
  assert (Sq : over a b (fun x y => dx (dx w) x y * dx (dx w) x y) = I2 a b (dx (dx w))) by (apply over_ext; intros; ring). rewrite Sq in Le.
  assert (Le' : strip_stiffness D * I2 a b (dx (dx w)) <= bending D a b w w).
  { eapply Rle_trans; [|apply Le].
    - right. ring.
    - intros e. eapply Rle_trans; [|apply S1]. right. unfold quad, dot, mvec. cbn [vx vy vz a11 a12 a13 a21 a22 a23 a31 a32 a33]. ring. }
  assert (strip_stiffness D * ((PI / (f * a)) ^ 2 * I2 a b (dx w)) <= strip_stiffness D * I2 a b (dx (dx w))) by (apply Rmult_le_compat_l; lra). lra.
Qed.
(*@ C79: no load along x below Euler's load of a strip of the plate is a buckling load, whatever the conditions on the edges along x: the length
    of the column is a when both ends hold the deflection, a/2 when both are clamped, 2a when one is clamped. @*)
Lemma t_C79_column : forall (D : mat3) a b N c c0 ca d0 db m n f (K KG : list (list R)) l, plate_any D a b c c0 ca d0 db -> euler_column c0 ca f ->
  calc_K_KG_D exact_tables (as_arr D) a b (- N) 0 0 c m n = Ok (K, KG) -> factor K KG l ->
  strip_stiffness D * (PI / (f * a)) ^ 2 <= l * N.
Proof.
  intros D a b N c c0 ca d0 db m n f K KG l Pk C H Fl. destruct (eig D a b _ _ _ c c0 ca d0 db m n K KG l Pk H Fl) as (w & W & Ft & Pd & Z).
  assert (Ha := any_a _ _ _ _ _ _ _ _ Pk). assert (Hb := any_b _ _ _ _ _ _ _ _ Pk). rewrite load_x in Z by assumption.
  apply (bound_load _ N l (I2 a b (dx w)) _ Pd (I2_nonneg a b Ha Hb _ (nice_dx a b w W))); [|exact Z].
  apply (energy_column D a b c0 ca d0 db w f Ha Hb (any_sym _ _ _ _ _ _ _ _ Pk) (any_def _ _ _ _ _ _ _ _ Pk) W C Ft).
Qed.
Lemma fits_zero a b c0 ca d0 db w : supported c0 ca d0 db -> fits a b c0 ca d0 db w -> (forall y, w 0 y = 0) /\ (forall y, w a y = 0) /\ (forall x, w x 0 = 0) /\ (forall x, w x b = 0).
Proof. intros (H1 & H2 & H3 & H4) [[X _] [Y _] [Z _] [T _]]. auto. Qed.
Lemma diag_pos D : pos_def D -> 0 < a11 D /\ 0 < a22 D /\ 0 < a33 D.
Proof.
  intros Pd. assert (P1 := Pd (V3 1 0 0) ltac:(intros E; injection E; lra)). assert (P2 := Pd (V3 0 1 0) ltac:(intros E; injection E; lra)). assert (P3 := Pd (V3 0 0 1) ltac:(intros E; injection E; lra)).
  unfold quad, dot, mvec in *. cbn [vx vy vz] in *. repeat split; lra.
Qed.
Lemma energy_long D a b c0 ca d0 db w : 0 < a -> 0 < b -> symmetric D -> pos_def D -> nice a b w -> supported c0 ca d0 db -> fits a b c0 ca d0 db w ->
  orthotropic D -> 0 <= mixed_stiffness D -> long_plate D b * I2 a b (dx w) <= bending D a b w w.
Proof.
  intros Ha Hb Sy PD W Su Ft Or Hx.
  destruct (fits_zero a b _ _ _ _ w Su Ft) as (E0 & Ea & F0 & Fb). rewrite (ortho_energy a b Ha Hb w W E0 Ea F0 Fb D Sy Or).
  assert (Mx := mixed_x a b Ha Hb w W F0 Fb). assert (Cy := curve_yy a b Ha Hb w W F0 Fb).
  destruct (diag_pos D PD) as (P1 & P2 & _).
  set (s := sqrt (a11 D * a22 D)). assert (Hs : s * s = a11 D * a22 D) by (apply sqrt_sqrt; nra).
  assert (Bx := bend_x a b Ha Hb w W (s / a11 D * (PI / b) ^ 2) E0 Ea).
  unfold long_plate. fold s. set (k := PI / b) in *.
  assert (B1 : a11 D * (2 * (s / a11 D * k ^ 2) * I2 a b (dx w)) <= a11 D * (I2 a b (dx (dx w)) + (s / a11 D * k ^ 2) ^ 2 * I2 a b w)) by (apply Rmult_le_compat_l; lra).
  replace (a11 D * (2 * (s / a11 D * k ^ 2) * I2 a b (dx w))) with (2 * k ^ 2 * s * I2 a b (dx w)) in B1 by (field; lra).
  replace (a11 D * (I2 a b (dx (dx w)) + (s / a11 D * k ^ 2) ^ 2 * I2 a b w)) with (a11 D * I2 a b (dx (dx w)) + (s * s) / a11 D * (k ^ 4 * I2 a b w)) in B1 by (field; lra).
  rewrite Hs in B1. replace (a11 D * a22 D / a11 D) with (a22 D) in B1 by (field; lra).
  assert (B2 : a22 D * (k ^ 4 * I2 a b w) <= a22 D * I2 a b (dy (dy w))) by (apply Rmult_le_compat_l; lra).
  assert (B3 : 2 * mixed_stiffness D * (k ^ 2 * I2 a b (dx w)) <= 2 * mixed_stiffness D * I2 a b (dx (dy w))) by (apply Rmult_le_compat_l; lra). lra.
Qed.
(*@ C79: a plate held on all edges, without coupling of bending and twisting, buckles at no load along x below that of an infinitely long plate. @*)
Lemma t_C79_long_plate : forall (D : mat3) a b N c c0 ca d0 db m n (K KG : list (list R)) l, plate_any D a b c c0 ca d0 db -> supported c0 ca d0 db ->
  orthotropic D -> 0 <= mixed_stiffness D -> calc_K_KG_D exact_tables (as_arr D) a b (- N) 0 0 c m n = Ok (K, KG) -> factor K KG l ->
  long_plate D b <= l * N.
Proof.
  intros D a b N c c0 ca d0 db m n K KG l Pk Su Or Hx H Fl. destruct (eig D a b _ _ _ c c0 ca d0 db m n K KG l Pk H Fl) as (w & W & Ft & Pd & Z).
  assert (Ha := any_a _ _ _ _ _ _ _ _ Pk). assert (Hb := any_b _ _ _ _ _ _ _ _ Pk). rewrite load_x in Z by assumption.
  apply (bound_load _ N l (I2 a b (dx w)) _ Pd (I2_nonneg a b Ha Hb _ (nice_dx a b w W))); [|exact Z].
  apply (energy_long D a b c0 ca d0 db w Ha Hb (any_sym _ _ _ _ _ _ _ _ Pk) (any_def _ _ _ _ _ _ _ _ Pk) W Su Ft Or Hx).
Qed.
Lemma energy_one D a b c0 ca d0 db w : 0 < a -> 0 < b -> symmetric D -> pos_def D -> nice a b w -> supported c0 ca d0 db -> fits a b c0 ca d0 db w ->
  orthotropic D -> 0 <= mixed_stiffness D -> a22 D * a ^ 4 <= 4 * (a11 D * b ^ 4) -> one_wave D a b * I2 a b (dx w) <= bending D a b w w.
Proof.
  intros Ha Hb Sy PD W Su Ft Or Hx Asp.
  destruct (fits_zero a b _ _ _ _ w Su Ft) as (E0 & Ea & F0 & Fb). rewrite (ortho_energy a b Ha Hb w W E0 Ea F0 Fb D Sy Or).
  assert (Mx := mixed_x a b Ha Hb w W F0 Fb). assert (Cy := curve_yy a b Ha Hb w W F0 Fb). assert (Sx := second_x a b Ha Hb w W E0 Ea). assert (Hw := held_x a b Ha Hb w W E0 Ea).
  destruct (diag_pos D PD) as (P1 & P2 & _). assert (Pp := PI_RGT_0).
  unfold one_wave. set (X1 := I2 a b (dx w)) in *. set (X2 := I2 a b (dx (dx w))) in *. set (W0 := I2 a b w) in *. set (Mm := I2 a b (dx (dy w))) in *. set (Y2 := I2 a b (dy (dy w))) in *.
  assert (B1 : a11 D * (5 * (PI / a) ^ 2 * X1 - 4 * (PI / a) ^ 4 * W0) <= a11 D * X2) by (apply Rmult_le_compat_l; lra).
  assert (B2 : a22 D * ((PI / b) ^ 4 * W0) <= a22 D * Y2) by (apply Rmult_le_compat_l; lra).
  assert (B3 : 2 * mixed_stiffness D * ((PI / b) ^ 2 * X1) <= 2 * mixed_stiffness D * Mm) by (apply Rmult_le_compat_l; lra).
  assert (B4 : 0 <= (X1 - (PI / a) ^ 2 * W0) * (PI ^ 2 / (a ^ 2 * b ^ 4) * (4 * (a11 D * b ^ 4) - a22 D * a ^ 4))).
  { apply Rmult_le_pos; [lra|]. apply Rmult_le_pos; [|lra]. left. apply Rdiv_lt_0_compat; [apply pow_lt, Pp|apply Rmult_lt_0_compat; apply pow_lt; assumption]. }
  replace ((X1 - (PI / a) ^ 2 * W0) * (PI ^ 2 / (a ^ 2 * b ^ 4) * (4 * (a11 D * b ^ 4) - a22 D * a ^ 4)))
    with (4 * a11 D * (PI ^ 2 / a ^ 2) * X1 - a22 D * (PI ^ 2 * a ^ 2 / b ^ 4) * X1 - 4 * a11 D * (PI / a) ^ 4 * W0 + a22 D * ((PI / b) ^ 4 * W0)) in B4 by (field; lra).
  replace (PI ^ 2 * (a11 D / a ^ 2 + 2 * mixed_stiffness D / b ^ 2 + a22 D * a ^ 2 / b ^ 4) * X1)
    with (a11 D * (PI ^ 2 / a ^ 2) * X1 + 2 * mixed_stiffness D * ((PI / b) ^ 2 * X1) + a22 D * (PI ^ 2 * a ^ 2 / b ^ 4) * X1) by (field; lra).
  replace (a11 D * (5 * (PI / a) ^ 2 * X1 - 4 * (PI / a) ^ 4 * W0)) with (5 * a11 D * (PI ^ 2 / a ^ 2) * X1 - 4 * a11 D * (PI / a) ^ 4 * W0) in B1 by (field; lra). lra.
Qed.
(*@ C79: and when a^4 D22 is at most 4 b^4 D11 (for an isotropic plate: a at most 1.41 b), at no load below the classical value for one half wave
    in each direction. @*)
Lemma t_C79_one_wave : forall (D : mat3) a b N c c0 ca d0 db m n (K KG : list (list R)) l, plate_any D a b c c0 ca d0 db -> supported c0 ca d0 db ->
  orthotropic D -> 0 <= mixed_stiffness D -> a22 D * a ^ 4 <= 4 * (a11 D * b ^ 4) ->
  calc_K_KG_D exact_tables (as_arr D) a b (- N) 0 0 c m n = Ok (K, KG) -> factor K KG l -> one_wave D a b <= l * N.
Proof.
  intros D a b N c c0 ca d0 db m n K KG l Pk Su Or Hx Asp H Fl. destruct (eig D a b _ _ _ c c0 ca d0 db m n K KG l Pk H Fl) as (w & W & Ft & Pd & Z).
  assert (Ha := any_a _ _ _ _ _ _ _ _ Pk). assert (Hb := any_b _ _ _ _ _ _ _ _ Pk). rewrite load_x in Z by assumption.
  apply (bound_load _ N l (I2 a b (dx w)) _ Pd (I2_nonneg a b Ha Hb _ (nice_dx a b w W))); [|exact Z].
  apply (energy_one D a b c0 ca d0 db w Ha Hb (any_sym _ _ _ _ _ _ _ _ Pk) (any_def _ _ _ _ _ _ _ _ Pk) W Su Ft Or Hx Asp).
Qed.
Lemma energy_two D a b P Q c0 ca d0 db w t s : 0 < a -> 0 < b -> symmetric D -> pos_def D -> nice a b w -> supported c0 ca d0 db -> fits a b c0 ca d0 db w ->
  orthotropic D -> 0 <= mixed_stiffness D -> 0 <= t <= 1 -> s * P <= a11 D * (PI / a) ^ 2 + 2 * mixed_stiffness D * t * (PI / b) ^ 2 ->
  s * Q <= a22 D * (PI / b) ^ 2 + 2 * mixed_stiffness D * (1 - t) * (PI / a) ^ 2 -> s * (P * I2 a b (dx w) + Q * I2 a b (dy w)) <= bending D a b w w.
Proof.
  intros Ha Hb Sy PD W Su Ft Or Hx Ht HP HQ.
  destruct (fits_zero a b _ _ _ _ w Su Ft) as (E0 & Ea & F0 & Fb). rewrite (ortho_energy a b Ha Hb w W E0 Ea F0 Fb D Sy Or).
  assert (Mx := mixed_x a b Ha Hb w W F0 Fb). assert (My := mixed_y a b Ha Hb w W E0 Ea). assert (Cx := curve_x a b Ha Hb w W E0 Ea). assert (Cy := curve_y a b Ha Hb w W F0 Fb).
  assert (X0 := I2_nonneg a b Ha Hb _ (nice_dx a b w W)). assert (Y0 := I2_nonneg a b Ha Hb _ (nice_dy a b w W)).
  destruct (diag_pos D PD) as (P1 & P2 & _).
  set (X1 := I2 a b (dx w)) in *. set (X2 := I2 a b (dx (dx w))) in *. set (Y1 := I2 a b (dy w)) in *. set (Mm := I2 a b (dx (dy w))) in *. set (Y2 := I2 a b (dy (dy w))) in *.
  set (h := 2 * mixed_stiffness D) in *. assert (Hh : 0 <= h) by (unfold h; lra).
  assert (B1 : a11 D * ((PI / a) ^ 2 * X1) <= a11 D * X2) by (apply Rmult_le_compat_l; lra).
  assert (B2 : a22 D * ((PI / b) ^ 2 * Y1) <= a22 D * Y2) by (apply Rmult_le_compat_l; lra).
  assert (B3 : h * t * ((PI / b) ^ 2 * X1) <= h * t * Mm) by (apply Rmult_le_compat_l; [apply Rmult_le_pos; lra|exact Mx]).
  assert (B4 : h * (1 - t) * ((PI / a) ^ 2 * Y1) <= h * (1 - t) * Mm) by (apply Rmult_le_compat_l; [apply Rmult_le_pos; lra|exact My]).
  assert (B5 : s * P * X1 <= (a11 D * (PI / a) ^ 2 + h * t * (PI / b) ^ 2) * X1) by (apply Rmult_le_compat_r; lra).
  assert (B6 : s * Q * Y1 <= (a22 D * (PI / b) ^ 2 + h * (1 - t) * (PI / a) ^ 2) * Y1) by (apply Rmult_le_compat_r; lra).
  lra.
Qed.
(*@ C79: with loads along both directions, each load is carried by its own direction and a share of the mixed stiffness. @*)
Lemma t_C79_biaxial : forall (D : mat3) a b P Q c c0 ca d0 db m n (K KG : list (list R)) l t s, plate_any D a b c c0 ca d0 db -> supported c0 ca d0 db ->
  orthotropic D -> 0 <= mixed_stiffness D -> calc_K_KG_D exact_tables (as_arr D) a b (- P) (- Q) 0 c m n = Ok (K, KG) -> 0 < l -> factor K KG l ->
  0 <= t <= 1 -> s * P <= a11 D * (PI / a) ^ 2 + 2 * mixed_stiffness D * t * (PI / b) ^ 2 ->
  s * Q <= a22 D * (PI / b) ^ 2 + 2 * mixed_stiffness D * (1 - t) * (PI / a) ^ 2 -> s <= l.
Proof.
  intros D a b P Q c c0 ca d0 db m n K KG l t s Pk Su Or Hx H Hl Fl Ht HP HQ. destruct (eig D a b _ _ _ c c0 ca d0 db m n K KG l Pk H Fl) as (w & W & Ft & Pd & Z).
  assert (Ha := any_a _ _ _ _ _ _ _ _ Pk). assert (Hb := any_b _ _ _ _ _ _ _ _ Pk). rewrite load_xy in Z by assumption.
  assert (En := energy_two D a b P Q c0 ca d0 db w t s Ha Hb (any_sym _ _ _ _ _ _ _ _ Pk) (any_def _ _ _ _ _ _ _ _ Pk) W Su Ft Or Hx Ht HP HQ).
  assert (Hp : 0 < P * I2 a b (dx w) + Q * I2 a b (dy w)) by nra.
  apply Rmult_le_reg_r with (P * I2 a b (dx w) + Q * I2 a b (dy w)); [exact Hp|]. lra.
Qed.
(*@ C79: a plate clamped on all edges: two more bounds from below. @*)
Lemma t_C79_clamped : forall (D : mat3) a b N c m n (K KG : list (list R)) l, plate_any D a b c Clamped Clamped Clamped Clamped ->
  orthotropic D -> 0 <= mixed_stiffness D -> calc_K_KG_D exact_tables (as_arr D) a b (- N) 0 0 c m n = Ok (K, KG) -> factor K KG l ->
  a11 D * (2 * PI / a) ^ 2 + 2 * mixed_stiffness D * (PI / b) ^ 2 <= l * N /\
  2 * (PI / b) ^ 2 * (2 * sqrt (a11 D * a22 D) + mixed_stiffness D) <= l * N.
Proof.
  intros D a b N c m n K KG l Pk Or Hx H Fl. destruct (eig D a b _ _ _ c Clamped Clamped Clamped Clamped m n K KG l Pk H Fl) as (w & W & Ft & Pd & Z).
  assert (Ha := any_a _ _ _ _ _ _ _ _ Pk). assert (Hb := any_b _ _ _ _ _ _ _ _ Pk). rewrite load_x in Z by assumption.
  destruct (fits_zero a b Clamped Clamped Clamped Clamped w ltac:(repeat split; reflexivity) Ft) as (E0 & Ea & F0 & Fb). rewrite (ortho_energy a b Ha Hb w W E0 Ea F0 Fb D (any_sym _ _ _ _ _ _ _ _ Pk) Or) in Z, Pd.
  assert (Mx := mixed_x a b Ha Hb w W F0 Fb). destruct Ft as [[_ S0] [_ Sa] [_ T0] [_ Tb]].
  assert (Cx := mean_x a b Ha Hb w W ltac:(intros; rewrite E0, Ea; reflexivity) ltac:(intros; rewrite (S0 eq_refl), (Sa eq_refl); reflexivity)).
  assert (Cy := mean_x b a Hb Ha (flip w) (nice_flip a b w W) ltac:(intros; unfold flip; rewrite F0, Fb; reflexivity)).
  change (dx (dx (flip w))) with (flip (dy (dy w))) in Cy. change (dx (flip w)) with (flip (dy w)) in Cy.
  specialize (Cy ltac:(intros y; unfold flip; rewrite (T0 eq_refl), (Tb eq_refl); reflexivity)).
  rewrite (I2_flip a b (dy w) Ha Hb (nice_dy a b w W)), (I2_flip a b (dy (dy w)) Ha Hb (nice_dy a b _ (nice_dy a b w W))) in Cy.
  assert (Hy := held_y a b w Ha Hb W F0 Fb).
  destruct (diag_pos D (any_def _ _ _ _ _ _ _ _ Pk)) as (P1 & P2 & _).
  assert (B3 : 2 * mixed_stiffness D * ((PI / b) ^ 2 * I2 a b (dx w)) <= 2 * mixed_stiffness D * I2 a b (dx (dy w))) by (apply Rmult_le_compat_l; lra).
  assert (X0 := I2_nonneg a b Ha Hb _ (nice_dx a b w W)).
  split; apply (bound_load _ N l (I2 a b (dx w)) _ Pd X0); try exact Z.
  - assert (B1 : a11 D * ((2 * PI / a) ^ 2 * I2 a b (dx w)) <= a11 D * I2 a b (dx (dx w))) by (apply Rmult_le_compat_l; lra).
    assert (B2 : 0 <= a22 D * I2 a b (dy (dy w))) by (apply Rmult_le_pos; [lra|apply I2_nonneg; [exact Ha|exact Hb|apply nice_dy, nice_dy, W]]). lra.
  - set (s := sqrt (a11 D * a22 D)). assert (Hs : s * s = a11 D * a22 D) by (apply sqrt_sqrt; nra).
    assert (Bx := bend_x a b Ha Hb w W (2 * s / a11 D * (PI / b) ^ 2) E0 Ea). replace (2 * PI / b) with (2 * (PI / b)) in Cy by (field; lra). set (k := PI / b) in *.
    assert (B1 : a11 D * (2 * (2 * s / a11 D * k ^ 2) * I2 a b (dx w)) <= a11 D * (I2 a b (dx (dx w)) + (2 * s / a11 D * k ^ 2) ^ 2 * I2 a b w)) by (apply Rmult_le_compat_l; lra).
    replace (a11 D * (2 * (2 * s / a11 D * k ^ 2) * I2 a b (dx w))) with (4 * k ^ 2 * s * I2 a b (dx w)) in B1 by (field; lra).
    replace (a11 D * (I2 a b (dx (dx w)) + (2 * s / a11 D * k ^ 2) ^ 2 * I2 a b w)) with (a11 D * I2 a b (dx (dx w)) + 4 * ((s * s) / a11 D) * (k ^ 4 * I2 a b w)) in B1 by (field; lra).
    rewrite Hs in B1. replace (a11 D * a22 D / a11 D) with (a22 D) in B1 by (field; lra).
    assert (Ky : 4 * (k ^ 4 * I2 a b w) <= I2 a b (dy (dy w))).
    { assert (4 * k ^ 2 * (k ^ 2 * I2 a b w) <= 4 * k ^ 2 * I2 a b (dy w)) by (apply Rmult_le_compat_l; [assert (U := pow2_ge_0 k); lra|exact Hy]). lra. }
    assert (B2 : a22 D * (4 * (k ^ 4 * I2 a b w)) <= a22 D * I2 a b (dy (dy w))) by (apply Rmult_le_compat_l; lra). lra.
Qed.

(** ** bounds from above: a product of two polynomials *)
Definition trial (p : list Q) (a b : R) : field := fun x y => 1 * (at_ a p x * at_ b p y).
Lemma integral_q p : integral p = Q2R (qint p).
Proof. unfold integral. apply (is_RInt_unique (V := R_CompleteNormedModule)), qint_RInt. Qed.
Lemma over_two a b c d p q r s : a <> 0 -> b <> 0 ->
  over a b (fun x y => c * (at_ a p x * at_ b q y) * (d * (at_ a r x * at_ b s y))) = c * d * (a * b / 4) * (integral (qmul p r) * integral (qmul q s)).
Proof.
  intros Ha Hb. etransitivity; [apply over_ext; intros x y|].
  2:{ etransitivity; [apply (over_term a b Ha Hb (c * d) (qmul p r) (qmul q s))|]. field. }
  unfold at_. rewrite !qeval_mul. ring.
Qed.
Section Trial.
Variables (p : list Q) (a b : R) (Ha : 0 < a) (Hb : 0 < b).
Let p1 := qderiv p. Let p2 := qderiv p1.
Let i0 := integral (qmul p p). Let i1 := integral (qmul p1 p1). Let i2 := integral (qmul p2 p2).
Hypotheses (Ed : integral (qmul p2 p) = - i1 /\ integral (qmul p p2) = - i1) (Eo : integral (qmul p p1) = 0 /\ integral (qmul p1 p) = 0).
Let w := trial p a b.
Lemma trial_nice : nice a b w. Proof. apply nice_term. Qed.
Lemma trial_dx : dx w = fun x y => 2 / a * 1 * (at_ a p1 x * at_ b p y). Proof. apply dx_term. Qed.
Lemma trial_dy : dy w = fun x y => 2 / b * 1 * (at_ a p x * at_ b p1 y). Proof. apply dy_term. Qed.
Lemma trial_bending D : symmetric D -> bending D a b w w =
  a * b / 4 * (a11 D * (2 / a) ^ 4 * (i2 * i0) + 2 * mixed_stiffness D * ((2 / a) ^ 2 * (2 / b) ^ 2) * (i1 * i1) + a22 D * (2 / b) ^ 4 * (i0 * i2)).
Proof.
  intros Sy. rewrite bending_expand by (lra || assumption || apply trial_nice). rewrite trial_dy, trial_dx, !dx_term, !dy_term. fold p2.
  rewrite !over_two by lra. fold p1 p2. destruct Ed as [D1 D2], Eo as [O1 O2]. rewrite ?D1, ?D2, ?O1, ?O2. fold i0 i1 i2.
  assert (S1 : a21 D = a12 D) by exact (f_equal a12 Sy). rewrite S1. unfold mixed_stiffness. field. lra.
Qed.
Lemma trial_load N : load_work (- N) 0 0 a b w w = - N * (a * b / 4 * (2 / a) ^ 2 * (i1 * i0)).
Proof.
  rewrite load_expand by (lra || apply trial_nice). rewrite trial_dx, trial_dy. rewrite !over_two by lra. fold i0 i1. field. lra.
Qed.
Lemma qeval_poly : forall q x, qeval q x = poly (map Q2R q) x.
Proof. intros q. induction q as [|c q IH]; intros x; cbn [qeval poly map]; [reflexivity|]. rewrite IH. reflexivity. Qed.
Lemma trial_bipoly k l : (List.length p <= k)%nat -> (List.length p <= l)%nat -> bipoly k l w.
Proof.
  intros Hk Hl. apply (bipoly_ext _ _ (fun x y => (fun x y => qeval p x * qeval p y) (2 / a * x + -1) (2 / b * y + -1))).
  - intros x y. unfold w, trial, at_. rewrite Rmult_1_l. f_equal; f_equal; field; lra.
  - apply (bipoly_affine _ _ (2 / a) (-1) (2 / b) (-1) (fun x y => qeval p x * qeval p y)).
    apply (bipoly_prod k l (map Q2R p) (map Q2R p)); [rewrite map_length; exact Hk|rewrite map_length; exact Hl|intros; apply qeval_poly|intros; apply qeval_poly].
Qed.
Lemma trial_fits c : (holds_value c = true -> qeval p (-1) = 0 /\ qeval p 1 = 0) -> (holds_slope c = true -> qeval p1 (-1) = 0 /\ qeval p1 1 = 0) -> fits a b c c c c w.
Proof.
  intros V S.
  assert (e0 : forall u, 0 < u -> 2 * 0 / u - 1 = -1) by (intros; field; lra). assert (e1 : forall u, 0 < u -> 2 * u / u - 1 = 1) by (intros; field; lra).
  constructor; split; intros Hc z; rewrite ?trial_dx, ?trial_dy; unfold w, trial, at_; rewrite ?e0, ?e1 by assumption;
    first [rewrite (proj1 (V Hc)); ring|rewrite (proj2 (V Hc)); ring|rewrite (proj1 (S Hc)); ring|rewrite (proj2 (S Hc)); ring].
Qed.
(** the critical factor is at most the trial's *)
Lemma trial_bound D N c cd m n l : plate_any D a b c cd cd cd cd ->
  (holds_value cd = true -> qeval p (-1) = 0 /\ qeval p 1 = 0) -> (holds_slope cd = true -> qeval p1 (-1) = 0 /\ qeval p1 1 = 0) ->
  (4 <= m + taken cd + taken cd)%nat -> (4 <= n + taken cd + taken cd)%nat -> (List.length p <= m + taken cd + taken cd)%nat -> (List.length p <= n + taken cd + taken cd)%nat ->
  0 < i0 -> 0 < i1 -> critical D a b (- N) 0 0 c m n l ->
  l * N <= 4 * (i2 / i1) * (a11 D / a ^ 2 + a22 D * a ^ 2 / b ^ 4) + 4 * (i1 / i0) * (2 * mixed_stiffness D / b ^ 2).
Proof.
  intros Pk V S Hm Hn Lm Ln I0 I1 C. apply (t_C72_ritz D a b (- N) 0 0 c cd cd cd cd m n l Pk Hm Hn) in C. destruct C as (_ & En & _).
  specialize (En w (conj (trial_bipoly _ _ Lm Ln) (trial_fits cd V S))). rewrite trial_bending, trial_load in En by apply Pk.
  assert (G : 0 < a * b / 4 * (2 / a) ^ 2 * (i1 * i0)).
  { apply Rmult_lt_0_compat; [apply Rmult_lt_0_compat; [|apply pow_lt, Rdiv_lt_0_compat; lra]|apply Rmult_lt_0_compat; assumption]. assert (0 < a * b) by (apply Rmult_lt_0_compat; assumption). lra. }
  apply Rmult_le_reg_r with (a * b / 4 * (2 / a) ^ 2 * (i1 * i0)); [exact G|].
  match goal with |- _ <= ?r => replace r with (a * b / 4 * (a11 D * (2 / a) ^ 4 * (i2 * i0) + 2 * mixed_stiffness D * ((2 / a) ^ 2 * (2 / b) ^ 2) * (i1 * i1) + a22 D * (2 / b) ^ 4 * (i0 * i2))) by (field; lra) end. lra.
Qed.
End Trial.
Definition sine_like : list Q := [5#1; 0#1; -6#1; 0#1; 1#1]%Q.
Definition hat : list Q := [1#1; 0#1; -2#1; 0#1; 1#1]%Q.
Ltac qi p := let E := fresh in
  rewrite integral_q; match goal with |- context [Q2R ?q] => let v := eval vm_compute in (Qred q) in replace (Q2R q) with (Q2R v) by (apply Qreals.Qeq_eqR; vm_compute; reflexivity) end.
Lemma sine_ints : integral (qmul sine_like sine_like) = 7936 / 315 /\ integral (qmul (qderiv sine_like) (qderiv sine_like)) = 2176 / 35 /\
  integral (qmul (qderiv (qderiv sine_like)) (qderiv (qderiv sine_like))) = 768 / 5 /\
  integral (qmul (qderiv (qderiv sine_like)) sine_like) = - (2176 / 35) /\ integral (qmul sine_like (qderiv (qderiv sine_like))) = - (2176 / 35) /\
  integral (qmul sine_like (qderiv sine_like)) = 0 /\ integral (qmul (qderiv sine_like) sine_like) = 0.
Proof. repeat split; qi sine_like; unfold Q2R; cbn [Qnum Qden]; lra. Qed.
Lemma hat_ints : integral (qmul hat hat) = 256 / 315 /\ integral (qmul (qderiv hat) (qderiv hat)) = 256 / 105 /\
  integral (qmul (qderiv (qderiv hat)) (qderiv (qderiv hat))) = 128 / 5 /\
  integral (qmul (qderiv (qderiv hat)) hat) = - (256 / 105) /\ integral (qmul hat (qderiv (qderiv hat))) = - (256 / 105) /\
  integral (qmul hat (qderiv hat)) = 0 /\ integral (qmul (qderiv hat) hat) = 0.
Proof. repeat split; qi hat; unfold Q2R; cbn [Qnum Qden]; lra. Qed.
Lemma compressed N : 0 < N -> no_compression (- (- N)) (- 0) (- 0) /\ (- N <> 0 \/ 0 <> 0).
Proof. intros H. split; [unfold no_compression; repeat split; nra|left; lra]. Qed.
(*@ C79: a simply supported plate with at least three functions in each direction, of any stiffness: the critical load is at most the energy of
    a fourth degree polynomial. @*)
Lemma t_C79_upper : forall (D : mat3) a b N c m n, plate_any D a b c Pinned Pinned Pinned Pinned -> (3 <= m)%nat -> (3 <= n)%nat -> 0 < N ->
  (exists l, critical D a b (- N) 0 0 c m n l) /\
  forall l, critical D a b (- N) 0 0 c m n l ->
    l * N <= 168 / 17 * (a11 D / a ^ 2 + a22 D * a ^ 2 / b ^ 4) + 306 / 31 * (2 * mixed_stiffness D / b ^ 2).
Proof.
  intros D a b N c m n Pk Hm Hn HN. destruct (compressed N HN) as [C1 C2]. split.
  - apply (t_C68_compression D a b _ _ _ c Pinned Pinned Pinned Pinned m n Pk); [lia|lia|exact C1|exact C2].
  - intros l Cl. destruct sine_ints as (I0 & I1 & I2' & D1 & D2 & O1 & O2).
    assert (B := trial_bound sine_like a b (any_a _ _ _ _ _ _ _ _ Pk) (any_b _ _ _ _ _ _ _ _ Pk)). cbv zeta in B. rewrite I0, I1, I2', D1, D2, O1, O2 in B.
    eapply Rle_trans; [apply (B (conj eq_refl eq_refl) (conj eq_refl eq_refl) D N c Pinned m n l Pk)|].
    + intros _. unfold sine_like. cbn [qeval]. rewrite !Q2R_Z. lra.
    + discriminate.
    + cbn. lia.
    + cbn. lia.
    + cbn. lia.
    + cbn. lia.
    + lra.
    + lra.
    + exact Cl.
    + right. field. split; apply Rgt_not_eq; apply Pk.
Qed.
(*@ C79: and of a clamped plate, for any number of functions. @*)
Lemma t_C79_clamped_upper : forall (D : mat3) a b N c m n, plate_any D a b c Clamped Clamped Clamped Clamped -> (1 <= m)%nat -> (1 <= n)%nat -> 0 < N ->
  (exists l, critical D a b (- N) 0 0 c m n l) /\
  forall l, critical D a b (- N) 0 0 c m n l -> l * N <= 42 * (a11 D / a ^ 2 + a22 D * a ^ 2 / b ^ 4) + 12 * (2 * mixed_stiffness D / b ^ 2).
Proof.
  intros D a b N c m n Pk Hm Hn HN. destruct (compressed N HN) as [C1 C2]. split.
  - apply (t_C68_compression D a b _ _ _ c Clamped Clamped Clamped Clamped m n Pk); [lia|lia|exact C1|exact C2].
  - intros l Cl. destruct hat_ints as (I0 & I1 & I2' & D1 & D2 & O1 & O2).
    assert (B := trial_bound hat a b (any_a _ _ _ _ _ _ _ _ Pk) (any_b _ _ _ _ _ _ _ _ Pk)). cbv zeta in B. rewrite I0, I1, I2', D1, D2, O1, O2 in B.
    eapply Rle_trans; [apply (B (conj eq_refl eq_refl) (conj eq_refl eq_refl) D N c Clamped m n l Pk)|].
    + intros _. unfold hat. cbn [qeval]. rewrite !Q2R_Z. lra.
    + intros _. let v := eval vm_compute in (qderiv hat) in change (qderiv hat) with v. cbn [qeval]. unfold Q2R. cbn [Qnum Qden]. lra.
    + cbn. lia.
    + cbn. lia.
    + cbn. lia.
    + cbn. lia.
    + lra.
    + lra.
    + exact Cl.
    + right. field. split; apply Rgt_not_eq; apply Pk.
Qed.

Lemma pi_low : 3.1415 < PI.
Proof.
  destruct (PI_2_3_7_ineq 1) as [H _]. change (2 * 1)%nat with 2%nat in H. cbn [sum_f_R0] in H. unfold tg_alt, PI_2_3_7_tg, Ratan_seq in H. cbn [pow Nat.mul Nat.add INR] in H.
  assert (E : 3.1415 / 4 < PI / 4) by (eapply Rlt_le_trans; [|exact H]; lra). lra.
Qed.
(*@ C79: the sandwich: for a simply supported plate without coupling, with at least three functions in each direction and a^4 D22 <= 4 b^4 D11,
    the critical load is the classical value for one half wave in each direction, to 0.14 per cent. @*)
Lemma t_C79_sandwich : forall (D : mat3) a b N c m n, plate_any D a b c Pinned Pinned Pinned Pinned -> (3 <= m)%nat -> (3 <= n)%nat -> 0 < N ->
  orthotropic D -> 0 <= mixed_stiffness D -> a22 D * a ^ 4 <= 4 * (a11 D * b ^ 4) ->
  (exists l, critical D a b (- N) 0 0 c m n l) /\
  forall l, critical D a b (- N) 0 0 c m n l -> one_wave D a b <= l * N <= 1.0014 * one_wave D a b.
Proof.
  intros D a b N c m n Pk Hm Hn HN Or Hx Asp. destruct (t_C79_upper D a b N c m n Pk Hm Hn HN) as [Ex Up]. split; [exact Ex|]. intros l C. split.
  - destruct C as (K & KG & H & (_ & Fl & _)). apply (t_C79_one_wave D a b N c Pinned Pinned Pinned Pinned m n K KG l Pk); auto. repeat split; reflexivity.
  - eapply Rle_trans; [apply Up, C|]. destruct (diag_pos D (any_def _ _ _ _ _ _ _ _ Pk)) as (P1 & P2 & _).
    assert (Ha := any_a _ _ _ _ _ _ _ _ Pk). assert (Hb := any_b _ _ _ _ _ _ _ _ Pk). assert (Pl := pi_low).
    assert (P3 : 9.869 <= PI ^ 2) by nra. unfold one_wave.
    assert (A1 : 0 <= a11 D / a ^ 2 + a22 D * a ^ 2 / b ^ 4).
    { assert (0 < a11 D / a ^ 2) by (apply Rdiv_lt_0_compat; [|apply pow_lt]; assumption). assert (0 < a22 D * a ^ 2 / b ^ 4) by (apply Rdiv_lt_0_compat; [apply Rmult_lt_0_compat; [|apply pow_lt]; assumption|apply pow_lt; assumption]). lra. }
    assert (A2 : 0 <= 2 * mixed_stiffness D / b ^ 2) by (apply Rmult_le_pos; [lra|left; apply Rinv_0_lt_compat, pow_lt, Hb]).
    revert A1 A2. generalize (a11 D / a ^ 2) (a22 D * a ^ 2 / b ^ 4) (2 * mixed_stiffness D / b ^ 2). intros x z y A1 A2.
    assert (168 / 17 * (x + z) <= 1.0014 * PI ^ 2 * (x + z)) by (apply Rmult_le_compat_r; lra).
    assert (306 / 31 * y <= 1.0014 * PI ^ 2 * y) by (apply Rmult_le_compat_r; lra). lra.
Qed.
(*@ C79: no plate with Euler's columns at its ends buckles before its strips do: below that load it is safe. @*)
Lemma t_C79_safe : forall (D : mat3) a b N c c0 ca d0 db m n f, plate_any D a b c c0 ca d0 db -> euler_column c0 ca f ->
  N < strip_stiffness D * (PI / (f * a)) ^ 2 -> safe D a b (- N) 0 0 c m n.
Proof.
  intros D a b N c c0 ca d0 db m n f Pk Ec HN l (K & KG & H & (Hl & Fl & _)).
  assert (B := t_C79_column D a b N c c0 ca d0 db m n f K KG l Pk Ec H Fl).
  destruct (t_C79_strip D (any_sym _ _ _ _ _ _ _ _ Pk) (any_def _ _ _ _ _ _ _ _ Pk)) as (S0 & _ & _).
  assert (0 <= strip_stiffness D * (PI / (f * a)) ^ 2) by (apply Rmult_le_pos; [lra|apply pow2_ge_0]). nra.
Qed.
(*@ C79: clamped plates as the code computes them, with the stored tables and a solver as documented: when the load is at most Euler's, the first
    number reported is the critical factor, and it lies between the bounds. @*)
Lemma t_C79_reported : forall eigsh (D : mat3) a b N c m n num out vecs, documented eigsh -> plate_ok D a b c Clamped Clamped Clamped Clamped m n ->
  (1 <= m)%nat -> (1 <= n)%nat -> 0 < N <= strip_stiffness D * (2 * PI / a) ^ 2 ->
  buckling_analysis eigsh stored_R (as_arr D) a b (- N) 0 0 c m n num = Ok (out, vecs) ->
  exists l rest, out = Fin l :: rest /\ critical D a b (- N) 0 0 c m n l /\ 1 <= l /\
    strip_stiffness D * (2 * PI / a) ^ 2 <= l * N <= 42 * (a11 D / a ^ 2 + a22 D * a ^ 2 / b ^ 4) + 12 * (2 * mixed_stiffness D / b ^ 2).
Proof.
  intros eigsh D a b N c m n num out vecs Dc Pk Hm Hn [HN HB] H.
  assert (Ha := ok_a _ _ _ _ _ _ _ _ _ _ Pk).
  destruct (t_C79_clamped_upper D a b N c m n Pk Hm Hn HN) as [(l & C) Up].
  destruct (t_C75_users eigsh c m n (ok_edges _ _ _ _ _ _ _ _ _ _ Pk) ltac:(assert (X := ok_m _ _ _ _ _ _ _ _ _ _ Pk); cbn in X; lia) ltac:(assert (X := ok_n _ _ _ _ _ _ _ _ _ _ Pk); cbn in X; lia)) as (Eq & _).
  rewrite Eq in H. specialize (Up l C). assert (C' := C). destruct C as (K & KG & E & Sm).
  assert (Lo := t_C79_column D a b N c Clamped Clamped Clamped Clamped m n (1 / 2) K KG l (ok_any _ _ _ _ _ _ _ _ _ _ Pk) Col_fixed E (proj1 (proj2 Sm))).
  replace (PI / (1 / 2 * a)) with (2 * PI / a) in Lo by (field; lra).
  assert (L1 : 1 <= l) by (apply Rmult_le_reg_r with N; lra).
  assert (Pn := t_C42_pencil D a b _ _ _ c _ _ _ _ m n K KG Ha (ok_b _ _ _ _ _ _ _ _ _ _ Pk) (ok_sym _ _ _ _ _ _ _ _ _ _ Pk) (ok_def _ _ _ _ _ _ _ _ _ _ Pk) (ok_edges _ _ _ _ _ _ _ _ _ _ Pk) (ok_held _ _ _ _ _ _ _ _ _ _ Pk) E).
  destruct (t_C42_first_above_one eigsh _ _ _ _ _ _ _ _ _ _ num K KG out vecs l Dc E Pn Sm L1 H) as (rest & ->).
  exists l, rest. repeat split; assumption.
Qed.

(** ** examples *)
Lemma four_ok s cd : specifies (CStr s) cd cd cd cd -> cd = Clamped \/ cd = Pinned -> plate_ok (M3 4 1 0 1 1 0 0 0 1) 2 1 (CStr s) cd cd cd cd 3 3.
Proof.
  intros Sp Hc. constructor; try lra; try exact Sp.
  - reflexivity.
  - intros [x y z] Hv. unfold quad, dot, mvec. cbn [vx vy vz a11 a12 a13 a21 a22 a23 a31 a32 a33].
    match goal with |- 0 < ?e => replace e with (3 * x ^ 2 + (x + y) ^ 2 + z ^ 2) by ring end.
    assert (Q1 := pow2_ge_0 x). assert (Q2 := pow2_ge_0 (x + y)). assert (Q3 := pow2_ge_0 z).
    destruct (Req_dec x 0) as [->|X]; [destruct (Req_dec y 0) as [->|Y]; [destruct (Req_dec z 0) as [->|Z]; [exfalso; apply Hv; reflexivity|]|]|].
    + assert (0 < z ^ 2) by (rewrite <- Rsqr_pow2; apply Rsqr_pos_lt, Z). lra.
    + assert (0 < (0 + y) ^ 2) by (rewrite <- Rsqr_pow2; apply Rsqr_pos_lt; lra). lra.
    + assert (0 < x ^ 2) by (rewrite <- Rsqr_pow2; apply Rsqr_pos_lt, X). lra.
  - destruct Hc as [-> | ->]; [left; reflexivity|do 4 right; cbn; lia].
  - destruct Hc as [-> | ->]; cbn; lia.
  - destruct Hc as [-> | ->]; cbn; lia.
Qed.
(*@ A plate within the scope of C79_column, C79_long_plate, C79_one_wave, C79_sandwich and C79_safe, its strip stiffness and its buckling load. @*)
Example t_C79_ex : plate_ok (M3 4 1 0 1 1 0 0 0 1) 2 1 (CStr "PINNED") Pinned Pinned Pinned Pinned 3 3 /\ euler_column Pinned Pinned 1 /\
  supported Pinned Pinned Pinned Pinned /\ orthotropic (M3 4 1 0 1 1 0 0 0 1) /\ strip_stiffness (M3 4 1 0 1 1 0 0 0 1) = 3 /\
  one_wave (M3 4 1 0 1 1 0 0 0 1) 2 1 = 11 * PI ^ 2 /\ long_plate (M3 4 1 0 1 1 0 0 0 1) 1 = 10 * PI ^ 2 /\
  exists l, critical (M3 4 1 0 1 1 0 0 0 1) 2 1 (-1) 0 0 (CStr "PINNED") 3 3 l /\ 11 * PI ^ 2 <= l <= 1.0014 * (11 * PI ^ 2).
Proof.
  assert (P := four_ok "PINNED" Pinned Sp_pinned (or_intror eq_refl)).
  assert (W : one_wave (M3 4 1 0 1 1 0 0 0 1) 2 1 = 11 * PI ^ 2) by (unfold one_wave, mixed_stiffness; cbn [a11 a12 a22 a33]; field).
  split; [exact P|]. split; [constructor; reflexivity|]. split; [repeat split; reflexivity|]. split; [split; reflexivity|].
  split; [unfold strip_stiffness, det3; cbn [a11 a12 a13 a21 a22 a23 a31 a32 a33]; field|]. split; [exact W|]. split.
  - unfold long_plate, mixed_stiffness. cbn [a11 a12 a22 a33]. replace (4 * 1) with (2 * 2) by ring. rewrite sqrt_square by lra. field.
  - destruct (t_C79_sandwich (M3 4 1 0 1 1 0 0 0 1) 2 1 1 _ 3 3 P ltac:(lia) ltac:(lia) ltac:(lra) ltac:(split; reflexivity)) as ((l & C) & B).
    + unfold mixed_stiffness; cbn [a12 a33]; lra.
    + cbn [a11 a22]. lra.
    + exists l. split; [exact C|]. specialize (B l C). rewrite W in B. lra.
Qed.
(*@ Loads in both directions (C79_biaxial) and the bounds of a clamped plate (C79_clamped, C79_clamped_upper, C79_reported). @*)
Example t_C79_ex_more : plate_ok (M3 4 1 0 1 1 0 0 0 1) 2 1 (CStr "CLAMPED") Clamped Clamped Clamped Clamped 3 3 /\ euler_column Clamped Clamped (1 / 2) /\
  (exists (K KG : list (list R)) l, calc_K_KG_D exact_tables (as_arr (M3 4 1 0 1 1 0 0 0 1)) 2 1 (- (1)) (- (1)) 0 (CStr "CLAMPED") 3 3 = Ok (K, KG) /\ 0 < l /\ factor K KG l /\ PI ^ 2 <= l) /\
  exists l, critical (M3 4 1 0 1 1 0 0 0 1) 2 1 (- (1)) 0 0 (CStr "CLAMPED") 3 3 l /\ 3 * PI ^ 2 <= l * 1 <= 282.
Proof.
  assert (P := four_ok "CLAMPED" Clamped Sp_clamped (or_introl eq_refl)). split; [exact P|]. split; [constructor|]. split.
  - destruct (t_C68_compression (M3 4 1 0 1 1 0 0 0 1) 2 1 (- (1)) (- (1)) 0 _ _ _ _ _ 3 3 P ltac:(lia) ltac:(lia)) as (l & K & KG & H & (Hl & Fl & _)); [unfold no_compression; lra|lra|].
    exists K, KG, l. split; [exact H|]. split; [exact Hl|]. split; [exact Fl|].
    apply (t_C79_biaxial _ 2 1 1 1 _ _ _ _ _ 3 3 K KG l 0 (PI ^ 2) (ok_any _ _ _ _ _ _ _ _ _ _ P)); unfold mixed_stiffness; cbn [a11 a12 a13 a21 a22 a23 a31 a32 a33]; try assumption; try lra; try (split; reflexivity); try (repeat split; reflexivity); assert (Q := pow2_ge_0 PI); lra.
  - destruct (t_C79_clamped_upper (M3 4 1 0 1 1 0 0 0 1) 2 1 1 _ 3 3 P ltac:(lia) ltac:(lia) ltac:(lra)) as ((l & C) & B). exists l. split; [exact C|]. split.
    + destruct C as (K & KG & H & (_ & Fl & _)). assert (Lo := t_C79_column _ 2 1 1 _ _ _ _ _ 3 3 (1 / 2) K KG l (ok_any _ _ _ _ _ _ _ _ _ _ P) Col_fixed H Fl).
      unfold strip_stiffness, det3 in Lo. cbn [a11 a12 a13 a21 a22 a23 a31 a32 a33] in Lo. replace (PI / (1 / 2 * 2)) with PI in Lo by field. lra.
    + specialize (B l C). unfold mixed_stiffness in B. cbn [a11 a12 a22 a33] in B. lra.
Qed.
(*@ A documented solver that answers for a clamped plate loaded below Euler's load, as C79_reported supposes. @*)
Example t_C79_ex_solver : 0 < 1 <= strip_stiffness (M3 4 1 0 1 1 0 0 0 1) * (2 * PI / 2) ^ 2 /\ exists eigsh out vecs, documented eigsh /\
  buckling_analysis eigsh stored_R (as_arr (M3 4 1 0 1 1 0 0 0 1)) 2 1 (- (1)) 0 0 (CStr "CLAMPED") 3 3 5 = Ok (out, vecs) /\ List.length out = 5%nat.
Proof.
  assert (P := four_ok "CLAMPED" Clamped Sp_clamped (or_introl eq_refl)). split.
  - unfold strip_stiffness, det3. cbn [a11 a12 a13 a21 a22 a23 a31 a32 a33]. assert (Q := pi_low). split; [lra|]. replace (2 * PI / 2) with PI by field. nra.
  - destruct (t_C74_analysis (M3 4 1 0 1 1 0 0 0 1) 2 1 (- (1)) 0 0 _ _ _ _ _ 3 3 5 P ltac:(lia) ltac:(lia)) as (eigsh & out & vecs & Dc & E & L); [unfold no_compression; lra|].
    exists eigsh, out, vecs. split; [exact Dc|]. split; [|exact L]. destruct (t_C75_users eigsh (CStr "CLAMPED") 3 3 Sp_clamped ltac:(lia) ltac:(lia)) as (Eq & _). rewrite Eq. exact E.
Qed.
