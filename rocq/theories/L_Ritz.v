(** The energy forms evaluated on shape functions. *)
From Coq Require Import Reals ZArith QArith Qreals Lra Lia FunctionalExtensionality.
From Coquelicot Require Import Coquelicot.
From Coq Require Import List.
From Verif Require Import M_Py M_K M_RealArith S_Mat S_Bardell S_Energy S_K S_Ritz L_Poly L_Shape L_Energy L_KR.
Import ListNotations.
Open Scope R_scope.

Fixpoint qD (n : nat) (p : list Q) : list Q := match n with O => p | S k => qderiv (qD k p) end.
Lemma Dn_poly i n : forall x, Derive_n (bardell i) n x = qeval (qD n (bpoly i)) x.
Proof.
  induction n as [|n IH]; intros x; cbn [Derive_n qD]; [apply bardell_poly|].
  rewrite (Derive_ext _ (qeval (qD n (bpoly i)))) by exact IH. apply qeval_Derive.
Qed.
Lemma exact_integral p q i k : exact_int p q i k = integral (qmul (qD p (bpoly i)) (qD q (bpoly k))).
Proof. unfold exact_int, integral. apply RInt_ext. intros x _. rewrite !Dn_poly, qeval_mul. reflexivity. Qed.

Definition exact_e : etab := Etab (exact_int 0 0) (exact_int 1 0) (exact_int 1 1) (exact_int 2 0) (exact_int 2 1) (exact_int 2 2).
Lemma exact_good : good (fun _ => True) exact_tables exact_e.
Proof. intros i k _ _. repeat split. Qed.

Section S.
Variables a b : R.
(** derivatives of a shape function *)
Definition dsh (u v i j : nat) : field := fun x y =>
  (2 / a) ^ u * (2 / b) ^ v * (at_ a (qD u (bpoly i)) x * at_ b (qD v (bpoly j)) y).
Lemma shape_dsh i j : shape a b i j = dsh 0 0 i j.
Proof. apply field_ext. intros x y. unfold shape, dsh, at_. cbn [qD pow]. rewrite !bardell_poly. ring. Qed.
Lemma dx_dsh u v i j : dx (dsh u v i j) = dsh (S u) v i j.
Proof. unfold dsh. rewrite dx_term. apply field_ext. intros. cbn [qD pow]. ring. Qed.
Lemma dy_dsh u v i j : dy (dsh u v i j) = dsh u (S v) i j.
Proof. unfold dsh. rewrite dy_term. apply field_ext. intros. cbn [qD pow]. ring. Qed.
Lemma nice_dsh u v i j : nice a b (dsh u v i j).
Proof. apply nice_term. Qed.
Lemma nice_shape i j : nice a b (shape a b i j).
Proof. rewrite shape_dsh. apply nice_dsh. Qed.
Lemma nice_opp f : nice a b f -> nice a b (fun x y => - f x y).
Proof. intros H. eapply (eq_ind _ (nice a b) (nice_scal a b (-1) f H)). apply field_ext. intros. ring. Qed.
Lemma nice_sub f g : nice a b f -> nice a b g -> nice a b (fun x y => f x y - g x y).
Proof. intros F G. apply (nice_add a b f (fun x y => - g x y) F (nice_opp g G)). Qed.

Hypothesis Ha : a <> 0.
Hypothesis Hb : b <> 0.
Lemma prod_over u v u' v' i j k l :
  over a b (fun x y => dsh u v i j x y * dsh u' v' k l x y)
  = (2 / a) ^ (u + u') * (2 / b) ^ (v + v') * (a * b / 4) * (exact_int u u' i k * exact_int v v' j l).
Proof.
  rewrite (over_ext a b _ (fun x y => (2 / a) ^ (u + u') * (2 / b) ^ (v + v') *
    (at_ a (qmul (qD u (bpoly i)) (qD u' (bpoly k))) x * at_ b (qmul (qD v (bpoly j)) (qD v' (bpoly l))) y))).
  2:{ intros x y. unfold dsh, at_. rewrite !qeval_mul, !pow_add. ring. }
  rewrite over_term by assumption. rewrite !exact_integral. field.
Qed.
End S.

Ltac nice_tac := repeat first [assumption|apply nice_dsh|apply nice_shape|apply nice_zero|apply nice_dx|apply nice_dy
  |apply nice_scal|apply nice_add|apply nice_sub|apply nice_opp|apply nice_mul].

(** the integrands *)
Definition bend_i (D : mat3) (w v : field) : field := fun x y => dot (curvature w x y) (mvec D (curvature v x y)).
Lemma nice_bend a b D w v : nice a b w -> nice a b v -> nice a b (bend_i D w v).
Proof. intros W V. unfold bend_i, dot, curvature, mvec. cbn [vx vy vz]. nice_tac. Qed.

(** expansion in products of second derivatives *)
Lemma bending_expand D a b w v : a <> 0 -> b <> 0 -> symmetric D -> nice a b w -> nice a b v ->
  bending D a b w v =
    a11 D * over a b (fun x y => dx (dx w) x y * dx (dx v) x y)
  + a21 D * (over a b (fun x y => dx (dx w) x y * dy (dy v) x y) + over a b (fun x y => dy (dy w) x y * dx (dx v) x y))
  + a22 D * over a b (fun x y => dy (dy w) x y * dy (dy v) x y)
  + 2 * a31 D * (over a b (fun x y => dx (dx w) x y * dx (dy v) x y) + over a b (fun x y => dx (dy w) x y * dx (dx v) x y))
  + 2 * a32 D * (over a b (fun x y => dy (dy w) x y * dx (dy v) x y) + over a b (fun x y => dx (dy w) x y * dy (dy v) x y))
  + 4 * a33 D * over a b (fun x y => dx (dy w) x y * dx (dy v) x y).
Proof.
  intros Ha Hb Sy W V. unfold symmetric, mtrans in Sy. destruct D as [d11 d12 d13 d21 d22 d23 d31 d32 d33]. cbn in Sy. injection Sy as E1 E2 E3 E4 E5 E6.
  cbn [a11 a21 a22 a31 a32 a33]. rewrite <- !(over_add a b Ha Hb) by nice_tac. rewrite <- !(over_scal a b Ha Hb) by nice_tac.
  rewrite <- !(over_add a b Ha Hb) by nice_tac. unfold bending. apply over_ext. intros x y. unfold dot, curvature, mvec. cbn [vx vy vz a11 a12 a13 a21 a22 a23 a31 a32 a33].
  subst. ring.
Qed.
Lemma bending_shape D a b i j k l : a <> 0 -> b <> 0 -> symmetric D ->
  bending D a b (shape a b i j) (shape a b k l) = k33f exact_e a b ((i, j), (k, l)) (a11 D) (a21 D) (a22 D) (a31 D) (a32 D) (a33 D).
Proof.
  intros Ha Hb Sy. rewrite (bending_expand D a b _ _ Ha Hb Sy) by apply nice_shape. rewrite !shape_dsh, !dy_dsh, !dx_dsh.
  rewrite !(prod_over a b Ha Hb).
  unfold k33f, exact_e. cbn [fst snd e00 e10 e11 e20 e21 e22].
  cbn [Nat.add]. 
  assert (S : forall p q i k, exact_int p q i k = exact_int q p k i).
  { intros. unfold exact_int. apply RInt_ext. intros. apply Rmult_comm. }
  rewrite (S 0%nat 1%nat i k), (S 0%nat 2%nat i k), (S 1%nat 2%nat i k), (S 0%nat 1%nat j l), (S 0%nat 2%nat j l), (S 1%nat 2%nat j l).
  field. split; assumption.
Qed.
Lemma load_expand a b Nxx Nyy Nxy w v : a <> 0 -> b <> 0 -> nice a b w -> nice a b v ->
  load_work Nxx Nyy Nxy a b w v =
    Nxx * over a b (fun x y => dx w x y * dx v x y) + Nyy * over a b (fun x y => dy w x y * dy v x y)
  + Nxy * (over a b (fun x y => dx w x y * dy v x y) + over a b (fun x y => dy w x y * dx v x y)).
Proof.
  intros Ha Hb W V. rewrite <- !(over_add a b Ha Hb) by nice_tac. rewrite <- !(over_scal a b Ha Hb) by nice_tac.
  rewrite <- !(over_add a b Ha Hb) by nice_tac. apply over_ext. intros x y. ring.
Qed.
Lemma load_shape a b Nxx Nyy Nxy i j k l : a <> 0 -> b <> 0 ->
  load_work Nxx Nyy Nxy a b (shape a b i j) (shape a b k l) = kGf exact_e a b ((i, j), (k, l)) Nxx Nyy Nxy.
Proof.
  intros Ha Hb. rewrite (load_expand a b _ _ _ _ _ Ha Hb) by apply nice_shape. rewrite !shape_dsh, !dy_dsh, !dx_dsh.
  rewrite !(prod_over a b Ha Hb). unfold kGf, exact_e. cbn [fst snd e00 e10 e11 e20 e21 e22]. cbn [Nat.add].
  assert (S : forall p q i k, exact_int p q i k = exact_int q p k i).
  { intros. unfold exact_int. apply RInt_ext. intros. apply Rmult_comm. }
  rewrite (S 0%nat 1%nat i k), (S 0%nat 1%nat j l). field. split; assumption.
Qed.

(** ** bilinearity *)
Section B.
Variables (D : mat3) (a b : R) (Ha : a <> 0) (Hb : b <> 0).
Lemma curv_lin s w v x y : nice a b w -> nice a b v ->
  curvature (fun x y => s * w x y + v x y) x y = vadd (vscale s (curvature w x y)) (curvature v x y).
Proof.
  intros W V. unfold curvature, vadd, vscale. cbn [vx vy vz].
  assert (Ws := nice_scal a b s w W).
  rewrite (dx_add a b _ _ Ws V), (dy_add a b _ _ Ws V).
  rewrite dx_scal, dy_scal.
  assert (X := nice_dx a b w W). assert (Y := nice_dy a b w W). assert (X' := nice_dx a b v V). assert (Y' := nice_dy a b v V).
  rewrite (dx_add a b _ _ (nice_scal a b s _ X) X'), (dy_add a b _ _ (nice_scal a b s _ Y) Y'), (dx_add a b _ _ (nice_scal a b s _ Y) Y').
  rewrite !dx_scal, !dy_scal. f_equal; ring.
Qed.
Lemma bending_lin_r s u w v : nice a b u -> nice a b w -> nice a b v ->
  bending D a b u (fun x y => s * w x y + v x y) = s * bending D a b u w + bending D a b u v.
Proof.
  intros U W V. unfold bending. fold (bend_i D u w). fold (bend_i D u v).
  rewrite <- (over_scal a b Ha Hb s (bend_i D u w)) by (apply nice_bend; assumption).
  rewrite <- (over_add a b Ha Hb (fun x y => s * bend_i D u w x y) (bend_i D u v))
    by (try apply (nice_scal a b s (bend_i D u w)); apply nice_bend; assumption).
  apply over_ext. intros x y. rewrite curv_lin by assumption. unfold bend_i, dot, mvec, vadd, vscale. cbn [vx vy vz]. ring.
Qed.
Lemma bending_lin_l s u w v : nice a b u -> nice a b w -> nice a b v ->
  bending D a b (fun x y => s * w x y + v x y) u = s * bending D a b w u + bending D a b v u.
Proof.
  intros U W V. unfold bending. fold (bend_i D w u). fold (bend_i D v u).
  rewrite <- (over_scal a b Ha Hb s (bend_i D w u)) by (apply nice_bend; assumption).
  rewrite <- (over_add a b Ha Hb (fun x y => s * bend_i D w u x y) (bend_i D v u))
    by (try apply (nice_scal a b s (bend_i D w u)); apply nice_bend; assumption).
  apply over_ext. intros x y. rewrite curv_lin by assumption. unfold bend_i, dot, mvec, vadd, vscale. cbn [vx vy vz]. ring.
Qed.
Lemma bending_zero_r u : nice a b u -> bending D a b u (fun _ _ => 0) = 0.
Proof.
  intros U. assert (H := bending_lin_r 1 u (fun _ _ => 0) (fun _ _ => 0) U (nice_zero a b) (nice_zero a b)). 
  cbv beta in H. replace (fun _ _ : R => 1 * 0 + 0) with (fun x y : R => 0) in H by (apply field_ext; intros; ring). lra.
Qed.
Lemma bending_zero_l u : nice a b u -> bending D a b (fun _ _ => 0) u = 0.
Proof.
  intros U. assert (H := bending_lin_l 1 u (fun _ _ => 0) (fun _ _ => 0) U (nice_zero a b) (nice_zero a b)). 
  cbv beta in H. replace (fun _ _ : R => 1 * 0 + 0) with (fun x y : R => 0) in H by (apply field_ext; intros; ring). lra.
Qed.

(** combinations *)
Lemma combine_cons p l x c : combine_shapes a b (p :: l) (x :: c) = fun u v => x * shape a b (fst p) (snd p) u v + combine_shapes a b l c u v.
Proof. reflexivity. Qed.
Lemma combine_nil l c : l = [] \/ c = [] -> combine_shapes a b l c = fun _ _ => 0.
Proof. unfold combine_shapes. intros [-> | ->]; [|destruct l]; reflexivity. Qed.
Lemma nice_combine l : forall c, nice a b (combine_shapes a b l c).
Proof.
  induction l as [|p l IH]; intros [|x c]; try apply nice_zero.
  rewrite combine_cons. apply nice_add; [|apply IH]. apply nice_scal, nice_shape.
Qed.
Definition sh (p : nat * nat) : field := shape a b (fst p) (snd p).
Lemma quad_row u l : nice a b u -> forall c, dot_list (map (fun q => bending D a b u (sh q)) l) c = bending D a b u (combine_shapes a b l c).
Proof.
  intros U. unfold dot_list. induction l as [|q l IH]; intros [|x c].
  - rewrite combine_nil, bending_zero_r by (try assumption; left; reflexivity). reflexivity.
  - rewrite combine_nil, bending_zero_r by (try assumption; left; reflexivity). reflexivity.
  - rewrite combine_nil, bending_zero_r by (try assumption; right; reflexivity). reflexivity.
  - cbn [map map2 rsum]. rewrite IH, combine_cons, bending_lin_r; [unfold sh; ring|exact U|apply nice_shape|apply nice_combine].
Qed.
Lemma quad_outer u l : nice a b u -> forall c, dot_list c (map (fun q => bending D a b (sh q) u) l) = bending D a b (combine_shapes a b l c) u.
Proof.
  intros U. unfold dot_list. induction l as [|q l IH]; intros [|x c].
  - rewrite combine_nil, bending_zero_l by (try assumption; left; reflexivity). reflexivity.
  - rewrite combine_nil, bending_zero_l by (try assumption; left; reflexivity). reflexivity.
  - rewrite combine_nil, bending_zero_l by (try assumption; right; reflexivity). reflexivity.
  - cbn [map map2 rsum]. rewrite IH, combine_cons, bending_lin_l; [unfold sh; ring|exact U|apply nice_shape|apply nice_combine].
Qed.
Lemma quad_bending l c : quad_rows (map (fun p => map (fun q => bending D a b (sh p) (sh q)) l) l) c =
  bending D a b (combine_shapes a b l c) (combine_shapes a b l c).
Proof.
  unfold quad_rows. rewrite map_map. rewrite <- quad_outer by apply nice_combine. f_equal. apply map_ext. intros p.
  apply quad_row. apply nice_shape.
Qed.
End B.
