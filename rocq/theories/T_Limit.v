(** Proofs of the theorems on the limit of the critical factors. *)
From Coq Require Import QArith Qreals Reals ZArith Lra Lia Bool String Classical FunctionalExtensionality.
From Coquelicot Require Import Coquelicot.
From Coq Require Import List.
From Verif Require Import M_Py M_Plate M_K M_RealArith S_Plate S_Mat S_Bardell S_Energy S_K S_Ritz S_Eigen S_Compare S_Space S_Bounds S_Limit L_Quad L_Eigen L_Plate L_FirstK L_K L_KR L_Poly L_Shape L_TabV L_Energy L_Ritz L_Weier L_Approx L_Limit T_Plate T_Shape T_K T_Energy T_Buckling T_Compare T_Space T_Bounds.
Import ListNotations.
Open Scope R_scope.

(** ** polynomials are nice and of bounded degree *)
Lemma nice_x a b : 0 < a -> 0 < b -> nice a b (fun x _ => x).
Proof.
  intros Ha Hb. eapply (eq_ind _ (nice a b) (nice_term a b (a / 2) [1%Q; 1%Q] [1%Q])). apply field_ext. intros x y. unfold at_. cbn [qeval]. rewrite !Q2R_Z. field. lra.
Qed.
Lemma nice_one a b : nice a b (fun _ _ => 1).
Proof. eapply (eq_ind _ (nice a b) (nice_term a b 1 [1%Q] [1%Q])). apply field_ext. intros x y. unfold at_. cbn [qeval]. rewrite !Q2R_Z, !Rmult_0_r. ring. Qed.
Lemma nice_y a b : 0 < a -> 0 < b -> nice a b (fun _ y => y).
Proof. intros Ha Hb. exact (nice_flip b a _ (nice_x b a Hb Ha)). Qed.
Lemma nice_pow a b f i : nice a b f -> nice a b (fun x y => f x y ^ i).
Proof. intros F. induction i as [|i IH]; [apply nice_one|]. cbn [pow]. apply nice_mul; assumption. Qed.
Lemma nice_ev a b l : 0 < a -> 0 < b -> nice a b (ev l).
Proof.
  intros Ha Hb. induction l as [|[c [i j]] l IH]; [apply nice_zero|].
  eapply (eq_ind _ (nice a b) (nice_add a b _ _ (nice_scal a b c _ (nice_mul a b _ _ (nice_pow a b _ i (nice_x a b Ha Hb)) (nice_pow a b _ j (nice_y a b Ha Hb)))) IH)).
  apply field_ext. intros x y. rewrite ev_cons. reflexivity.
Qed.
Lemma bipoly_mono k l k' l' w : (k <= k')%nat -> (l <= l')%nat -> bipoly k l w -> bipoly k' l' w.
Proof. intros Hk Hl (P & L & F & H). exists P. split; [lia|]. split; [|exact H]. eapply Forall_impl; [|exact F]. intros q Hq. cbv beta in Hq. lia. Qed.
Lemma poly_pow i : exists p, (List.length p <= Datatypes.S i)%nat /\ forall x, x ^ i = poly p x.
Proof.
  induction i as [|i [p [Lp Hp]]]; [exists [1]; split; [cbn; lia|intros; cbn; ring]|]. exists (0 :: p). split; [cbn; lia|]. intros x. cbn [poly pow]. rewrite Hp. ring.
Qed.
Lemma ev_bipoly l : exists k, bipoly k k (ev l).
Proof.
  induction l as [|[c [i j]] l [k IH]]; [exists 0%nat; apply bipoly_zero|]. destruct (poly_pow i) as (p & Lp & Hp). destruct (poly_pow j) as (q & Lq & Hq).
  set (K := (k + Datatypes.S i + Datatypes.S j)%nat). exists K. apply (bipoly_ext _ _ (fun x y => (poly p x * poly (map (fun d => c * d) q) y) + ev l x y)).
  - intros x y. rewrite ev_cons. unfold L_Weier.tval. cbn [fst snd]. rewrite Hp, Hq. assert (E : poly (map (fun d => c * d) q) y = c * poly q y) by (clear; induction q as [|d q IH]; cbn [map poly]; [ring|rewrite IH; ring]).
    rewrite E. ring.
  - apply bipoly_add; [|apply (bipoly_mono k k); [lia|lia|exact IH]]. apply (bipoly_prod K K p (map (fun d => c * d) q)); [lia|rewrite map_length; lia|reflexivity|reflexivity].
Qed.
(** ** no strain without energy *)
Definition turn (D : mat3) : mat3 := M3 (a22 D) (a23 D) (a21 D) (a32 D) (a33 D) (a31 D) (a12 D) (a13 D) (a11 D).
Lemma turn_quad D x y z : quad (turn D) (V3 y z x) = quad D (V3 x y z). Proof. unfold quad, dot, mvec, turn. cbn. ring. Qed.
Lemma turn_sym D : symmetric D -> symmetric (turn D).
Proof. intros Sy. assert (S1 : a21 D = a12 D) by exact (f_equal a12 Sy). assert (S2 : a31 D = a13 D) by exact (f_equal a13 Sy). assert (S3 : a32 D = a23 D) by exact (f_equal a23 Sy). unfold symmetric, mtrans, turn. cbn. rewrite S1, S2, S3. reflexivity. Qed.
Lemma turn_def D : pos_def D -> pos_def (turn D).
Proof. intros P [y z x] N. rewrite turn_quad. apply P. intros E. apply N. injection E as -> -> ->. reflexivity. Qed.
Lemma coercive D : symmetric D -> pos_def D -> exists d, 0 < d /\ forall x y z, d * (x ^ 2 + y ^ 2 + z ^ 2) <= quad D (V3 x y z).
Proof.
  intros Sy P. destruct (t_C79_strip D Sy P) as (P1 & H1 & _). destruct (t_C79_strip (turn D) (turn_sym D Sy) (turn_def D P)) as (P2 & H2 & _).
  destruct (t_C79_strip (turn (turn D)) (turn_sym _ (turn_sym D Sy)) (turn_def _ (turn_def D P))) as (P3 & H3 & _).
  set (s1 := strip_stiffness D) in *. set (s2 := strip_stiffness (turn D)) in *. set (s3 := strip_stiffness (turn (turn D))) in *.
  set (d := Rmin s1 (Rmin s2 s3) / 3). assert (M1 := Rmin_l s1 (Rmin s2 s3)). assert (M2 := Rmin_r s1 (Rmin s2 s3)). assert (M3' := Rmin_l s2 s3). assert (M4 := Rmin_r s2 s3).
  assert (Pd : 0 < Rmin s1 (Rmin s2 s3)) by (repeat apply Rmin_pos; assumption). exists d. split; [unfold d; lra|]. intros x y z.
  assert (Q1 := H1 (V3 x y z)). assert (Q2 := H2 (V3 y z x)). assert (Q3 := H3 (V3 z x y)). rewrite !turn_quad in Q3. rewrite turn_quad in Q2. cbn [vx] in *.
  assert (R1 : 3 * d * x ^ 2 <= s1 * x ^ 2) by (apply Rmult_le_compat_r; [apply pow2_ge_0|unfold d; lra]).
  assert (R2 : 3 * d * y ^ 2 <= s2 * y ^ 2) by (apply Rmult_le_compat_r; [apply pow2_ge_0|unfold d; lra]).
  assert (R3 : 3 * d * z ^ 2 <= s3 * z ^ 2) by (apply Rmult_le_compat_r; [apply pow2_ge_0|unfold d; lra]). lra.
Qed.
Lemma bending_coercive D a b w d : 0 < a -> 0 < b -> nice a b w -> (forall x y z, d * (x ^ 2 + y ^ 2 + z ^ 2) <= quad D (V3 x y z)) ->
  d * (I2 a b (dx (dx w)) + I2 a b (dy (dy w)) + 4 * I2 a b (dx (dy w))) <= bending D a b w w.
Proof.
  intros Ha Hb W H. assert (Le := bending_le (M3 d 0 0 0 d 0 0 0 d) D a b w Ha Hb W).
  rewrite (bending_expand (M3 d 0 0 0 d 0 0 0 d)) in Le by (lra || assumption || reflexivity). cbn [a11 a12 a13 a21 a22 a23 a31 a32 a33] in Le.
  assert (Sq : forall f : field, over a b (fun x y => f x y * f x y) = I2 a b f) by (intros f; apply over_ext; intros; ring). rewrite !Sq in Le.
  eapply Rle_trans; [|apply Le].
  - right. ring.
  - intros [x y z]. eapply Rle_trans; [|apply H]. right. unfold quad, dot, mvec. cbn. ring.
Qed.
(** the slopes are controlled by the curvatures *)
Lemma quarter_pos a : 0 < a -> 0 < (PI / (2 * a)) ^ 2.
Proof. intros Ha. assert (P := PI_RGT_0). apply pow_lt, Rdiv_lt_0_compat; lra. Qed.
Lemma half_le a x : 0 < a -> 0 <= x -> (PI / (2 * a)) ^ 2 * x <= (PI / a) ^ 2 * x.
Proof.
  intros Ha Hx. apply Rmult_le_compat_r; [exact Hx|]. replace (PI / (2 * a)) with (/ 2 * (PI / a)) by (field; lra). rewrite Rpow_mult_distr. assert (Q := pow2_ge_0 (PI / a)). lra.
Qed.
Section Slopes.
Variables (a b : R) (Ha : 0 < a) (Hb : 0 < b) (w : field) (W : nice a b w).
Let ka := (PI / (2 * a)) ^ 2. Let kb := (PI / (2 * b)) ^ 2.
Let Wx := nice_dx a b w W. Let Wy := nice_dy a b w W. Let Wxx := nice_dx a b _ Wx. Let Wyy := nice_dy a b _ Wy. Let Wxy := nice_dx a b _ Wy.
Lemma left_y f : nice a b f -> (forall x, f x 0 = 0) -> kb * I2 a b f <= I2 a b (dy f).
Proof.
  intros F E. assert (H := left_x b a Hb Ha (flip f) (nice_flip a b f F) E). change (dx (flip f)) with (flip (dy f)) in H. rewrite !I2_flip in H by (assumption || apply nice_dy, F). exact H.
Qed.
Lemma right_y f : nice a b f -> (forall x, f x b = 0) -> kb * I2 a b f <= I2 a b (dy f).
Proof.
  intros F E. assert (H := right_x b a Hb Ha (flip f) (nice_flip a b f F) E). change (dx (flip f)) with (flip (dy f)) in H. rewrite !I2_flip in H by (assumption || apply nice_dy, F). exact H.
Qed.
(** from edges along x *)
Lemma x0_y : (forall y, w 0 y = 0) -> ka * I2 a b (dy w) <= I2 a b (dx (dy w)).
Proof. intros E. apply left_x; [exact Ha|exact Hb|exact Wy|]. apply dy_zero, E. Qed.
Lemma xa_y : (forall y, w a y = 0) -> ka * I2 a b (dy w) <= I2 a b (dx (dy w)).
Proof. intros E. apply right_x; [exact Ha|exact Hb|exact Wy|]. apply dy_zero, E. Qed.
Lemma y0_x : (forall x, w x 0 = 0) -> kb * I2 a b (dx w) <= I2 a b (dx (dy w)).
Proof. intros E. rewrite (dx_dy a b w W). apply left_y; [exact Wx|]. apply dx_zero, E. Qed.
Lemma yb_x : (forall x, w x b = 0) -> kb * I2 a b (dx w) <= I2 a b (dx (dy w)).
Proof. intros E. rewrite (dx_dy a b w W). apply right_y; [exact Wx|]. apply dx_zero, E. Qed.
Lemma x0a_x : (forall y, w 0 y = 0) -> (forall y, w a y = 0) -> ka * I2 a b (dx w) <= I2 a b (dx (dx w)).
Proof.
  intros E F. eapply Rle_trans; [apply half_le; [exact Ha|apply I2_nonneg; assumption]|]. apply (curve_x a b Ha Hb w W E F).
Qed.
Lemma y0b_y : (forall x, w x 0 = 0) -> (forall x, w x b = 0) -> kb * I2 a b (dy w) <= I2 a b (dy (dy w)).
Proof.
  intros E F. eapply Rle_trans; [apply half_le; [exact Hb|apply I2_nonneg; assumption]|]. apply (curve_y a b Ha Hb w W E F).
Qed.
Lemma slopes_bound c0 ca d0 db : restrained c0 ca d0 db -> fits a b c0 ca d0 db w ->
  Rmin ka kb * (I2 a b (dx w) + I2 a b (dy w)) <= 2 * (I2 a b (dx (dx w)) + I2 a b (dy (dy w)) + I2 a b (dx (dy w))).
Proof.
  intros Rs [[V0 S0] [Va Sa] [T0 U0] [Tb Ub]].
  assert (Ka := quarter_pos a Ha). assert (Kb := quarter_pos b Hb). fold ka in Ka. fold kb in Kb. assert (M1 := Rmin_l ka kb). assert (M2 := Rmin_r ka kb). assert (Pm : 0 < Rmin ka kb) by (apply Rmin_pos; assumption).
  assert (X := I2_nonneg a b Ha Hb _ Wx). assert (Y := I2_nonneg a b Ha Hb _ Wy). assert (XX := I2_nonneg a b Ha Hb _ Wxx). assert (YY := I2_nonneg a b Ha Hb _ Wyy). assert (XY := I2_nonneg a b Ha Hb _ Wxy).
  assert (Mx : forall k, Rmin ka kb <= k -> forall z, 0 <= z -> Rmin ka kb * z <= k * z) by (intros k Hk z Hz; apply Rmult_le_compat_r; assumption).
  assert (G : forall kx ky px py, Rmin ka kb <= kx -> Rmin ka kb <= ky -> kx * I2 a b (dx w) <= px -> ky * I2 a b (dy w) <= py -> px + py <= 2 * (I2 a b (dx (dx w)) + I2 a b (dy (dy w)) + I2 a b (dx (dy w))) ->
    Rmin ka kb * (I2 a b (dx w) + I2 a b (dy w)) <= 2 * (I2 a b (dx (dx w)) + I2 a b (dy (dy w)) + I2 a b (dx (dy w)))).
  { intros kx ky px py H1 H2 H3 H4 H5. assert (Q1 := Mx kx H1 _ X). assert (Q2 := Mx ky H2 _ Y). lra. }
  assert (K0 : forall c, (held c <> 0)%nat -> holds_value c = true) by (intros [| |]; cbn; congruence).
  destruct Rs as [->|[->|[->|[->|H]]]].
  - assert (V := V0 eq_refl). assert (S := S0 eq_refl). apply (G ka ka _ _ M1 M1 (left_x a b Ha Hb _ Wx S) (x0_y V)). lra.
  - assert (V := Va eq_refl). assert (S := Sa eq_refl). apply (G ka ka _ _ M1 M1 (right_x a b Ha Hb _ Wx S) (xa_y V)). lra.
  - assert (V := T0 eq_refl). assert (S := U0 eq_refl). apply (G kb kb _ _ M2 M2 (y0_x V) (left_y _ Wy S)). lra.
  - assert (V := Tb eq_refl). assert (S := Ub eq_refl). apply (G kb kb _ _ M2 M2 (yb_x V) (right_y _ Wy S)). lra.
  - destruct (holds_value c0) eqn:Q0; [specialize (V0 eq_refl)|]; (destruct (holds_value ca) eqn:Qa; [specialize (Va eq_refl)|]); (destruct (holds_value d0) eqn:R0; [specialize (T0 eq_refl)|]); (destruct (holds_value db) eqn:Rb; [specialize (Tb eq_refl)|]);
      try (exfalso; destruct c0, ca, d0, db; cbn in *; try discriminate; lia).
    all: first [apply (G ka ka _ _ M1 M1 (x0a_x V0 Va) (x0_y V0)); lra|apply (G kb kb _ _ M2 M2 (y0_x T0) (y0b_y T0 Tb)); lra
      |apply (G kb ka _ _ M2 M1 (y0_x T0) (x0_y V0)); lra|apply (G kb ka _ _ M2 M1 (yb_x Tb) (x0_y V0)); lra|apply (G kb ka _ _ M2 M1 (y0_x T0) (xa_y Va)); lra|apply (G kb ka _ _ M2 M1 (yb_x Tb) (xa_y Va)); lra].
Qed.
Lemma work_bound Nxx Nyy Nxy : - load_work Nxx Nyy Nxy a b w w <= (Rabs Nxx + Rabs Nyy + Rabs Nxy) * (I2 a b (dx w) + I2 a b (dy w)).
Proof.
  assert (NL : nice a b (fun x y => (Rabs Nxx + Rabs Nyy + Rabs Nxy) * (dx w x y ^ 2 + dy w x y ^ 2))) by nt.
  assert (E : (Rabs Nxx + Rabs Nyy + Rabs Nxy) * (I2 a b (dx w) + I2 a b (dy w)) = over a b (fun x y => (Rabs Nxx + Rabs Nyy + Rabs Nxy) * (dx w x y ^ 2 + dy w x y ^ 2))).
  { rewrite over_scal, over_add by nt. reflexivity. }
  rewrite E. unfold load_work. set (g := fun x y => Nxx * dx w x y * dx w x y + Nyy * dy w x y * dy w x y + Nxy * (dx w x y * dy w x y + dy w x y * dx w x y)).
  assert (Ng : nice a b g).
  { eapply (eq_ind _ (nice a b)). 2:{ apply field_ext; intros x y. unfold g. instantiate (1 := fun x y => Nxx * (dx w x y * dx w x y) + Nyy * (dy w x y * dy w x y) + 2 * Nxy * (dx w x y * dy w x y)). cbv beta. ring. } nt. }
  replace (- over a b g) with (over a b (fun x y => -1 * g x y)) by (rewrite over_scal by nt; ring). apply over_le; [exact Ha|exact Hb|nt|exact NL|]. intros x y. unfold g.
  set (p := dx w x y). set (q := dy w x y). assert (A1 := Rabs_pos Nxx). assert (A2 := Rabs_pos Nyy). assert (A3 := Rabs_pos Nxy).
  assert (B1 : - Nxx <= Rabs Nxx) by (rewrite <- Rabs_Ropp; apply RRle_abs). assert (B2 : - Nyy <= Rabs Nyy) by (rewrite <- Rabs_Ropp; apply RRle_abs).
  assert (P2 := pow2_ge_0 p). assert (Q2 := pow2_ge_0 q). assert (Ps := pow2_ge_0 (p + q)). assert (Ms := pow2_ge_0 (p - q)).
  assert (- Nxx * p ^ 2 <= Rabs Nxx * p ^ 2) by (apply Rmult_le_compat_r; assumption). assert (- Nyy * q ^ 2 <= Rabs Nyy * q ^ 2) by (apply Rmult_le_compat_r; assumption).
  assert (- Nxy * (2 * (p * q)) <= Rabs Nxy * (p ^ 2 + q ^ 2)).
  { assert (Z : Rabs (Nxy * (2 * (p * q))) <= Rabs Nxy * (p ^ 2 + q ^ 2)) by (rewrite Rabs_mult; apply Rmult_le_compat_l; [exact A3|apply Rabs_le_between; lra]). apply Rabs_le_between in Z. lra. }
  assert (0 <= Rabs Nxx * q ^ 2) by (apply Rmult_le_pos; assumption). assert (0 <= Rabs Nyy * p ^ 2) by (apply Rmult_le_pos; assumption). lra.
Qed.
End Slopes.

(** ** passing to the limit *)
Section Pass.
Variables (D : mat3) (a b Nxx Nyy Nxy : R) (c0 ca d0 db : condition) (Ha : 0 < a) (Hb : 0 < b) (Sy : symmetric D) (PD : pos_def D) (Rs : restrained c0 ca d0 db).
Notation defl := (deflection a b c0 ca d0 db).
Notation bend w := (bending D a b w w).
Notation work w := (load_work Nxx Nyy Nxy a b w w).
Lemma negative_near l w : 0 <= l -> defl w -> bend w + l * work w < 0 -> exists t, fits a b c0 ca d0 db (ev t) /\ bend (ev t) + l * work (ev t) < 0.
Proof.
  intros Hl Dw H. set (s := bend w + l * work w) in *. assert (Pe : 0 < - s / (2 * (1 + l))) by (apply Rdiv_lt_0_compat; lra).
  destruct (neighbours a b c0 ca d0 db w D Nxx Nyy Nxy _ Ha Hb Dw Pe) as (t & Ft & B1 & B2). exists t. split; [exact Ft|].
  apply Rabs_lt_between in B1, B2. set (e := - s / (2 * (1 + l))) in *. assert (E : e * (1 + l) = - s / 2) by (unfold e; field; lra).
  assert (l * (work (ev t) - work w) <= l * e) by (apply Rmult_le_compat_l; lra). unfold s in *. lra.
Qed.
Lemma bend_nonneg w : defl w -> 0 <= bend w.
Proof.
  intros [[W Dw] _]. rewrite (bending_W w W Dw). apply over_pos; [exact Ha|exact Hb|apply (bend_cont w W Dw)|]. intros x y _ _. unfold bend_at.
  match goal with |- 0 <= dot ?v _ => change (0 <= quad D v); generalize v end. intros v.
  destruct (Req_dec (quad D v) 0) as [E|E]; [lra|]. left. apply PD. intros ->. apply E. unfold quad, dot, mvec. cbn. ring.
Qed.
Lemma work_small : exists C, 0 < C /\ forall w, defl w -> - work w <= C * bend w.
Proof.
  destruct (coercive D Sy PD) as (d & Pd & Hd). set (k := Rmin ((PI / (2 * a)) ^ 2) ((PI / (2 * b)) ^ 2)). assert (Pk : 0 < k) by (apply Rmin_pos; apply quarter_pos; assumption).
  set (S := Rabs Nxx + Rabs Nyy + Rabs Nxy). assert (PS : 0 <= S) by (unfold S; assert (A1 := Rabs_pos Nxx); assert (A2 := Rabs_pos Nyy); assert (A3 := Rabs_pos Nxy); lra).
  set (C := (S + 1) * (2 / (k * d))). assert (PC : 0 < C) by (unfold C; apply Rmult_lt_0_compat; [lra|apply Rdiv_lt_0_compat; [lra|apply Rmult_lt_0_compat; assumption]]).
  exists C. split; [exact PC|].
  assert (Poly : forall t, fits a b c0 ca d0 db (ev t) -> - work (ev t) <= C * bend (ev t)).
  { intros t Ft. assert (W := nice_ev a b t Ha Hb). assert (B := bending_coercive D a b (ev t) d Ha Hb W Hd). assert (Sl := slopes_bound a b Ha Hb (ev t) W c0 ca d0 db Rs Ft). fold k in Sl.
    assert (Wk := work_bound a b Ha Hb (ev t) W Nxx Nyy Nxy). fold S in Wk.
    assert (X := I2_nonneg a b Ha Hb _ (nice_dx a b _ W)). assert (Y := I2_nonneg a b Ha Hb _ (nice_dy a b _ W)). assert (XY := I2_nonneg a b Ha Hb _ (nice_dx a b _ (nice_dy a b _ W))).
    set (s := I2 a b (dx (ev t)) + I2 a b (dy (ev t))) in *. set (q := I2 a b (dx (dx (ev t))) + I2 a b (dy (dy (ev t))) + I2 a b (dx (dy (ev t)))) in *.
    assert (Q1 : d * q <= bend (ev t)) by (assert (0 <= d * (3 * I2 a b (dx (dy (ev t))))) by (apply Rmult_le_pos; lra); unfold q; lra).
    assert (Q2 : s <= 2 / k * q) by (apply Rmult_le_reg_l with k; [exact Pk|]; replace (k * (2 / k * q)) with (2 * q) by (field; lra); lra).
    assert (Q3 : q <= / d * bend (ev t)) by (apply Rmult_le_reg_l with d; [exact Pd|]; replace (d * (/ d * bend (ev t))) with (bend (ev t)) by (field; lra); lra).
    assert (Ps : 0 <= s) by (unfold s; lra). assert (S * s <= (S + 1) * s) by lra.
    assert ((S + 1) * s <= (S + 1) * (2 / k * q)) by (apply Rmult_le_compat_l; lra).
    assert (Z : (S + 1) * (2 / k * q) <= (S + 1) * (2 / k * (/ d * bend (ev t)))).
    { apply Rmult_le_compat_l; [lra|]. apply Rmult_le_compat_l; [|exact Q3]. left. apply Rdiv_lt_0_compat; lra. }
    replace (C * bend (ev t)) with ((S + 1) * (2 / k * (/ d * bend (ev t)))) by (unfold C; field; lra). lra. }
  intros w Dw. destruct (Rle_lt_dec (- work w) (C * bend w)) as [H|H]; [exact H|exfalso].
  destruct (negative_near (/ C) w ltac:(left; apply Rinv_0_lt_compat, PC) Dw) as (t & Ft & Ht).
  - apply Rmult_lt_reg_l with C; [exact PC|]. replace (C * (bend w + / C * work w)) with (C * bend w + work w) by (field; lra). lra.
  - specialize (Poly t Ft). apply Rmult_lt_compat_l with (r := C) in Ht; [|exact PC]. replace (C * (bend (ev t) + / C * work (ev t))) with (C * bend (ev t) + work (ev t)) in Ht by (field; lra). lra.
Qed.
End Pass.

(** the deflection of a critical factor *)
Lemma critical_mode D a b Nxx Nyy Nxy c c0 ca d0 db m n l : plate_any D a b c c0 ca d0 db -> critical D a b Nxx Nyy Nxy c m n l ->
  exists w, deflection a b c0 ca d0 db w /\ 0 < l /\ 0 < bending D a b w w /\ bending D a b w w + l * load_work Nxx Nyy Nxy a b w w = 0.
Proof.
  intros Pk C. assert (C' := C). destruct C' as (K & KG & H & (Hl & Fl & _)).
  destruct (look_any D a b Nxx Nyy Nxy c c0 ca d0 db m n Pk) as (idx & K' & KG' & V). destruct (mode D a b Nxx Nyy Nxy c m n idx K' KG' l V C) as (_ & cw & Lc & Nc & Z). cbv zeta in Z.
  exists (combine_shapes a b (sw_idx idx) cw). split; [|split; [exact Hl|split; [|exact Z]]].
  - set (M := (m + 4)%nat). set (N := (n + 4)%nat).
    destruct (t_C34_index_sets c c0 ca d0 db m n (any_edges _ _ _ _ _ _ _ _ Pk)) as (idx' & fx & fy & E' & Fx & Fy & _ & _ & RM & _). rewrite (v_idx _ _ _ _ _ _ _ _ _ _ _ _ V) in E'. injection E' as <-.
    assert (Ad : forall p, In p (sw_idx idx) -> S_Plate.admissible c0 ca (fst p) /\ S_Plate.admissible d0 db (snd p)).
    { intros [i j] I. destruct (row_major_in _ _ _ _ _ RM I) as [Ix Iy]. destruct Fx as (_ & _ & Px & _). destruct Fy as (_ & _ & Py & _). rewrite Forall_forall in Px, Py. split; [apply Px, Ix|apply Py, Iy]. }
    assert (Bx := admissible_below _ _ _ _ Fx). assert (By := admissible_below _ _ _ _ Fy). rewrite Forall_forall in Bx, By.
    assert (T2 : forall e, (taken e <= 2)%nat) by (intros [| |]; cbn; lia).
    assert (Bi : bipoly M N (combine_shapes a b (sw_idx idx) cw)).
    { destruct Pk as [Ha Hb _ _ _ _]. apply (bipoly_ext _ _ (fun x y => T_Shape.defl (sw_idx idx) cw (2 / a * x + -1) (2 / b * y + -1))).
      - intros x y. rewrite combine_defl. f_equal; field; lra.
      - apply (bipoly_affine _ _ (2 / a) (-1) (2 / b) (-1) (T_Shape.defl (sw_idx idx) cw)). apply defl_bipoly; [unfold M; lia|unfold N; lia|].
        intros [i j] I. destruct (row_major_in _ _ _ _ _ RM I) as [Ix Iy]. specialize (Bx i Ix). specialize (By j Iy). cbv beta in Bx, By. cbn. assert (X1 := T2 c0). assert (X2 := T2 ca). assert (X3 := T2 d0). assert (X4 := T2 db). unfold M, N. lia. }
    destruct (bipoly_ev _ _ _ Bi) as (t & Et). rewrite Et. apply ev_deflection. rewrite <- Et. destruct Pk as [Ha Hb _ _ _ _].
    constructor; split; intros Hh s.
    + eapply edge_x0; eassumption.
    + eapply slope_x0; eassumption.
    + eapply edge_xa; eassumption.
    + eapply slope_xa; eassumption.
    + eapply edge_y0; eassumption.
    + eapply slope_y0; eassumption.
    + eapply edge_yb; eassumption.
    + eapply slope_yb; eassumption.
  - rewrite <- (v_K _ _ _ _ _ _ _ _ _ _ _ _ V). apply (pen_def _ _ (v_pen _ _ _ _ _ _ _ _ _ _ _ _ V)); [rewrite (v_len _ _ _ _ _ _ _ _ _ _ _ _ V); exact Lc|exact Nc].
Qed.
(*@ C84: the critical factor is never on the unsafe side of the continuous plate: whatever the numbers of functions, it is at least the
    multiplier up to which the continuous plate, with all its smooth deflections, is stable. @*)
Lemma t_C84_above : forall (D : mat3) a b Nxx Nyy Nxy c c0 ca d0 db L m n l, plate_any D a b c c0 ca d0 db ->
  stability_limit D a b Nxx Nyy Nxy c0 ca d0 db L -> critical D a b Nxx Nyy Nxy c m n l -> L <= l.
Proof.
  intros D a b Nxx Nyy Nxy c c0 ca d0 db L m n l Pk (HL & Nn & _) C. destruct (critical_mode _ _ _ _ _ _ _ _ _ _ _ _ _ _ Pk C) as (w & Dw & Hl & Pw & Z).
  specialize (Nn w Dw). destruct (Rle_lt_dec L l) as [G|G]; [exact G|exfalso]. set (g := load_work Nxx Nyy Nxy a b w w) in *. assert (g < 0) by nra. nra.
Qed.
(*@ C84: convergence: with enough functions in both directions the critical factor exists and is as close to that limit as wanted. @*)
Lemma t_C84_converges : forall (D : mat3) a b Nxx Nyy Nxy c c0 ca d0 db L eps, plate_any D a b c c0 ca d0 db ->
  stability_limit D a b Nxx Nyy Nxy c0 ca d0 db L -> 0 < eps ->
  exists M, forall m n, (M <= m)%nat -> (M <= n)%nat -> exists l, critical D a b Nxx Nyy Nxy c m n l /\ L <= l < L + eps.
Proof.
  intros D a b Nxx Nyy Nxy c c0 ca d0 db L eps Pk SL He. assert (Ha := any_a _ _ _ _ _ _ _ _ Pk). assert (Hb := any_b _ _ _ _ _ _ _ _ Pk).
  assert (HL := proj1 SL). destruct (proj2 (proj2 SL) (L + eps / 2) ltac:(lra)) as (w & Dw & Ew).
  destruct (negative_near D a b Nxx Nyy Nxy c0 ca d0 db Ha Hb (L + eps / 2) w ltac:(lra) Dw Ew) as (t & Ft & Et). destruct (ev_bipoly t) as (k & Bk).
  exists (k + 4)%nat. intros m n Hm Hn. destruct (look_any D a b Nxx Nyy Nxy c c0 ca d0 db m n Pk) as (idx & K & KG & V).
  assert (PS := plate_space a b c c0 ca d0 db m n idx Ha Hb (any_edges _ _ _ _ _ _ _ _ Pk) (v_idx _ _ _ _ _ _ _ _ _ _ _ _ V) ltac:(lia) ltac:(lia)).
  destruct (proj1 (PS (ev t)) (conj (bipoly_mono k k (m + taken c0 + taken ca) (n + taken d0 + taken db) _ ltac:(lia) ltac:(lia) Bk) Ft)) as (cw & Lc & Ec).
  assert (Nc : nonzero cw).
  { apply NNPP. intros Nz. assert (Z : ev t = fun _ _ => 0).
    { rewrite Ec. apply functional_extensionality; intros x; apply functional_extensionality; intros y. unfold combine_shapes. apply L_Legendre.rsum_null. intros p Ip. destruct p as [q z]. cbn [fst snd]. apply in_combine_r in Ip.
      destruct (Req_dec z 0) as [->|Hz]; [ring|]. exfalso. apply Nz, Exists_exists. exists z. split; assumption. }
    assert (Dz : dx (fun _ _ : R => 0) = fun _ _ => 0) by (apply field_ext; intros; unfold dx; apply Derive_const). assert (Dz' : dy (fun _ _ : R => 0) = fun _ _ => 0) by (apply field_ext; intros; unfold dy; apply Derive_const).
    assert (B0 : bending D a b (ev t) (ev t) = 0).
    { rewrite Z. unfold bending, curvature. rewrite Dz, Dz', Dz, Dz'. etransitivity; [|apply (over_null a b)]. apply over_ext. intros. rewrite ?Dz, ?Dz'. unfold dot, mvec. cbn [vx vy vz]. ring. }
    assert (W0 : load_work Nxx Nyy Nxy a b (ev t) (ev t) = 0).
    { rewrite Z. unfold load_work. rewrite Dz, Dz'. etransitivity; [|apply (over_null a b)]. apply over_ext. intros. ring. }
    rewrite B0, W0 in Et. lra. }
  destruct (bounded D a b Nxx Nyy Nxy c m n idx K KG (L + eps / 2) cw V ltac:(lra) Lc Nc) as (l & C & Le); [cbv zeta; rewrite <- Ec; lra|].
  exists l. split; [exact C|]. split; [|lra]. apply (t_C84_above D a b Nxx Nyy Nxy c c0 ca d0 db L m n l Pk SL C).
Qed.
(*@ C84: there is such a limit exactly when some smooth deflection lets the loads do work, and only one. @*)
Lemma t_C84_exists : forall (D : mat3) a b Nxx Nyy Nxy c0 ca d0 db, 0 < a -> 0 < b -> symmetric D -> pos_def D -> restrained c0 ca d0 db ->
  ((exists L, stability_limit D a b Nxx Nyy Nxy c0 ca d0 db L) <-> (exists w, deflection a b c0 ca d0 db w /\ load_work Nxx Nyy Nxy a b w w < 0)) /\
  (forall L L', stability_limit D a b Nxx Nyy Nxy c0 ca d0 db L -> stability_limit D a b Nxx Nyy Nxy c0 ca d0 db L' -> L = L').
Proof.
  intros D a b Nxx Nyy Nxy c0 ca d0 db Ha Hb Sy PD Rs. split; [split|].
  - intros (L & HL & Nn & Sm). destruct (Sm (L + 1) ltac:(lra)) as (w & Dw & Ew). exists w. split; [exact Dw|]. assert (B := bend_nonneg D a b c0 ca d0 db Ha Hb PD w Dw). nra.
  - intros (w0 & Dw0 & W0). destruct (work_small D a b Nxx Nyy Nxy c0 ca d0 db Ha Hb Sy PD Rs) as (C & PC & HC).
    set (E := fun l => 0 <= l /\ forall w, deflection a b c0 ca d0 db w -> 0 <= bending D a b w w + l * load_work Nxx Nyy Nxy a b w w).
    assert (B0 := bend_nonneg D a b c0 ca d0 db Ha Hb PD w0 Dw0).
    assert (In0 : E (/ C)).
    { split; [left; apply Rinv_0_lt_compat, PC|]. intros w Dw. specialize (HC w Dw). apply Rmult_le_reg_l with C; [exact PC|]. replace (C * (bending D a b w w + / C * load_work Nxx Nyy Nxy a b w w)) with (C * bending D a b w w + load_work Nxx Nyy Nxy a b w w) by (field; lra). lra. }
    assert (Bd : is_upper_bound E (bending D a b w0 w0 / - load_work Nxx Nyy Nxy a b w0 w0)).
    { intros l [_ Hl]. specialize (Hl w0 Dw0). apply Rmult_le_reg_r with (- load_work Nxx Nyy Nxy a b w0 w0); [lra|]. unfold Rdiv. rewrite Rmult_assoc, Rinv_l by lra. lra. }
    destruct (completeness E (ex_intro _ _ Bd) (ex_intro _ _ In0)) as (L & Ub & Lst). assert (PL : 0 < L) by (eapply Rlt_le_trans; [apply Rinv_0_lt_compat, PC|apply Ub, In0]).
    exists L. split; [exact PL|]. split.
    + intros w Dw. destruct (Rle_lt_dec 0 (bending D a b w w + L * load_work Nxx Nyy Nxy a b w w)) as [G|G]; [exact G|exfalso].
      assert (B := bend_nonneg D a b c0 ca d0 db Ha Hb PD w Dw). set (g := load_work Nxx Nyy Nxy a b w w) in *. assert (Hg : g < 0) by nra.
      assert (Up : is_upper_bound E (bending D a b w w / - g)).
      { intros l [_ Hl]. specialize (Hl w Dw). fold g in Hl. apply Rmult_le_reg_r with (- g); [lra|]. unfold Rdiv. rewrite Rmult_assoc, Rinv_l by lra. lra. }
      specialize (Lst _ Up). apply Rmult_le_compat_r with (r := - g) in Lst; [|lra]. unfold Rdiv in Lst. rewrite Rmult_assoc, Rinv_l in Lst by lra. lra.
    + intros L' HL'. apply NNPP. intros No. assert (E L').
      { split; [lra|]. intros w Dw. apply Rnot_lt_le. intros Lt. apply No. exists w. split; assumption. }
      specialize (Ub L' H). lra.
  - intros L L' (HL & Nn & Sm) (HL' & Nn' & Sm'). destruct (Rtotal_order L L') as [G|[G|G]]; [exfalso|exact G|exfalso].
    + destruct (Sm L' G) as (w & Dw & Ew). specialize (Nn' w Dw). lra.
    + destruct (Sm' L G) as (w & Dw & Ew). specialize (Nn w Dw). lra.
Qed.
(*@ C84: and when no smooth deflection lets the loads do work, the matrices have no critical factor, whatever the numbers of functions. @*)
Lemma t_C84_none : forall (D : mat3) a b Nxx Nyy Nxy c c0 ca d0 db, plate_any D a b c c0 ca d0 db ->
  ((forall w, deflection a b c0 ca d0 db w -> 0 <= load_work Nxx Nyy Nxy a b w w) <-> (forall m n l, ~ critical D a b Nxx Nyy Nxy c m n l)).
Proof.
  intros D a b Nxx Nyy Nxy c c0 ca d0 db Pk. split.
  - intros H m n l C. destruct (critical_mode _ _ _ _ _ _ _ _ _ _ _ _ _ _ Pk C) as (w & Dw & Hl & Pw & Z). specialize (H w Dw). nra.
  - intros H w Dw. apply Rnot_lt_le. intros Lt. assert (Pk' := Pk). destruct Pk' as [Ha Hb Sy PD _ Rs].
    destruct (proj2 (proj1 (t_C84_exists D a b Nxx Nyy Nxy c0 ca d0 db Ha Hb Sy PD Rs)) (ex_intro _ w (conj Dw Lt))) as (L & SL).
    destruct (t_C84_converges D a b Nxx Nyy Nxy c c0 ca d0 db L 1 Pk SL Rlt_0_1) as (M & HM). destruct (HM M M (le_n M) (le_n M)) as (l & C & _). apply (H _ _ _ C).
Qed.

(** ** products of sines *)
Definition sn (p : nat) (t : R) : R := match p with 0%nat => sin t | 1%nat => cos t | _ => - sin t end.
Definition sines (k j : R) : field := fun x y => sin (k * x) * sin (j * y).
Definition sinesW (k j : R) (p q : nat) : field := fun x y => k ^ p * sn p (k * x) * (j ^ q * sn q (j * y)).
Lemma sn_derive k p (x : R) : (p < 2)%nat -> is_derive (fun t => k ^ p * sn p (k * t)) x (k ^ Datatypes.S p * sn (Datatypes.S p) (k * x)).
Proof. intros Hp. destruct p as [|[|p]]; [| |lia]; cbn [sn pow]; auto_derive; try exact I; ring. Qed.
Lemma sn_cont k p x y : continuity_2d_pt (fun u _ => k ^ p * sn p (k * u)) x y.
Proof.
  apply (continuity_1d_2d_pt_comp (fun u => k ^ p * sn p (k * u)) (fun u _ => u)); [|apply continuity_2d_pt_id1].
  apply continuity_pt_filterlim. refine (ex_derive_continuous (V := R_NormedModule) (fun u => k ^ p * sn p (k * u)) x _). destruct p as [|[|p]]; cbn [sn]; auto_derive; exact I.
Qed.
Lemma sn_cont' k p x y : continuity_2d_pt (fun _ v => k ^ p * sn p (k * v)) x y.
Proof. intros eps. destruct (sn_cont k p y x eps) as [d Hd]. exists d. intros u v Hu Hv. apply (Hd v u Hv Hu). Qed.
Lemma sines_derivatives k j : derivatives (sines k j) (sinesW k j).
Proof.
  constructor.
  - intros x y. unfold sinesW, sines. cbn [sn pow]. ring.
  - intros p q x y Hp Hq. unfold sinesW. apply (is_derive_ext (fun t => scal (j ^ q * sn q (j * y)) (k ^ p * sn p (k * t)))); [intros t; apply Rmult_comm|].
    evar_last; [apply (is_derive_scal (fun t => k ^ p * sn p (k * t)) x (j ^ q * sn q (j * y))); apply sn_derive, Hp|]. apply Rmult_comm.
  - intros p q x y Hp Hq. unfold sinesW. apply (is_derive_scal (fun t => j ^ q * sn q (j * t)) y (k ^ p * sn p (k * x))). apply sn_derive, Hq.
  - intros p q x y _ _. unfold sinesW. apply (continuity_2d_pt_mult (fun u _ => k ^ p * sn p (k * u)) (fun _ v => j ^ q * sn q (j * v))); [apply sn_cont|apply sn_cont'].
Qed.
Lemma over_prod a b f g F G : (forall x, continuous f x) -> (forall y, continuous g y) -> is_RInt f 0 a F -> is_RInt g 0 b G -> over a b (fun x y => f x * g y) = F * G.
Proof.
  intros Cf Cg HF HG. unfold over. rewrite (RInt_ext (V := R_CompleteNormedModule) _ (fun x => scal G (f x))).
  - rewrite (RInt_scal (V := R_CompleteNormedModule)) by (eexists; exact HF). rewrite (is_RInt_unique _ _ _ _ HF). apply Rmult_comm.
  - intros x _. rewrite (RInt_scal (V := R_CompleteNormedModule) g) by (eexists; exact HG). rewrite (is_RInt_unique _ _ _ _ HG). apply Rmult_comm.
Qed.
Lemma over2_add a b f g : 0 < b -> cont2 f -> cont2 g -> over a b (fun x y => f x y + g x y) = over a b f + over a b g.
Proof.
  intros Hb F G. unfold over. rewrite (RInt_ext (V := R_CompleteNormedModule) _ (fun x => plus (RInt (fun y => f x y) 0 b) (RInt (fun y => g x y) 0 b))).
  - rewrite (RInt_plus (V := R_CompleteNormedModule)); [reflexivity|apply outer_ex; assumption|apply outer_ex; assumption].
  - intros x _. apply (RInt_plus (V := R_CompleteNormedModule) (fun y => f x y) (fun y => g x y)); apply inner_ex; assumption.
Qed.
Lemma over2_scal a b c f : 0 < b -> cont2 f -> over a b (fun x y => c * f x y) = c * over a b f.
Proof.
  intros Hb F. unfold over. rewrite (RInt_ext (V := R_CompleteNormedModule) _ (fun x => scal c (RInt (fun y => f x y) 0 b))).
  - rewrite (RInt_scal (V := R_CompleteNormedModule)); [reflexivity|apply outer_ex; assumption].
  - intros x _. apply (RInt_scal (V := R_CompleteNormedModule) (fun y => f x y)). apply inner_ex, F.
Qed.
Lemma sin_whole p : sin (INR p * PI) = 0.
Proof. apply sin_eq_0_1. exists (Z.of_nat p). rewrite <- INR_IZR_INZ. reflexivity. Qed.
Section Sines.
Variables (a : R) (p : nat) (Ha : 0 < a) (Hp : (1 <= p)%nat).
Definition wave : R := INR p * PI / a.
Lemma wave_pos : 0 < wave.
Proof. unfold wave. apply Rdiv_lt_0_compat; [|exact Ha]. apply Rmult_lt_0_compat; [|apply PI_RGT_0]. change 0 with (INR 0). apply lt_INR. lia. Qed.
Lemma wave_end : sin (wave * a) = 0. Proof. unfold wave. replace (INR p * PI / a * a) with (INR p * PI) by (field; lra). apply sin_whole. Qed.
Lemma int_sin2 : is_RInt (fun x => sin (wave * x) ^ 2) 0 a (a / 2).
Proof.
  assert (K := wave_pos). assert (E := wave_end). evar_last; [apply (is_RInt_derive (V := R_CompleteNormedModule) (fun x => x / 2 - sin (wave * x) * cos (wave * x) / (2 * wave)))|].
  - intros x _. auto_derive; [lra|]. assert (S2 := sin2_cos2 (wave * x)). unfold Rsqr in S2. transitivity (1 / 2 - (cos (wave * x) * cos (wave * x) - sin (wave * x) * sin (wave * x)) / 2); [field; lra|lra].
  - intros x _. apply (ex_derive_continuous (V := R_NormedModule)). auto_derive. exact I.
  - unfold minus, plus, opp; cbn. rewrite E, Rmult_0_r, sin_0. field. lra.
Qed.
Lemma int_cos2 : is_RInt (fun x => cos (wave * x) ^ 2) 0 a (a / 2).
Proof.
  assert (K := wave_pos). assert (E := wave_end). evar_last; [apply (is_RInt_derive (V := R_CompleteNormedModule) (fun x => x / 2 + sin (wave * x) * cos (wave * x) / (2 * wave)))|].
  - intros x _. auto_derive; [lra|]. assert (S2 := sin2_cos2 (wave * x)). unfold Rsqr in S2. transitivity (1 / 2 + (cos (wave * x) * cos (wave * x) - sin (wave * x) * sin (wave * x)) / 2); [field; lra|lra].
  - intros x _. apply (ex_derive_continuous (V := R_NormedModule)). auto_derive. exact I.
  - unfold minus, plus, opp; cbn. rewrite E, Rmult_0_r, sin_0. field. lra.
Qed.
End Sines.
Section Wave.
Variables (D : mat3) (a b : R) (p : nat) (Ha : 0 < a) (Hb : 0 < b) (Hp : (1 <= p)%nat) (Sy : symmetric D) (Or : orthotropic D).
Let k := wave a p. Let j := wave b 1.
Let w := sines k j.
Lemma sines_pinned : deflection a b Pinned Pinned Pinned Pinned w.
Proof.
  split; [eexists; apply sines_derivatives|]. assert (E := wave_end a p Ha). assert (F := wave_end b 1 Hb). fold k in E. fold j in F.
  constructor; intros z _; split; intros Q; try discriminate; unfold w, sines; rewrite ?Rmult_0_r, ?sin_0, ?E, ?F; ring.
Qed.
Let s2 := fun x y => sin (k * x) ^ 2 * sin (j * y) ^ 2.
Let c2 := fun x y => cos (k * x) ^ 2 * cos (j * y) ^ 2.
Let x2 := fun x y => cos (k * x) ^ 2 * sin (j * y) ^ 2.
Let y2 := fun x y => sin (k * x) ^ 2 * cos (j * y) ^ 2.
Lemma trig_cont (f : R -> R) z : (forall t, ex_derive f t) -> cont2 (fun x _ => f (z * x) ^ 2) /\ cont2 (fun _ y => f (z * y) ^ 2).
Proof.
  intros Ef. assert (G : cont2 (fun x _ => f (z * x) ^ 2)).
  { intros x y. apply (continuity_1d_2d_pt_comp (fun u => f (z * u) ^ 2) (fun u _ => u)); [|apply continuity_2d_pt_id1].
    apply continuity_pt_filterlim. refine (ex_derive_continuous (V := R_NormedModule) (fun u => f (z * u) ^ 2) x _). auto_derive. apply Ef. }
  split; [exact G|]. intros x y eps. destruct (G y x eps) as [d Hd]. exists d. intros u v Hu Hv. apply (Hd v u Hv Hu).
Qed.
Lemma ex_sin t : ex_derive sin t. Proof. auto_derive. exact I. Qed.
Lemma ex_cos t : ex_derive cos t. Proof. auto_derive. exact I. Qed.
Lemma trig2 (f g : R -> R) : (forall t, ex_derive f t) -> (forall t, ex_derive g t) -> is_RInt (fun x => f (k * x) ^ 2) 0 a (a / 2) -> is_RInt (fun y => g (j * y) ^ 2) 0 b (b / 2) ->
  cont2 (fun x y => f (k * x) ^ 2 * g (j * y) ^ 2) /\ over a b (fun x y => f (k * x) ^ 2 * g (j * y) ^ 2) = a * b / 4.
Proof.
  intros Ef Eg If Ig. split; [apply cont2_mul; apply trig_cont; assumption|]. rewrite (over_prod a b (fun x => f (k * x) ^ 2) (fun y => g (j * y) ^ 2) (a / 2) (b / 2)); try assumption; [field|intros x|intros y].
  - refine (ex_derive_continuous (V := R_NormedModule) (fun u => f (k * u) ^ 2) x _). auto_derive. apply Ef.
  - refine (ex_derive_continuous (V := R_NormedModule) (fun u => g (j * u) ^ 2) y _). auto_derive. apply Eg.
Qed.
Lemma sines_bending : bending D a b w w = a * b / 4 * (a11 D * k ^ 4 + 2 * mixed_stiffness D * k ^ 2 * j ^ 2 + a22 D * j ^ 4).
Proof.
  rewrite (bending_W w _ (sines_derivatives k j)). assert (S1 : a21 D = a12 D) by exact (f_equal a12 Sy). assert (S2 : a31 D = a13 D) by exact (f_equal a13 Sy). assert (S3 : a32 D = a23 D) by exact (f_equal a23 Sy). destruct Or as [O1 O2].
  destruct (trig2 sin sin ex_sin ex_sin (int_sin2 a p Ha Hp) (int_sin2 b 1 Hb (le_n 1))) as [C1 V1]. destruct (trig2 cos cos ex_cos ex_cos (int_cos2 a p Ha Hp) (int_cos2 b 1 Hb (le_n 1))) as [C2 V2].
  transitivity (over a b (fun x y => (a11 D * k ^ 4 + 2 * a12 D * k ^ 2 * j ^ 2 + a22 D * j ^ 4) * (sin (k * x) ^ 2 * sin (j * y) ^ 2) + 4 * a33 D * k ^ 2 * j ^ 2 * (cos (k * x) ^ 2 * cos (j * y) ^ 2))).
  - apply over_ext. intros x y. unfold bend_at, dot, mvec, sinesW. cbn [vx vy vz sn pow]. rewrite S1, S2, S3, O1, O2. ring.
  - rewrite (over2_add a b _ _ Hb); [|apply (cont2_mul (fun _ _ => _)); [apply cont2_const|exact C1]|apply (cont2_mul (fun _ _ => _)); [apply cont2_const|exact C2]].
    rewrite (over2_scal a b _ _ Hb C1), (over2_scal a b _ _ Hb C2), V1, V2. unfold mixed_stiffness. field.
Qed.
Lemma sines_work P Q : load_work (- P) (- Q) 0 a b w w = - (a * b / 4 * (P * k ^ 2 + Q * j ^ 2)).
Proof.
  rewrite (load_W w _ (sines_derivatives k j)).
  destruct (trig2 cos sin ex_cos ex_sin (int_cos2 a p Ha Hp) (int_sin2 b 1 Hb (le_n 1))) as [C1 V1]. destruct (trig2 sin cos ex_sin ex_cos (int_sin2 a p Ha Hp) (int_cos2 b 1 Hb (le_n 1))) as [C2 V2].
  transitivity (over a b (fun x y => (- P * k ^ 2) * (cos (k * x) ^ 2 * sin (j * y) ^ 2) + (- Q * j ^ 2) * (sin (k * x) ^ 2 * cos (j * y) ^ 2))).
  - apply over_ext. intros x y. unfold load_at, sinesW. cbn [sn pow]. ring.
  - rewrite (over2_add a b _ _ Hb); [|apply (cont2_mul (fun _ _ => _)); [apply cont2_const|exact C1]|apply (cont2_mul (fun _ _ => _)); [apply cont2_const|exact C2]].
    rewrite (over2_scal a b _ _ Hb C1), (over2_scal a b _ _ Hb C2), V1, V2. field.
Qed.
End Wave.
(** a bound for the polynomials that a smooth deflection attains is the limit *)
Lemma exact_limit D a b Nxx Nyy Nxy c0 ca d0 db L w : 0 < a -> 0 < b -> 0 < L ->
  (forall t, fits a b c0 ca d0 db (ev t) -> 0 <= bending D a b (ev t) (ev t) + L * load_work Nxx Nyy Nxy a b (ev t) (ev t)) ->
  deflection a b c0 ca d0 db w -> bending D a b w w + L * load_work Nxx Nyy Nxy a b w w = 0 -> load_work Nxx Nyy Nxy a b w w < 0 ->
  stability_limit D a b Nxx Nyy Nxy c0 ca d0 db L.
Proof.
  intros Ha Hb HL H Dw Z Nw. split; [exact HL|]. split.
  - intros v Dv. apply Rnot_lt_le. intros Lt. destruct (negative_near D a b Nxx Nyy Nxy c0 ca d0 db Ha Hb L v ltac:(lra) Dv Lt) as (t & Ft & Et). specialize (H t Ft). lra.
  - intros L' HL'. exists w. split; [exact Dw|]. nra.
Qed.
Lemma four_pinned : supported Pinned Pinned Pinned Pinned. Proof. repeat split; reflexivity. Qed.
(*@ C84: the limit of a simply supported plate without coupling of bending and twisting, loaded along x, is Navier's value for one half
    wave in each direction when a^4 D22 <= 4 b^4 D11 ... @*)
Lemma t_C84_one_wave : forall (D : mat3) a b N, 0 < a -> 0 < b -> symmetric D -> pos_def D -> 0 < N -> orthotropic D -> 0 <= mixed_stiffness D ->
  a22 D * a ^ 4 <= 4 * (a11 D * b ^ 4) -> stability_limit D a b (- N) 0 0 Pinned Pinned Pinned Pinned (one_wave D a b / N).
Proof.
  intros D a b N Ha Hb Sy PD HN Or Hx Asp. destruct (diag_pos D PD) as (P1 & P2 & _). assert (Pp := PI_RGT_0).
  assert (Po : 0 < one_wave D a b).
  { unfold one_wave. apply Rmult_lt_0_compat; [apply pow_lt, Pp|]. assert (0 < a11 D / a ^ 2) by (apply Rdiv_lt_0_compat; [|apply pow_lt]; assumption). assert (0 <= 2 * mixed_stiffness D / b ^ 2) by (apply Rmult_le_pos; [lra|left; apply Rinv_0_lt_compat, pow_lt, Hb]).
    assert (0 < a22 D * a ^ 2 / b ^ 4) by (apply Rdiv_lt_0_compat; [apply Rmult_lt_0_compat; [|apply pow_lt]; assumption|apply pow_lt; assumption]). lra. }
  apply (exact_limit D a b _ _ _ _ _ _ _ _ (sines (wave a 1) (wave b 1)) Ha Hb (Rdiv_lt_0_compat _ _ Po HN)).
  - intros t Ft. assert (W := nice_ev a b t Ha Hb). rewrite (load_x N a b _ Ha Hb W). assert (E := energy_one D a b _ _ _ _ _ Ha Hb Sy PD W four_pinned Ft Or Hx Asp).
    replace (one_wave D a b / N * (- N * I2 a b (dx (ev t)))) with (- (one_wave D a b * I2 a b (dx (ev t)))) by (field; lra). lra.
  - apply sines_pinned; assumption.
  - replace 0 with (- 0) at 1 by ring. rewrite (sines_bending D a b 1 Ha Hb (le_n 1) Sy Or), (sines_work a b 1 Ha Hb (le_n 1) N 0). unfold one_wave, wave. cbn [INR]. field. lra.
  - replace 0 with (- 0) at 1 by ring. rewrite (sines_work a b 1 Ha Hb (le_n 1) N 0). assert (K := wave_pos a 1 Ha (le_n 1)). assert (0 < a * b / 4 * (N * wave a 1 ^ 2)) by (apply Rmult_lt_0_compat; [assert (0 < a * b) by (apply Rmult_lt_0_compat; assumption); lra|apply Rmult_lt_0_compat; [exact HN|apply pow_lt, K]]). lra.
Qed.
(*@ C84: ... and the value of the infinitely long plate when the length fits a whole number p of its half waves, a^4 D22 = p^4 b^4 D11. @*)
Lemma t_C84_long_plate : forall (D : mat3) a b N p, 0 < a -> 0 < b -> symmetric D -> pos_def D -> 0 < N -> orthotropic D -> 0 <= mixed_stiffness D ->
  (1 <= p)%nat -> a22 D * a ^ 4 = a11 D * (INR p * b) ^ 4 -> stability_limit D a b (- N) 0 0 Pinned Pinned Pinned Pinned (long_plate D b / N).
Proof.
  intros D a b N p Ha Hb Sy PD HN Or Hx Hp Asp. destruct (diag_pos D PD) as (P1 & P2 & _). assert (Pp := PI_RGT_0). assert (Ip : 0 < INR p) by (change 0 with (INR 0); apply lt_INR; lia).
  assert (E22 : a22 D = a11 D * (INR p * b / a) ^ 4) by (apply Rmult_eq_reg_r with (a ^ 4); [|apply pow_nonzero; lra]; rewrite Asp; field; lra).
  assert (Sq : sqrt (a11 D * a22 D) = a11 D * (INR p * b / a) ^ 2).
  { rewrite E22. replace (a11 D * (a11 D * (INR p * b / a) ^ 4)) with ((a11 D * (INR p * b / a) ^ 2) * (a11 D * (INR p * b / a) ^ 2)) by ring. apply sqrt_square. apply Rmult_le_pos; [lra|apply pow2_ge_0]. }
  assert (Po : 0 < long_plate D b).
  { unfold long_plate. rewrite Sq. apply Rmult_lt_0_compat; [apply Rmult_lt_0_compat; [lra|apply pow_lt, Rdiv_lt_0_compat; assumption]|].
    assert (0 < a11 D * (INR p * b / a) ^ 2) by (apply Rmult_lt_0_compat; [assumption|apply pow_lt, Rdiv_lt_0_compat; [apply Rmult_lt_0_compat; assumption|assumption]]). lra. }
  apply (exact_limit D a b _ _ _ _ _ _ _ _ (sines (wave a p) (wave b 1)) Ha Hb (Rdiv_lt_0_compat _ _ Po HN)).
  - intros t Ft. assert (W := nice_ev a b t Ha Hb). rewrite (load_x N a b _ Ha Hb W). assert (E := energy_long D a b _ _ _ _ _ Ha Hb Sy PD W four_pinned Ft Or Hx).
    replace (long_plate D b / N * (- N * I2 a b (dx (ev t)))) with (- (long_plate D b * I2 a b (dx (ev t)))) by (field; lra). lra.
  - apply sines_pinned; assumption.
  - replace 0 with (- 0) at 1 by ring. rewrite (sines_bending D a b p Ha Hb Hp Sy Or), (sines_work a b p Ha Hb Hp N 0). unfold long_plate, wave. rewrite Sq, E22. cbn [INR]. field. lra.
  - replace 0 with (- 0) at 1 by ring. rewrite (sines_work a b p Ha Hb Hp N 0). assert (K := wave_pos a p Ha Hp). assert (0 < a * b / 4 * (N * wave a p ^ 2)) by (apply Rmult_lt_0_compat; [assert (0 < a * b) by (apply Rmult_lt_0_compat; assumption); lra|apply Rmult_lt_0_compat; [exact HN|apply pow_lt, K]]). lra.
Qed.
(*@ C84: with loads along both directions, s is the limit when each load is balanced by its own direction and its share of the mixed stiffness. @*)
Lemma t_C84_biaxial : forall (D : mat3) a b P Q t s, 0 < a -> 0 < b -> symmetric D -> pos_def D -> orthotropic D -> 0 <= mixed_stiffness D -> 0 < s ->
  0 <= t <= 1 -> s * P = a11 D * (PI / a) ^ 2 + 2 * mixed_stiffness D * t * (PI / b) ^ 2 -> s * Q = a22 D * (PI / b) ^ 2 + 2 * mixed_stiffness D * (1 - t) * (PI / a) ^ 2 ->
  stability_limit D a b (- P) (- Q) 0 Pinned Pinned Pinned Pinned s.
Proof.
  intros D a b P Q t s Ha Hb Sy PD Or Hx Hs Ht HP HQ. destruct (diag_pos D PD) as (P1 & P2 & _). assert (Pp := PI_RGT_0).
  assert (Ka := wave_pos a 1 Ha (le_n 1)). assert (Kb := wave_pos b 1 Hb (le_n 1)). assert (Wa : wave a 1 = PI / a) by (unfold wave; cbn [INR]; field; lra). assert (Wb : wave b 1 = PI / b) by (unfold wave; cbn [INR]; field; lra).
  assert (En : bending D a b (sines (wave a 1) (wave b 1)) (sines (wave a 1) (wave b 1)) + s * load_work (- P) (- Q) 0 a b (sines (wave a 1) (wave b 1)) (sines (wave a 1) (wave b 1)) = 0).
  { rewrite (sines_bending D a b 1 Ha Hb (le_n 1) Sy Or), (sines_work a b 1 Ha Hb (le_n 1) P Q), Wa, Wb.
    replace (s * - (a * b / 4 * (P * (PI / a) ^ 2 + Q * (PI / b) ^ 2))) with (- (a * b / 4 * (s * P * (PI / a) ^ 2 + s * Q * (PI / b) ^ 2))) by ring. rewrite HP, HQ. ring. }
  apply (exact_limit D a b _ _ _ _ _ _ _ _ (sines (wave a 1) (wave b 1)) Ha Hb Hs); [|apply sines_pinned; assumption|exact En|].
  - intros u Fu. assert (W := nice_ev a b u Ha Hb). rewrite (load_xy P Q a b _ Ha Hb W). assert (E := energy_two D a b P Q _ _ _ _ _ t s Ha Hb Sy PD W four_pinned Fu Or Hx Ht ltac:(lra) ltac:(lra)). lra.
  - assert (Pb : 0 < bending D a b (sines (wave a 1) (wave b 1)) (sines (wave a 1) (wave b 1))).
    { rewrite (sines_bending D a b 1 Ha Hb (le_n 1) Sy Or). apply Rmult_lt_0_compat; [assert (0 < a * b) by (apply Rmult_lt_0_compat; assumption); lra|].
      assert (0 < a11 D * wave a 1 ^ 4) by (apply Rmult_lt_0_compat; [|apply pow_lt]; assumption). assert (0 < a22 D * wave b 1 ^ 4) by (apply Rmult_lt_0_compat; [|apply pow_lt]; assumption).
      assert (0 <= 2 * mixed_stiffness D * wave a 1 ^ 2 * wave b 1 ^ 2) by (apply Rmult_le_pos; [apply Rmult_le_pos; [lra|apply pow2_ge_0]|apply pow2_ge_0]). lra. }
    nra.
Qed.
(*@ C84: so for such a plate the critical load the code computes with exact integrals converges, from above, to Navier's value. @*)
Lemma t_C84_navier : forall (D : mat3) a b N c eps, plate_any D a b c Pinned Pinned Pinned Pinned -> 0 < N -> orthotropic D -> 0 <= mixed_stiffness D ->
  a22 D * a ^ 4 <= 4 * (a11 D * b ^ 4) -> 0 < eps ->
  exists M, forall m n, (M <= m)%nat -> (M <= n)%nat -> exists l, critical D a b (- N) 0 0 c m n l /\ one_wave D a b <= l * N < one_wave D a b + eps.
Proof.
  intros D a b N c eps Pk HN Or Hx Asp He. assert (Pk' := Pk). destruct Pk' as [Ha Hb Sy PD _ _].
  destruct (t_C84_converges D a b (- N) 0 0 c _ _ _ _ _ (eps / N) Pk (t_C84_one_wave D a b N Ha Hb Sy PD HN Or Hx Asp) (Rdiv_lt_0_compat _ _ He HN)) as (M & HM).
  exists M. intros m n Hm Hn. destruct (HM m n Hm Hn) as (l & C & B1 & B2). exists l. split; [exact C|].
  apply Rmult_le_compat_r with (r := N) in B1; [|lra]. apply Rmult_lt_compat_r with (r := N) in B2; [|lra].
  replace (one_wave D a b / N * N) with (one_wave D a b) in B1 by (field; lra). replace ((one_wave D a b / N + eps / N) * N) with (one_wave D a b + eps) in B2 by (field; lra). lra.
Qed.
Lemma diag_def p q r : 0 < p -> 0 < q -> 0 < r -> pos_def (M3 p 0 0 0 q 0 0 0 r).
Proof.
  intros Hp Hq Hr [x y z] N. unfold quad, dot, mvec. cbn [vx vy vz a11 a12 a13 a21 a22 a23 a31 a32 a33]. match goal with |- 0 < ?e => replace e with (p * x ^ 2 + q * y ^ 2 + r * z ^ 2) by ring end.
  assert (P2 := pow2_ge_0 x). assert (Q2 := pow2_ge_0 y). assert (R2 := pow2_ge_0 z). assert (A : 0 <= p * x ^ 2) by (apply Rmult_le_pos; lra). assert (B : 0 <= q * y ^ 2) by (apply Rmult_le_pos; lra). assert (C : 0 <= r * z ^ 2) by (apply Rmult_le_pos; lra).
  destruct (Req_dec x 0) as [->|X]; [destruct (Req_dec y 0) as [->|Y]; [destruct (Req_dec z 0) as [->|Z]; [exfalso; apply N; reflexivity|]|]|].
  - assert (0 < r * z ^ 2) by (apply Rmult_lt_0_compat; [exact Hr|rewrite <- Rsqr_pow2; apply Rsqr_pos_lt, Z]). lra.
  - assert (0 < q * y ^ 2) by (apply Rmult_lt_0_compat; [exact Hq|rewrite <- Rsqr_pow2; apply Rsqr_pos_lt, Y]). lra.
  - assert (0 < p * x ^ 2) by (apply Rmult_lt_0_compat; [exact Hp|rewrite <- Rsqr_pow2; apply Rsqr_pos_lt, X]). lra.
Qed.
(*@ Plates within the scope of C84: one half wave (11 pi^2, cf. C79_ex), two half waves of a long plate, loads along both directions, and a
    plate in tension, which has no limit. @*)
Example t_C84_ex : plate_any (M3 4 1 0 1 1 0 0 0 1) 2 1 (CStr "PINNED") Pinned Pinned Pinned Pinned /\
  stability_limit (M3 4 1 0 1 1 0 0 0 1) 2 1 (- (1)) 0 0 Pinned Pinned Pinned Pinned (11 * PI ^ 2) /\
  stability_limit (M3 16 0 0 0 1 0 0 0 (1 / 2)) 4 1 (- (1)) 0 0 Pinned Pinned Pinned Pinned (10 * PI ^ 2) /\
  stability_limit (M3 1 0 0 0 1 0 0 0 (1 / 2)) 1 1 (- (1)) (- (1)) 0 Pinned Pinned Pinned Pinned (2 * PI ^ 2) /\
  (forall w, deflection 2 1 Pinned Pinned Pinned Pinned w -> 0 <= load_work 1 0 0 2 1 w w).
Proof.
  assert (P := ok_any _ _ _ _ _ _ _ _ _ _ (four_ok "PINNED" Pinned Sp_pinned (or_intror eq_refl))). assert (P' := P). destruct P' as [Ha Hb Sy PD _ _]. assert (Pp := PI_RGT_0). split; [exact P|]. split; [|split; [|split]].
  - replace (11 * PI ^ 2) with (one_wave (M3 4 1 0 1 1 0 0 0 1) 2 1 / 1) by (unfold one_wave, mixed_stiffness; cbn [a11 a12 a22 a33]; field).
    apply t_C84_one_wave; try assumption; try lra; unfold mixed_stiffness; cbn [a11 a12 a22 a33]; try lra. split; reflexivity.
  - replace (10 * PI ^ 2) with (long_plate (M3 16 0 0 0 1 0 0 0 (1 / 2)) 1 / 1).
    + apply (t_C84_long_plate _ 4 1 1 2); try lra; try lia; [reflexivity|apply diag_def; lra|split; reflexivity|unfold mixed_stiffness; cbn [a12 a33]; lra|cbn [a11 a22 INR]; lra].
    + unfold long_plate, mixed_stiffness. cbn [a11 a12 a22 a33]. replace (16 * 1) with (4 * 4) by ring. rewrite sqrt_square by lra. field.
  - apply (t_C84_biaxial _ 1 1 1 1 (1 / 2)); unfold mixed_stiffness; cbn [a11 a12 a22 a33]; [lra|lra|reflexivity|apply diag_def; lra|split; reflexivity|lra|apply Rmult_lt_0_compat; [lra|apply pow_lt, Pp]|lra|field|field].
  - intros w [[W Dw] _]. rewrite (load_W w W Dw). apply over_pos; [lra|lra|apply (load_cont w W Dw)|]. intros x y _ _. unfold load_at. assert (Q := pow2_ge_0 (W 1%nat 0%nat x y)). lra.
Qed.
