(** Proofs of the theorems on the stiffness of the plies and the buckling load. *)
From Coq Require Import QArith Qreals Reals ZArith Lra Lia String.
From Coquelicot Require Import Coquelicot.
From Coq Require Import List.
From Verif Require Import M_Py M_Material M_Laminate M_Plate M_K M_Expr M_RealArith S_Mat S_Material S_Laminate S_Plate S_Bardell S_Energy S_K S_Ritz S_Eigen S_Compare S_Limit S_Sens L_Mat L_Lam L_LamAlg L_LamSums L_LamEnergy L_Poly L_Shape L_TabV L_KR L_Energy L_Ritz L_Ends T_Laminate T_Shape T_K T_ABD T_Energy T_Compare T_Outer T_Convex T_Limit.
Import ListNotations.
Open Scope R_scope.

(** ** one ply *)
Lemma phys_den m : physical m -> o_den m <> 0.
Proof. intros (H1 & H2 & H3 & H4) E. apply o_den_0 in E; lra. Qed.
Lemma phys_Q0 m : physical m -> o_Q0 m = Ok (o_Qval m).
Proof. intros P. rewrite o_Q0_spec. destruct (Req_EM_T (o_den m) 0) as [E|]; [destruct (phys_den m P E)|reflexivity]. Qed.
Lemma phys_gap m : physical m -> 0 < o_e1 m - o_v12 m ^ 2 * o_e2 m.
Proof. intros (_ & _ & _ & H). lra. Qed.
Lemma Qval_eq m : physical m -> o_Qval m = let g := o_e1 m - o_v12 m ^ 2 * o_e2 m in
  M3 (o_e1 m ^ 2 / g) (o_v12 m * o_e1 m * o_e2 m / g) 0 (o_v12 m * o_e1 m * o_e2 m / g) (o_e1 m * o_e2 m / g) 0 0 0 (o_g12 m).
Proof.
  intros P. cbv zeta. assert (G := phys_gap m P). destruct P as (H1 & H2 & H3 & _). unfold o_Qval. rewrite o_den_eq by lra. f_equal; field; lra.
Qed.
(** stress of the strain e, strain of the stress s *)
Definition strain_of (m : omat) (s : vec3) : vec3 :=
  V3 (vx s / o_e1 m - o_v12 m / o_e1 m * vy s) (vy s / o_e2 m - o_v12 m / o_e1 m * vx s) (vz s / o_g12 m).
Lemma Q_strain m s : physical m -> mvec (o_Qval m) (strain_of m s) = s.
Proof.
  intros P. rewrite (Qval_eq m P). cbv zeta. assert (G := phys_gap m P). destruct P as (H1 & H2 & H3 & _). destruct s as [x y z]. unfold strain_of, mvec. cbn [vx vy vz a11 a12 a13 a21 a22 a23 a31 a32 a33].
  f_equal; field; repeat split; lra.
Qed.
Lemma strain_Q m e : physical m -> strain_of m (mvec (o_Qval m) e) = e.
Proof.
  intros P. rewrite (Qval_eq m P). cbv zeta. assert (G := phys_gap m P). destruct P as (H1 & H2 & H3 & _). destruct e as [x y z]. unfold strain_of, mvec. cbn [vx vy vz a11 a12 a13 a21 a22 a23 a31 a32 a33].
  f_equal; field; repeat split; lra.
Qed.
Lemma flex_dot m s : physical m -> flexibility m s = dot s (strain_of m s).
Proof. intros (H1 & H2 & H3 & _). destruct s as [x y z]. unfold flexibility, strain_of, dot. cbn [vx vy vz]. field. lra. Qed.
Lemma Qval_sym m : symmetric (o_Qval m).
Proof. unfold o_Qval. reflexivity. Qed.
Lemma quad_flex m s : physical m -> quad (o_Qval m) (strain_of m s) = flexibility m s.
Proof. intros P. rewrite (flex_dot m s P). unfold quad. rewrite (Q_strain m s P). unfold dot. ring. Qed.
Lemma Qval_pos m : physical m -> pos_def (o_Qval m).
Proof.
  intros P. rewrite (Qval_eq m P). cbv zeta. assert (G := phys_gap m P). destruct P as (H1 & H2 & H3 & _). apply pd_block.
  set (g := o_e1 m - o_v12 m ^ 2 * o_e2 m) in *.
  assert (0 < o_e1 m ^ 2 / g) by (apply Rdiv_lt_0_compat; [apply pow_lt|]; assumption).
  assert (0 < o_e1 m * o_e2 m / g) by (apply Rdiv_lt_0_compat; [apply Rmult_lt_0_compat|]; assumption).
  repeat split; try assumption.
  assert (E : o_e1 m ^ 2 / g * (o_e1 m * o_e2 m / g) - (o_v12 m * o_e1 m * o_e2 m / g) ^ 2 = o_e1 m ^ 2 * o_e2 m / g) by (unfold g; field; fold g; lra).
  assert (0 < o_e1 m ^ 2 * o_e2 m / g) by (apply Rdiv_lt_0_compat; [apply Rmult_lt_0_compat; [apply pow_lt|]|]; assumption). lra.
Qed.
Lemma quad_scale_v Q t e : quad Q (vscale t e) = t ^ 2 * quad Q e.
Proof. destruct Q, e. unmat. ring. Qed.
Lemma flex_scale m t s : flexibility m (vscale t s) = t ^ 2 * flexibility m s.
Proof. destruct s as [x y z]. unfold flexibility, vscale. cbn [vx vy vz]. unfold Rdiv. ring. Qed.
(** 2 e.s <= quad Q e + flexibility s *)
Lemma young m e s : physical m -> 2 * dot e s <= quad (o_Qval m) e + flexibility m s.
Proof.
  intros P. assert (H : 0 <= quad (o_Qval m) (vadd e (vscale (-1) (strain_of m s)))) by (apply quad_pos_iff, Qval_pos, P).
  assert (E : quad (o_Qval m) (vadd e (vscale (-1) (strain_of m s))) = quad (o_Qval m) e - 2 * dot e (mvec (o_Qval m) (strain_of m s)) + quad (o_Qval m) (strain_of m s)).
  { assert (Sy := Qval_sym m). destruct (o_Qval m), e, (strain_of m s). unfold symmetric in Sy. cbn in Sy. injection Sy as ? ? ? ? ? ?. subst. unmat. ring. }
  rewrite E, (Q_strain m s P), (quad_flex m s P) in H. lra.
Qed.
(*@ C86: for two physical plies, "every strain stores at least t times the energy in the second" read off Q_0 is the same as "every stress
    stores at least t times as much energy in the first" read off the engineering constants. @*)
Lemma t_C86_flexibility : forall (m m' : omat) t, physical m -> physical m' -> 0 < t ->
  exists q q', Q_0 (Ortho m) = Ok q /\ Q_0 (Ortho m') = Ok q' /\ pos_def q /\ pos_def q' /\
  ((forall e, t * quad q e <= quad q' e) <-> (forall s, t * flexibility m' s <= flexibility m s)).
Proof.
  intros m m' t P P' Ht. exists (o_Qval m), (o_Qval m'). split; [apply phys_Q0, P|]. split; [apply phys_Q0, P'|]. split; [apply Qval_pos, P|]. split; [apply Qval_pos, P'|]. split; intros H.
  - intros s. assert (Y := young m (vscale t (strain_of m' s)) s P). rewrite quad_scale_v in Y. specialize (H (strain_of m' s)). rewrite (quad_flex m' s P') in H.
    assert (E : dot (vscale t (strain_of m' s)) s = t * flexibility m' s). { rewrite (flex_dot m' s P'). destruct (strain_of m' s), s. unmat. ring. }
    rewrite E in Y. nra.
  - intros e. assert (Y := young m' e (vscale t (mvec (o_Qval m) e)) P'). rewrite flex_scale in Y. specialize (H (mvec (o_Qval m) e)).
    assert (E : flexibility m (mvec (o_Qval m) e) = quad (o_Qval m) e). { rewrite <- (quad_flex m _ P), (strain_Q m e P). reflexivity. }
    assert (E2 : dot e (vscale t (mvec (o_Qval m) e)) = t * quad (o_Qval m) e). { unfold quad. destruct (mvec (o_Qval m) e), e. unmat. ring. }
    rewrite E in H. rewrite E2 in Y. nra.
Qed.
Lemma form2 p q r : (forall x y : R, 0 <= p * x ^ 2 - 2 * r * (x * y) + q * y ^ 2) <-> 0 <= p /\ 0 <= q /\ r ^ 2 <= p * q.
Proof.
  split.
  - intros H. assert (H1 := H 1 0). assert (H2 := H 0 1). split; [lra|]. split; [lra|].
    assert (H3 := H r p). destruct (Req_dec p 0) as [->|N].
    + destruct (Req_dec r 0) as [->|Nr]; [nra|]. assert (H4 := H ((q + 1) / (2 * r)) 1). replace (0 * ((q + 1) / (2 * r)) ^ 2 - 2 * r * ((q + 1) / (2 * r) * 1) + q * 1 ^ 2) with (- (1)) in H4 by (field; exact Nr). lra.
    + assert (0 < p) by lra. assert (0 <= p * (p * q - r ^ 2)) by nra. nra.
  - intros (Hp & Hq & Hr) x y. destruct (Req_dec p 0) as [->|N].
    + assert (r = 0) by nra. subst r. nra.
    + assert (0 < p) by lra. assert (E : p * (p * x ^ 2 - 2 * r * (x * y) + q * y ^ 2) = (p * x - r * y) ^ 2 + (p * q - r ^ 2) * y ^ 2) by ring.
      assert (0 <= (p * x - r * y) ^ 2) by apply pow2_ge_0. assert (0 <= y ^ 2) by apply pow2_ge_0. assert (0 <= (p * q - r ^ 2) * y ^ 2) by (apply Rmult_le_pos; lra).
      assert (0 <= p * (p * x ^ 2 - 2 * r * (x * y) + q * y ^ 2)) by lra. nra.
Qed.
Lemma flex_diff m m' : physical m -> physical m' ->
  ((forall s, flexibility m' s <= flexibility m s) <->
   / o_e1 m' <= / o_e1 m /\ / o_e2 m' <= / o_e2 m /\ / o_g12 m' <= / o_g12 m /\
   (o_v12 m / o_e1 m - o_v12 m' / o_e1 m') ^ 2 <= (/ o_e1 m - / o_e1 m') * (/ o_e2 m - / o_e2 m')).
Proof.
  intros _ _. assert (F := form2 (/ o_e1 m - / o_e1 m') (/ o_e2 m - / o_e2 m') (o_v12 m / o_e1 m - o_v12 m' / o_e1 m')). split.
  - intros H. assert (G := H (V3 0 0 1)). unfold flexibility in G. cbn [vx vy vz] in G. unfold Rdiv in G.
    destruct F as [F _]. destruct F as (A & B & C).
    { intros x y. specialize (H (V3 x y 0)). unfold flexibility in H. cbn [vx vy vz] in H. unfold Rdiv in H |- *. lra. }
    repeat split; lra.
  - intros (A & B & C & E) [x y z]. destruct F as [_ F]. specialize (F ltac:(repeat split; lra) x y). unfold flexibility. cbn [vx vy vz]. unfold Rdiv in *.
    assert (0 <= z ^ 2) by apply pow2_ge_0. assert (z ^ 2 * / o_g12 m' <= z ^ 2 * / o_g12 m) by (apply Rmult_le_compat_l; assumption). lra.
Qed.
Lemma inv_le x y : 0 < x -> 0 < y -> (/ y <= / x <-> x <= y).
Proof.
  intros Hx Hy. split; intros H; [|apply Rinv_le_contravar; assumption].
  apply Rinv_le_contravar in H; [|apply Rinv_0_lt_compat, Hy]. rewrite !Rinv_inv in H. exact H.
Qed.
(*@ C86: so a ply is at least as stiff as another in every strain exactly when its three moduli are no smaller and the change of v12/e1 is
    small enough compared with the changes of 1/e1 and 1/e2. @*)
Lemma t_C86_criterion : forall (m m' : omat) q q', physical m -> physical m' -> Q_0 (Ortho m) = Ok q -> Q_0 (Ortho m') = Ok q' ->
  (no_stiffer q q' <-> o_e1 m <= o_e1 m' /\ o_e2 m <= o_e2 m' /\ o_g12 m <= o_g12 m' /\
   (o_v12 m / o_e1 m - o_v12 m' / o_e1 m') ^ 2 <= (/ o_e1 m - / o_e1 m') * (/ o_e2 m - / o_e2 m')).
Proof.
  intros m m' q q' P P' E E'. destruct (t_C86_flexibility m m' 1 P P' ltac:(lra)) as (q0 & q0' & X & X' & _ & _ & H).
  assert (q0 = q) by congruence. assert (q0' = q') by congruence. subst q0 q0'. assert (F := flex_diff m m' P P').
  destruct P as (H1 & H2 & H3 & _), P' as (H1' & H2' & H3' & _).
  rewrite (inv_le (o_e1 m) (o_e1 m')), (inv_le (o_e2 m) (o_e2 m')), (inv_le (o_g12 m) (o_g12 m')) in F by assumption. rewrite <- F. unfold no_stiffer.
  split; intros K; [assert (K' := proj1 H)|assert (K' := proj2 H)].
  - assert (K1 := K' ltac:(intros e; specialize (K e); lra)). intros s. specialize (K1 s). lra.
  - assert (K1 := K' ltac:(intros e; specialize (K e); lra)). intros s. specialize (K1 s). lra.
Qed.
(*@ C86: in particular a larger modulus e1 alone never makes a ply at least as stiff in every strain, unless v12 is zero. @*)
Lemma t_C86_E1_alone : forall (m : omat) e1 q q', physical m -> o_e1 m < e1 ->
  Q_0 (Ortho m) = Ok q -> Q_0 (Ortho (with_constants m e1 (o_e2 m) (o_v12 m) (o_g12 m))) = Ok q' -> (no_stiffer q q' <-> o_v12 m = 0).
Proof.
  intros m e1 q q' P He E E'. assert (P0 := P). destruct P as (H1 & H2 & H3 & H4).
  assert (P' : physical (with_constants m e1 (o_e2 m) (o_v12 m) (o_g12 m))) by (unfold physical; cbn; repeat split; lra).
  rewrite (t_C86_criterion m _ q q' P0 P' E E'). cbn [with_constants o_e1 o_e2 o_v12 o_g12].
  assert (N : / o_e1 m <> / e1). { intros X. apply (f_equal Rinv) in X. rewrite !Rinv_inv in X. lra. }
  split.
  - intros (_ & _ & _ & H). replace ((/ o_e1 m - / e1) * (/ o_e2 m - / o_e2 m)) with 0 in H by ring.
    replace ((o_v12 m / o_e1 m - o_v12 m / e1) ^ 2) with ((o_v12 m * (/ o_e1 m - / e1)) ^ 2) in H by (unfold Rdiv; ring).
    assert (H5 := pow2_ge_0 (o_v12 m * (/ o_e1 m - / e1))). assert (H6 : (o_v12 m * (/ o_e1 m - / e1)) ^ 2 = 0) by lra.
    assert (H7 : o_v12 m * (/ o_e1 m - / e1) = 0) by nra. apply Rmult_integral in H7 as [H7|H7]; [exact H7|lra].
  - intros ->. repeat split; try lra.
Qed.

(** ** laminates *)
Definition pair_between lo hi (p p' : R * mat3) := fst p = fst p' /\ 0 < fst p /\ between lo hi (snd p) (snd p').
Lemma pairs_between lo hi l l' : all_admissible l -> Forall2 (ply_between lo hi) l l' -> Forall2 (pair_between lo hi) (pairs l) (pairs l').
Proof.
  intros A F. induction F as [|p p' l l' (Ea & Et & q & q' & E & E' & B) F IH]; [constructor|]. inversion A as [|x y Ap Al]; subst x y. constructor; [|apply IH, Al].
  destruct p as [th m], p' as [th' m']. cbn [fst snd pairs] in *. subst th'. repeat split; cbn [fst snd]; [exact Et|apply Ap| |].
  - unfold Qbar, Q0p. rewrite E, E', !rot_quad. apply B.
  - unfold Qbar, Q0p. rewrite E, E', !rot_quad. apply B.
Qed.
Lemma hsum_between lo hi l l' : Forall2 (pair_between lo hi) l l' -> hsum l = hsum l'.
Proof. intros F. unfold hsum. induction F as [|p p' l l' (E & _) F IH]; [reflexivity|]. cbn. rewrite E, IH. reflexivity. Qed.
Lemma energy_between lo hi l l' : Forall2 (pair_between lo hi) l l' -> forall z0 e k, lo * energy z0 l e k <= energy z0 l' e k <= hi * energy z0 l e k.
Proof.
  intros F. induction F as [|[h Q] [h' Q'] l l' (E & Hh & B) F IH]; intros z0 e k; cbn [energy]; [lra|]. cbn [fst snd] in *. subst h'.
  specialize (IH (z0 + h) e k). assert (B1 := B (vadd e (vscale (z0 + h / 2) k))). assert (B2 := B k).
  set (u := quad Q (vadd e (vscale (z0 + h / 2) k))) in *. set (u' := quad Q' (vadd e (vscale (z0 + h / 2) k))) in *. set (v := quad Q k) in *. set (v' := quad Q' k) in *.
  assert (0 <= h ^ 2 / 12) by (assert (0 <= h ^ 2) by apply pow2_ge_0; lra). set (g := h ^ 2 / 12) in *.
  assert (X : lo * (u + g * v) <= u' + g * v' <= hi * (u + g * v)) by nra. set (w := u + g * v) in *. set (w' := u' + g * v') in *. nra.
Qed.
(*@ C86: if the stiffness of every ply is multiplied by something between lo and hi, different for each ply and each direction, the strain
    energy of the laminate, and with it A and D, is too. @*)
Lemma t_C86_laminate : forall lo hi l l' A A' D D' M M', all_admissible l -> all_admissible l' -> Forall2 (ply_between lo hi) l l' ->
  A_of l = Ok A -> A_of l' = Ok A' -> D_of l = Ok D -> D_of l' = Ok D' -> ABD_of l = Ok M -> ABD_of l' = Ok M' ->
  between lo hi A A' /\ between lo hi D D' /\ (forall x, lo * dot6 x (mvec6 M x) <= dot6 x (mvec6 M' x) <= hi * dot6 x (mvec6 M x)).
Proof.
  intros lo hi l l' A A' D D' M M' Al Al' F EA EA' ED ED' EM EM'.
  assert (Rl := admissible_readable l Al). assert (Rl' := admissible_readable l' Al').
  rewrite (A_of_eq l Rl) in EA. rewrite (A_of_eq l' Rl') in EA'. rewrite (D_of_eq l Rl) in ED. rewrite (D_of_eq l' Rl') in ED'.
  rewrite (ABD_of_eq l Rl) in EM. rewrite (ABD_of_eq l' Rl') in EM'.
  apply Ok_inj in EA, EA', ED, ED', EM, EM'. subst A A' D D' M M'.
  assert (Pb := pairs_between lo hi l l' Al F).
  assert (Z : z_bottom (pairs l') = z_bottom (pairs l)) by (unfold z_bottom; rewrite (hsum_between _ _ _ _ Pb); reflexivity).
  assert (U : forall e k, lo * dot6 (e, k) (mvec6 (M6 (Lsum wA l) (Lsum wB l) (Lsum wB l) (Lsum wD l)) (e, k)) <=
      dot6 (e, k) (mvec6 (M6 (Lsum wA l') (Lsum wB l') (Lsum wB l') (Lsum wD l')) (e, k)) <= hi * dot6 (e, k) (mvec6 (M6 (Lsum wA l) (Lsum wB l) (Lsum wB l) (Lsum wD l)) (e, k))).
  { intros e k. assert (X := q6_energy (pairs l) (pairs_sym l Rl) (z_bottom (pairs l)) e k). assert (X' := q6_energy (pairs l') (pairs_sym l' Rl') (z_bottom (pairs l')) e k).
    unfold q6 in X, X'. unfold Lsum. rewrite X, X', Z. apply energy_between, Pb. }
  split; [|split].
  - intros e. specialize (U e vzero). set (P1 := Lsum wA l) in *. set (P2 := Lsum wB l) in *. set (P3 := Lsum wD l) in *. set (P1' := Lsum wA l') in *. set (P2' := Lsum wB l') in *. set (P3' := Lsum wD l') in *.
    assert (Y : forall X Y Z, dot6 (e, vzero) (mvec6 (M6 X Y Y Z) (e, vzero)) = quad X e).
    { intros X0 Y0 Z0. unfold dot6, mvec6. cbn [fst snd blkA blkB blkC blkD]. destruct X0, Y0, Z0, e. unmat. ring. }
    rewrite !Y in U. exact U.
  - intros e. specialize (U vzero e). set (P1 := Lsum wA l) in *. set (P2 := Lsum wB l) in *. set (P3 := Lsum wD l) in *. set (P1' := Lsum wA l') in *. set (P2' := Lsum wB l') in *. set (P3' := Lsum wD l') in *.
    assert (Y : forall X Y Z, dot6 (vzero, e) (mvec6 (M6 X Y Y Z) (vzero, e)) = quad Z e).
    { intros X0 Y0 Z0. unfold dot6, mvec6. cbn [fst snd blkA blkB blkC blkD]. destruct X0, Y0, Z0, e. unmat. ring. }
    rewrite !Y in U. exact U.
  - intros [e k]. apply U.
Qed.

(** ** buckling *)
Lemma bending_mscale s D a b w : 0 < a -> 0 < b -> nice a b w -> bending (mscale s D) a b w w = s * bending D a b w w.
Proof.
  intros Ha Hb W. assert (H := bending_comb s 0 D D a b w Ha Hb W). replace (madd (mscale s D) (mscale 0 D)) with (mscale s D) in H; [lra|].
  destruct D. unfold madd, mscale. cbn. f_equal; ring.
Qed.
Lemma between_bending lo hi D D' a b w : 0 < a -> 0 < b -> nice a b w -> between lo hi D D' -> lo * bending D a b w w <= bending D' a b w w <= hi * bending D a b w w.
Proof.
  intros Ha Hb W B. rewrite <- !(bending_mscale _ D a b w Ha Hb W). split; apply (bending_le _ _ a b w Ha Hb W); intros e; rewrite quad_mscale; apply B.
Qed.
Lemma upper lo hi D D' a b Nxx Nyy Nxy c c0 ca d0 db m n f : plate_any D a b c c0 ca d0 db -> plate_any D' a b c c0 ca d0 db -> 0 < hi -> between lo hi D D' ->
  critical D a b Nxx Nyy Nxy c m n f -> exists f', critical D' a b Nxx Nyy Nxy c m n f' /\ f' <= hi * f.
Proof.
  intros P P' Hh B C.
  destruct (look_any D a b Nxx Nyy Nxy c c0 ca d0 db m n P) as (idx & K & KG & V). destruct (look_any D' a b Nxx Nyy Nxy c c0 ca d0 db m n P') as (idx' & K' & KG' & V').
  assert (E := same_calc _ _ _ (v_idx _ _ _ _ _ _ _ _ _ _ _ _ V) (v_idx _ _ _ _ _ _ _ _ _ _ _ _ V')). subst idx'.
  destruct (mode _ _ _ _ _ _ _ _ _ _ _ _ _ V C) as (Hf & cw & L & N & Z). cbv zeta in Z.
  apply (bounded _ _ _ _ _ _ _ _ _ _ _ _ (hi * f) cw V' ltac:(apply Rmult_lt_0_compat; assumption) L N). cbv zeta. set (w := combine_shapes a b (sw_idx idx) cw) in *.
  assert (W : nice a b w) by apply nice_combine. destruct P as [Ha Hb _ _ _ _].
  assert (X := between_bending lo hi D D' a b w Ha Hb W B). nra.
Qed.
Lemma between_inv lo hi D D' : 0 < lo -> 0 < hi -> between lo hi D D' -> between (/ hi) (/ lo) D' D.
Proof.
  intros Hl Hh B e. destruct (B e) as [B1 B2]. split.
  - apply Rmult_le_reg_l with hi; [exact Hh|]. rewrite <- Rmult_assoc, Rinv_r by lra. lra.
  - apply Rmult_le_reg_l with lo; [exact Hl|]. rewrite <- Rmult_assoc, Rinv_r by lra. lra.
Qed.
Lemma between_order lo hi D D' : pos_def D -> between lo hi D D' -> lo <= hi.
Proof.
  intros P B. assert (H := P (V3 1 0 0) ltac:(unfold vzero; intros E; injection E; lra)). specialize (B (V3 1 0 0)).
  apply Rmult_le_reg_r with (quad D (V3 1 0 0)); [exact H|lra].
Qed.
(*@ C86: then the buckling load is multiplied by something between lo and hi as well: one plate has a critical factor when the other has,
    for every plate size, edge conditions, loads and numbers of functions. @*)
Lemma t_C86_buckling : forall lo hi (D D' : mat3) a b Nxx Nyy Nxy c c0 ca d0 db m n, plate_any D a b c c0 ca d0 db -> plate_any D' a b c c0 ca d0 db ->
  0 < lo -> between lo hi D D' ->
  (forall f, critical D a b Nxx Nyy Nxy c m n f -> exists f', critical D' a b Nxx Nyy Nxy c m n f' /\ lo * f <= f' <= hi * f) /\
  (forall f', critical D' a b Nxx Nyy Nxy c m n f' -> exists f, critical D a b Nxx Nyy Nxy c m n f /\ lo * f <= f' <= hi * f).
Proof.
  intros lo hi D D' a b Nxx Nyy Nxy c c0 ca d0 db m n P P' Hlo B.
  assert (Hhi : 0 < hi) by (assert (X := between_order lo hi D D' (any_def _ _ _ _ _ _ _ _ P) B); lra).
  assert (Bi := between_inv lo hi D D' Hlo Hhi B). assert (Hi : 0 < / lo) by (apply Rinv_0_lt_compat, Hlo).
  assert (Two : forall f f', critical D a b Nxx Nyy Nxy c m n f -> critical D' a b Nxx Nyy Nxy c m n f' -> lo * f <= f' <= hi * f).
  { intros f f' C C'. destruct (upper _ _ _ _ _ _ _ _ _ _ _ _ _ _ m n f P P' Hhi B C) as (g' & G' & L'). rewrite (crit_unique _ _ _ _ _ _ _ _ _ _ _ G' C') in L'.
    destruct (upper _ _ _ _ _ _ _ _ _ _ _ _ _ _ m n f' P' P Hi Bi C') as (g & G & L). rewrite (crit_unique _ _ _ _ _ _ _ _ _ _ _ G C) in L. split; [|exact L'].
    apply Rmult_le_compat_l with (r := lo) in L; [|lra]. rewrite <- Rmult_assoc, Rinv_r in L by lra. lra. }
  split.
  - intros f C. destruct (upper _ _ _ _ _ _ _ _ _ _ _ _ _ _ m n f P P' Hhi B C) as (f' & C' & _). exists f'. split; [exact C'|apply Two; assumption].
  - intros f' C'. destruct (upper _ _ _ _ _ _ _ _ _ _ _ _ _ _ m n f' P' P Hi Bi C') as (f & C & _). exists f. split; [exact C|apply Two; assumption].
Qed.
(*@ C86: the same for the laminates themselves. @*)
Lemma t_C86_plies : forall lo hi l l' D D' a b Nxx Nyy Nxy c c0 ca d0 db m n, all_admissible l -> all_admissible l' -> l <> [] -> 0 < lo -> Forall2 (ply_between lo hi) l l' ->
  D_of l = Ok D -> D_of l' = Ok D' -> 0 < a -> 0 < b -> specifies c c0 ca d0 db -> restrained c0 ca d0 db ->
  (forall f, critical D a b Nxx Nyy Nxy c m n f -> exists f', critical D' a b Nxx Nyy Nxy c m n f' /\ lo * f <= f' <= hi * f) /\
  (forall f', critical D' a b Nxx Nyy Nxy c m n f' -> exists f, critical D a b Nxx Nyy Nxy c m n f /\ lo * f <= f' <= hi * f).
Proof.
  intros lo hi l l' D D' a b Nxx Nyy Nxy c c0 ca d0 db m n A A' N Hlo F ED ED' Ha Hb Sp Rs.
  assert (N' : l' <> []) by (intros ->; inversion F; congruence).
  assert (Rl := admissible_readable l A). assert (Rl' := admissible_readable l' A').
  destruct (t_C86_laminate lo hi l l' _ _ D D' _ _ A A' F (A_of_eq l Rl) (A_of_eq l' Rl') ED ED' (ABD_of_eq l Rl) (ABD_of_eq l' Rl')) as (_ & B & _).
  rewrite (D_of_eq l Rl) in ED. rewrite (D_of_eq l' Rl') in ED'. apply Ok_inj in ED, ED'. destruct (D_pos l N A) as [Sy Pd]. destruct (D_pos l' N' A') as [Sy' Pd']. rewrite ED in Sy, Pd. rewrite ED' in Sy', Pd'.
  apply (t_C86_buckling lo hi D D' a b Nxx Nyy Nxy c c0 ca d0 db m n); [constructor; assumption|constructor; assumption|exact Hlo|exact B].
Qed.
(*@ C86: and for the limit the buckling load converges to with more and more functions. @*)
Lemma t_C86_limit : forall lo hi (D D' : mat3) a b Nxx Nyy Nxy c c0 ca d0 db L, plate_any D a b c c0 ca d0 db -> plate_any D' a b c c0 ca d0 db -> 0 < lo -> between lo hi D D' ->
  stability_limit D a b Nxx Nyy Nxy c0 ca d0 db L -> exists L', stability_limit D' a b Nxx Nyy Nxy c0 ca d0 db L' /\ lo * L <= L' <= hi * L.
Proof.
  intros lo hi D D' a b Nxx Nyy Nxy c c0 ca d0 db L P P' Hlo B S.
  assert (Hhi : 0 < hi) by (assert (X := between_order lo hi D D' (any_def _ _ _ _ _ _ _ _ P) B); lra).
  assert (S' : exists L', stability_limit D' a b Nxx Nyy Nxy c0 ca d0 db L').
  { destruct P, P'. apply (t_C84_exists D' a b Nxx Nyy Nxy c0 ca d0 db); try assumption. apply (t_C84_exists D a b Nxx Nyy Nxy c0 ca d0 db); try assumption. exists L. exact S. }
  destruct S' as (L' & S'). exists L'. split; [exact S'|].
  assert (Bk := fun m n => t_C86_buckling lo hi D D' a b Nxx Nyy Nxy c c0 ca d0 db m n P P' Hlo B). split.
  - apply Rnot_lt_le. intros Q. destruct (t_C84_converges D' a b Nxx Nyy Nxy c c0 ca d0 db L' (lo * L - L') P' S' ltac:(lra)) as (M & H). destruct (H M M (le_n _) (le_n _)) as (f' & C' & H1).
    destruct (proj2 (Bk M M) f' C') as (f & C & H2). assert (H3 := t_C84_above D a b Nxx Nyy Nxy c c0 ca d0 db L M M f P S C). nra.
  - apply Rnot_lt_le. intros Q. destruct (t_C84_converges D a b Nxx Nyy Nxy c c0 ca d0 db L ((L' - hi * L) / hi) P S) as (M & H). { apply Rdiv_lt_0_compat; lra. }
    destruct (H M M (le_n _) (le_n _)) as (f & C & H1). destruct (proj1 (Bk M M) f C) as (f' & C' & H2). assert (H3 := t_C84_above D' a b Nxx Nyy Nxy c c0 ca d0 db L' M M f' P' S' C').
    assert (H4 : hi * f < hi * (L + (L' - hi * L) / hi)) by (apply Rmult_lt_compat_l; lra). replace (hi * (L + (L' - hi * L) / hi)) with L' in H4 by (field; lra). lra.
Qed.

Lemma Q0_scaled s m q : 0 < s -> Q_0 m = Ok q -> Q_0 (scaled s m) = Ok (mscale s q).
Proof.
  intros Hs. destruct m as [m|m]; cbn [Q_0 scaled].
  - rewrite !o_Q0_spec. assert (E : o_den (with_constants m (s * o_e1 m) (s * o_e2 m) (o_v12 m) (s * o_g12 m)) = o_den m).
    { unfold o_den, o_v21. cbn [with_constants o_e1 o_e2 o_v12 o_g12]. destruct (Req_dec (o_e1 m) 0) as [->|N]; [|f_equal; f_equal; f_equal; field; lra].
      unfold Rdiv. rewrite Rmult_0_r, Rinv_0. ring. }
    rewrite E. destruct (Req_EM_T (o_den m) 0); [discriminate|]. intros H. apply Ok_inj in H. subst q. f_equal. unfold o_Qval. rewrite E. cbn [with_constants o_e1 o_e2 o_v12 o_g12]. unfold mscale. cbn. f_equal; unfold Rdiv; ring.
  - unfold i_Q0, pydiv. cbn [i_e i_v i_g]. destruct (Req_EM_T (1 - i_v m * i_v m) 0); [discriminate|]. cbn [bind]. intros H. apply Ok_inj in H. subst q. f_equal. unfold mscale. cbn. f_equal; unfold Rdiv; ring.
Qed.
(*@ C86: with all moduli of all plies s times as large, D is s times as large and so is the buckling load. @*)
Lemma t_C86_scaled : forall s l D a b Nxx Nyy Nxy c c0 ca d0 db m n, 0 < s -> all_admissible l -> l <> [] -> D_of l = Ok D ->
  0 < a -> 0 < b -> specifies c c0 ca d0 db -> restrained c0 ca d0 db ->
  exists D', D_of (map (fun p => (fst p, scaled s (snd p))) l) = Ok D' /\ (forall f, critical D a b Nxx Nyy Nxy c m n f <-> critical D' a b Nxx Nyy Nxy c m n (s * f)).
Proof.
  intros s l D a b Nxx Nyy Nxy c c0 ca d0 db m n Hs A N ED Ha Hb Sp Rs. set (l' := map (fun p => (fst p, scaled s (snd p))) l).
  assert (F : Forall2 (ply_between s s) l l').
  { unfold l'. clear - A Hs. induction A as [|[t m] l [(q & E & Pd) Ht] A IH]; cbn [map fst snd] in *; constructor; [|exact IH]. repeat split; cbn [fst snd]; [destruct m; reflexivity|].
    exists q, (mscale s q). repeat split; [exact E|apply Q0_scaled; assumption| |]; rewrite quad_mscale; lra. }
  assert (A' : all_admissible l').
  { unfold l'. clear - A Hs. induction A as [|[t m] l [(q & E & Pd) Ht] A IH]; cbn [map fst snd] in *; constructor; [|exact IH]. cbn [snd]. split.
    - exists (mscale s q). split; [apply Q0_scaled; assumption|]. intros v Nv. rewrite quad_mscale. apply Rmult_lt_0_compat; [exact Hs|apply Pd, Nv].
    - destruct m; exact Ht. }
  assert (ED' := D_of_eq l' (admissible_readable l' A')). exists (Lsum wD l'). split; [exact ED'|].
  destruct (t_C86_plies s s l l' D _ a b Nxx Nyy Nxy c c0 ca d0 db m n A A' N Hs F ED ED' Ha Hb Sp Rs) as [H1 H2]. intros f. split; intros C.
  - destruct (H1 f C) as (f' & C' & L). replace (s * f) with f' by lra. exact C'.
  - destruct (H2 _ C) as (g & G & L). assert (g = f) by nra. subst g. exact G.
Qed.

(** ** entries of D *)
Lemma entry_between d mu D D' : 0 < mu -> (forall e, mu * dot e e <= quad D e) -> entries_within d D D' -> between (1 - 3 * d / mu) (1 + 3 * d / mu) D D'.
Proof.
  intros Hm H (E1 & E2 & E3 & E4 & E5 & E6 & E7 & E8 & E9) e. specialize (H e).
  assert (X : Rabs (quad D' e - quad D e) <= 3 * d * dot e e).
  { destruct D as [p11 p12 p13 p21 p22 p23 p31 p32 p33], D' as [q11 q12 q13 q21 q22 q23 q31 q32 q33], e as [x y z]. cbn in E1, E2, E3, E4, E5, E6, E7, E8, E9. unfold quad, dot, mvec. cbn [vx vy vz a11 a12 a13 a21 a22 a23 a31 a32 a33].
    assert (T : forall u v w, Rabs u <= d -> Rabs (u * (v * w)) <= d * ((v * v + w * w) / 2)).
    { intros u v w Hu. rewrite Rabs_mult. assert (0 <= Rabs u) by apply Rabs_pos. apply Rmult_le_compat; [assumption|apply Rabs_pos|exact Hu|]. apply Rabs_le. assert (0 <= (v + w) ^ 2) by apply pow2_ge_0. assert (0 <= (v - w) ^ 2) by apply pow2_ge_0. split; lra. }
    assert (T1 := T _ x x E1). assert (T2 := T _ x y E2). assert (T3 := T _ x z E3). assert (T4 := T _ y x E4). assert (T5 := T _ y y E5). assert (T6 := T _ y z E6). assert (T7 := T _ z x E7). assert (T8 := T _ z y E8). assert (T9 := T _ z z E9).
    apply Rabs_le_between in T1, T2, T3, T4, T5, T6, T7, T8, T9. apply Rabs_le. lra. }
  assert (Hd : 0 <= d) by (eapply Rle_trans; [apply Rabs_pos|exact E1]). apply Rabs_le_between in X.
  assert (Y : 3 * d * dot e e <= 3 * d / mu * quad D e).
  { replace (3 * d / mu * quad D e) with (3 * (d * (quad D e / mu))) by (field; lra). assert (dot e e <= quad D e / mu) by (apply Rmult_le_reg_r with mu; [exact Hm|]; replace (quad D e / mu * mu) with (quad D e) by (field; lra); lra). nra. }
  lra.
Qed.
(*@ C86: an error of at most d in each entry of D changes the buckling load by at most the share 3 d / mu, where every curvature k stores at
    least mu |k|^2 in the exact D. @*)
Lemma t_C86_entries : forall d mu (D D' : mat3) a b Nxx Nyy Nxy c c0 ca d0 db m n, plate_any D a b c c0 ca d0 db -> symmetric D' ->
  (forall e, mu * dot e e <= quad D e) -> entries_within d D D' -> 3 * d < mu ->
  (forall f, critical D a b Nxx Nyy Nxy c m n f -> exists f', critical D' a b Nxx Nyy Nxy c m n f' /\ Rabs (f' - f) <= 3 * d / mu * f) /\
  (forall f', critical D' a b Nxx Nyy Nxy c m n f' -> exists f, critical D a b Nxx Nyy Nxy c m n f /\ Rabs (f' - f) <= 3 * d / mu * f).
Proof.
  intros d mu D D' a b Nxx Nyy Nxy c c0 ca d0 db m n P Sy' Hq E Hd.
  assert (H0 : 0 <= d) by (destruct E as (E & _); eapply Rle_trans; [apply Rabs_pos|exact E]). assert (Hm : 0 < mu) by lra.
  assert (B := entry_between d mu D D' Hm Hq E).
  assert (Hlo : 0 < 1 - 3 * d / mu). { assert (3 * d / mu < 1); [|lra]. apply Rmult_lt_reg_r with mu; [exact Hm|]. replace (3 * d / mu * mu) with (3 * d) by (field; lra). lra. }
  assert (P' : plate_any D' a b c c0 ca d0 db).
  { destruct P as [Ha Hb Sy Pd Sp Rs]. constructor; try assumption. intros v Nv. specialize (Pd v Nv). specialize (B v). assert (0 < (1 - 3 * d / mu) * quad D v) by (apply Rmult_lt_0_compat; assumption). lra. }
  destruct (t_C86_buckling _ _ D D' a b Nxx Nyy Nxy c c0 ca d0 db m n P P' Hlo B) as [H1 H2]. split.
  - intros f C. destruct (H1 f C) as (f' & C' & L). exists f'. split; [exact C'|]. apply Rabs_le. lra.
  - intros f' C'. destruct (H2 f' C') as (f & C & L). exists f. split; [exact C|]. apply Rabs_le. lra.
Qed.

(** ** one ply whose modulus e1 grows *)
Definition soft : omat := OMat 1 1 (1/2) 1 1 1 1 1 1 1.
Definition hard : omat := with_constants soft 2 1 (1/2) 1.
Lemma soft_phys : physical soft. Proof. unfold physical, soft. cbn. lra. Qed.
Lemma hard_phys : physical hard. Proof. unfold physical, hard, soft. cbn. lra. Qed.
Lemma phys_admissible m : physical m -> 0 < o_thickness m -> S_Laminate.admissible (Ortho m).
Proof. intros P H. split; [|exact H]. exists (o_Qval m). split; [apply phys_Q0, P|apply Qval_pos, P]. Qed.
Lemma one_D m : physical m -> o_thickness m = 1 -> D_of [(0, Ortho m)] = Ok (mscale (1/12) (o_Qval m)).
Proof.
  intros P H. assert (A : all_admissible [(0, Ortho m)]) by (constructor; [apply phys_admissible; [exact P|lra]|constructor]).
  rewrite (D_of_eq _ (admissible_readable _ A)). f_equal. unfold Lsum, z_bottom, hsum, pairs. cbn [map fst snd rsum lsum thickness]. rewrite H.
  unfold Qbar, Q0p. cbn [Q_0]. rewrite (phys_Q0 m P). unfold cdeg, sdeg. replace (0 * PI / 180) with 0 by field. rewrite cos_0, sin_0, rot_1_0.
  destruct (o_Qval m). unfold wD. unmat. cbn. f_equal; field.
Qed.
Lemma one_matrix D : symmetric D -> calc_K_KG_D exact_tables (as_arr D) 2 1 (-1) 0 0 (CStr "CLAMPED") 1 1 =
  Ok ([[(a11 D / 2 + 8 * a22 D) * (8 / 1575) + (4 * a12 D + 8 * a33 D) * (16 / 11025)]], [[- (16 / 66150)]]).
Proof.
  intros Sy. assert (Ec : exists idx, compute_constraints (CStr "CLAMPED") 1 1 = Ok idx /\ sw_idx idx = [(4, 4)]%nat) by (eexists; split; [vm_compute; reflexivity|reflexivity]).
  destruct Ec as (idx & Ec & Es). rewrite (exact_fwd D 2 1 (-1) 0 0 _ _ _ idx ltac:(lra) ltac:(lra) Ec), Es.
  assert (V : forall p q v, qint (qmul (qD p (bpoly 4)) (qD q (bpoly 4))) = v -> exact_int p q 4 4 = Q2R v).
  { intros p q v Hv. apply small_int. rewrite Hv. reflexivity. }
  assert (S12 : a21 D = a12 D) by (destruct D; unfold symmetric in Sy; cbn in Sy |- *; injection Sy as ? ? ? ? ? ?; congruence).
  apply Ok_pair; cbn [map]; unfold kx, k33f, kGf, exact_e; cbn [fst snd e00 e10 e11 e20 e21 e22];
  rewrite ?(V 0%nat 0%nat (4 # 315)%Q), ?(V 1%nat 0%nat 0%Q), ?(V 1%nat 1%nat (4 # 105)%Q), ?(V 2%nat 0%nat (-4 # 105)%Q), ?(V 2%nat 1%nat 0%Q), ?(V 2%nat 2%nat (2 # 5)%Q) by (vm_compute; reflexivity);
  unfold Q2R; cbn [Qnum Qden]; (apply f_equal2; [|reflexivity]); (apply f_equal2; [|reflexivity]); [rewrite S12|]; field.
Qed.
Lemma one_factor k g : 0 < k -> 0 < g -> smallest_factor [[k]] [[- g]] (k / g).
Proof.
  intros Hk Hg. split; [apply Rdiv_lt_0_compat; assumption|]. split.
  - exists [1]. unfold buckles. cbn. split; [reflexivity|]. split; [|f_equal; field; lra]. apply Exists_cons_hd. lra.
  - intros l Hl (v & L & N & E). destruct v as [|x [|? ?]]; try discriminate L. assert (Nx : x <> 0) by (inversion N as [? ? H|? ? H]; [exact H|inversion H]). cbn in E. injection E as E.
    assert (k = l * g) by nra. subst k. right. field. lra.
Qed.
(*@ C86: a stiffer fibre direction can lower the buckling load. A ply with equal moduli and v12 = 1/2 on a clamped plate of 2 by 1 carries less
    after e1 has doubled and everything else stayed the same. @*)
Lemma t_C86_E1_refuted : exists m e1 D D' f f', physical m /\ o_e1 m < e1 /\ S_Laminate.admissible (Ortho m) /\
  S_Laminate.admissible (Ortho (with_constants m e1 (o_e2 m) (o_v12 m) (o_g12 m))) /\
  D_of [(0, Ortho m)] = Ok D /\ D_of [(0, Ortho (with_constants m e1 (o_e2 m) (o_v12 m) (o_g12 m)))] = Ok D' /\
  critical D 2 1 (-1) 0 0 (CStr "CLAMPED") 1 1 f /\ critical D' 2 1 (-1) 0 0 (CStr "CLAMPED") 1 1 f' /\ f' < f.
Proof.
  assert (E := one_D soft soft_phys eq_refl). assert (E' := one_D hard hard_phys eq_refl).
  assert (Q : mscale (1/12) (o_Qval soft) = M3 (1/9) (1/18) 0 (1/18) (1/9) 0 0 0 (1/12)).
  { rewrite (Qval_eq _ soft_phys). unfold soft, mscale. cbn. f_equal; field. }
  assert (Q' : mscale (1/12) (o_Qval hard) = M3 (4/21) (1/21) 0 (1/21) (2/21) 0 0 0 (1/12)).
  { rewrite (Qval_eq _ hard_phys). unfold hard, soft, mscale. cbn. f_equal; field. }
  rewrite Q in E. rewrite Q' in E'.
  exists soft, 2. do 4 eexists. split; [exact soft_phys|]. split; [cbn; lra|]. split; [apply phys_admissible; [exact soft_phys|cbn; lra]|].
  split; [apply (phys_admissible hard); [exact hard_phys|cbn; lra]|]. split; [exact E|]. split; [exact E'|].
  split; [eexists; eexists; split; [apply one_matrix; reflexivity|]; cbn [a11 a12 a22 a33]; apply one_factor; lra|].
  split; [eexists; eexists; split; [apply one_matrix; reflexivity|]; cbn [a11 a12 a22 a33]; apply one_factor; lra|].
  lra.
Qed.
(*@ C86 example: two plies at +-45 degrees, in the first of which the moduli grow by a tenth and in the second by a fifth; a glass ply that meets
    the criterion with larger e1, v12 and g12; and a matrix D with errors in its entries. @*)
Lemma t_C86_ex : let carbon := OMat 20 2 (1/4) 1 1 1 1 1 1 1 in let glass := OMat 4 2 (1/4) 1 1 1 1 1 1 1 in
  physical carbon /\ physical glass /\ all_admissible [(45, Ortho carbon); (-45, Ortho glass)] /\
  all_admissible [(45, scaled (11/10) (Ortho carbon)); (-45, scaled (6/5) (Ortho glass))] /\
  Forall2 (ply_between (11/10) (6/5)) [(45, Ortho carbon); (-45, Ortho glass)] [(45, scaled (11/10) (Ortho carbon)); (-45, scaled (6/5) (Ortho glass))] /\
  (exists q q', Q_0 (Ortho glass) = Ok q /\ Q_0 (Ortho (with_constants glass 6 2 (3/8) 2)) = Ok q' /\ no_stiffer q q') /\
  (forall e, 1 * dot e e <= quad (M3 4 1 0 1 3 0 0 0 1) e) /\ entries_within (1/10) (M3 4 1 0 1 3 0 0 0 1) (M3 (41/10) 1 0 1 (29/10) (1/20) 0 (1/20) 1).
Proof.
  intros carbon glass. assert (Pc : physical carbon) by (unfold physical; cbn; lra). assert (Pg : physical glass) by (unfold physical; cbn; lra).
  assert (Ac := phys_admissible carbon Pc ltac:(cbn; lra)). assert (Ag := phys_admissible glass Pg ltac:(cbn; lra)).
  assert (Pc' : physical (with_constants carbon (11/10 * 20) (11/10 * 2) (1/4) (11/10 * 1))) by (unfold physical; cbn; lra).
  assert (Pg' : physical (with_constants glass (6/5 * 4) (6/5 * 2) (1/4) (6/5 * 1))) by (unfold physical; cbn; lra).
  assert (Sc : forall s m, 11/10 <= s <= 6/5 -> physical m -> forall t, ply_between (11/10) (6/5) (t, Ortho m) (t, scaled s (Ortho m))).
  { intros s m Hs P t. repeat split. exists (o_Qval m), (mscale s (o_Qval m)). split; [apply phys_Q0, P|]. split; [apply (Q0_scaled s (Ortho m)); [lra|apply phys_Q0, P]|].
    intros e. rewrite quad_mscale. assert (0 <= quad (o_Qval m) e) by apply quad_pos_iff, Qval_pos, P. nra. }
  split; [exact Pc|]. split; [exact Pg|]. split; [constructor; [exact Ac|constructor; [exact Ag|constructor]]|].
  split; [constructor; [apply (phys_admissible _ Pc'); cbn; lra|constructor; [apply (phys_admissible _ Pg'); cbn; lra|constructor]]|].
  split; [constructor; [apply Sc; [lra|exact Pc]|constructor; [apply Sc; [lra|exact Pg]|constructor]]|].
  assert (Pw : physical (with_constants glass 6 2 (3/8) 2)) by (unfold physical; cbn; lra).
  split; [|split].
  - exists (o_Qval glass), (o_Qval (with_constants glass 6 2 (3/8) 2)). split; [apply phys_Q0, Pg|]. split; [apply phys_Q0, Pw|].
    apply (t_C86_criterion _ _ _ _ Pg Pw (phys_Q0 _ Pg) (phys_Q0 _ Pw)). cbn. lra.
  - intros [x y z]. unfold quad, dot, mvec. cbn. nra.
  - unfold entries_within. cbn. repeat split; apply Rabs_le; lra.
Qed.
