(** Proofs of the theorems on the shape of the optimisation problems. *)
From Coq Require Import Reals ZArith Lra Lia Bool String Sorting.Sorted Classical.
From Coquelicot Require Import Coquelicot.
From Coq Require Import List.
From Verif Require Import M_Py M_Plate M_K M_RealArith M_Plot M_Buckling M_Material M_Laminate M_Optimize S_Plate S_Mat S_Bardell S_Energy S_K S_Ritz S_Eigen S_Compare S_Optimize S_Convex L_Quad L_Eigen L_Plate L_FirstK L_K L_KR L_Poly L_Shape L_TabV L_Energy L_Ritz L_ABD L_Mat T_Plate T_Shape T_K T_Energy T_ABD T_Buckling T_Compare T_Optimize T_Solver.
Import ListNotations.
Open Scope R_scope.

(** ** combinations of stiffnesses *)
Lemma quad_comb p q D D' v : quad (madd (mscale p D) (mscale q D')) v = p * quad D v + q * quad D' v.
Proof. destruct D, D', v. unfold quad, madd, mscale, dot, mvec. cbn. ring. Qed.
Lemma bending_comb p q D D' a b w : 0 < a -> 0 < b -> nice a b w ->
  bending (madd (mscale p D) (mscale q D')) a b w w = p * bending D a b w w + q * bending D' a b w w.
Proof.
  intros Ha Hb W. unfold bending. assert (N1 := nice_bend a b D w w W W). assert (N2 := nice_bend a b D' w w W W). change (fun x y => dot (curvature w x y) (mvec D (curvature w x y))) with (bend_i D w w). change (fun x y => dot (curvature w x y) (mvec D' (curvature w x y))) with (bend_i D' w w).
  rewrite <- (over_scal a b ltac:(lra) ltac:(lra) p _ N1), <- (over_scal a b ltac:(lra) ltac:(lra) q _ N2), <- over_add by (lra || (apply nice_scal; assumption)).
  apply over_ext. intros x y. exact (quad_comb p q D D' (curvature w x y)).
Qed.
Lemma comb_ok p q D D' a b c c0 ca d0 db : 0 <= p -> 0 <= q -> 0 < p + q ->
  plate_any D a b c c0 ca d0 db -> plate_any D' a b c c0 ca d0 db -> plate_any (madd (mscale p D) (mscale q D')) a b c c0 ca d0 db.
Proof.
  intros Hp Hq H [Ha Hb Sy Pd Sp Rs] [_ _ Sy' Pd' _ _]. constructor; try assumption.
  - unfold symmetric in *. destruct D, D'. cbn in *. injection Sy as ? ? ? ? ? ?. injection Sy' as ? ? ? ? ? ?. subst. reflexivity.
  - intros v Nv. rewrite quad_comb. specialize (Pd v Nv). specialize (Pd' v Nv). destruct (Req_dec p 0) as [->|Z]; [nra|]. assert (0 < p * quad D v) by (apply Rmult_lt_0_compat; lra). assert (0 <= q * quad D' v) by (apply Rmult_le_pos; lra). lra.
Qed.
Lemma crit_pos D a b Nxx Nyy Nxy c m n l : critical D a b Nxx Nyy Nxy c m n l -> 0 < l.
Proof. intros (K & KG & _ & H & _). exact H. Qed.
Lemma crit_unique D a b Nxx Nyy Nxy c m n l l' : critical D a b Nxx Nyy Nxy c m n l -> critical D a b Nxx Nyy Nxy c m n l' -> l = l'.
Proof.
  intros (K & KG & E & H & F & M) (K' & KG' & E' & H' & F' & M'). assert (X := same_calc _ _ _ E E'). injection X as <- <-.
  specialize (M l' H' F'). specialize (M' l H F). lra.
Qed.
(** at the critical factor no deflection has negative energy *)
Lemma energy_nonneg D a b Nxx Nyy Nxy c m n idx K KG l cw : view D a b Nxx Nyy Nxy c m n idx K KG -> critical D a b Nxx Nyy Nxy c m n l ->
  List.length cw = (m * n)%nat -> nonzero cw ->
  let w := combine_shapes a b (sw_idx idx) cw in 0 < bending D a b w w /\ 0 <= bending D a b w w + l * load_work Nxx Nyy Nxy a b w w.
Proof.
  intros V C L N w. assert (Hl := crit_pos _ _ _ _ _ _ _ _ _ _ C).
  assert (Lo : forall x, critical D a b Nxx Nyy Nxy c m n x -> l <= x) by (intros x Cx; rewrite (crit_unique _ _ _ _ _ _ _ _ _ _ _ C Cx); lra).
  assert (E := fun t Ht => energy_pos _ _ _ _ _ _ _ _ _ _ _ _ l V Lo t cw Ht L N). cbv zeta in E. fold w in E.
  assert (B := E 0 ltac:(lra)). rewrite Rmult_0_l, Rplus_0_r in B. split; [exact B|].
  set (A := bending D a b w w) in *. set (W := load_work Nxx Nyy Nxy a b w w) in *.
  destruct (Rle_lt_dec 0 (A + l * W)) as [Q|Q]; [exact Q|exfalso].
  assert (HW : W < 0) by nra. assert (Hy : 0 < / - W) by (apply Rinv_0_lt_compat; lra). assert (Iw : / - W * - W = 1) by (apply Rinv_l; lra).
  assert (Z : A + (A * / - W) * W = 0). { replace (A + A * / - W * W) with (A * (1 - / - W * - W)) by ring. rewrite Iw. ring. }
  assert (A * / - W < l). { apply Rmult_lt_reg_r with (- W); [lra|]. replace (A * / - W * - W) with (A * (/ - W * - W)) by ring. rewrite Iw. lra. }
  assert (0 < A * / - W) by (apply Rmult_lt_0_compat; assumption). specialize (E (A * / - W) ltac:(lra)). lra.
Qed.
(*@ C73: for given loads the critical factor is superadditive and homogeneous, so concave, in the bending stiffness: a combination of two
    stiffnesses with weights p, q carries at least the combination of the two critical factors. @*)
Lemma t_C73_stiffness : forall (D D' : mat3) a b Nxx Nyy Nxy c c0 ca d0 db m n p q l1 l2,
  plate_any D a b c c0 ca d0 db -> plate_any D' a b c c0 ca d0 db -> 0 <= p -> 0 <= q -> 0 < p + q ->
  critical D a b Nxx Nyy Nxy c m n l1 -> critical D' a b Nxx Nyy Nxy c m n l2 ->
  exists l, critical (madd (mscale p D) (mscale q D')) a b Nxx Nyy Nxy c m n l /\ p * l1 + q * l2 <= l.
Proof.
  intros D D' a b Nxx Nyy Nxy c c0 ca d0 db m n p q l1 l2 P P' Hp Hq Hpq C1 C2.
  assert (P2 := comb_ok p q D D' a b c c0 ca d0 db Hp Hq Hpq P P').
  destruct (look_any D a b Nxx Nyy Nxy c c0 ca d0 db m n P) as (idx & K & KG & V).
  destruct (look_any D' a b Nxx Nyy Nxy c c0 ca d0 db m n P') as (idx' & K' & KG' & V').
  destruct (look_any _ a b Nxx Nyy Nxy c c0 ca d0 db m n P2) as (idx'' & K'' & KG'' & V'').
  assert (E := same_calc _ _ _ (v_idx _ _ _ _ _ _ _ _ _ _ _ _ V) (v_idx _ _ _ _ _ _ _ _ _ _ _ _ V')). subst idx'.
  assert (E := same_calc _ _ _ (v_idx _ _ _ _ _ _ _ _ _ _ _ _ V) (v_idx _ _ _ _ _ _ _ _ _ _ _ _ V'')). subst idx''.
  assert (Ha := any_a _ _ _ _ _ _ _ _ P). assert (Hb := any_b _ _ _ _ _ _ _ _ P).
  assert (Ex : exists l, critical (madd (mscale p D) (mscale q D')) a b Nxx Nyy Nxy c m n l).
  { destruct (mode _ _ _ _ _ _ _ _ _ _ _ _ _ V C1) as (Hl & cw & L & N & Z). cbv zeta in Z.
    assert (B1 := proj1 (energy_nonneg _ _ _ _ _ _ _ _ _ _ _ _ l1 cw V C1 L N)). assert (B2 := proj1 (energy_nonneg _ _ _ _ _ _ _ _ _ _ _ _ l2 cw V' C2 L N)). cbv zeta in B1, B2.
    assert (Bc := bending_comb p q D D' a b (combine_shapes a b (sw_idx idx) cw) Ha Hb (nice_combine a b _ _)).
    set (w := combine_shapes a b (sw_idx idx) cw) in *. set (W := load_work Nxx Nyy Nxy a b w w) in *. assert (HW : W < 0) by nra.
    set (A := bending D a b w w) in *. set (A' := bending D' a b w w) in *. set (B := p * A + q * A') in *.
    assert (HB : 0 < B). { unfold B. destruct (Req_dec p 0) as [->|Zp]; [nra|]. assert (0 < p * A) by (apply Rmult_lt_0_compat; lra). assert (0 <= q * A') by (apply Rmult_le_pos; lra). lra. }
    destruct (T_Compare.bounded _ _ _ _ _ _ _ _ _ _ _ _ (B * / - W) cw V'' ltac:(apply Rmult_lt_0_compat; [exact HB|apply Rinv_0_lt_compat; lra]) L N) as (l & C & _).
    - cbv zeta. fold w. fold W. rewrite Bc. fold B. replace (B + B * / - W * W) with (B * (1 - / - W * - W)) by ring. rewrite Rinv_l by lra. lra.
    - exists l. exact C. }
  destruct Ex as (l & C). exists l. split; [exact C|].
  destruct (mode _ _ _ _ _ _ _ _ _ _ _ _ _ V'' C) as (Hl & cw & L & N & Z). cbv zeta in Z.
  destruct (energy_nonneg _ _ _ _ _ _ _ _ _ _ _ _ l1 cw V C1 L N) as [B1 E1]. destruct (energy_nonneg _ _ _ _ _ _ _ _ _ _ _ _ l2 cw V' C2 L N) as [B2 E2].
  assert (B3 := proj1 (energy_nonneg _ _ _ _ _ _ _ _ _ _ _ _ l cw V'' C L N)). cbv zeta in B3.
  rewrite (bending_comb p q D D' a b _ Ha Hb (nice_combine a b _ _)) in Z, B3.
  set (w := combine_shapes a b (sw_idx idx) cw) in *. set (W := load_work Nxx Nyy Nxy a b w w) in *. set (A := bending D a b w w) in *. set (A' := bending D' a b w w) in *.
  assert (HW : W < 0) by nra.
  assert (0 <= p * (A + l1 * W)) by (apply Rmult_le_pos; assumption). assert (0 <= q * (A' + l2 * W)) by (apply Rmult_le_pos; assumption).
  destruct (Rle_lt_dec (p * l1 + q * l2) l) as [Q|Q]; [exact Q|exfalso]. assert ((p * l1 + q * l2 - l) * W < 0) by nra. nra.
Qed.

(** ** lamination parameters *)
Lemma cube_inv_convex s T T' : 0 <= s <= 1 -> 0 < T -> 0 < T' -> let c := between s T T' in 0 < c /\ 1 <= s * c ^ 3 / T ^ 3 + (1 - s) * c ^ 3 / T' ^ 3.
Proof.
  intros Hs HT HT' c. assert (Hc : 0 < c). { unfold c, between. destruct (Req_dec s 0) as [->|Z]; [lra|]. assert (0 < s * T) by (apply Rmult_lt_0_compat; lra). assert (0 <= (1 - s) * T') by (apply Rmult_le_pos; lra). lra. }
  split; [exact Hc|].
  assert (Tan : forall t, 0 < t -> 4 - 3 * (t / c) <= c ^ 3 / t ^ 3).
  { intros t Ht. assert (Ht3 : 0 < t ^ 3) by (apply pow_lt; exact Ht). apply Rmult_le_reg_r with (c * t ^ 3); [apply Rmult_lt_0_compat; assumption|].
    replace (c ^ 3 / t ^ 3 * (c * t ^ 3)) with (c ^ 4) by (field; lra). replace ((4 - 3 * (t / c)) * (c * t ^ 3)) with (4 * c * t ^ 3 - 3 * t ^ 4) by (field; lra).
    assert (0 <= (t - c) ^ 2 * (3 * t ^ 2 + 2 * t * c + c ^ 2)) by (apply Rmult_le_pos; [apply pow2_ge_0|nra]). nra. }
  assert (A := Tan T HT). assert (B := Tan T' HT').
  assert (s * (4 - 3 * (T / c)) <= s * (c ^ 3 / T ^ 3)) by (apply Rmult_le_compat_l; lra). assert ((1 - s) * (4 - 3 * (T' / c)) <= (1 - s) * (c ^ 3 / T' ^ 3)) by (apply Rmult_le_compat_l; lra).
  assert (Z : s * (4 - 3 * (T / c)) + (1 - s) * (4 - 3 * (T' / c)) = 1) by (unfold c, between in *; field; lra).
  replace (s * c ^ 3 / T ^ 3) with (s * (c ^ 3 / T ^ 3)) by (field; lra). replace ((1 - s) * c ^ 3 / T' ^ 3) with ((1 - s) * (c ^ 3 / T' ^ 3)) by (field; lra). lra.
Qed.
Lemma Dmat_between E1 E2 v12 G12 T T' x y x' y' s : elastic E1 E2 v12 G12 -> 0 < T -> 0 < T' -> let c := between s T T' in
  Dmat E1 E2 v12 G12 c (between s x x') (between s y y') =
  madd (mscale (s * c ^ 3 / T ^ 3) (Dmat E1 E2 v12 G12 T x y)) (mscale ((1 - s) * c ^ 3 / T' ^ 3) (Dmat E1 E2 v12 G12 T' x' y')).
Proof.
  intros El HT HT' c. unfold Dmat, madd, mscale. cbn [a11 a12 a13 a21 a22 a23 a31 a32 a33].
  assert (forall f g h : R, h = s * f + (1 - s) * g -> c ^ 3 / 12 * h = s * c ^ 3 / T ^ 3 * (T ^ 3 / 12 * f) + (1 - s) * c ^ 3 / T' ^ 3 * (T' ^ 3 / 12 * g)) as A.
  { intros f g h ->. field. split; lra. }
  unfold cA, cC, between. f_equal; try (apply A; field; lra); try ring.
Qed.
Lemma lp_ok a b T E1 E2 v12 G12 x y c c0 ca d0 db m n : 0 < a -> 0 < b -> specifies c c0 ca d0 db -> restrained c0 ca d0 db ->
  (m + taken c0 + taken ca <= 30)%nat -> (n + taken d0 + taken db <= 30)%nat -> pos_def (Dmat E1 E2 v12 G12 T x y) -> plate_ok (Dmat E1 E2 v12 G12 T x y) a b c c0 ca d0 db m n.
Proof. intros. constructor; try assumption. apply Dmat_sym. Qed.
Lemma crit_lp_D a b T E1 E2 v12 G12 x y Nxx Nyy Nxy c m n l : elastic E1 E2 v12 G12 ->
  (crit_lp a b T E1 E2 v12 G12 x y Nxx Nyy Nxy c m n l <-> critical (Dmat E1 E2 v12 G12 T x y) a b Nxx Nyy Nxy c m n l).
Proof.
  intros El. unfold crit_lp. rewrite D_lp_eq by (assumption || lra). split.
  - intros (D & E & C). apply (f_equal (fun r => match r with Ok d => d | Err _ => D end)) in E. subst D. exact C.
  - intros C. eexists. split; [reflexivity|exact C].
Qed.
Lemma mix_general a b T T' E1 E2 v12 G12 x y x' y' Nxx Nyy Nxy c c0 ca d0 db m n s l1 l2 : elastic E1 E2 v12 G12 -> 0 < a -> 0 < b -> 0 < T -> 0 < T' -> 0 <= s <= 1 ->
  specifies c c0 ca d0 db -> restrained c0 ca d0 db -> (m + taken c0 + taken ca <= 30)%nat -> (n + taken d0 + taken db <= 30)%nat ->
  pos_def (Dmat E1 E2 v12 G12 T x y) -> pos_def (Dmat E1 E2 v12 G12 T' x' y') ->
  crit_lp a b T E1 E2 v12 G12 x y Nxx Nyy Nxy c m n l1 -> crit_lp a b T' E1 E2 v12 G12 x' y' Nxx Nyy Nxy c m n l2 ->
  let t := between s T T' in exists l, crit_lp a b t E1 E2 v12 G12 (between s x x') (between s y y') Nxx Nyy Nxy c m n l /\
    s * t ^ 3 / T ^ 3 * l1 + (1 - s) * t ^ 3 / T' ^ 3 * l2 <= l.
Proof.
  intros El Ha Hb HT HT' Hs Sp Rs Bm Bn Pd Pd' C1 C2 t. apply crit_lp_D in C1, C2; try exact El. destruct (cube_inv_convex s T T' Hs HT HT') as [Hc Jn]. fold t in Hc, Jn.
  assert (T3 : 0 < T ^ 3) by (apply pow_lt; exact HT). assert (T3' : 0 < T' ^ 3) by (apply pow_lt; exact HT'). assert (t3 : 0 < t ^ 3) by (apply pow_lt; exact Hc).
  destruct (t_C73_stiffness _ _ a b Nxx Nyy Nxy c c0 ca d0 db m n (s * t ^ 3 / T ^ 3) ((1 - s) * t ^ 3 / T' ^ 3) l1 l2
    (lp_ok _ _ _ _ _ _ _ _ _ _ _ _ _ _ _ _ Ha Hb Sp Rs Bm Bn Pd) (lp_ok _ _ _ _ _ _ _ _ _ _ _ _ _ _ _ _ Ha Hb Sp Rs Bm Bn Pd')) as (l & C & Le); try assumption.
  - unfold Rdiv. apply Rmult_le_pos; [apply Rmult_le_pos; lra|left; apply Rinv_0_lt_compat; exact T3].
  - unfold Rdiv. apply Rmult_le_pos; [apply Rmult_le_pos; lra|left; apply Rinv_0_lt_compat; exact T3'].
  - lra.
  - exists l. split; [|exact Le]. apply crit_lp_D; [exact El|]. unfold t. rewrite (Dmat_between E1 E2 v12 G12 T T' x y x' y' s El HT HT'). exact C.
Qed.
Lemma inside_parabola penalty x y : inside penalty x y -> 2 * x ^ 2 - 1 <= y <= 1.
Proof.
  intros [M H]. split; [|exact H]. destruct (t_C48_triangle x y) as (_ & _ & _ & _ & _ & _ & _ & _ & M1 & M2). destruct penalty; [|apply M2; exact M].
  apply M1 in M. assert (Rabs x <= 1) by lra. assert (0 <= Rabs x) by apply Rabs_pos. replace (x ^ 2) with (Rabs x ^ 2) by (apply pow2_abs). nra.
Qed.
(*@ C73: the triangle and the parabola are convex. @*)
Lemma t_C73_region : forall penalty xi1 xi3 yi1 yi3 s, 0 <= s <= 1 -> inside penalty xi1 xi3 -> inside penalty yi1 yi3 ->
  inside penalty (between s xi1 yi1) (between s xi3 yi3).
Proof.
  intros penalty x y x' y' s Hs [M H] [M' H'].
  destruct (t_C48_triangle x y) as (_ & _ & _ & _ & _ & _ & _ & _ & A1 & A2). destruct (t_C48_triangle x' y') as (_ & _ & _ & _ & _ & _ & _ & _ & B1 & B2).
  destruct (t_C48_triangle (between s x x') (between s y y')) as (_ & _ & _ & _ & _ & _ & _ & _ & C1 & C2). split; [|unfold between; nra].
  destruct penalty.
  - apply C1. apply A1 in M. apply B1 in M'. unfold between. assert (T := Rabs_triang (s * x) ((1 - s) * x')). rewrite !Rabs_mult, (Rabs_pos_eq s), (Rabs_pos_eq (1 - s)) in T by lra.
    assert (s * (2 * Rabs x - 1) <= s * y) by (apply Rmult_le_compat_l; lra). assert ((1 - s) * (2 * Rabs x' - 1) <= (1 - s) * y') by (apply Rmult_le_compat_l; lra). lra.
  - apply C2. apply A2 in M. apply B2 in M'. unfold between.
    assert (s * (2 * x ^ 2 - 1) <= s * y) by (apply Rmult_le_compat_l; lra). assert ((1 - s) * (2 * x' ^ 2 - 1) <= (1 - s) * y') by (apply Rmult_le_compat_l; lra).
    assert (0 <= s * (1 - s) * (x - x') ^ 2) by (apply Rmult_le_pos; [apply Rmult_le_pos; lra|apply pow2_ge_0]). nra.
Qed.
(*@ C73: the critical factor is a concave function of the lamination parameters. @*)
Lemma t_C73_concave : forall a b T E1 E2 v12 G12 xi1 xi3 yi1 yi3 Nxx Nyy Nxy c c0 ca d0 db m n s l1 l2, 0 < a -> 0 < b -> 0 < T -> elastic E1 E2 v12 G12 ->
  specifies c c0 ca d0 db -> restrained c0 ca d0 db -> (m + taken c0 + taken ca <= 30)%nat -> (n + taken d0 + taken db <= 30)%nat ->
  inside false xi1 xi3 -> inside false yi1 yi3 -> 0 <= s <= 1 ->
  crit_lp a b T E1 E2 v12 G12 xi1 xi3 Nxx Nyy Nxy c m n l1 -> crit_lp a b T E1 E2 v12 G12 yi1 yi3 Nxx Nyy Nxy c m n l2 ->
  exists l, crit_lp a b T E1 E2 v12 G12 (between s xi1 yi1) (between s xi3 yi3) Nxx Nyy Nxy c m n l /\ between s l1 l2 <= l.
Proof.
  intros a b T E1 E2 v12 G12 x y x' y' Nxx Nyy Nxy c c0 ca d0 db m n s l1 l2 Ha Hb HT El Sp Rs Bm Bn I I' Hs C1 C2.
  assert (Pd := Dmat_region E1 E2 v12 G12 T x y El HT (inside_parabola _ _ _ I)). assert (Pd' := Dmat_region E1 E2 v12 G12 T x' y' El HT (inside_parabola _ _ _ I')).
  destruct (mix_general a b T T E1 E2 v12 G12 x y x' y' Nxx Nyy Nxy c c0 ca d0 db m n s l1 l2 El Ha Hb HT HT Hs Sp Rs Bm Bn Pd Pd' C1 C2) as (l & C & Le).
  assert (Et : between s T T = T) by (unfold between; ring). rewrite Et in C, Le. exists l. split; [exact C|]. unfold between.
  replace (s * T ^ 3 / T ^ 3) with s in Le by (field; lra). replace ((1 - s) * T ^ 3 / T ^ 3) with (1 - s) in Le by (field; lra). exact Le.
Qed.
(*@ C73: so a panel whose critical factor is not exceeded by any panel with nearby lamination parameters is not exceeded by any panel
    of the region: a local optimum of the maximisation is a global one. @*)
Lemma t_C73_local : forall penalty a b T E1 E2 v12 G12 xi1 xi3 Nxx Nyy Nxy c c0 ca d0 db m n l0 eps, 0 < a -> 0 < b -> 0 < T -> elastic E1 E2 v12 G12 ->
  specifies c c0 ca d0 db -> restrained c0 ca d0 db -> (m + taken c0 + taken ca <= 30)%nat -> (n + taken d0 + taken db <= 30)%nat ->
  inside penalty xi1 xi3 -> crit_lp a b T E1 E2 v12 G12 xi1 xi3 Nxx Nyy Nxy c m n l0 -> 0 < eps ->
  (forall yi1 yi3 l, inside penalty yi1 yi3 -> Rabs (yi1 - xi1) < eps -> Rabs (yi3 - xi3) < eps ->
     crit_lp a b T E1 E2 v12 G12 yi1 yi3 Nxx Nyy Nxy c m n l -> l <= l0) ->
  forall yi1 yi3 l, inside penalty yi1 yi3 -> crit_lp a b T E1 E2 v12 G12 yi1 yi3 Nxx Nyy Nxy c m n l -> l <= l0.
Proof.
  intros penalty a b T E1 E2 v12 G12 x y Nxx Nyy Nxy c c0 ca d0 db m n l0 eps Ha Hb HT El Sp Rs Bm Bn I C0 He Loc x' y' l I' C.
  assert (Nat1 : forall u v, inside penalty u v -> inside false u v). { intros u v J. split; [|apply J]. destruct (t_C48_triangle u v) as (_ & _ & _ & _ & _ & _ & _ & _ & _ & M2). apply M2. apply (inside_parabola _ _ _ J). }
  set (d := Rabs (x' - x) + Rabs (y' - y)). assert (P1 := Rabs_pos (x' - x)). assert (P2 := Rabs_pos (y' - y)).
  set (r := eps / (eps + d + 1)). assert (Hr : 0 < r < 1).
  { unfold r, d. split; [apply Rdiv_lt_0_compat; lra|]. apply Rmult_lt_reg_r with (eps + (Rabs (x' - x) + Rabs (y' - y)) + 1); [lra|]. replace (eps / (eps + (Rabs (x' - x) + Rabs (y' - y)) + 1) * (eps + (Rabs (x' - x) + Rabs (y' - y)) + 1)) with eps by (field; lra). lra. }
  assert (Hrd : r * d < eps). { unfold r. apply Rmult_lt_reg_r with (eps + d + 1); [unfold d; lra|]. replace (eps / (eps + d + 1) * d * (eps + d + 1)) with (eps * d) by (field; unfold d; lra). apply Rmult_lt_compat_l; [exact He|unfold d; lra]. }
  destruct (t_C73_concave a b T E1 E2 v12 G12 x y x' y' Nxx Nyy Nxy c c0 ca d0 db m n (1 - r) l0 l Ha Hb HT El Sp Rs Bm Bn (Nat1 _ _ I) (Nat1 _ _ I') ltac:(lra) C0 C) as (l1 & Cl & Le).
  assert (Near : forall u v, Rabs (v - u) <= d -> Rabs (between (1 - r) u v - u) < eps).
  { intros u v Hv. replace (between (1 - r) u v - u) with (r * (v - u)) by (unfold between; ring). rewrite Rabs_mult, (Rabs_pos_eq r) by lra. assert (r * Rabs (v - u) <= r * d) by (apply Rmult_le_compat_l; lra). lra. }
  assert (Q := Loc _ _ l1 (t_C73_region penalty x y x' y' (1 - r) ltac:(lra) I I') (Near x x' ltac:(unfold d; lra)) (Near y y' ltac:(unfold d; lra)) Cl).
  unfold between in Le. nra.
Qed.

(** ** the problems handed to the optimiser *)
Lemma within_iff f y lo hi x : f y = Ok x -> (within (fin1 f y) lo (Some hi) <-> lo <= x <= hi).
Proof.
  intros E. split.
  - intros (z & H & L & U). unfold fin1 in H. rewrite E in H. cbn [bind] in H. injection H as <-. lra.
  - intros H. exists x. unfold fin1. rewrite E. cbn [bind]. repeat split; lra.
Qed.
Definition room (penalty : bool) (x y : R) : Prop :=
  if penalty then - 1 / 10000 <= y + 2 * x + 1 /\ - 1 / 10000 <= y - 2 * x + 1 else - 1 / 10000 <= y - 2 * x ^ 2 + 1.
Lemma room_between penalty x y x' y' s : 0 <= s <= 1 -> room penalty x y -> room penalty x' y' -> room penalty (between s x x') (between s y y').
Proof.
  intros Hs. unfold room, between. destruct penalty.
  - intros [A B] [A' B']. split.
    + assert (s * (- 1 / 10000) <= s * (y + 2 * x + 1)) by (apply Rmult_le_compat_l; lra). assert ((1 - s) * (- 1 / 10000) <= (1 - s) * (y' + 2 * x' + 1)) by (apply Rmult_le_compat_l; lra). lra.
    + assert (s * (- 1 / 10000) <= s * (y - 2 * x + 1)) by (apply Rmult_le_compat_l; lra). assert ((1 - s) * (- 1 / 10000) <= (1 - s) * (y' - 2 * x' + 1)) by (apply Rmult_le_compat_l; lra). lra.
  - intros A A'. assert (s * (- 1 / 10000) <= s * (y - 2 * x ^ 2 + 1)) by (apply Rmult_le_compat_l; lra). assert ((1 - s) * (- 1 / 10000) <= (1 - s) * (y' - 2 * x' ^ 2 + 1)) by (apply Rmult_le_compat_l; lra).
    assert (0 <= s * (1 - s) * (x - x') ^ 2) by (apply Rmult_le_pos; [apply Rmult_le_pos; lra|apply pow2_ge_0]). nra.
Qed.
Lemma range_between lo hi x x' s : 0 <= s <= 1 -> lo <= x <= hi -> lo <= x' <= hi -> lo <= between s x x' <= hi.
Proof. intros Hs H H'. unfold between. nra. Qed.
Lemma room_tolerance penalty x y : -1 <= x <= 1 -> room penalty x y -> 2 * x ^ 2 - 1 - 1/10000 <= y.
Proof. intros Hx. unfold room. destruct penalty; intros H; [apply penalty_natural; lra|lra]. Qed.
Section Prob.
Variables (eigsh : solver) (t : tables RA) (a b E1 E2 v12 G12 Nxx Nyy Nxy : R) (m n : nat) (c : constraints).
Lemma max_iff T penalty w p x y : maximize_buckling_load eigsh t a b T E1 E2 v12 G12 Nxx Nyy Nxy m n c penalty = (w, Ok p) ->
  (feasible p [x; y] <-> -1 <= x <= 1 /\ -1 <= y <= 1 /\ room penalty x y).
Proof.
  intros H. unfold maximize_buckling_load in H. destruct (normalize_critical_load Nxx Nyy Nxy) as [[[[Nx Ny] Nz] M]|e]; [|discriminate]. cbn [bind] in H.
  assert (H' := f_equal (fun r => match snd r with Ok p => Some p | Err _ => None end) H). cbn in H'. injection H' as <-. clear H. unfold feasible. cbn [bnds cons].
  assert (G1 := fun lo hi => within_iff penalty_g1 [x; y] lo hi (y + 2 * x + 1) eq_refl). assert (G2 := fun lo hi => within_iff penalty_g2 [x; y] lo hi (y - 2 * x + 1) eq_refl).
  assert (G3 := fun lo hi => within_iff natural_constraint_g [x; y] lo hi (y - 2 * x ^ 2 + 1) eq_refl). split.
  - intros [F1 F2]. inversion F1 as [|? ? ? ? B1 F1']; subst. inversion F1' as [|? ? ? ? B2 _]; subst. cbn [fst snd] in B1, B2. split; [lra|]. split; [lra|].
    unfold room. destruct penalty; inversion F2 as [|? ? W1 F2']; subst; cbn [fst snd] in W1.
    + inversion F2' as [|? ? W2 _]; subst. cbn [fst snd] in W2. apply G1 in W1. apply G2 in W2. lra.
    + apply G3 in W1. lra.
  - intros (B1 & B2 & Rm). split; [apply Forall2_cons; [cbn [fst snd]; lra|apply Forall2_cons; [cbn [fst snd]; lra|apply Forall2_nil]]|]. unfold room in Rm. destruct penalty.
    + apply Forall_cons; [cbn [fst snd]; apply G1; lra|]. apply Forall_cons; [cbn [fst snd]; apply G2; lra|apply Forall_nil].
    + apply Forall_cons; [cbn [fst snd]; apply G3; nra|apply Forall_nil].
Qed.
Lemma min_iff start w p T x y Nx Ny Nz M : minimize_panel_weight eigsh t a b E1 E2 v12 G12 Nxx Nyy Nxy m n start c = (w, Ok p) -> normalize_critical_load Nxx Nyy Nxy = Ok (Nx, Ny, Nz, M) ->
  (feasible p [T; x; y] <-> 1/1000 <= T <= 1000000 /\ -1 <= x <= 1 /\ -1 <= y <= 1 /\ room true x y /\
     exists z, eig_or_minus1 (Ncr_from_lp eigsh t a b T m n x y E1 E2 v12 G12 Nx Ny Nz c) = Ok (Fin z) /\ M <= z).
Proof.
  intros H En. unfold minimize_panel_weight in H. rewrite En in H. cbn [bind] in H.
  assert (H' := f_equal (fun r => match snd r with Ok p => Some p | Err _ => None end) H). cbn in H'. injection H' as <-. clear H. unfold feasible. cbn [bnds cons].
  assert (G1 := fun lo hi => within_iff penalty_g1 [T; x; y] lo hi (y + 2 * x + 1) eq_refl). assert (G2 := fun lo hi => within_iff penalty_g2 [T; x; y] lo hi (y - 2 * x + 1) eq_refl). split.
  - intros [F1 F2]. inversion F1 as [|? ? ? ? B0 F1']; subst. inversion F1' as [|? ? ? ? B1 F1'']; subst. inversion F1'' as [|? ? ? ? B2 _]; subst. cbn [fst snd] in B0, B1, B2.
    inversion F2 as [|? ? W0 F2']; subst. inversion F2' as [|? ? W1 F2'']; subst. inversion F2'' as [|? ? W2 _]; subst. cbn [fst snd] in W0, W1, W2. apply G1 in W1. apply G2 in W2.
    unfold room. split; [lra|]. split; [lra|]. split; [lra|]. split; [lra|]. destruct W0 as (z & W0 & L & _). exists z. auto.
  - intros (B0 & B1 & B2 & Rm & z & Ez & Lz). unfold room in Rm. split; [apply Forall2_cons; [cbn [fst snd]; lra|apply Forall2_cons; [cbn [fst snd]; lra|apply Forall2_cons; [cbn [fst snd]; lra|apply Forall2_nil]]]|].
    apply Forall_cons; [|apply Forall_cons; [cbn [fst snd]; apply G1; lra|apply Forall_cons; [cbn [fst snd]; apply G2; lra|apply Forall_nil]]]. cbn [fst snd].
    exists z. split; [exact Ez|]. split; [exact Lz|exact I].
Qed.
End Prob.
Lemma value_pd eigsh a b T E1 E2 v12 G12 Nxx Nyy Nxy c c0 ca d0 db m n x y v l : documented eigsh -> 0 < a -> 0 < b -> elastic E1 E2 v12 G12 ->
  pos_def (Dmat E1 E2 v12 G12 T x y) -> specifies c c0 ca d0 db -> restrained c0 ca d0 db -> (m + taken c0 + taken ca <= 30)%nat -> (n + taken d0 + taken db <= 30)%nat ->
  Ncr_from_lp eigsh exact_tables a b T m n x y E1 E2 v12 G12 Nxx Nyy Nxy c = Ok v ->
  crit_lp a b T E1 E2 v12 G12 x y Nxx Nyy Nxy c m n l -> 1 <= l -> v = Fin l.
Proof.
  intros Dc Ha Hb El Pd Sp Rs Bm Bn H C Hl. destruct (Ncr_unfold _ _ _ _ _ _ _ _ _ _ _ _ _ _ _ _ _ _ H) as (D & out & vecs & ED & EB).
  rewrite D_lp_eq in ED by (assumption || lra). apply (f_equal (fun r => match r with Ok d => d | Err _ => D end)) in ED. subst D.
  apply crit_lp_D in C; [|exact El]. destruct C as (K & KG & EK & Sl).
  assert (Pn := t_C42_pencil _ a b Nxx Nyy Nxy c c0 ca d0 db m n K KG Ha Hb (Dmat_sym E1 E2 v12 G12 T x y) Pd Sp Rs EK).
  destruct (t_C42_first _ _ _ _ _ _ _ _ _ _ _ _ K KG _ _ l Dc EK Pn Sl EB) as (x' & rest & Ex & [-> | [L All]]); [congruence|lra].
Qed.
(*@ C73: the maximisation problem is convex where the critical factors are at least 1: the feasible points (with the tolerance granted)
    form a convex set, and if the solver answers at a point of a segment between feasible points, the objective there lies on or
    below the chord. @*)
Lemma t_C73_maximise : forall eigsh a b T E1 E2 v12 G12 Nxx Nyy Nxy c c0 ca d0 db m n penalty w p xi1 xi3 yi1 yi3 s, documented eigsh -> panel_ok a b E1 E2 v12 G12 c c0 ca d0 db m n -> 0 < T ->
  maximize_buckling_load eigsh exact_tables a b T E1 E2 v12 G12 Nxx Nyy Nxy m n c penalty = (w, Ok p) ->
  feasible p [xi1; xi3] -> feasible p [yi1; yi3] -> 0 <= s <= 1 ->
  feasible p [between s xi1 yi1; between s xi3 yi3] /\
  forall Nx Ny Nz M l1 l2 u v r, normalize_critical_load Nxx Nyy Nxy = Ok (Nx, Ny, Nz, M) ->
    crit_lp a b T E1 E2 v12 G12 xi1 xi3 Nx Ny Nz c m n l1 -> crit_lp a b T E1 E2 v12 G12 yi1 yi3 Nx Ny Nz c m n l2 -> 1 <= l1 -> 1 <= l2 ->
    objective p [xi1; xi3] = Ok (Fin u) -> objective p [yi1; yi3] = Ok (Fin v) ->
    Ncr_from_lp eigsh exact_tables a b T m n (between s xi1 yi1) (between s xi3 yi3) E1 E2 v12 G12 Nx Ny Nz c = Ok r ->
    exists z, objective p [between s xi1 yi1; between s xi3 yi3] = Ok (Fin z) /\ z <= between s u v.
Proof.
  intros eigsh a b T E1 E2 v12 G12 Nxx Nyy Nxy c c0 ca d0 db m n penalty w p x y x' y' s Dc [Ha Hb Mo Sp Rs Bm Bn] HT H F F' Hs.
  assert (El := moderate_elastic _ _ _ _ Mo). assert (Fi := fun u v => max_iff eigsh exact_tables a b E1 E2 v12 G12 Nxx Nyy Nxy m n c T penalty w p u v H).
  apply Fi in F, F'. destruct F as (B1 & B2 & B3), F' as (B1' & B2' & B3').
  assert (Fm : -1 <= between s x x' <= 1 /\ -1 <= between s y y' <= 1 /\ room penalty (between s x x') (between s y y')).
  { split; [apply range_between; assumption|]. split; [apply range_between; assumption|]. apply room_between; assumption. }
  split; [apply Fi; exact Fm|]. intros Nx Ny Nz M l1 l2 u v r En C1 C2 H1 H2 O1 O2 Hr.
  assert (Pd : forall u v, -1 <= u <= 1 /\ -1 <= v <= 1 /\ room penalty u v -> pos_def (Dmat E1 E2 v12 G12 T u v)).
  { intros u0 v0 (Q1 & Q2 & Q3). apply Dmat_tolerance; try assumption. apply (room_tolerance penalty); assumption. }
  assert (P1 := Pd x y (conj B1 (conj B2 B3))). assert (P2 := Pd x' y' (conj B1' (conj B2' B3'))). assert (P3 := Pd _ _ Fm).
  destruct (mix_general a b T T E1 E2 v12 G12 x y x' y' Nx Ny Nz c c0 ca d0 db m n s l1 l2 El Ha Hb HT HT Hs Sp Rs Bm Bn P1 P2 C1 C2) as (l & C & Le).
  assert (Et : between s T T = T) by (unfold between; ring). rewrite Et in C, Le.
  replace (s * T ^ 3 / T ^ 3) with s in Le by (field; lra). replace ((1 - s) * T ^ 3 / T ^ 3) with (1 - s) in Le by (field; lra).
  assert (Hl : 1 <= l) by (assert (s * 1 <= s * l1) by (apply Rmult_le_compat_l; lra); assert ((1 - s) * 1 <= (1 - s) * l2) by (apply Rmult_le_compat_l; lra); lra).
  destruct (t_C51_objective _ _ _ _ _ _ _ _ _ _ _ _ _ _ _ _ _ _ H) as (Nx' & Ny' & Nz' & M' & En' & Ob). rewrite En in En'. injection En' as <- <- <- <-.
  assert (Obx : forall x0 y0 l0 u0, pos_def (Dmat E1 E2 v12 G12 T x0 y0) -> crit_lp a b T E1 E2 v12 G12 x0 y0 Nx Ny Nz c m n l0 -> 1 <= l0 -> objective p [x0; y0] = Ok (Fin u0) -> - l0 <= u0).
  { intros x0 y0 l0 u0 Pd0 C0 Hl0 O0. specialize (Ob x0 y0). destruct (Ncr_from_lp eigsh exact_tables a b T m n x0 y0 E1 E2 v12 G12 Nx Ny Nz c) as [q|[]] eqn:Eq; try (rewrite O0 in Ob; discriminate).
    - assert (V := value_pd eigsh a b T E1 E2 v12 G12 Nx Ny Nz c c0 ca d0 db m n x0 y0 q l0 Dc Ha Hb El Pd0 Sp Rs Bm Bn Eq C0 Hl0). subst q. rewrite O0 in Ob. assert (u0 = - l0) by congruence. lra.
    - rewrite O0 in Ob. assert (u0 = 1) by congruence. lra. }
  assert (U := Obx x y l1 u P1 C1 H1 O1). assert (V := Obx x' y' l2 v P2 C2 H2 O2).
  assert (Vm := value_pd eigsh a b T E1 E2 v12 G12 Nx Ny Nz c c0 ca d0 db m n _ _ r l Dc Ha Hb El P3 Sp Rs Bm Bn Hr C Hl). subst r.
  specialize (Ob (between s x x') (between s y y')). rewrite Hr in Ob. exists (- l). split; [exact Ob|]. unfold between at 1.
  assert (s * - l1 <= s * u) by (apply Rmult_le_compat_l; lra). assert ((1 - s) * - l2 <= (1 - s) * v) by (apply Rmult_le_compat_l; lra). unfold between. lra.
Qed.
(*@ C73: the weight problem is convex in the same sense: with critical factors of at least 1 at two feasible points, every point between them
    at which the solver answers is feasible, and the objective T^3 there lies on or below the chord. @*)
Lemma t_C73_minimise : forall eigsh a b E1 E2 v12 G12 Nxx Nyy Nxy c c0 ca d0 db m n start w p T xi1 xi3 T' yi1 yi3 s Nx Ny Nz M l1 l2 r, documented eigsh -> panel_ok a b E1 E2 v12 G12 c c0 ca d0 db m n ->
  minimize_panel_weight eigsh exact_tables a b E1 E2 v12 G12 Nxx Nyy Nxy m n start c = (w, Ok p) -> normalize_critical_load Nxx Nyy Nxy = Ok (Nx, Ny, Nz, M) ->
  feasible p [T; xi1; xi3] -> feasible p [T'; yi1; yi3] -> 0 <= s <= 1 ->
  crit_lp a b T E1 E2 v12 G12 xi1 xi3 Nx Ny Nz c m n l1 -> crit_lp a b T' E1 E2 v12 G12 yi1 yi3 Nx Ny Nz c m n l2 -> 1 <= l1 -> 1 <= l2 ->
  Ncr_from_lp eigsh exact_tables a b (between s T T') m n (between s xi1 yi1) (between s xi3 yi3) E1 E2 v12 G12 Nx Ny Nz c = Ok r ->
  feasible p [between s T T'; between s xi1 yi1; between s xi3 yi3] /\
  exists q q1 q2, objective p [between s T T'; between s xi1 yi1; between s xi3 yi3] = Ok (Fin q) /\
    objective p [T; xi1; xi3] = Ok (Fin q1) /\ objective p [T'; yi1; yi3] = Ok (Fin q2) /\ q <= between s q1 q2.
Proof.
  intros eigsh a b E1 E2 v12 G12 Nxx Nyy Nxy c c0 ca d0 db m n start w p T x y T' x' y' s Nx Ny Nz M l1 l2 r Dc [Ha Hb Mo Sp Rs Bm Bn] H En F F' Hs C1 C2 H1 H2 Hr.
  assert (El := moderate_elastic _ _ _ _ Mo). assert (Fi := fun T u v => min_iff eigsh exact_tables a b E1 E2 v12 G12 Nxx Nyy Nxy m n c start w p T u v Nx Ny Nz M H En).
  apply Fi in F, F'. destruct F as (B0 & B1 & B2 & B3 & z1 & Ez1 & Lz1), F' as (B0' & B1' & B2' & B3' & z2 & Ez2 & Lz2).
  assert (HM : 0 < M) by (apply (t_C47_normalised _ _ _ _ _ _ _ En)).
  assert (Hc := range_between _ _ _ _ _ Hs B0 B0'). assert (G1 := range_between _ _ _ _ _ Hs B1 B1'). assert (G2 := range_between _ _ _ _ _ Hs B2 B2'). assert (G3 := room_between _ _ _ _ _ _ Hs B3 B3').
  assert (HT : 0 < T) by lra. assert (HT' : 0 < T') by lra. assert (Ht : 0 < between s T T') by lra.
  assert (P1 : pos_def (Dmat E1 E2 v12 G12 T x y)) by (apply Dmat_tolerance; try assumption; apply (room_tolerance true); assumption).
  assert (P2 : pos_def (Dmat E1 E2 v12 G12 T' x' y')) by (apply Dmat_tolerance; try assumption; apply (room_tolerance true); assumption).
  assert (P3 : pos_def (Dmat E1 E2 v12 G12 (between s T T') (between s x x') (between s y y'))) by (apply Dmat_tolerance; try assumption; apply (room_tolerance true); assumption).
  destruct (mix_general a b T T' E1 E2 v12 G12 x y x' y' Nx Ny Nz c c0 ca d0 db m n s l1 l2 El Ha Hb HT HT' Hs Sp Rs Bm Bn P1 P2 C1 C2) as (l & C & Le).
  assert (Jn := proj2 (cube_inv_convex s T T' Hs HT HT')). cbv zeta in Jn.
  assert (T3 : 0 < T ^ 3) by (apply pow_lt; exact HT). assert (T3' : 0 < T' ^ 3) by (apply pow_lt; exact HT'). assert (t3 : 0 < between s T T' ^ 3) by (apply pow_lt; exact Ht).
  set (al := s * between s T T' ^ 3 / T ^ 3) in *. set (be := (1 - s) * between s T T' ^ 3 / T' ^ 3) in *.
  assert (Al : 0 <= al) by (unfold al, Rdiv; apply Rmult_le_pos; [apply Rmult_le_pos; lra|left; apply Rinv_0_lt_compat; exact T3]).
  assert (Be : 0 <= be) by (unfold be, Rdiv; apply Rmult_le_pos; [apply Rmult_le_pos; lra|left; apply Rinv_0_lt_compat; exact T3']).
  assert (Val : forall T0 x0 y0 l0 z, pos_def (Dmat E1 E2 v12 G12 T0 x0 y0) -> crit_lp a b T0 E1 E2 v12 G12 x0 y0 Nx Ny Nz c m n l0 -> 1 <= l0 ->
    eig_or_minus1 (Ncr_from_lp eigsh exact_tables a b T0 m n x0 y0 E1 E2 v12 G12 Nx Ny Nz c) = Ok (Fin z) -> M <= z -> M <= l0).
  { intros T0 x0 y0 l0 z Pd C0 Hl0 E0 L0. destruct (Ncr_from_lp eigsh exact_tables a b T0 m n x0 y0 E1 E2 v12 G12 Nx Ny Nz c) as [q|[]] eqn:Eq; cbn [eig_or_minus1] in E0; try discriminate.
    - assert (V := value_pd eigsh a b T0 E1 E2 v12 G12 Nx Ny Nz c c0 ca d0 db m n x0 y0 q l0 Dc Ha Hb El Pd Sp Rs Bm Bn Eq C0 Hl0). subst q. assert (z = l0) by congruence. lra.
    - assert (z = -1) by congruence. lra. }
  assert (M1 := Val _ _ _ _ _ P1 C1 H1 Ez1 Lz1). assert (M2 := Val _ _ _ _ _ P2 C2 H2 Ez2 Lz2).
  assert (Big : forall k, 0 <= k -> k <= l1 -> k <= l2 -> k <= l).
  { intros k Hk K1 K2. assert (al * k <= al * l1) by (apply Rmult_le_compat_l; assumption). assert (be * k <= be * l2) by (apply Rmult_le_compat_l; assumption). assert (1 * k <= (al + be) * k) by (apply Rmult_le_compat_r; lra). lra. }
  assert (Hl := Big 1 ltac:(lra) H1 H2). assert (Ml := Big M ltac:(lra) M1 M2).
  assert (Vm := value_pd eigsh a b _ E1 E2 v12 G12 Nx Ny Nz c c0 ca d0 db m n _ _ r l Dc Ha Hb El P3 Sp Rs Bm Bn Hr C Hl). subst r.
  split.
  - apply Fi. split; [exact Hc|]. split; [exact G1|]. split; [exact G2|]. split; [exact G3|]. exists l. rewrite Hr. split; [reflexivity|exact Ml].
  - unfold minimize_panel_weight in H. rewrite En in H. cbn [bind] in H.
    assert (H' := f_equal (fun r => match snd r with Ok p => Some p | Err _ => None end) H). cbn in H'. injection H' as <-. cbn [objective objective_function].
    exists (between s T T' ^ 3), (T ^ 3), (T' ^ 3). repeat (split; [reflexivity|]). unfold between.
    assert (0 <= s * (1 - s) * ((T - T') ^ 2 * (T + T' + s * T + (1 - s) * T'))) by (apply Rmult_le_pos; [apply Rmult_le_pos; lra|apply Rmult_le_pos; [apply pow2_ge_0|]]; nra). nra.
Qed.

(** ** a panel for the examples: E1 = 15 k, E2 = k, v12 = 3/10, G12 = k / 2 *)
Lemma ex_panel k : 0 < k -> panel_ok 2 1 (15 * k) k (3/10) (k / 2) (CStr "PINNED") Pinned Pinned Pinned Pinned 3 3.
Proof. intros Hk. constructor; [lra|lra|repeat split; lra|apply Sp_pinned|unfold restrained; cbn; do 4 right; lia|cbn; lia|cbn; lia]. Qed.
Lemma ex_scale k T x y : 0 < k -> Dmat (15 * k) k (3/10) (k / 2) T x y = madd (mscale k (Dmat 15 1 (3/10) (1/2) T x y)) (mscale 0 (Dmat 15 1 (3/10) (1/2) T x y)).
Proof.
  intros Hk. unfold Dmat, madd, mscale. cbn [a11 a12 a13 a21 a22 a23 a31 a32 a33].
  unfold cA, cC, QD, QM, QP, den. f_equal; field; lra.
Qed.
Lemma ex_pd k T x y : 0 < k -> 0 < T -> -1 <= x <= 1 -> 2 * x ^ 2 - 1 <= y <= 1 -> pos_def (Dmat (15 * k) k (3/10) (k / 2) T x y).
Proof. intros Hk HT Hx Hy. apply Dmat_tolerance; try lra. assert (0 <= x ^ 2) by apply pow2_ge_0. lra. Qed.
Lemma ex_crit k T x y : 0 < k -> 0 < T -> -1 <= x <= 1 -> 2 * x ^ 2 - 1 <= y <= 1 -> exists l, 0 < l /\ crit_lp 2 1 T (15 * k) k (3/10) (k / 2) x y (-1) 0 0 (CStr "PINNED") 3 3 l.
Proof.
  intros Hk HT Hx Hy. destruct (ex_panel k Hk) as [Ha Hb Mo Sp Rs Bm Bn]. assert (El := moderate_elastic _ _ _ _ Mo).
  assert (P := lp_ok 2 1 T (15 * k) k (3/10) (k / 2) x y _ _ _ _ _ 3 3 Ha Hb Sp Rs Bm Bn (ex_pd k T x y Hk HT Hx Hy)).
  destruct (t_C68_compression _ 2 1 (-1) 0 0 _ _ _ _ _ 3 3 P ltac:(lia) ltac:(lia) ltac:(unfold no_compression; lra) ltac:(lra)) as (l & C).
  exists l. split; [apply (crit_pos _ _ _ _ _ _ _ _ _ _ C)|]. apply crit_lp_D; assumption.
Qed.
Lemma ex_strong T x y T' x' y' : 0 < T -> -1 <= x <= 1 -> 2 * x ^ 2 - 1 <= y <= 1 -> 0 < T' -> -1 <= x' <= 1 -> 2 * x' ^ 2 - 1 <= y' <= 1 ->
  exists k l l', 0 < k /\ 1 <= l /\ 1 <= l' /\ crit_lp 2 1 T (15 * k) k (3/10) (k / 2) x y (-1) 0 0 (CStr "PINNED") 3 3 l /\ crit_lp 2 1 T' (15 * k) k (3/10) (k / 2) x' y' (-1) 0 0 (CStr "PINNED") 3 3 l'.
Proof.
  intros HT Hx Hy HT' Hx' Hy'.
  destruct (ex_crit 1 T x y ltac:(lra) HT Hx Hy) as (l0 & P0 & C0). destruct (ex_crit 1 T' x' y' ltac:(lra) HT' Hx' Hy') as (l1 & P1 & C1).
  assert (I0 : 0 < / l0) by (apply Rinv_0_lt_compat; exact P0). assert (I1 : 0 < / l1) by (apply Rinv_0_lt_compat; exact P1).
  set (k := / l0 + / l1). assert (Hk : 0 < k) by (unfold k; lra).
  assert (Up : forall T x y l, 0 < T -> -1 <= x <= 1 -> 2 * x ^ 2 - 1 <= y <= 1 -> 0 < l -> 1 <= k * l -> crit_lp 2 1 T (15 * 1) 1 (3/10) (1 / 2) x y (-1) 0 0 (CStr "PINNED") 3 3 l ->
    exists l', 1 <= l' /\ crit_lp 2 1 T (15 * k) k (3/10) (k / 2) x y (-1) 0 0 (CStr "PINNED") 3 3 l').
  { clear - Hk. intros T x y l HT Hx Hy Hl Hkl C. destruct (ex_panel 1 ltac:(lra)) as [Ha Hb Mo Sp Rs Bm Bn]. assert (El := moderate_elastic _ _ _ _ Mo). apply crit_lp_D in C; [|exact El].
    assert (P := lp_ok 2 1 T (15 * 1) 1 (3/10) (1 / 2) x y _ _ _ _ _ 3 3 Ha Hb Sp Rs Bm Bn (ex_pd 1 T x y ltac:(lra) HT Hx Hy)).
    replace (15 * 1) with 15 in * by ring.
    destruct (t_C73_stiffness _ _ 2 1 (-1) 0 0 _ _ _ _ _ 3 3 k 0 l l P P ltac:(lra) ltac:(lra) ltac:(lra) C C) as (l' & C' & Le). rewrite <- ex_scale in C' by exact Hk.
    exists l'. split; [lra|]. apply crit_lp_D; [|exact C']. destruct (ex_panel k Hk) as [_ _ Mo' _ _ _ _]. apply (moderate_elastic _ _ _ _ Mo'). }
  destruct (Up T x y l0 HT Hx Hy P0) as (l & L & C); [unfold k; rewrite Rmult_plus_distr_r, Rinv_l by lra; assert (0 < / l1 * l0) by (apply Rmult_lt_0_compat; assumption); lra|exact C0|].
  destruct (Up T' x' y' l1 HT' Hx' Hy' P1) as (l' & L' & C'); [unfold k; rewrite Rmult_plus_distr_r, Rinv_l by lra; assert (0 < / l0 * l1) by (apply Rmult_lt_0_compat; assumption); lra|exact C1|].
  exists k, l, l'. auto.
Qed.
Lemma ex_norm : normalize_critical_load (-1) 0 0 = Ok (-1, 0, 0, 1).
Proof.
  destruct (normalize_critical_load (-1) 0 0) as [[[[x y] w] M]|e] eqn:En.
  - assert (Q := t_C47_normalised _ _ _ _ _ _ _ En). decompose [and] Q. clear Q.
    assert (M = 1) by (rewrite Rabs_R0, (Rabs_left1 (-1)) in * by lra; lra).
    apply (f_equal Ok). subst M. repeat (apply f_equal2); lra.
  - apply t_C47_error in En. lra.
Qed.
(*@ C73 example: a panel, a documented solver and two feasible points of its maximisation problem that meet the hypotheses of C73_maximise
    (and, with T = 1, of C73_concave) at s = 1/3. @*)
Lemma t_C73_ex_maximise : exists k eigsh w p l1 l2 u v r, documented eigsh /\ panel_ok 2 1 (15 * k) k (3/10) (k / 2) (CStr "PINNED") Pinned Pinned Pinned Pinned 3 3 /\
  maximize_buckling_load eigsh exact_tables 2 1 1 (15 * k) k (3/10) (k / 2) (-1) 0 0 3 3 (CStr "PINNED") true = (w, Ok p) /\ feasible p [0; 0] /\ feasible p [1/4; 1/2] /\
  normalize_critical_load (-1) 0 0 = Ok (-1, 0, 0, 1) /\ 1 <= l1 /\ 1 <= l2 /\
  crit_lp 2 1 1 (15 * k) k (3/10) (k / 2) 0 0 (-1) 0 0 (CStr "PINNED") 3 3 l1 /\ crit_lp 2 1 1 (15 * k) k (3/10) (k / 2) (1/4) (1/2) (-1) 0 0 (CStr "PINNED") 3 3 l2 /\
  objective p [0; 0] = Ok (Fin u) /\ objective p [1/4; 1/2] = Ok (Fin v) /\
  Ncr_from_lp eigsh exact_tables 2 1 1 3 3 (between (1/3) 0 (1/4)) (between (1/3) 0 (1/2)) (15 * k) k (3/10) (k / 2) (-1) 0 0 (CStr "PINNED") = Ok r.
Proof.
  destruct (ex_strong 1 0 0 1 (1/4) (1/2)) as (k & l1 & l2 & Hk & L1 & L2 & C1 & C2); try lra.
  assert (Pk := ex_panel k Hk). assert (Pk' := Pk). destruct Pk' as [Ha Hb Mo Sp Rs Bm Bn]. assert (El := moderate_elastic _ _ _ _ Mo).
  destruct (t_C74_panels 2 1 (15 * k) k (3/10) (k / 2) (-1) 0 0 _ _ _ _ _ 3 3 [(1, 0, 0); (1, 1/4, 1/2); (1, between (1/3) 0 (1/4), between (1/3) 0 (1/2))] Pk ltac:(lia) ltac:(lia) ltac:(lia) ltac:(unfold no_compression; lra)) as (eigsh & De & Fe).
  { repeat (apply Forall_cons; [unfold between; lra|]). apply Forall_nil. }
  inversion Fe as [|? ? H1 F1]; subst. inversion F1 as [|? ? H2 F2]; subst. inversion F2 as [|? ? H3 _]; subst. destruct H1 as (v1 & N1), H2 as (v2 & N2), H3 as (r & N3).
  assert (V1 := value_pd eigsh 2 1 1 (15 * k) k (3/10) (k / 2) (-1) 0 0 _ _ _ _ _ 3 3 0 0 v1 l1 De Ha Hb El (ex_pd k 1 0 0 Hk ltac:(lra) ltac:(lra) ltac:(lra)) Sp Rs Bm Bn N1 C1 L1). subst v1.
  assert (V2 := value_pd eigsh 2 1 1 (15 * k) k (3/10) (k / 2) (-1) 0 0 _ _ _ _ _ 3 3 _ _ v2 l2 De Ha Hb El (ex_pd k 1 (1/4) (1/2) Hk ltac:(lra) ltac:(lra) ltac:(lra)) Sp Rs Bm Bn N2 C2 L2). subst v2.
  destruct (maximize_buckling_load eigsh exact_tables 2 1 1 (15 * k) k (3/10) (k / 2) (-1) 0 0 3 3 (CStr "PINNED") true) as [w rp] eqn:Em.
  assert (Ep : exists p, rp = Ok p). { unfold maximize_buckling_load in Em. rewrite ex_norm in Em. cbn [bind] in Em. assert (Q := f_equal snd Em). cbn [snd] in Q. eexists. symmetry. exact Q. }
  destruct Ep as (p & ->). exists k, eigsh, w, p, l1, l2, (-1 * l1), (-1 * l2), r.
  destruct (t_C51_objective _ _ _ _ _ _ _ _ _ _ _ _ _ _ _ _ _ _ Em) as (Nx & Ny & Nz & M & En & Ob). rewrite ex_norm in En. injection En as <- <- <- <-.
  assert (Fi := fun x y => max_iff eigsh exact_tables 2 1 (15 * k) k (3/10) (k / 2) (-1) 0 0 3 3 (CStr "PINNED") 1 true w p x y Em).
  split; [exact De|]. split; [exact Pk|]. split; [exact Em|]. split; [apply Fi; unfold room; lra|]. split; [apply Fi; unfold room; lra|]. split; [exact ex_norm|].
  split; [exact L1|]. split; [exact L2|]. split; [exact C1|]. split; [exact C2|]. split; [|split; [|exact N3]].
  - specialize (Ob 0 0). rewrite N1 in Ob. rewrite Ob. apply f_equal, f_equal. ring.
  - specialize (Ob (1/4) (1/2)). rewrite N2 in Ob. rewrite Ob. apply f_equal, f_equal. ring.
Qed.
(*@ C73 example: the same for C73_minimise, with thicknesses 1 and 2. @*)
Lemma t_C73_ex_minimise : exists k eigsh w p l1 l2 r, documented eigsh /\ panel_ok 2 1 (15 * k) k (3/10) (k / 2) (CStr "PINNED") Pinned Pinned Pinned Pinned 3 3 /\
  minimize_panel_weight eigsh exact_tables 2 1 (15 * k) k (3/10) (k / 2) (-1) 0 0 3 3 [1; 0; 0] (CStr "PINNED") = (w, Ok p) /\ normalize_critical_load (-1) 0 0 = Ok (-1, 0, 0, 1) /\
  feasible p [1; 0; 0] /\ feasible p [2; 1/4; 1/2] /\
  crit_lp 2 1 1 (15 * k) k (3/10) (k / 2) 0 0 (-1) 0 0 (CStr "PINNED") 3 3 l1 /\ crit_lp 2 1 2 (15 * k) k (3/10) (k / 2) (1/4) (1/2) (-1) 0 0 (CStr "PINNED") 3 3 l2 /\ 1 <= l1 /\ 1 <= l2 /\
  Ncr_from_lp eigsh exact_tables 2 1 (between (1/3) 1 2) 3 3 (between (1/3) 0 (1/4)) (between (1/3) 0 (1/2)) (15 * k) k (3/10) (k / 2) (-1) 0 0 (CStr "PINNED") = Ok r.
Proof.
  destruct (ex_strong 1 0 0 2 (1/4) (1/2)) as (k & l1 & l2 & Hk & L1 & L2 & C1 & C2); try lra.
  assert (Pk := ex_panel k Hk). assert (Pk' := Pk). destruct Pk' as [Ha Hb Mo Sp Rs Bm Bn]. assert (El := moderate_elastic _ _ _ _ Mo).
  destruct (t_C74_panels 2 1 (15 * k) k (3/10) (k / 2) (-1) 0 0 _ _ _ _ _ 3 3 [(1, 0, 0); (2, 1/4, 1/2); (between (1/3) 1 2, between (1/3) 0 (1/4), between (1/3) 0 (1/2))] Pk ltac:(lia) ltac:(lia) ltac:(lia) ltac:(unfold no_compression; lra)) as (eigsh & De & Fe).
  { repeat (apply Forall_cons; [unfold between; lra|]). apply Forall_nil. }
  inversion Fe as [|? ? H1 F1]; subst. inversion F1 as [|? ? H2 F2]; subst. inversion F2 as [|? ? H3 _]; subst. destruct H1 as (v1 & N1), H2 as (v2 & N2), H3 as (r & N3).
  assert (V1 := value_pd eigsh 2 1 1 (15 * k) k (3/10) (k / 2) (-1) 0 0 _ _ _ _ _ 3 3 0 0 v1 l1 De Ha Hb El (ex_pd k 1 0 0 Hk ltac:(lra) ltac:(lra) ltac:(lra)) Sp Rs Bm Bn N1 C1 L1). subst v1.
  assert (V2 := value_pd eigsh 2 1 2 (15 * k) k (3/10) (k / 2) (-1) 0 0 _ _ _ _ _ 3 3 _ _ v2 l2 De Ha Hb El (ex_pd k 2 (1/4) (1/2) Hk ltac:(lra) ltac:(lra) ltac:(lra)) Sp Rs Bm Bn N2 C2 L2). subst v2.
  destruct (minimize_panel_weight eigsh exact_tables 2 1 (15 * k) k (3/10) (k / 2) (-1) 0 0 3 3 [1; 0; 0] (CStr "PINNED")) as [w rp] eqn:Em.
  assert (Ep : exists p, rp = Ok p). { unfold minimize_panel_weight in Em. rewrite ex_norm in Em. cbn [bind] in Em. assert (Q := f_equal snd Em). cbn [snd] in Q. eexists. symmetry. exact Q. }
  destruct Ep as (p & ->). exists k, eigsh, w, p, l1, l2, r.
  assert (Fi := fun T x y => min_iff eigsh exact_tables 2 1 (15 * k) k (3/10) (k / 2) (-1) 0 0 3 3 (CStr "PINNED") [1; 0; 0] w p T x y (-1) 0 0 1 Em ex_norm).
  split; [exact De|]. split; [exact Pk|]. split; [exact Em|]. split; [exact ex_norm|].
  split; [apply Fi; unfold room; repeat (split; [lra|]); exists l1; rewrite N1; split; [reflexivity|exact L1]|].
  split; [apply Fi; unfold room; repeat (split; [lra|]); exists l2; rewrite N2; split; [reflexivity|exact L2]|].
  repeat (split; [assumption|]). exact N3.
Qed.
