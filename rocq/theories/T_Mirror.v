(** Proofs of the mirror images of plates and of the exchange of the axes. *)
From Coq Require Import QArith Qreals Reals ZArith Lra Lia Bool String FunctionalExtensionality.
From Coquelicot Require Import Coquelicot.
From Coq Require Import List.
From Verif Require Import M_Py M_Material M_Laminate S_Laminate M_Plate M_K M_RealArith M_Plot M_Buckling M_Tables S_Plate S_Mat S_Bardell S_Energy S_K S_Ritz S_Eigen S_Compare S_Space S_Mirror L_Mat L_Lam L_LamAlg L_LamSums T_Laminate L_Quad L_Eigen L_Plate L_FirstK L_K L_KR L_Poly L_Shape L_TabV L_Energy L_Ritz T_Plate T_Shape T_K T_Energy T_Buckling T_Compare T_Space T_Stored T_Solver T_Perturb T_Bounds.
Import ListNotations.
Open Scope R_scope.

Lemma mirrored_twice D : mirrored (mirrored D) = D.
Proof. destruct D. unfold mirrored. cbn. f_equal; ring. Qed.
Lemma exchanged_twice D : exchanged (exchanged D) = D.
Proof. destruct D. reflexivity. Qed.
Lemma sym_parts D : symmetric D <-> a21 D = a12 D /\ a31 D = a13 D /\ a32 D = a23 D.
Proof.
  split.
  - intros S. repeat split; [exact (f_equal a12 S)|exact (f_equal a13 S)|exact (f_equal a23 S)].
  - intros (A & B & C). destruct D. cbn in *. subst. reflexivity.
Qed.
Lemma mirrored_sym D : symmetric D -> symmetric (mirrored D).
Proof. rewrite !sym_parts. unfold mirrored. cbn. intros (A & B & C). rewrite A, B, C. auto. Qed.
Lemma exchanged_sym D : symmetric D -> symmetric (exchanged D).
Proof. rewrite !sym_parts. unfold exchanged. cbn. intros (A & B & C). rewrite A, B, C. auto. Qed.
Lemma mirrored_pd D : pos_def D -> pos_def (mirrored D).
Proof.
  intros P v N. assert (Q : quad (mirrored D) v = quad D (V3 (vx v) (vy v) (- vz v))) by (unfold quad, mirrored, dot, mvec; cbn; ring).
  rewrite Q. apply P. intros E. apply N. destruct v as [p q r]. cbn in E. unfold vzero in *. injection E as -> -> E. f_equal. lra.
Qed.
Lemma exchanged_pd D : pos_def D -> pos_def (exchanged D).
Proof.
  intros P v N. assert (Q : quad (exchanged D) v = quad D (V3 (vy v) (vx v) (vz v))) by (unfold quad, exchanged, dot, mvec; cbn; ring).
  rewrite Q. apply P. intros E. apply N. destruct v as [p q r]. cbn in E. unfold vzero in *. injection E as -> -> E. f_equal. lra.
Qed.
Lemma mirrored_ok D a b c c0 ca d0 db c' : plate_any D a b c c0 ca d0 db -> specifies c' ca c0 d0 db -> plate_any (mirrored D) a b c' ca c0 d0 db.
Proof.
  intros [] Sp. constructor; try assumption; [apply mirrored_sym|apply mirrored_pd|]; try assumption.
  unfold restrained in *. assert (held c0 + held ca = held ca + held c0)%nat by lia. intuition lia.
Qed.
Lemma exchanged_ok D a b c c0 ca d0 db c' : plate_any D a b c c0 ca d0 db -> specifies c' d0 db c0 ca -> plate_any (exchanged D) b a c' d0 db c0 ca.
Proof.
  intros [] Sp. constructor; try assumption; [apply exchanged_sym|apply exchanged_pd|]; try assumption.
  unfold restrained in *. intuition lia.
Qed.

(** ** fields seen in a mirror *)
Definition mir (a : R) (f : field) : field := fun x y => f (-1 * x + a) y.
Lemma mir_twice a f : mir a (mir a f) = f.
Proof. apply field_ext. intros x y. unfold mir. f_equal. ring. Qed.
Lemma dx_mir a b f : nice a b f -> dx (mir a f) = fun x y => - mir a (dx f) x y.
Proof.
  intros F. apply field_ext. intros x y. unfold dx, mir. rewrite (Derive_affine (fun t => f t y) (-1) a x); [ring|]. apply (nice_ex_dx a b). exact F.
Qed.
Lemma dx_neg f : dx (fun x y => - f x y) = fun x y => - dx f x y.
Proof. apply field_ext. intros x y. unfold dx. apply Derive_opp. Qed.
Lemma over_mir a b f : a <> 0 -> b <> 0 -> nice a b f -> over a b (mir a f) = over a b f.
Proof.
  intros Ha Hb F. assert (E := nice_outer_ex a b Ha Hb f F). unfold over, mir.
  set (g := fun x => RInt (fun y => f x y) 0 b) in *. apply (RInt_correct (V := R_CompleteNormedModule)) in E.
  apply (is_RInt_unique (V := R_CompleteNormedModule)).
  assert (S : is_RInt g (-1 * 0 + a) (-1 * a + a) (- RInt g 0 a)).
  { replace (-1 * 0 + a) with a by ring. replace (-1 * a + a) with 0 by ring. apply (is_RInt_swap (V := R_CompleteNormedModule)), E. }
  apply (is_RInt_comp_lin g (-1) a 0 a) in S.
  apply (is_RInt_scal (V := R_NormedModule) _ 0 a (-1)) in S.
  evar_last; [apply (is_RInt_ext (V := R_NormedModule) (fun y => scal (-1) (scal (-1) (g (-1 * y + a))))); [|exact S]|].
  - intros x _. change (-1 * (-1 * g (-1 * x + a)) = g (-1 * x + a)). ring.
  - change (-1 * - RInt g 0 a = RInt g 0 a). ring.
Qed.
Lemma nice_curv D a b w : nice a b w -> nice a b (fun x y => dot (curvature w x y) (mvec D (curvature w x y))).
Proof.
  intros W. assert (Wx := nice_dx a b w W). assert (Wy := nice_dy a b w W). assert (Wxx := nice_dx a b _ Wx). assert (Wyy := nice_dy a b _ Wy). assert (Wxy := nice_dx a b _ Wy).
  set (k1 := fun x y => -1 * dx (dx w) x y). set (k2 := fun x y => -1 * dy (dy w) x y). set (k3 := fun x y => -2 * dx (dy w) x y).
  assert (K1 : nice a b k1) by (apply nice_scal, Wxx). assert (K2 : nice a b k2) by (apply nice_scal, Wyy). assert (K3 : nice a b k3) by (apply nice_scal, Wxy).
  eapply (eq_ind (fun x y => (k1 x y * (a11 D * k1 x y + (a12 D * k2 x y + a13 D * k3 x y)) + (k2 x y * (a21 D * k1 x y + (a22 D * k2 x y + a23 D * k3 x y)) + k3 x y * (a31 D * k1 x y + (a32 D * k2 x y + a33 D * k3 x y))))) (nice a b)).
  - repeat first [assumption|apply nice_add|apply nice_scal|apply nice_mul].
  - apply field_ext. intros x y. unfold k1, k2, k3, dot, mvec, curvature. cbn [vx vy vz]. ring.
Qed.
Lemma nice_load p q r a b w : nice a b w -> nice a b (fun x y => p * dx w x y * dx w x y + q * dy w x y * dy w x y + r * (dx w x y * dy w x y + dy w x y * dx w x y)).
Proof.
  intros W. assert (Wx := nice_dx a b w W). assert (Wy := nice_dy a b w W).
  repeat first [assumption|apply nice_add|apply nice_scal|apply nice_mul].
Qed.
Lemma bending_mir D a b w : a <> 0 -> b <> 0 -> nice a b w -> bending (mirrored D) a b (mir a w) (mir a w) = bending D a b w w.
Proof.
  intros Ha Hb W. unfold bending. rewrite <- (over_mir a b (fun x y => dot (curvature w x y) (mvec D (curvature w x y)))) by (assumption || apply nice_curv, W).
  apply over_ext. intros x y. assert (Wx := nice_dx a b w W). assert (Wy := nice_dy a b w W).
  unfold curvature. rewrite (dx_mir a b w W), dx_neg, (dx_mir a b (dx w) Wx). change (dy (mir a w)) with (mir a (dy w)). change (dy (mir a (dy w))) with (mir a (dy (dy w))).
  rewrite (dx_mir a b (dy w) Wy). unfold mir, dot, mvec, mirrored. cbn [vx vy vz a11 a12 a13 a21 a22 a23 a31 a32 a33]. ring.
Qed.
Lemma load_mir p q r a b w : a <> 0 -> b <> 0 -> nice a b w -> load_work p q (- r) a b (mir a w) (mir a w) = load_work p q r a b w w.
Proof.
  intros Ha Hb W. unfold load_work.
  rewrite <- (over_mir a b (fun x y => p * dx w x y * dx w x y + q * dy w x y * dy w x y + r * (dx w x y * dy w x y + dy w x y * dx w x y))) by (assumption || apply nice_load, W).
  apply over_ext. intros x y. rewrite (dx_mir a b w W). change (dy (mir a w)) with (mir a (dy w)). unfold mir. ring.
Qed.
Lemma fits_mir a b c0 ca d0 db w : nice a b w -> fits a b c0 ca d0 db w -> fits a b ca c0 d0 db (mir a w).
Proof.
  intros W [[X1 X2] [A1 A2] [Y1 Y2] [B1 B2]].
  assert (E0 : forall y, mir a w 0 y = w a y) by (intros; unfold mir; f_equal; ring). assert (Ea : forall y, mir a w a y = w 0 y) by (intros; unfold mir; f_equal; ring).
  assert (F0 : forall y, dx (mir a w) 0 y = - dx w a y) by (intros; rewrite (dx_mir a b w W); unfold mir; do 2 f_equal; ring).
  assert (Fa : forall y, dx (mir a w) a y = - dx w 0 y) by (intros; rewrite (dx_mir a b w W); unfold mir; do 2 f_equal; ring).
  constructor; split; intros H s.
  - rewrite E0. apply A1, H.
  - rewrite F0, A2 by exact H. ring.
  - rewrite Ea. apply X1, H.
  - rewrite Fa, X2 by exact H. ring.
  - apply (Y1 H).
  - change (dy (mir a w)) with (mir a (dy w)). unfold mir. apply (Y2 H).
  - apply (B1 H).
  - change (dy (mir a w)) with (mir a (dy w)). unfold mir. apply (B2 H).
Qed.
Lemma bipoly_mir k l a w : bipoly k l w -> bipoly k l (mir a w).
Proof.
  intros B. apply (bipoly_ext k l (fun x y => w (-1 * x + a) (1 * y + 0))); [|apply bipoly_affine, B].
  intros x y. unfold mir. f_equal. ring.
Qed.
Lemma trial_nice D a b c c0 ca d0 db m n w : plate_any D a b c c0 ca d0 db -> (4 <= m + taken c0 + taken ca)%nat -> (4 <= n + taken d0 + taken db)%nat ->
  bipoly (m + taken c0 + taken ca) (n + taken d0 + taken db) w -> fits a b c0 ca d0 db w -> nice a b w.
Proof.
  intros Pk Hm Hn B F. destruct (look_any D a b 0 0 0 c c0 ca d0 db m n Pk) as (idx & K & KG & V).
  destruct (proj1 (plate_space a b c c0 ca d0 db m n idx (any_a _ _ _ _ _ _ _ _ Pk) (any_b _ _ _ _ _ _ _ _ Pk) (any_edges _ _ _ _ _ _ _ _ Pk) (v_idx _ _ _ _ _ _ _ _ _ _ _ _ V)
    ltac:(destruct Pk; lia) ltac:(destruct Pk; lia) w) (conj B F)) as (cw & _ & ->). apply nice_combine.
Qed.

Lemma mirror_fwd (D : mat3) a b Nxx Nyy Nxy c c' c0 ca d0 db m n l : plate_any D a b c c0 ca d0 db -> specifies c' ca c0 d0 db ->
  (4 <= m + taken c0 + taken ca)%nat -> (4 <= n + taken d0 + taken db)%nat ->
  critical D a b Nxx Nyy Nxy c m n l -> critical (mirrored D) a b Nxx Nyy (- Nxy) c' m n l.
Proof.
  intros Pk Sp Hm Hn C. assert (Pk' := mirrored_ok _ _ _ _ _ _ _ _ _ Pk Sp).
  assert (Ha : a <> 0) by (assert (X := any_a _ _ _ _ _ _ _ _ Pk); lra). assert (Hb : b <> 0) by (assert (X := any_b _ _ _ _ _ _ _ _ Pk); lra).
  assert (Em : (m + taken ca + taken c0 = m + taken c0 + taken ca)%nat) by lia.
  apply (t_C72_ritz _ _ _ _ _ _ _ _ _ _ _ m n l Pk Hm Hn) in C. destruct C as (Hl & Pos & w & (B & F) & (x & y & Nz) & Z).
  apply (t_C72_ritz _ _ _ _ _ _ _ _ _ _ _ m n l Pk' ltac:(lia) Hn). split; [exact Hl|]. rewrite Em. split.
  - intros v (Bv & Fv). assert (Nv : nice a b v) by (apply (trial_nice _ a b c' ca c0 d0 db m n v Pk'); rewrite ?Em; assumption).
    assert (P := Pos (mir a v) (conj (bipoly_mir _ _ a v Bv) (fits_mir _ _ _ _ _ _ v Nv Fv))).
    rewrite <- (mirrored_twice D), bending_mir in P by assumption. rewrite <- (Ropp_involutive Nxy), load_mir in P by assumption. exact P.
  - assert (Nw : nice a b w) by (apply (trial_nice _ a b c c0 ca d0 db m n w Pk); assumption).
    exists (mir a w). split; [split; [apply bipoly_mir, B|apply fits_mir; assumption]|]. split.
    + exists (-1 * x + a), y. unfold mir. replace (-1 * (-1 * x + a) + a) with x by ring. exact Nz.
    + rewrite bending_mir, load_mir by assumption. exact Z.
Qed.
(*@ C80: a mirror image. Reversing the x axis exchanges the conditions of the edges x = 0 and x = a, changes the sign of the shear
    couplings of D and of the shear load, and leaves the critical factor as it was (at least four functions reached in each direction). @*)
Lemma t_C80_mirror : forall (D : mat3) a b Nxx Nyy Nxy c c' c0 ca d0 db m n l, plate_any D a b c c0 ca d0 db -> specifies c' ca c0 d0 db ->
  (4 <= m + taken c0 + taken ca)%nat -> (4 <= n + taken d0 + taken db)%nat ->
  (critical D a b Nxx Nyy Nxy c m n l <-> critical (mirrored D) a b Nxx Nyy (- Nxy) c' m n l).
Proof.
  intros D a b Nxx Nyy Nxy c c' c0 ca d0 db m n l Pk Sp Hm Hn. split; intros C.
  - apply (mirror_fwd D a b Nxx Nyy Nxy c c' c0 ca d0 db m n l Pk Sp Hm Hn C).
  - rewrite <- (mirrored_twice D), <- (Ropp_involutive Nxy).
    apply (mirror_fwd (mirrored D) a b Nxx Nyy (- Nxy) c' c ca c0 d0 db m n l (mirrored_ok _ _ _ _ _ _ _ _ _ Pk Sp) (any_edges _ _ _ _ _ _ _ _ Pk) ltac:(lia) Hn C).
Qed.

(** ** exchange of the axes *)
Definition turned (p : nat * nat) : nat * nat := (snd p, fst p).
Lemma flip_shapes a b idx cw : flip (combine_shapes a b idx cw) = combine_shapes b a (map turned idx) cw.
Proof.
  apply field_ext. intros y x. unfold flip, combine_shapes. revert cw. induction idx as [|p idx IH]; intros [|z cw]; cbn [combine map rsum]; try reflexivity.
  rewrite IH. unfold shape, turned. cbn [fst snd]. ring.
Qed.
Lemma bending_flip D a b w : a <> 0 -> b <> 0 -> nice a b w -> bending (exchanged D) b a (flip w) (flip w) = bending D a b w w.
Proof.
  intros Ha Hb W. unfold bending. rewrite <- (over_flip a b (fun x y => dot (curvature w x y) (mvec D (curvature w x y)))) by (assumption || apply nice_curv, W).
  apply over_ext. intros y x. unfold curvature, flip at 7. 
  change (dx (dx (flip w)) y x) with (dy (dy w) x y). change (dy (dy (flip w)) y x) with (dx (dx w) x y). change (dx (dy (flip w)) y x) with (dy (dx w) x y).
  rewrite <- (dx_dy a b w W). unfold dot, mvec, exchanged. cbn [vx vy vz a11 a12 a13 a21 a22 a23 a31 a32 a33]. ring.
Qed.
Lemma load_flip p q r a b w : a <> 0 -> b <> 0 -> nice a b w -> load_work q p r b a (flip w) (flip w) = load_work p q r a b w w.
Proof.
  intros Ha Hb W. unfold load_work.
  rewrite <- (over_flip a b (fun x y => p * dx w x y * dx w x y + q * dy w x y * dy w x y + r * (dx w x y * dy w x y + dy w x y * dx w x y))) by (assumption || apply nice_load, W).
  apply over_ext. intros y x. change (dx (flip w) y x) with (dy w x y). change (dy (flip w) y x) with (dx w x y). unfold flip. ring.
Qed.
Lemma softer_refl c : softer c c. Proof. unfold softer. lia. Qed.
Lemma exchange_fwd (D : mat3) a b Nxx Nyy Nxy c c' c0 ca d0 db m n l : plate_any D a b c c0 ca d0 db -> specifies c' d0 db c0 ca ->
  critical D a b Nxx Nyy Nxy c m n l -> exists l', critical (exchanged D) b a Nyy Nxx Nxy c' n m l' /\ l' <= l.
Proof.
  intros P Sp C. assert (P' := exchanged_ok _ _ _ _ _ _ _ _ _ P Sp).
  assert (Ha : a <> 0) by (assert (X := any_a _ _ _ _ _ _ _ _ P); lra). assert (Hb : b <> 0) by (assert (X := any_b _ _ _ _ _ _ _ _ P); lra).
  destruct (look_any D a b Nxx Nyy Nxy c c0 ca d0 db m n P) as (idx & K & KG & V).
  destruct (look_any (exchanged D) b a Nyy Nxx Nxy c' d0 db c0 ca n m P') as (idx' & K' & KG' & V').
  assert (I : incl (map turned (sw_idx idx)) (sw_idx idx')).
  { destruct (named_struct c c0 ca d0 db m n (any_edges _ _ _ _ _ _ _ _ P)) as (i1 & fx & fy & E & Fx & Fy & RM).
    assert (Ei := same_calc _ _ _ E (v_idx _ _ _ _ _ _ _ _ _ _ _ _ V)). subst i1.
    destruct (named_struct c' d0 db c0 ca n m Sp) as (i2 & gx & gy & E' & Gx & Gy & RM').
    assert (Ei := same_calc _ _ _ E' (v_idx _ _ _ _ _ _ _ _ _ _ _ _ V')). subst i2.
    intros p H. apply in_map_iff in H. destruct H as ([i j] & <- & H). destruct (row_major_in _ _ _ _ _ RM H) as [Hi Hj].
    unfold turned. cbn [fst snd]. apply (row_major_in_conv _ _ _ _ _ RM').
    - apply (first_incl d0 db d0 db n n fy gx (softer_refl _) (softer_refl _) (le_n _) Fy Gx j Hj).
    - apply (first_incl c0 ca c0 ca m m fx gy (softer_refl _) (softer_refl _) (le_n _) Fx Gy i Hi). }
  destruct (mode _ _ _ _ _ _ _ _ _ _ _ _ _ V C) as (Hl & cw & L & N & Z). cbv zeta in Z.
  assert (Lw : List.length cw = List.length (map turned (sw_idx idx))) by (rewrite map_length, L; symmetry; apply V).
  assert (ND : NoDup (map turned (sw_idx idx))).
  { apply FinFun.Injective_map_NoDup; [|apply V]. intros [i j] [i' j'] E. unfold turned in E. cbn in E. congruence. }
  apply (bounded _ _ _ _ _ _ _ _ _ _ _ _ l (spread (combine (map turned (sw_idx idx)) cw) (sw_idx idx')) V' Hl).
  - unfold spread. rewrite map_length. apply V'.
  - apply spread_nonzero; [exact ND|exact I|exact Lw|exact N].
  - cbv zeta. rewrite (spread_field b a (map turned (sw_idx idx)) (sw_idx idx') cw (v_nodup _ _ _ _ _ _ _ _ _ _ _ _ V') I Lw).
    rewrite <- flip_shapes, bending_flip, load_flip by (assumption || apply nice_combine). lra.
Qed.
Lemma critical_unique D a b Nxx Nyy Nxy c m n l l' : critical D a b Nxx Nyy Nxy c m n l -> critical D a b Nxx Nyy Nxy c m n l' -> l = l'.
Proof.
  intros (K & KG & E & S) (K' & KG' & E' & S'). assert (X := same_calc _ _ _ E E').
  assert (X1 := f_equal fst X). assert (X2 := f_equal snd X). cbn [fst snd] in X1, X2. subst K' KG'. exact (smallest_unique _ _ _ _ S S').
Qed.
(*@ C80: exchange of the axes. Exchanging the sides, the edge conditions, the normal loads, the numbers of functions and the entries
    of D that belong to x and to y leaves the critical factor as it was, for all numbers of functions. @*)
Lemma t_C80_exchange : forall (D : mat3) a b Nxx Nyy Nxy c c' c0 ca d0 db m n l, plate_any D a b c c0 ca d0 db -> specifies c' d0 db c0 ca ->
  (critical D a b Nxx Nyy Nxy c m n l <-> critical (exchanged D) b a Nyy Nxx Nxy c' n m l).
Proof.
  assert (G : forall (D : mat3) a b Nxx Nyy Nxy c c' c0 ca d0 db m n l, plate_any D a b c c0 ca d0 db -> specifies c' d0 db c0 ca ->
    critical D a b Nxx Nyy Nxy c m n l -> critical (exchanged D) b a Nyy Nxx Nxy c' n m l).
  { intros D a b Nxx Nyy Nxy c c' c0 ca d0 db m n l P Sp C. assert (P' := exchanged_ok _ _ _ _ _ _ _ _ _ P Sp).
    destruct (exchange_fwd D a b Nxx Nyy Nxy c c' c0 ca d0 db m n l P Sp C) as (l1 & C1 & L1).
    destruct (exchange_fwd _ b a Nyy Nxx Nxy c' c d0 db c0 ca n m l1 P' (any_edges _ _ _ _ _ _ _ _ P) C1) as (l2 & C2 & L2). rewrite exchanged_twice in C2.
    assert (E := critical_unique _ _ _ _ _ _ _ _ _ _ _ C C2). assert (l1 = l) by lra. subst l1. exact C1. }
  intros D a b Nxx Nyy Nxy c c' c0 ca d0 db m n l P Sp. split; intros C.
  - apply (G D a b Nxx Nyy Nxy c c' c0 ca d0 db m n l P Sp C).
  - rewrite <- (exchanged_twice D). apply (G (exchanged D) b a Nyy Nxx Nxy c' c d0 db c0 ca n m l (exchanged_ok _ _ _ _ _ _ _ _ _ P Sp) (any_edges _ _ _ _ _ _ _ _ P) C).
Qed.

(** ** reversing the y axis, and both *)
Lemma some_names (c : condition) : exists s, names s c.
Proof. destruct c; [exists "free"%string; apply N_free|exists "pinned"%string; apply N_pinned|exists "fixed"%string; apply N_fixed]; reflexivity. Qed.
Lemma some_constraints c0 ca d0 db : exists c, specifies c c0 ca d0 db.
Proof.
  destruct (some_names c0) as [s0 H0], (some_names ca) as [sa Ha], (some_names d0) as [r0 K0], (some_names db) as [rb Kb].
  eexists. apply Sp_dict; eassumption.
Qed.
Lemma exchanged_mirrored D : exchanged (mirrored (exchanged D)) = mirrored D.
Proof. destruct D. reflexivity. Qed.
(*@ C80: the same for the y axis. @*)
Lemma t_C80_mirror_y : forall (D : mat3) a b Nxx Nyy Nxy c c' c0 ca d0 db m n l, plate_any D a b c c0 ca d0 db -> specifies c' c0 ca db d0 ->
  (4 <= m + taken c0 + taken ca)%nat -> (4 <= n + taken d0 + taken db)%nat ->
  (critical D a b Nxx Nyy Nxy c m n l <-> critical (mirrored D) a b Nxx Nyy (- Nxy) c' m n l).
Proof.
  intros D a b Nxx Nyy Nxy c c' c0 ca d0 db m n l Pk Sp Hm Hn.
  destruct (some_constraints d0 db c0 ca) as [c1 S1]. destruct (some_constraints db d0 c0 ca) as [c2 S2].
  assert (P1 := exchanged_ok _ _ _ _ _ _ _ _ _ Pk S1). assert (P2 := mirrored_ok _ _ _ _ _ _ _ _ _ P1 S2).
  rewrite (t_C80_exchange D a b Nxx Nyy Nxy c c1 c0 ca d0 db m n l Pk S1).
  rewrite (t_C80_mirror _ b a Nyy Nxx Nxy c1 c2 d0 db c0 ca n m l P1 S2 Hn Hm).
  rewrite (t_C80_exchange _ b a Nyy Nxx (- Nxy) c2 c' db d0 c0 ca n m l P2 Sp). rewrite exchanged_mirrored. reflexivity.
Qed.
(*@ C80: a plate turned by half a turn (both pairs of opposite edges exchanged) has the same critical factor under the same loads. @*)
Lemma t_C80_half_turn : forall (D : mat3) a b Nxx Nyy Nxy c c' c0 ca d0 db m n l, plate_any D a b c c0 ca d0 db -> specifies c' ca c0 db d0 ->
  (4 <= m + taken c0 + taken ca)%nat -> (4 <= n + taken d0 + taken db)%nat ->
  (critical D a b Nxx Nyy Nxy c m n l <-> critical D a b Nxx Nyy Nxy c' m n l).
Proof.
  intros D a b Nxx Nyy Nxy c c' c0 ca d0 db m n l Pk Sp Hm Hn. destruct (some_constraints ca c0 d0 db) as [c1 S1].
  rewrite (t_C80_mirror D a b Nxx Nyy Nxy c c1 c0 ca d0 db m n l Pk S1 Hm Hn).
  rewrite (t_C80_mirror_y _ a b Nxx Nyy (- Nxy) c1 c' ca c0 d0 db m n l (mirrored_ok _ _ _ _ _ _ _ _ _ Pk S1) Sp ltac:(lia) Hn).
  rewrite mirrored_twice, Ropp_involutive. reflexivity.
Qed.
(*@ C80: a quarter turn. @*)
Lemma t_C80_quarter_turn : forall (D : mat3) a b Nxx Nyy Nxy c c' c0 ca d0 db m n l, plate_any D a b c c0 ca d0 db -> specifies c' db d0 c0 ca ->
  (4 <= m + taken c0 + taken ca)%nat -> (4 <= n + taken d0 + taken db)%nat ->
  (critical D a b Nxx Nyy Nxy c m n l <-> critical (mirrored (exchanged D)) b a Nyy Nxx (- Nxy) c' n m l).
Proof.
  intros D a b Nxx Nyy Nxy c c' c0 ca d0 db m n l Pk Sp Hm Hn. destruct (some_constraints d0 db c0 ca) as [c1 S1].
  rewrite (t_C80_exchange D a b Nxx Nyy Nxy c c1 c0 ca d0 db m n l Pk S1).
  apply (t_C80_mirror _ b a Nyy Nxx Nxy c1 c' d0 db c0 ca n m l (exchanged_ok _ _ _ _ _ _ _ _ _ Pk S1) Sp Hn Hm).
Qed.
(*@ C80: without shear coupling in D, and with equal conditions on two opposite edges, the sign of the shear load does not matter. @*)
Lemma t_C80_shear_sign : forall (D : mat3) a b Nxx Nyy Nxy c c0 ca d0 db m n l, plate_any D a b c c0 ca d0 db -> a13 D = 0 -> a23 D = 0 ->
  c0 = ca \/ d0 = db -> (4 <= m + taken c0 + taken ca)%nat -> (4 <= n + taken d0 + taken db)%nat ->
  (critical D a b Nxx Nyy Nxy c m n l <-> critical D a b Nxx Nyy (- Nxy) c m n l).
Proof.
  intros D a b Nxx Nyy Nxy c c0 ca d0 db m n l Pk Z1 Z2 Eq Hm Hn. assert (Sp := any_edges _ _ _ _ _ _ _ _ Pk).
  assert (E : mirrored D = D).
  { assert (Sy := any_sym _ _ _ _ _ _ _ _ Pk). apply sym_parts in Sy. destruct Sy as (_ & Y1 & Y2). unfold mirrored. rewrite Y1, Y2, Z1, Z2, Ropp_0. destruct D. cbn in *. subst. reflexivity. }
  assert (G : critical (mirrored D) a b Nxx Nyy (- Nxy) c m n l <-> critical D a b Nxx Nyy (- Nxy) c m n l) by (rewrite E; reflexivity). rewrite <- G.
  destruct Eq as [<- | <-]; [apply (t_C80_mirror D a b Nxx Nyy Nxy c c c0 c0 d0 db m n l Pk Sp Hm Hn)|apply (t_C80_mirror_y D a b Nxx Nyy Nxy c c c0 ca d0 d0 m n l Pk Sp Hm Hn)].
Qed.

(** ** laminates *)
Lemma lsum_map f (g : mat3 -> mat3) pl : g mzero = mzero -> (forall A B, g (madd A B) = madd (g A) (g B)) -> (forall k A, g (mscale k A) = mscale k (g A)) -> forall z0,
  lsum f z0 (map (fun p => (fst p, g (snd p))) pl) = g (lsum f z0 pl).
Proof.
  intros G0 GA GS. induction pl as [|[h Q] t IH]; intros z0; cbn [map lsum fst snd]; [symmetry; exact G0|]. rewrite IH, GA, GS. reflexivity.
Qed.
Lemma Lsum_map f (g : mat3 -> mat3) (h : R -> R) l : g mzero = mzero -> (forall A B, g (madd A B) = madd (g A) (g B)) -> (forall k A, g (mscale k A) = mscale k (g A)) ->
  (forall th m, readable m -> Qbar (h th) m = g (Qbar th m)) -> all_readable l -> Lsum f (map (fun p => (h (fst p), snd p)) l) = g (Lsum f l).
Proof.
  intros G0 GA GS GQ A. unfold Lsum.
  assert (E : pairs (map (fun p => (h (fst p), snd p)) l) = map (fun p => (fst p, g (snd p))) (pairs l)).
  { unfold pairs. rewrite !map_map. apply map_ext_in. intros [th m] I. cbn [fst snd]. f_equal. apply GQ. unfold all_readable in A. rewrite Forall_forall in A. apply (A _ I). }
  rewrite E, lsum_map by assumption. unfold z_bottom. rewrite hsum_map_snd. reflexivity.
Qed.
Lemma readable_map (h : R -> R) l : all_readable (map (fun p => (h (fst p), snd p)) l) <-> all_readable l.
Proof. unfold all_readable. rewrite Forall_map. reflexivity. Qed.
Lemma of_map (g : mat3 -> mat3) (h : R -> R) l : g mzero = mzero -> (forall A B, g (madd A B) = madd (g A) (g B)) -> (forall k A, g (mscale k A) = mscale k (g A)) ->
  (forall th m, readable m -> Qbar (h th) m = g (Qbar th m)) ->
  let turn (M : res mat3) := (M <- M ;; Ok (g M)) in let l' := map (fun p => (h (fst p), snd p)) l in
  A_of l' = turn (A_of l) /\ B_of l' = turn (B_of l) /\ D_of l' = turn (D_of l).
Proof.
  intros G0 GA GS GQ turn l'. unfold turn, l'. destruct (readable_em l) as [H|H].
  - rewrite !A_of_eq, !B_of_eq, !D_of_eq by (try apply readable_map; exact H). cbn. rewrite !(Lsum_map _ g h) by assumption. auto.
  - assert (H' : ~ all_readable (map (fun p => (h (fst p), snd p)) l)) by (rewrite readable_map; exact H).
    apply not_readable in H, H'. destruct H as (-> & -> & -> & _), H' as (-> & -> & -> & _). auto.
Qed.
Lemma mirrored_lin : mirrored mzero = mzero /\ (forall A B, mirrored (madd A B) = madd (mirrored A) (mirrored B)) /\ (forall k A, mirrored (mscale k A) = mscale k (mirrored A)).
Proof. repeat split; intros; unfold mirrored, mzero, madd, mscale; cbn; f_equal; ring. Qed.
Lemma exchanged_lin : exchanged mzero = mzero /\ (forall A B, exchanged (madd A B) = madd (exchanged A) (exchanged B)) /\ (forall k A, exchanged (mscale k A) = mscale k (exchanged A)).
Proof. repeat split; intros; unfold exchanged, mzero, madd, mscale; cbn; f_equal; ring. Qed.
(*@ C80: changing the sign of all angles mirrors A, B and D; replacing each angle by its complement to 90 degrees exchanges the axes in them.
    Reading them raises in the same cases. @*)
Lemma t_C80_angles : forall l, let turn (g : mat3 -> mat3) (M : res mat3) := (M <- M ;; Ok (g M)) in
  (A_of (opposite_angles l) = turn mirrored (A_of l) /\ B_of (opposite_angles l) = turn mirrored (B_of l) /\ D_of (opposite_angles l) = turn mirrored (D_of l)) /\
  (A_of (complementary_angles l) = turn exchanged (A_of l) /\ B_of (complementary_angles l) = turn exchanged (B_of l) /\ D_of (complementary_angles l) = turn exchanged (D_of l)).
Proof.
  intros l turn. split.
  - destruct mirrored_lin as (X & Y & Z). apply (of_map mirrored (fun t => - t) l X Y Z). intros th m H. apply Qbar_neg, H.
  - destruct exchanged_lin as (X & Y & Z). apply (of_map exchanged (fun t => 90 - t) l X Y Z). intros th m H.
    replace (90 - th) with (- th + 90) by ring. rewrite Qbar_90, Qbar_neg by exact H. unfold swap12, flip16, exchanged. cbn. f_equal; ring.
Qed.
(*@ C80: from the layup to the critical factor. @*)
Lemma t_C80_laminate : forall l (D : mat3) a b c c0 ca d0 db m n, D_of l = Ok D -> plate_any D a b c c0 ca d0 db ->
  (4 <= m + taken c0 + taken ca)%nat -> (4 <= n + taken d0 + taken db)%nat ->
  (exists D', D_of (opposite_angles l) = Ok D' /\ forall c' Nxx Nyy Nxy f, specifies c' ca c0 d0 db ->
     (critical D a b Nxx Nyy Nxy c m n f <-> critical D' a b Nxx Nyy (- Nxy) c' m n f)) /\
  (exists D', D_of (complementary_angles l) = Ok D' /\ forall c' Nxx Nyy Nxy f, specifies c' d0 db c0 ca ->
     (critical D a b Nxx Nyy Nxy c m n f <-> critical D' b a Nyy Nxx Nxy c' n m f)).
Proof.
  intros l D a b c c0 ca d0 db m n E Pk Hm Hn. destruct (t_C80_angles l) as ((_ & _ & E1) & (_ & _ & E2)). rewrite E in E1, E2. cbn in E1, E2. split.
  - exists (mirrored D). split; [exact E1|]. intros c' Nxx Nyy Nxy f Sp. apply (t_C80_mirror D a b Nxx Nyy Nxy c c' c0 ca d0 db m n f Pk Sp Hm Hn).
  - exists (exchanged D). split; [exact E2|]. intros c' Nxx Nyy Nxy f Sp. apply (t_C80_exchange D a b Nxx Nyy Nxy c c' c0 ca d0 db m n f Pk Sp).
Qed.
(*@ C80: what is reported for clamped plates with the stored integrals: if the critical factor is at least one, the analysis of the plate, of its mirror image and
    of the plate with exchanged axes report it first. @*)
Lemma t_C80_reported : forall eigsh (D : mat3) a b Nxx Nyy Nxy c m n num num1 num2 out vecs out1 vecs1 out2 vecs2 l, documented eigsh ->
  plate_ok D a b c Clamped Clamped Clamped Clamped m n -> critical D a b Nxx Nyy Nxy c m n l -> 1 <= l ->
  buckling_analysis eigsh stored_R (as_arr D) a b Nxx Nyy Nxy c m n num = Ok (out, vecs) ->
  buckling_analysis eigsh stored_R (as_arr (mirrored D)) a b Nxx Nyy (- Nxy) c m n num1 = Ok (out1, vecs1) ->
  buckling_analysis eigsh stored_R (as_arr (exchanged D)) b a Nyy Nxx Nxy c n m num2 = Ok (out2, vecs2) ->
  hd_error out = Some (Fin l) /\ hd_error out1 = Some (Fin l) /\ hd_error out2 = Some (Fin l).
Proof.
  intros eigsh D a b Nxx Nyy Nxy c m n num num1 num2 out vecs out1 vecs1 out2 vecs2 l Dc Pk C L1 H H1 H2. assert (Sp := ok_edges _ _ _ _ _ _ _ _ _ _ Pk).
  assert (G : forall (D : mat3) a b Nxx Nyy Nxy m n num out vecs, plate_ok D a b c Clamped Clamped Clamped Clamped m n -> critical D a b Nxx Nyy Nxy c m n l ->
    buckling_analysis eigsh stored_R (as_arr D) a b Nxx Nyy Nxy c m n num = Ok (out, vecs) -> hd_error out = Some (Fin l)).
  { clear - Dc L1 Sp. intros D a b Nxx Nyy Nxy m n num out vecs Pk C H.
    destruct (t_C75_users eigsh c m n Sp ltac:(assert (X := ok_m _ _ _ _ _ _ _ _ _ _ Pk); cbn in X; lia) ltac:(assert (X := ok_n _ _ _ _ _ _ _ _ _ _ Pk); cbn in X; lia)) as (Eq & _).
    rewrite Eq in H. destruct C as (K & KG & E & Sm).
    assert (Pn := t_C42_pencil D a b _ _ _ c _ _ _ _ m n K KG (ok_a _ _ _ _ _ _ _ _ _ _ Pk) (ok_b _ _ _ _ _ _ _ _ _ _ Pk) (ok_sym _ _ _ _ _ _ _ _ _ _ Pk) (ok_def _ _ _ _ _ _ _ _ _ _ Pk) (ok_edges _ _ _ _ _ _ _ _ _ _ Pk) (ok_held _ _ _ _ _ _ _ _ _ _ Pk) E).
    destruct (t_C42_first_above_one eigsh _ _ _ _ _ _ _ _ _ _ num K KG out vecs l Dc E Pn Sm L1 H) as (rest & ->). reflexivity. }
  split; [|split].
  - apply (G D a b Nxx Nyy Nxy m n num out vecs Pk C H).
  - apply (G (mirrored D) a b Nxx Nyy (- Nxy) m n num1 out1 vecs1); [destruct (mirrored_ok _ _ _ _ _ _ _ _ _ Pk Sp), Pk; constructor; assumption| |exact H1].
    apply (t_C80_mirror D a b Nxx Nyy Nxy c c _ _ _ _ m n l Pk Sp); [cbn; lia|cbn; lia|exact C].
  - apply (G (exchanged D) b a Nyy Nxx Nxy n m num2 out2 vecs2); [destruct (exchanged_ok _ _ _ _ _ _ _ _ _ Pk Sp), Pk; constructor; assumption| |exact H2].
    apply (t_C80_exchange D a b Nxx Nyy Nxy c c _ _ _ _ m n l Pk Sp). exact C.
Qed.

(** ** one function in x is not enough *)
Lemma one_shape i j z : combine_shapes 2 2 [(i, j)] [z] = fun x y => z * (at_ 2 (bpoly i) x * at_ 2 (bpoly j) y).
Proof. apply field_ext. intros x y. unfold combine_shapes, shape, at_. cbn [combine map rsum fst snd]. rewrite !bardell_poly. ring. Qed.
Lemma one_bending i j z D : D = mid -> let p := bpoly i in let q := bpoly j in
  bending D 2 2 (combine_shapes 2 2 [(i, j)] [z]) (combine_shapes 2 2 [(i, j)] [z]) =
  z ^ 2 * (integral (qmul (qderiv (qderiv p)) (qderiv (qderiv p))) * integral (qmul q q) + integral (qmul p p) * integral (qmul (qderiv (qderiv q)) (qderiv (qderiv q)))
           + 4 * (integral (qmul (qderiv p) (qderiv p)) * integral (qmul (qderiv q) (qderiv q)))).
Proof.
  intros -> p q. rewrite one_shape. fold p q. rewrite bending_expand by (try lra; try reflexivity; apply nice_term).
  repeat (rewrite dx_term || rewrite dy_term). rewrite !over_two by lra. unfold mid. cbn [a11 a12 a13 a21 a22 a23 a31 a32 a33]. field.
Qed.
Lemma one_load i j z : let p := bpoly i in let q := bpoly j in
  load_work (-1) 0 0 2 2 (combine_shapes 2 2 [(i, j)] [z]) (combine_shapes 2 2 [(i, j)] [z]) = - z ^ 2 * (integral (qmul (qderiv p) (qderiv p)) * integral (qmul q q)).
Proof.
  intros p q. rewrite one_shape. fold p q. rewrite load_expand by (try lra; apply nice_term). repeat (rewrite dx_term || rewrite dy_term). rewrite !over_two by lra. field.
Qed.
Ltac ints := repeat match goal with |- context [integral ?p] => let v := eval vm_compute in (Qred (qint p)) in
  let E := fresh in assert (E : integral p = Q2R v) by (rewrite integral_q; apply Qreals.Qeq_eqR; vm_compute; reflexivity); rewrite E; clear E end.
Lemma ok_free D : D = mid -> plate_ok D 2 2 free_right Pinned Free Pinned Pinned 1 1 /\ plate_ok D 2 2 free_left Free Pinned Pinned Pinned 1 1.
Proof.
  intros ->. assert (P : pos_def mid).
  { intros [p q r] N. unfold quad, dot, mvec, mid. cbn. assert (p <> 0 \/ q <> 0 \/ r <> 0) as H.
    { destruct (Req_dec p 0) as [->|]; [|auto]. destruct (Req_dec q 0) as [->|]; [|auto]. destruct (Req_dec r 0) as [->|]; [|auto]. exfalso. apply N. reflexivity. }
    assert (X1 := pow2_ge_0 p). assert (X2 := pow2_ge_0 q). assert (X3 := pow2_ge_0 r).
    destruct H as [H|[H|H]]; apply pow2_gt_0 in H; lra. }
  split; constructor; try lra; try exact P; try reflexivity; try (cbn; lia); try (right; right; right; right; cbn; lia);
    unfold free_right, free_left; apply Sp_dict; (apply N_pinned || apply N_free); reflexivity.
Qed.
Lemma one_num : exists k g k' g', 0 < k /\ 0 < g /\ 0 < g' /\ k * g' <> k' * g /\ forall z,
  let w := combine_shapes 2 2 [(1, 1)%nat] [z] in let w' := combine_shapes 2 2 [(0, 1)%nat] [z] in
  bending mid 2 2 w w = z ^ 2 * k /\ load_work (-1) 0 0 2 2 w w = - z ^ 2 * g /\ bending mid 2 2 w' w' = z ^ 2 * k' /\ load_work (-1) 0 0 2 2 w' w' = - z ^ 2 * g'.
Proof.
  do 4 eexists. split; [|split; [|split; [|split; [|intros z w w'; unfold w, w'; rewrite !one_bending, !one_load by reflexivity; repeat split; reflexivity]]]]; cbv zeta; ints; unfold Q2R; cbn [Qnum Qden]; lra.
Qed.
Lemma one_len (cw : list R) : List.length cw = 1%nat -> exists z, cw = [z].
Proof. destruct cw as [|z [|? ?]]; intros H; try discriminate. exists z. reflexivity. Qed.
Lemma nonzero_one z : nonzero [z] -> 0 < z ^ 2.
Proof. intros N. apply pow2_gt_0. inversion N as [? ? H|? ? H]; subst; [exact H|inversion H]. Qed.
(*@ C80, refuted for fewer than four functions: with one function in x, a square plate free on x = a and simply supported elsewhere and its mirror image
    have different critical factors. @*)
Lemma t_C80_small_refuted : plate_ok mid 2 2 free_right Pinned Free Pinned Pinned 1 1 /\ specifies free_left Free Pinned Pinned Pinned /\
  exists l, critical mid 2 2 (-1) 0 0 free_right 1 1 l /\ ~ critical (mirrored mid) 2 2 (-1) 0 (- 0) free_left 1 1 l.
Proof.
  destruct (ok_free mid eq_refl) as [P P']. split; [exact P|]. split; [apply P'|].
  destruct one_num as (k & g & k' & g' & Hk & Hg & Hg' & Nq & En).
  destruct (look mid 2 2 (-1) 0 0 free_right _ _ _ _ 1 1 P) as (idx & K & KG & V). destruct (look mid 2 2 (-1) 0 0 free_left _ _ _ _ 1 1 P') as (idx' & K' & KG' & V').
  assert (I : sw_idx idx = [(1, 1)%nat]).
  { assert (X := v_idx _ _ _ _ _ _ _ _ _ _ _ _ V). vm_compute in X. apply (f_equal (fun r => match r with Ok p => sw_idx p | Err _ => [] end)) in X. symmetry. exact X. }
  assert (I' : sw_idx idx' = [(0, 1)%nat]).
  { assert (X := v_idx _ _ _ _ _ _ _ _ _ _ _ _ V'). vm_compute in X. apply (f_equal (fun r => match r with Ok p => sw_idx p | Err _ => [] end)) in X. symmetry. exact X. }
  assert (Hl : 0 < k / g) by (apply Rdiv_lt_0_compat; assumption).
  destruct (bounded _ _ _ _ _ _ _ _ _ _ _ _ (k / g) [1] V Hl eq_refl) as (l & C & _).
  - left. lra.
  - cbv zeta. rewrite I. destruct (En 1) as (-> & -> & _). assert (X : k / g * (- 1 ^ 2 * g) = - k) by (field; lra). lra.
  - exists l. split; [exact C|]. intros C'.
    replace (mirrored mid) with mid in C' by (unfold mirrored, mid; cbn; rewrite Ropp_0; reflexivity). rewrite Ropp_0 in C'.
    destruct (mode _ _ _ _ _ _ _ _ _ _ _ _ _ V C) as (_ & cw & L & N & Z). destruct (mode _ _ _ _ _ _ _ _ _ _ _ _ _ V' C') as (_ & cw' & L' & N' & Z').
    destruct (one_len cw L) as [z ->]. destruct (one_len cw' L') as [z' ->]. apply nonzero_one in N, N'. cbv zeta in Z, Z'. rewrite I in Z. rewrite I' in Z'.
    destruct (En z) as (E1 & E2 & _). destruct (En z') as (_ & _ & E3 & E4). rewrite E1, E2 in Z. rewrite E3, E4 in Z'.
    assert (A : k = l * g) by (apply Rmult_eq_reg_l with (z ^ 2); lra). assert (B : k' = l * g') by (apply Rmult_eq_reg_l with (z' ^ 2); lra).
    apply Nq. rewrite A, B. ring.
Qed.
(*@ C80, concrete instance: a plate clamped on x = 0, free on x = a and simply supported on the others, with three functions in each direction; the
    layup [30, -45] and its images. @*)
Example t_C80_ex : let c s := CDict (Some (EStr s)) (Some (EStr "free")) (Some (EStr "pinned")) (Some (EStr "pinned")) in
  let c' s := CDict (Some (EStr "free")) (Some (EStr s)) (Some (EStr "pinned")) (Some (EStr "pinned")) in
  plate_ok mid 2 1 (c "clamped"%string) Clamped Free Pinned Pinned 3 3 /\ specifies (c' "clamped"%string) Free Clamped Pinned Pinned /\
  (4 <= 3 + taken Clamped + taken Free)%nat /\ (4 <= 3 + taken Pinned + taken Pinned)%nat /\
  opposite_angles [(30, Ortho ex_mat); (-45, Ortho ex_mat)] = [(-30, Ortho ex_mat); (45, Ortho ex_mat)] /\
  complementary_angles [(30, Ortho ex_mat); (-45, Ortho ex_mat)] = [(60, Ortho ex_mat); (135, Ortho ex_mat)].
Proof.
  intros c c'. split; [|split; [|repeat split; try (cbn; lia)]].
  - constructor; try lra; try (cbn; lia); try reflexivity; [apply (ok_free mid eq_refl)|unfold c; apply Sp_dict; [apply N_clamped|apply N_free|apply N_pinned|apply N_pinned]; reflexivity|left; reflexivity].
  - unfold c'. apply Sp_dict; [apply N_free|apply N_clamped|apply N_pinned|apply N_pinned]; reflexivity.
  - unfold opposite_angles. cbn [map fst snd]. repeat f_equal; lra.
  - unfold complementary_angles. cbn [map fst snd]. repeat f_equal; lra.
Qed.
