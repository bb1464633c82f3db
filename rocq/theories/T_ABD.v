(** Proofs of the theorems on the coupled stiffness matrices. *)
From Coq Require Import Reals ZArith QArith Qreals Lra Lia Bool String.
From Coquelicot Require Import Coquelicot.
From Coq Require Import List.
From Verif Require Import M_Py M_Plate M_K M_Tables M_Expr M_RealArith S_Plate S_Mat S_Bardell S_Energy S_K S_Ritz L_Plate L_FirstK L_K L_KR L_Poly L_Shape L_TabV L_Energy L_Ritz L_ABD T_Plate T_Shape T_K T_Energy.
Import ListNotations.
Open Scope R_scope.

Lemma dx_still : dx still = still. Proof. apply field_ext. intros. unfold dx, still. apply Derive_const. Qed.
Lemma dy_still : dy still = still. Proof. apply field_ext. intros. unfold dy, still. apply Derive_const. Qed.

Section E.
Variables (A B D : mat3) (a b : R) (Ha : a <> 0) (Hb : b <> 0).
Hypotheses (SA : symmetric A) (SB : symmetric B) (SD : symmetric D).
Variables (i j k l : nat).
Let P (u v u' v' : nat) : R := over a b (fun x y => dsh a b u v i j x y * dsh a b u' v' k l x y).
Let E (d e : nat) : R := coupled A B D a b (move d (shape a b i j)) (move e (shape a b k l)).

Ltac expand :=
  unfold E, P; rewrite <- !(over_scal a b Ha Hb) by nice_tac; rewrite <- !(over_add a b Ha Hb) by nice_tac;
  unfold coupled; apply over_ext; intros x y; cbn [move du dv dw]; unfold membrane, curvature, dot, mvec, mtrans;
  cbn [vx vy vz a11 a12 a13 a21 a22 a23 a31 a32 a33]; rewrite !shape_dsh, ?dx_still, ?dy_still, ?dx_still, ?dy_dsh, ?dx_dsh;
  unfold still; destruct A as [? ? ? ? ? ? ? ? ?]; destruct B as [? ? ? ? ? ? ? ? ?]; unfold symmetric, mtrans in SA, SB;
  cbn [a11 a12 a13 a21 a22 a23 a31 a32 a33] in *; injection SA as ? ? ? ? ? ?; injection SB as ? ? ? ? ? ?; subst; ring.
Lemma E00 : E 0 0 = a11 A * P 1 0 1 0 + a31 A * P 1 0 0 1 + a31 A * P 0 1 1 0 + a33 A * P 0 1 0 1. Proof. expand. Qed.
Lemma E01 : E 0 1 = a21 A * P 1 0 0 1 + a31 A * P 1 0 1 0 + a32 A * P 0 1 0 1 + a33 A * P 0 1 1 0. Proof. expand. Qed.
Lemma E10 : E 1 0 = a21 A * P 0 1 1 0 + a32 A * P 0 1 0 1 + a31 A * P 1 0 1 0 + a33 A * P 1 0 0 1. Proof. expand. Qed.
Lemma E11 : E 1 1 = a22 A * P 0 1 0 1 + a32 A * P 0 1 1 0 + a32 A * P 1 0 0 1 + a33 A * P 1 0 1 0. Proof. expand. Qed.
Lemma E02 : E 0 2 = - a11 B * P 1 0 2 0 + - a21 B * P 1 0 0 2 + -2 * a31 B * P 1 0 1 1 + - a31 B * P 0 1 2 0 + - a32 B * P 0 1 0 2 + -2 * a33 B * P 0 1 1 1.
Proof. expand. Qed.
Lemma E12 : E 1 2 = - a21 B * P 0 1 2 0 + - a22 B * P 0 1 0 2 + -2 * a32 B * P 0 1 1 1 + - a31 B * P 1 0 2 0 + - a32 B * P 1 0 0 2 + -2 * a33 B * P 1 0 1 1.
Proof. expand. Qed.
Lemma E20 : E 2 0 = - a11 B * P 2 0 1 0 + - a31 B * P 2 0 0 1 + - a21 B * P 0 2 1 0 + - a32 B * P 0 2 0 1 + -2 * a31 B * P 1 1 1 0 + -2 * a33 B * P 1 1 0 1.
Proof. expand. Qed.
Lemma E21 : E 2 1 = - a21 B * P 2 0 0 1 + - a31 B * P 2 0 1 0 + - a22 B * P 0 2 0 1 + - a32 B * P 0 2 1 0 + -2 * a32 B * P 1 1 0 1 + -2 * a33 B * P 1 1 1 0.
Proof. expand. Qed.
Lemma E22 : E 2 2 = bending D a b (shape a b i j) (shape a b k l).
Proof.
  unfold E, coupled, bending. apply over_ext. intros x y. cbn [move du dv dw]. unfold membrane. rewrite ?dx_still, ?dy_still. unfold still.
  unfold dot, mvec. cbn [vx vy vz]. ring.
Qed.

Lemma int_swap p q i' k' : exact_int p q i' k' = exact_int q p k' i'.
Proof. unfold exact_int. apply RInt_ext. intros. apply Rmult_comm. Qed.
Let q := ((i, j), (k, l)).
Ltac closed L f :=
  intros; rewrite L; unfold P; rewrite !(prod_over a b Ha Hb); unfold f, exact_e, q; cbn [fst snd e00 e10 e11 e20 e21 e22 Nat.add];
  rewrite ?(int_swap 0 1 i k), ?(int_swap 0 2 i k), ?(int_swap 1 2 i k), ?(int_swap 0 1 j l), ?(int_swap 0 2 j l), ?(int_swap 1 2 j l);
  field; split; assumption.
Lemma block00 : k11f exact_e a b q (a11 A) (a31 A) (a33 A) = E 0 0 + (b / a - a / b) * a33 A * (exact_int 0 0 i k * exact_int 1 1 j l).
Proof. closed E00 k11f. Qed.
Lemma block01 : k12f exact_e a b q (a21 A) (a31 A) (a32 A) (a33 A) = E 0 1.
Proof. closed E01 k12f. Qed.
Lemma block02 : k13f exact_e a b q (a11 B) (a21 B) (a31 B) (a32 B) (a33 B) =
  E 0 2 + 2 * b * (1 - a) / a ^ 2 * a11 B * (exact_int 1 2 i k * exact_int 0 0 j l) + 2 * (a - 1) / b ^ 2 * a32 B * (exact_int 0 0 i k * exact_int 1 2 j l).
Proof. closed E02 k13f. Qed.
Lemma block10 : k21f exact_e a b q (a21 A) (a31 A) (a32 A) (a33 A) = E 1 0 + (a / b - b / a) * a31 A * (exact_int 1 1 i k * exact_int 0 0 j l).
Proof. closed E10 k21f. Qed.
Lemma block11 : k22f exact_e a b q (a22 A) (a32 A) (a33 A) = E 1 1.
Proof. closed E11 k22f. Qed.
Lemma block12 : k23f exact_e a b q (a21 B) (a31 B) (a22 B) (a32 B) (a33 B) = E 1 2.
Proof. closed E12 k23f. Qed.
Lemma block20 : k31f exact_e a b q (a11 B) (a21 B) (a31 B) (a32 B) (a33 B) =
  E 2 0 + 2 * b / a ^ 2 * a11 B * ((exact_int 2 1 i k - exact_int 1 2 i k) * exact_int 0 0 j l).
Proof. closed E20 k31f. Qed.
Lemma block21 : k32f exact_e a b q (a21 B) (a31 B) (a22 B) (a32 B) (a33 B) = E 2 1.
Proof. closed E21 k32f. Qed.
Lemma block22 : k33f exact_e a b q (a11 D) (a21 D) (a22 D) (a31 D) (a32 D) (a33 D) = E 2 2.
Proof. rewrite E22. symmetry. apply bending_shape; assumption. Qed.
End E.

(** the entries computed for a pair of rows *)
Definition ent_f (e : etab) (A B D : mat3) (a b Nxx Nyy Nxy : R) (pq : triple * triple) : @entries RA :=
  let p := fst pq in let q := snd pq in
  Entries (A := RA) (k11f e a b (tu p, tu q) (a11 A) (a31 A) (a33 A)) (k12f e a b (tu p, tv q) (a21 A) (a31 A) (a32 A) (a33 A))
    (k13f e a b (tu p, tw q) (a11 B) (a21 B) (a31 B) (a32 B) (a33 B))
    (k21f e a b (tv p, tu q) (a21 A) (a31 A) (a32 A) (a33 A)) (k22f e a b (tv p, tv q) (a22 A) (a32 A) (a33 A))
    (k23f e a b (tv p, tw q) (a21 B) (a31 B) (a22 B) (a32 B) (a33 B))
    (k31f e a b (tw p, tu q) (a11 B) (a21 B) (a31 B) (a32 B) (a33 B)) (k32f e a b (tw p, tv q) (a21 B) (a31 B) (a22 B) (a32 B) (a33 B))
    (k33f e a b (tw p, tw q) (a11 D) (a21 D) (a22 D) (a31 D) (a32 D) (a33 D)) (kGf e a b (tw p, tw q) Nxx Nyy Nxy).
Definition in3 (P : nat -> Prop) (p : triple) : Prop :=
  P (fst (tu p)) /\ P (snd (tu p)) /\ P (fst (tv p)) /\ P (snd (tv p)) /\ P (fst (tw p)) /\ P (snd (tw p)).
Lemma ent_ok P t e (G : good P t e) A B D a b Nxx Nyy Nxy p q : a <> 0 -> b <> 0 -> in3 P p -> in3 P q ->
  ent_ABD t (unpack_abd (arr6 A B D)) a b Nxx Nyy Nxy (p, q) = Ok (ent_f e A B D a b Nxx Nyy Nxy (p, q)).
Proof.
  intros Ha Hb (P1 & P2 & P3 & P4 & P5 & P6) (Q1 & Q2 & Q3 & Q4 & Q5 & Q6). unfold ent_ABD, loop_ABD. cbn [fst snd].
  rewrite (k11_ok _ _ _ G) by (first [assumption | repeat split; assumption]). cbn [bind].
  rewrite (k12_ok _ _ _ G) by (first [assumption | repeat split; assumption]). cbn [bind].
  rewrite (k13_ok _ _ _ G) by (first [assumption | repeat split; assumption]). cbn [bind].
  rewrite (k21_ok _ _ _ G) by (first [assumption | repeat split; assumption]). cbn [bind].
  rewrite (k22_ok _ _ _ G) by (first [assumption | repeat split; assumption]). cbn [bind].
  rewrite (k23_ok _ _ _ G) by (first [assumption | repeat split; assumption]). cbn [bind].
  rewrite (k31_ok _ _ _ G) by (first [assumption | repeat split; assumption]). cbn [bind].
  rewrite (k32_ok _ _ _ G) by (first [assumption | repeat split; assumption]). cbn [bind].
  rewrite (k33_ok _ _ _ G) by (first [assumption | repeat split; assumption]). cbn [bind].
  rewrite (kG_ok _ _ _ G) by (first [assumption | repeat split; assumption]). cbn [bind].
  reflexivity.
Qed.
Definition pickK (E : @entries RA) (d e : nat) : R :=
  match d, e with
  | 0, 0 => n11 E | 0, 1 => n12 E | 0, _ => n13 E
  | 1, 0 => n21 E | 1, 1 => n22 E | 1, _ => n31 E
  | _, 0 => n31 E | _, 1 => n32 E | _, _ => n33 E
  end%nat.
Definition pickG (E : @entries RA) (d e : nat) : R := match d, e with 2%nat, 2%nat => n33g E | _, _ => 0 end.
(** a successful call, block by block *)
Lemma ABD_fwd P t e (G : good P t e) A B D a b Nxx Nyy Nxy c m n idx : a <> 0 -> b <> 0 -> compute_constraints c m n = Ok idx ->
  (forall p, In p (triples idx) -> in3 P p) ->
  exists K KG, calc_K_KG_ABD t (arr6 A B D) a b Nxx Nyy Nxy c m n = Ok (K, KG) /\ square (3 * (m * n)) K /\ square (3 * (m * n)) KG /\
  forall d e' r s p q, (d < 3)%nat -> (e' < 3)%nat -> nth_error (triples idx) r = Some p -> nth_error (triples idx) s = Some q ->
    entry K (d * (m * n) + r) (e' * (m * n) + s) = Some (pickK (ent_f e A B D a b Nxx Nyy Nxy (p, q)) d e') /\
    entry KG (d * (m * n) + r) (e' * (m * n) + s) = Some (pickG (ent_f e A B D a b Nxx Nyy Nxy (p, q)) d e').
Proof.
  intros Ha Hb E In3. destruct (triples_ok _ _ _ _ E) as (L & _).
  do 2 eexists. split.
  { apply (K_ABD_ok t (arr6 A B D) a b Nxx Nyy Nxy c m n idx (ent_f e A B D a b Nxx Nyy Nxy) E).
    intros p q Ip Iq. apply (ent_ok P t e G); [exact Ha|exact Hb|apply In3, Ip|apply In3, Iq]. }
  assert (Sq : forall f1 f2 f3 f4 f5 f6 f7 f8 f9 : triple * triple -> R, square (3 * (m * n))
    (hstack (rows (A := RA) (triples idx) f1) (rows (A := RA) (triples idx) f2) (rows (A := RA) (triples idx) f3) ++
     hstack (rows (A := RA) (triples idx) f4) (rows (A := RA) (triples idx) f5) (rows (A := RA) (triples idx) f6) ++
     hstack (rows (A := RA) (triples idx) f7) (rows (A := RA) (triples idx) f8) (rows (A := RA) (triples idx) f9))).
  { intros. rewrite !rows_hstack. split.
    - rewrite !app_length, !map_length, L. lia.
    - apply Forall_app; split; [|apply Forall_app; split];
        apply Forall_forall; intros row I; apply in_map_iff in I; destruct I as (p & <- & _); rewrite !app_length, !map_length, L; lia. }
  split; [apply Sq|]. split; [apply Sq|].
  intros d e' r s p q Hd He Hr Hs. split.
  - apply (entry_blocks (A := RA) (triples idx) (m * n) (fun d e0 pq => pickK (ent_f e A B D a b Nxx Nyy Nxy pq) d e0) d e' r s p q L Hd He Hr Hs).
  - apply (entry_blocks (A := RA) (triples idx) (m * n) (fun d e0 pq => pickG (ent_f e A B D a b Nxx Nyy Nxy pq) d e0) d e' r s p q L Hd He Hr Hs).
Qed.
Lemma triple_at idx r pu pv pw : nth_error (su_idx idx) r = Some pu -> nth_error (sv_idx idx) r = Some pv -> nth_error (sw_idx idx) r = Some pw ->
  nth_error (triples idx) r = Some (pu, (pv, pw)).
Proof.
  assert (C : forall X Y (l : list X) (q : list Y) k x y, nth_error l k = Some x -> nth_error q k = Some y -> nth_error (combine l q) k = Some (x, y)).
  { intros X Y l. induction l as [|z l IH]; intros [|u q] [|k] x y H1 H2; try discriminate; cbn in *; [congruence|apply IH; assumption]. }
  intros H1 H2 H3. unfold triples. apply C; [exact H1|]. apply C; assumption.
Qed.
Lemma any3 (idx : index_sets) p : In p (triples idx) -> in3 (fun _ => True) p.
Proof. repeat split. Qed.

(*@ C40: with exact integrals, the blocks uv, vv, wv and ww of the matrix K of calc_K_KG_ABD are the coupled energy of the two
    displacements, and KG is the work of the loads in block ww and zero elsewhere, for all edges, sizes and symmetric A, B, D. @*)
Lemma t_C40_right_blocks : forall (A B D : mat3) a b Nxx Nyy Nxy c m n idx, a <> 0 -> b <> 0 -> symmetric A -> symmetric B -> symmetric D ->
  compute_constraints c m n = Ok idx ->
  exists K KG, calc_K_KG_ABD exact_tables (arr6 A B D) a b Nxx Nyy Nxy c m n = Ok (K, KG) /\ square (3 * (m * n)) K /\ square (3 * (m * n)) KG /\
  forall r s pu pv pw qu qv qw,
    nth_error (su_idx idx) r = Some pu -> nth_error (sv_idx idx) r = Some pv -> nth_error (sw_idx idx) r = Some pw ->
    nth_error (su_idx idx) s = Some qu -> nth_error (sv_idx idx) s = Some qv -> nth_error (sw_idx idx) s = Some qw ->
    let at_block M d e := entry M (d * (m * n) + r) (e * (m * n) + s) in
    let energy d e p q := coupled A B D a b (move d (shape_of a b p)) (move e (shape_of a b q)) in
    at_block K 0%nat 1%nat = Some (energy 0%nat 1%nat pu qv) /\ at_block K 1%nat 1%nat = Some (energy 1%nat 1%nat pv qv) /\
    at_block K 2%nat 1%nat = Some (energy 2%nat 1%nat pw qv) /\ at_block K 2%nat 2%nat = Some (energy 2%nat 2%nat pw qw) /\
    at_block KG 2%nat 2%nat = Some (load_work Nxx Nyy Nxy a b (shape_of a b pw) (shape_of a b qw)) /\
    (forall d e, (d < 3)%nat -> (e < 3)%nat -> (d, e) <> (2, 2)%nat -> at_block KG d e = Some 0).
Proof.
  intros A B D a b Nxx Nyy Nxy c m n idx Ha Hb SA SB SD E.
  destruct (ABD_fwd _ _ _ exact_good A B D a b Nxx Nyy Nxy c m n idx Ha Hb E (any3 idx)) as (K & KG & EK & S1 & S2 & H).
  exists K, KG. split; [exact EK|]. split; [exact S1|]. split; [exact S2|].
  intros r s pu pv pw qu qv qw R1 R2 R3 R4 R5 R6. cbv zeta. assert (Tr := triple_at _ _ _ _ _ R1 R2 R3). assert (Ts := triple_at _ _ _ _ _ R4 R5 R6).
  unfold shape_of. destruct pu as [iu ju], pv as [iv jv], pw as [iw jw], qu as [ku lu], qv as [kv lv], qw as [kw lw]. cbn [fst snd] in *.
  split; [rewrite (proj1 (H 0%nat 1%nat r s _ _ ltac:(lia) ltac:(lia) Tr Ts)); f_equal; apply block01; assumption|].
  split; [rewrite (proj1 (H 1%nat 1%nat r s _ _ ltac:(lia) ltac:(lia) Tr Ts)); f_equal; apply block11; assumption|].
  split; [rewrite (proj1 (H 2%nat 1%nat r s _ _ ltac:(lia) ltac:(lia) Tr Ts)); f_equal; apply block21; assumption|].
  split; [rewrite (proj1 (H 2%nat 2%nat r s _ _ ltac:(lia) ltac:(lia) Tr Ts)); f_equal; apply block22; assumption|].
  split; [rewrite (proj2 (H 2%nat 2%nat r s _ _ ltac:(lia) ltac:(lia) Tr Ts)); f_equal; symmetry; apply load_shape; assumption|].
  intros d e Hd He N. rewrite (proj2 (H d e r s _ _ Hd He Tr Ts)). f_equal.
  destruct d as [|[|[|d]]], e as [|[|[|e]]]; try reflexivity; try lia. exfalso. apply N. reflexivity.
Qed.
(*@ C40: the other blocks, exactly: uu misses by (b/a - a/b) A66, vu by (a/b - b/a) A16, uw by wrong powers of a at B11 and B26,
    wu by the orders of the derivatives at B11 being exchanged, and block vw repeats block wu. @*)
Lemma t_C40_wrong_blocks : forall (A B D : mat3) a b Nxx Nyy Nxy c m n idx, a <> 0 -> b <> 0 -> symmetric A -> symmetric B -> symmetric D ->
  compute_constraints c m n = Ok idx ->
  exists K KG, calc_K_KG_ABD exact_tables (arr6 A B D) a b Nxx Nyy Nxy c m n = Ok (K, KG) /\
  forall r s pu pv pw qu qv qw,
    nth_error (su_idx idx) r = Some pu -> nth_error (sv_idx idx) r = Some pv -> nth_error (sw_idx idx) r = Some pw ->
    nth_error (su_idx idx) s = Some qu -> nth_error (sv_idx idx) s = Some qv -> nth_error (sw_idx idx) s = Some qw ->
    let at_block M d e := entry M (d * (m * n) + r) (e * (m * n) + s) in
    let energy d e p q := coupled A B D a b (move d (shape_of a b p)) (move e (shape_of a b q)) in
    let int u u' v v' (p q : nat * nat) := exact_int u u' (fst p) (fst q) * exact_int v v' (snd p) (snd q) in
    at_block K 0%nat 0%nat = Some (energy 0%nat 0%nat pu qu + (b / a - a / b) * a33 A * int 0%nat 0%nat 1%nat 1%nat pu qu) /\
    at_block K 1%nat 0%nat = Some (energy 1%nat 0%nat pv qu + (a / b - b / a) * a31 A * int 1%nat 1%nat 0%nat 0%nat pv qu) /\
    at_block K 0%nat 2%nat = Some (energy 0%nat 2%nat pu qw + 2 * b * (1 - a) / a ^ 2 * a11 B * int 1%nat 2%nat 0%nat 0%nat pu qw
                                    + 2 * (a - 1) / b ^ 2 * a32 B * int 0%nat 0%nat 1%nat 2%nat pu qw) /\
    at_block K 2%nat 0%nat = Some (energy 2%nat 0%nat pw qu + 2 * b / a ^ 2 * a11 B * (int 2%nat 1%nat 0%nat 0%nat pw qu - int 1%nat 2%nat 0%nat 0%nat pw qu)) /\
    at_block K 1%nat 2%nat = at_block K 2%nat 0%nat.
Proof.
  intros A B D a b Nxx Nyy Nxy c m n idx Ha Hb SA SB SD E.
  destruct (ABD_fwd _ _ _ exact_good A B D a b Nxx Nyy Nxy c m n idx Ha Hb E (any3 idx)) as (K & KG & EK & S1 & S2 & H).
  exists K, KG. split; [exact EK|].
  intros r s pu pv pw qu qv qw R1 R2 R3 R4 R5 R6. cbv zeta. assert (Tr := triple_at _ _ _ _ _ R1 R2 R3). assert (Ts := triple_at _ _ _ _ _ R4 R5 R6).
  unfold shape_of. destruct pu as [iu ju], pv as [iv jv], pw as [iw jw], qu as [ku lu], qv as [kv lv], qw as [kw lw]. cbn [fst snd] in *.
  split; [rewrite (proj1 (H 0%nat 0%nat r s _ _ ltac:(lia) ltac:(lia) Tr Ts)); f_equal; apply block00; assumption|].
  split; [rewrite (proj1 (H 1%nat 0%nat r s _ _ ltac:(lia) ltac:(lia) Tr Ts)); f_equal; apply block10; assumption|].
  split; [rewrite (proj1 (H 0%nat 2%nat r s _ _ ltac:(lia) ltac:(lia) Tr Ts)); f_equal; apply block02; assumption|].
  split; [rewrite (proj1 (H 2%nat 0%nat r s _ _ ltac:(lia) ltac:(lia) Tr Ts)); f_equal; rewrite <- Rmult_minus_distr_r; apply block20; assumption|].
  rewrite (proj1 (H 1%nat 2%nat r s _ _ ltac:(lia) ltac:(lia) Tr Ts)), (proj1 (H 2%nat 0%nat r s _ _ ltac:(lia) ltac:(lia) Tr Ts)). reflexivity.
Qed.

Lemma coupled_sym A D a b u v : symmetric A -> symmetric D -> coupled A mzero D a b u v = coupled A mzero D a b v u.
Proof.
  intros SA SD. unfold coupled. apply over_ext. intros x y.
  destruct A as [p1 p2 p3 p4 p5 p6 p7 p8 p9], D as [q1 q2 q3 q4 q5 q6 q7 q8 q9].
  unfold symmetric, mtrans in SA, SD. cbn [a11 a12 a13 a21 a22 a23 a31 a32 a33] in SA, SD. injection SA as ? ? ? ? ? ?. injection SD as ? ? ? ? ? ?. subst.
  unfold dot, mvec, mtrans, mzero. cbn [vx vy vz a11 a12 a13 a21 a22 a23 a31 a32 a33]. ring.
Qed.
Lemma msym_zero : symmetric mzero. Proof. reflexivity. Qed.
(*@ C40: for a square plate of a laminate without coupling, every block of K is the coupled energy and K is symmetric. @*)
Lemma t_C40_square : forall (A D : mat3) a Nxx Nyy Nxy c m n idx, a <> 0 -> symmetric A -> symmetric D ->
  compute_constraints c m n = Ok idx ->
  exists K KG, calc_K_KG_ABD exact_tables (arr6 A mzero D) a a Nxx Nyy Nxy c m n = Ok (K, KG) /\
  (forall d e r s p q, (d < 3)%nat -> (e < 3)%nat ->
    nth_error (nth d [su_idx idx; sv_idx idx; sw_idx idx] []) r = Some p -> nth_error (nth e [su_idx idx; sv_idx idx; sw_idx idx] []) s = Some q ->
    entry K (d * (m * n) + r) (e * (m * n) + s) = Some (coupled A mzero D a a (move d (shape_of a a p)) (move e (shape_of a a q)))) /\
  sym_rows K.
Proof.
  intros A D a Nxx Nyy Nxy c m n idx Ha SA SD E.
  destruct (ABD_fwd _ _ _ exact_good A mzero D a a Nxx Nyy Nxy c m n idx Ha Ha E (any3 idx)) as (K & KG & EK & (S1 & S2) & _ & H).
  exists K, KG. split; [exact EK|].
  assert (Len : List.length (su_idx idx) = (m * n)%nat /\ List.length (sv_idx idx) = (m * n)%nat /\ List.length (sw_idx idx) = (m * n)%nat).
  { destruct (triples_ok _ _ _ _ E) as (L & M1 & M2 & M3). rewrite M1, M2, M3, !map_length. auto. }
  destruct Len as (Lu & Lv & Lw).
  assert (Row : forall r, (r < m * n)%nat -> exists pu pv pw, nth_error (su_idx idx) r = Some pu /\ nth_error (sv_idx idx) r = Some pv /\ nth_error (sw_idx idx) r = Some pw).
  { intros r Hr.
    assert (G : forall l : list (nat * nat), List.length l = (m * n)%nat -> exists p, nth_error l r = Some p).
    { intros l Hl. destruct (nth_error l r) as [p|] eqn:Ep; [exists p; reflexivity|]. apply nth_error_None in Ep. lia. }
    destruct (G _ Lu) as [pu Hu], (G _ Lv) as [pv Hv], (G _ Lw) as [pw Hw]. exists pu, pv, pw. auto. }
  assert (Bd : forall d r p, (d < 3)%nat -> nth_error (nth d [su_idx idx; sv_idx idx; sw_idx idx] []) r = Some p -> (r < m * n)%nat).
  { intros d r p Hd Hr. assert (Q : nth_error (nth d [su_idx idx; sv_idx idx; sw_idx idx] []) r <> None) by congruence. apply nth_error_Some in Q.
    destruct d as [|[|[|d]]]; [| | |lia]; cbn [nth] in Q; lia. }
  assert (Blk : forall d e r s p q, (d < 3)%nat -> (e < 3)%nat ->
    nth_error (nth d [su_idx idx; sv_idx idx; sw_idx idx] []) r = Some p -> nth_error (nth e [su_idx idx; sv_idx idx; sw_idx idx] []) s = Some q ->
    entry K (d * (m * n) + r) (e * (m * n) + s) = Some (coupled A mzero D a a (move d (shape_of a a p)) (move e (shape_of a a q)))).
  { intros d e r s p q Hd He Hp Hq.
    destruct (Row r (Bd _ _ _ Hd Hp)) as (pu & pv & pw & R1 & R2 & R3). destruct (Row s (Bd _ _ _ He Hq)) as (qu & qv & qw & R4 & R5 & R6).
    rewrite (proj1 (H d e r s _ _ Hd He (triple_at _ _ _ _ _ R1 R2 R3) (triple_at _ _ _ _ _ R4 R5 R6))). f_equal.
    unfold shape_of. destruct p as [i j], q as [k l], pu as [iu ju], pv as [iv jv], pw as [iw jw], qu as [ku lu], qv as [kv lv], qw as [kw lw]. cbn [fst snd].
    destruct d as [|[|[|d]]], e as [|[|[|e]]]; try lia; cbn [nth] in Hp, Hq;
      match type of Hp with _ = Some ?p => match goal with R : _ = Some ?x |- _ => rewrite R in Hp; injection Hp as <- <- end end;
      match type of Hq with _ = Some ?p => match goal with R : nth_error _ s = Some ?x |- _ => rewrite R in Hq; injection Hq as <- <- end end;
      unfold pickK, ent_f; cbn [fst snd n11 n12 n13 n21 n22 n23 n31 n32 n33 tu tv tw].
    - rewrite (block00 A mzero D) by (assumption || reflexivity). field. exact Ha.
    - apply block01; assumption || reflexivity.
    - rewrite (block02 A mzero D) by (assumption || reflexivity). cbn [mzero a11 a32]. field. exact Ha.
    - rewrite (block10 A mzero D) by (assumption || reflexivity). field. exact Ha.
    - apply block11; assumption || reflexivity.
    - rewrite <- (block12 A mzero D a a Ha Ha SA msym_zero). unfold k31f, k23f. cbn [mzero a11 a21 a22 a31 a32 a33 fst snd]. field. exact Ha.
    - rewrite (block20 A mzero D) by (assumption || reflexivity). cbn [mzero a11]. field. exact Ha.
    - apply block21; assumption || reflexivity.
    - apply block22; assumption || reflexivity. }
  split; [exact Blk|].
  (* symmetry *)
  assert (Big : forall r c, (3 * (m * n) <= r)%nat -> entry K r c = None /\ entry K c r = None).
  { intros r0 c0 Hr. unfold entry. split.
    - destruct (nth_error K r0) eqn:Er; [|reflexivity]. assert (Q : nth_error K r0 <> None) by congruence. apply nth_error_Some in Q. lia.
    - destruct (nth_error K c0) as [row|] eqn:Er; [|reflexivity]. apply nth_error_None.
      rewrite (proj1 (Forall_forall _ _) S2 row (nth_error_In _ _ Er)). lia. }
  intros r0 c0.
  destruct (le_lt_dec (3 * (m * n)) r0) as [X|X]; [destruct (Big r0 c0 X) as [-> ->]; reflexivity|].
  destruct (le_lt_dec (3 * (m * n)) c0) as [Y|Y]; [destruct (Big c0 r0 Y) as [-> ->]; reflexivity|].
  assert (Dec : forall k, (k < 3 * (m * n))%nat -> exists d r, (d < 3)%nat /\ (r < m * n)%nat /\ k = (d * (m * n) + r)%nat).
  { intros k Hk. destruct (le_lt_dec (m * n) k) as [U|U]; [destruct (le_lt_dec (2 * (m * n)) k) as [V|V]|].
    - exists 2%nat, (k - 2 * (m * n))%nat. lia.
    - exists 1%nat, (k - m * n)%nat. lia.
    - exists 0%nat, k. lia. }
  destruct (Dec r0 X) as (d & r & Hd & Hr & ->). destruct (Dec c0 Y) as (e & s & He & Hs & ->).
  assert (Ex : forall d r, (d < 3)%nat -> (r < m * n)%nat -> exists p, nth_error (nth d [su_idx idx; sv_idx idx; sw_idx idx] []) r = Some p).
  { intros d0 r0 Hd0 Hr0. destruct (Row r0 Hr0) as (pu & pv & pw & R1 & R2 & R3). destruct d0 as [|[|[|d0]]]; [eauto|eauto|eauto|lia]. }
  destruct (Ex d r Hd Hr) as (p & Hp). destruct (Ex e s He Hs) as (q & Hq).
  rewrite (Blk d e r s p q Hd He Hp Hq), (Blk e d s r q p He Hd Hq Hp). f_equal.
  apply coupled_sym; assumption.
Qed.

(** ** not symmetric in general *)
Lemma small_int p q i k v : (qint (qmul (qD p (bpoly i)) (qD q (bpoly k))) == v)%Q -> exact_int p q i k = Q2R v.
Proof.
  intros V. rewrite exact_integral, <- (Qeq_eqR _ _ V). unfold integral. apply is_RInt_unique.
  apply (is_RInt_ext (fun x => x ^ 0 * qeval (qmul (qD p (bpoly i)) (qD q (bpoly k))) x)); [intros x _; cbn [pow]; apply Rmult_1_l|]. apply qint_k_RInt.
Qed.
Lemma near p q i k v (s : R) : exact_int p q i k = Q2R v -> Rabs (s - exact_int p q i k) <= epsR -> Q2R v > 1 / 1000 -> 0 < s.
Proof. intros -> H1 H2. apply Rabs_le_between in H1. unfold epsR in H1. lra. Qed.
Lemma s44 : 0 < e00 stored_e 4 4 /\ 0 < e11 stored_e 4 4 /\ 0 < e21 stored_e 5 4.
Proof.
  destruct (stored_e_close 4 4 ltac:(lia) ltac:(lia)) as ((H0 & _) & _ & (H1 & _) & _).
  destruct (stored_e_close 5 4 ltac:(lia) ltac:(lia)) as (_ & _ & _ & _ & (H2 & _) & _).
  unfold exact_e in H0, H1, H2. cbn [e00 e11 e21] in H0, H1, H2.
  split; [|split].
  - apply (near 0 0 4 4 (4 # 315)); [apply small_int; vm_compute; reflexivity|exact H0|]. unfold Q2R. cbn. lra.
  - apply (near 1 1 4 4 (4 # 105)); [apply small_int; vm_compute; reflexivity|exact H1|]. unfold Q2R. cbn. lra.
  - apply (near 2 1 5 4 (2 # 35)); [apply small_int; vm_compute; reflexivity|exact H2|]. unfold Q2R. cbn. lra.
Qed.
(** entries with the stored tables of a clamped plate with m functions along x and one along y *)
Lemma stored_ABD A B D a b Nxx Nyy Nxy m : (1 <= m <= 2)%nat -> a <> 0 -> b <> 0 ->
  exists K KG, calc_K_KG_ABD stored_R (arr6 A B D) a b Nxx Nyy Nxy (CStr "CLAMPED") m 1 = Ok (K, KG) /\
  forall d e r s, (d < 3)%nat -> (e < 3)%nat -> (r < m)%nat -> (s < m)%nat ->
    entry K (d * m + r) (e * m + s) = Some (pickK (ent_f stored_e A B D a b Nxx Nyy Nxy
      (((4 + r, 4), ((4 + r, 4), (4 + r, 4))), ((4 + s, 4), ((4 + s, 4), (4 + s, 4))))%nat) d e).
Proof.
  intros Hm Ha Hb.
  assert (Ec : exists idx, compute_constraints (CStr "CLAMPED") m 1 = Ok idx /\
    triples idx = map (fun r => ((4 + r, 4), ((4 + r, 4), (4 + r, 4)))%nat) (seq 0 m)).
  { assert (m = 1 \/ m = 2)%nat as [-> | ->] by lia; eexists; (split; [vm_compute; reflexivity|reflexivity]). }
  destruct Ec as (idx & Ec & Et).
  destruct (ABD_fwd _ _ _ stored_good A B D a b Nxx Nyy Nxy (CStr "CLAMPED") m 1 idx Ha Hb Ec) as (K & KG & EK & _ & _ & H).
  { intros p Ip. rewrite Et in Ip. apply in_map_iff in Ip. destruct Ip as (r & <- & Ir). apply in_seq in Ir. unfold in3, tu, tv, tw. cbn [fst snd]. lia. }
  exists K, KG. split; [exact EK|]. intros d e r s Hd He Hr Hs. rewrite Nat.mul_1_r in H.
  assert (Nt : forall r, (r < m)%nat -> nth_error (triples idx) r = Some ((4 + r, 4), ((4 + r, 4), (4 + r, 4)))%nat).
  { intros u Hu. rewrite Et. assert (m = 1 \/ m = 2)%nat as [-> | ->] by lia; destruct u as [|[|u]]; try lia; reflexivity. }
  exact (proj1 (H d e r s _ _ Hd He (Nt r Hr) (Nt s Hs))).
Qed.
(*@ C40: with the stored tables, the entry uv of a clamped plate with one function a side equals the entry vu exactly when
    A16 is zero or the plate is square. @*)
Lemma t_C40_membrane_symmetric_iff : forall (A B D : mat3) a b Nxx Nyy Nxy, 0 < a -> 0 < b ->
  exists K KG, calc_K_KG_ABD stored_R (arr6 A B D) a b Nxx Nyy Nxy (CStr "CLAMPED") 1 1 = Ok (K, KG) /\
  (entry K 0 1 = entry K 1 0 <-> a31 A = 0 \/ a = b).
Proof.
  intros A B D a b Nxx Nyy Nxy Ha Hb. assert (Ha' : a <> 0) by lra. assert (Hb' : b <> 0) by lra.
  destruct (stored_ABD A B D a b Nxx Nyy Nxy 1 ltac:(lia) Ha' Hb') as (K & KG & EK & H).
  exists K, KG. split; [exact EK|].
  assert (H01 := H 0%nat 1%nat 0%nat 0%nat ltac:(lia) ltac:(lia) ltac:(lia) ltac:(lia)).
  assert (H10 := H 1%nat 0%nat 0%nat 0%nat ltac:(lia) ltac:(lia) ltac:(lia) ltac:(lia)). cbn [Nat.mul Nat.add] in H01, H10.
  rewrite H01, H10. unfold pickK, ent_f. cbn [fst snd n12 n21 tu tv tw]. destruct s44 as (P0 & P1 & _).
  assert (Df : k12f stored_e a b ((4, 4), (4, 4))%nat (a21 A) (a31 A) (a32 A) (a33 A) - k21f stored_e a b ((4, 4), (4, 4))%nat (a21 A) (a31 A) (a32 A) (a33 A)
    = a31 A * ((b - a) * (b + a) / (a * b)) * (e11 stored_e 4 4 * e00 stored_e 4 4)).
  { unfold k12f, k21f. cbn [fst snd]. field. split; assumption. }
  unfold tu, tv. cbn [fst snd]. split.
  - intros Eq. injection Eq as Eq. assert (Z : a31 A * ((b - a) * (b + a) / (a * b)) * (e11 stored_e 4 4 * e00 stored_e 4 4) = 0) by lra.
    assert (Pp : 0 < e11 stored_e 4 4 * e00 stored_e 4 4) by (apply Rmult_lt_0_compat; assumption).
    apply Rmult_integral in Z. destruct Z as [Z|Z]; [|lra]. apply Rmult_integral in Z. destruct Z as [Z|Z]; [left; exact Z|right].
    assert (Q : (b - a) * (b + a) = 0).
    { apply (Rmult_eq_reg_r (/ (a * b))); [|apply Rinv_neq_0_compat, Rmult_integral_contrapositive_currified; assumption]. unfold Rdiv in Z. lra. }
    apply Rmult_integral in Q. lra.
  - intros Eq. f_equal. apply Rminus_diag_uniq. rewrite Df. destruct Eq as [-> | ->]; [ring|field; assumption].
Qed.
(*@ C40: with the stored tables K is never symmetric on a clamped plate with two functions along x if B11 is the only non-zero
    coupling: entry (v, w) should be zero and is not. @*)
Lemma t_C40_coupling_refuted : forall (A D : mat3) B11 a b Nxx Nyy Nxy, a <> 0 -> b <> 0 -> B11 <> 0 ->
  let B := M3 B11 0 0 0 0 0 0 0 0 in
  exists K KG x, calc_K_KG_ABD stored_R (arr6 A B D) a b Nxx Nyy Nxy (CStr "CLAMPED") 2 1 = Ok (K, KG) /\
  entry K 2 5 = Some x /\ x <> 0 /\ entry K 5 2 = Some 0 /\ ~ sym_rows K /\
  coupled A B D a b (move 1 (shape a b 4 4)) (move 2 (shape a b 5 4)) = 0.
Proof.
  intros A D B11 a b Nxx Nyy Nxy Ha Hb HB B.
  destruct (stored_ABD A B D a b Nxx Nyy Nxy 2 ltac:(lia) Ha Hb) as (K & KG & EK & H).
  assert (H25 := H 1%nat 2%nat 0%nat 1%nat ltac:(lia) ltac:(lia) ltac:(lia) ltac:(lia)).
  assert (H52 := H 2%nat 1%nat 1%nat 0%nat ltac:(lia) ltac:(lia) ltac:(lia) ltac:(lia)). cbn [Nat.mul Nat.add] in H25, H52.
  unfold pickK, ent_f, tu, tv, tw in H25, H52. cbn [fst snd n31 n32] in H25, H52. destruct s44 as (P0 & _ & P2).
  exists K, KG. eexists. split; [exact EK|]. split; [exact H25|].
  assert (X : k31f stored_e a b ((4, 4), (5, 4))%nat (a11 B) (a21 B) (a31 B) (a32 B) (a33 B) = - (2 * b / a ^ 2) * B11 * (e21 stored_e 5 4 * e00 stored_e 4 4)).
  { unfold k31f, B. cbn [fst snd a11 a21 a31 a32 a33]. field. split; assumption. }
  assert (Y : k32f stored_e a b ((5, 4), (4, 4))%nat (a21 B) (a31 B) (a22 B) (a32 B) (a33 B) = 0).
  { unfold k32f, B. cbn [fst snd a11 a21 a22 a31 a32 a33]. field. split; assumption. }
  assert (N : k31f stored_e a b ((4, 4), (5, 4))%nat (a11 B) (a21 B) (a31 B) (a32 B) (a33 B) <> 0).
  { rewrite X. assert (a ^ 2 <> 0) by (apply pow_nonzero; exact Ha). repeat apply Rmult_integral_contrapositive_currified; try lra.
    apply Ropp_neq_0_compat. unfold Rdiv. apply Rmult_integral_contrapositive_currified; [lra|apply Rinv_neq_0_compat; assumption]. }
  split; [exact N|]. rewrite Y in H52. split; [exact H52|]. split.
  - intros S. specialize (S 2%nat 5%nat). rewrite H25, H52 in S. injection S as S. contradiction.
  - assert (C : coupled A B D a b (move 1 (shape a b 4 4)) (move 2 (shape a b 5 4)) = over a b (fun _ _ => 0)).
    { unfold coupled. apply over_ext. intros x y. cbn [move du dv dw]. unfold membrane, curvature, dot, mvec, mtrans, B.
      rewrite ?dx_still, ?dy_still, ?dx_still, ?dy_still. unfold still. cbn [vx vy vz a11 a12 a13 a21 a22 a23 a31 a32 a33]. ring. }
    rewrite C. unfold over. rewrite (RInt_ext _ (fun _ => 0)).
    + rewrite RInt_const. apply Rmult_0_r.
    + intros. rewrite RInt_const. apply Rmult_0_r.
Qed.
(*@ C40: a non-square clamped plate and an unbalanced laminate meet the hypotheses. @*)
Example t_C40_ex : symmetric (M3 10 2 1 2 5 0 1 0 3) /\ symmetric (M3 1 0 0 0 0 0 0 0 0) /\
  exists idx, compute_constraints (CStr "CLAMPED") 2 3 = Ok idx /\ nth_error (su_idx idx) 4 = Some (5, 5)%nat.
Proof. split; [reflexivity|]. split; [reflexivity|]. eexists. split; [vm_compute; reflexivity|reflexivity]. Qed.
