(** Proofs of the theorems on the limits of all the factors. *)
From Coq Require Import QArith Qreals Reals ZArith Lra Lia Bool String Sorting.Sorted Classical FunctionalExtensionality.
From Coquelicot Require Import Coquelicot.
From Coq Require Import List.
From Verif Require Import M_Py M_Plate M_K M_RealArith M_Plot M_Buckling S_Plate S_Mat S_Bardell S_Energy S_K S_Ritz S_Eigen S_Compare S_Space S_Bounds S_Limit S_Higher S_HigherLimit L_Quad L_Spectral L_Higher L_Eigen L_Plate L_FirstK L_K L_KR L_Poly L_Shape L_TabV L_Energy L_Ritz L_Weier L_Approx L_Limit T_Plate T_Shape T_K T_Energy T_Buckling T_Compare T_Space T_Bounds T_Limit T_Higher.
Import ListNotations.
Open Scope R_scope.

(** ** combinations of fields *)
Definition cf (j : nat) (c : nat -> R) (w : nat -> field) : field := fun x y => sm j (fun k => c k * w k x y).
Definition cW (j : nat) (c : nat -> R) (W : nat -> nat -> nat -> field) : nat -> nat -> field := fun p q x y => sm j (fun k => c k * W k p q x y).
Lemma derivs_cf j c w W : (forall k, (k < j)%nat -> derivatives (w k) (W k)) -> derivatives (cf j c w) (cW j c W).
Proof.
  induction j as [|j IH]; intros H.
  - constructor; unfold cf, cW; cbn [sm]; intros.
    + reflexivity.
    + apply (is_derive_const (V := R_NormedModule)).
    + apply (is_derive_const (V := R_NormedModule)).
    + apply continuity_2d_pt_const.
  - destruct (IH (fun k Hk => H k ltac:(lia))) as [Z X Y C]. destruct (H j ltac:(lia)) as [Z' X' Y' C']. constructor; unfold cf, cW in *; cbn [sm]; intros.
    + rewrite <- Z, Z'. reflexivity.
    + apply (is_derive_plus (V := R_NormedModule) (fun u => sm j (fun k => c k * W k p q u y)) (fun u => c j * W j p q u y)); [apply X; assumption|]. apply (is_derive_scal (fun u => W j p q u y) x (c j)), X'; assumption.
    + apply (is_derive_plus (V := R_NormedModule) (fun u => sm j (fun k => c k * W k p q x u)) (fun u => c j * W j p q x u)); [apply Y; assumption|]. apply (is_derive_scal (fun u => W j p q x u) y (c j)), Y'; assumption.
    + apply (continuity_2d_pt_plus (fun x y => sm j (fun k => c k * W k p q x y)) (fun x y => c j * W j p q x y)); [apply C; assumption|]. apply (continuity_2d_pt_mult (fun _ _ => c j) (W j p q)); [apply continuity_2d_pt_const|apply C'; assumption].
Qed.
Lemma choose {X} (d : X) j (P : nat -> X -> Prop) : (forall k, (k < j)%nat -> exists x, P k x) -> exists f, forall k, (k < j)%nat -> P k (f k).
Proof.
  induction j as [|j IH]; intros H; [exists (fun _ => d); intros; lia|]. destruct (IH (fun k Hk => H k ltac:(lia))) as (f & Hf). destruct (H j ltac:(lia)) as (x & Hx).
  exists (fun k => if Nat.eqb k j then x else f k). intros k Hk. destruct (Nat.eqb_spec k j) as [->|N]; [exact Hx|apply Hf; lia].
Qed.
Lemma bound_all j (P : nat -> R -> Prop) : (forall k x y, P k x -> x <= y -> P k y) -> (forall k, (k < j)%nat -> exists x, P k x) -> exists M, 0 < M /\ forall k, (k < j)%nat -> P k M.
Proof.
  intros Up. induction j as [|j IH]; intros H; [exists 1; split; [lra|intros; lia]|]. destruct (IH (fun k Hk => H k ltac:(lia))) as (M & PM & HM). destruct (H j ltac:(lia)) as (x & Hx).
  exists (M + Rabs x). assert (A := Rabs_pos x). assert (B := RRle_abs x). split; [lra|]. intros k Hk. destruct (Nat.eq_dec k j) as [->|N]; [apply (Up _ x); [exact Hx|lra]|apply (Up _ M); [apply HM; lia|lra]].
Qed.
Lemma nat_all j (P : nat -> nat -> Prop) : (forall k x y, P k x -> (x <= y)%nat -> P k y) -> (forall k, (k < j)%nat -> exists x, P k x) -> exists M, forall k, (k < j)%nat -> P k M.
Proof.
  intros Up. induction j as [|j IH]; intros H; [exists 0%nat; intros; lia|]. destruct (IH (fun k Hk => H k ltac:(lia))) as (M & HM). destruct (H j ltac:(lia)) as (x & Hx).
  exists (M + x)%nat. intros k Hk. destruct (Nat.eq_dec k j) as [->|N]; [apply (Up _ x); [exact Hx|lia]|apply (Up _ M); [apply HM; lia|lia]].
Qed.

(** ** the energy of a combination is a quadratic form of the coefficients *)
Section Form.
Variables (D : mat3) (a b Nxx Nyy Nxy t : R) (Ha : 0 < a) (Hb : 0 < b).
Notation en w := (bending D a b w w + t * load_work Nxx Nyy Nxy a b w w).
Definition en_at (W V : nat -> nat -> field) : field := fun x y =>
  a11 D * (W 2%nat 0%nat x y * V 2%nat 0%nat x y) + a22 D * (W 0%nat 2%nat x y * V 0%nat 2%nat x y) + 4 * a33 D * (W 1%nat 1%nat x y * V 1%nat 1%nat x y)
  + (a12 D + a21 D) / 2 * (W 2%nat 0%nat x y * V 0%nat 2%nat x y) + (a12 D + a21 D) / 2 * (W 0%nat 2%nat x y * V 2%nat 0%nat x y)
  + (a13 D + a31 D) * (W 2%nat 0%nat x y * V 1%nat 1%nat x y) + (a13 D + a31 D) * (W 1%nat 1%nat x y * V 2%nat 0%nat x y)
  + (a23 D + a32 D) * (W 0%nat 2%nat x y * V 1%nat 1%nat x y) + (a23 D + a32 D) * (W 1%nat 1%nat x y * V 0%nat 2%nat x y)
  + t * Nxx * (W 1%nat 0%nat x y * V 1%nat 0%nat x y) + t * Nyy * (W 0%nat 1%nat x y * V 0%nat 1%nat x y)
  + t * Nxy * (W 1%nat 0%nat x y * V 0%nat 1%nat x y) + t * Nxy * (W 0%nat 1%nat x y * V 1%nat 0%nat x y).
Definition size : R := Rabs (a11 D) + Rabs (a22 D) + Rabs (4 * a33 D) + Rabs ((a12 D + a21 D) / 2) + Rabs ((a12 D + a21 D) / 2) + Rabs (a13 D + a31 D) + Rabs (a13 D + a31 D)
  + Rabs (a23 D + a32 D) + Rabs (a23 D + a32 D) + Rabs (t * Nxx) + Rabs (t * Nyy) + Rabs (t * Nxy) + Rabs (t * Nxy).
Definition entry (W V : nat -> nat -> field) : R := over a b (en_at W V).
Lemma entry_sym W V : entry W V = entry V W.
Proof. unfold entry. apply over_ext. intros x y. unfold en_at. ring. Qed.
Lemma en_cont w W v V : derivatives w W -> derivatives v V -> cont2 (en_at W V).
Proof.
  intros Dw Dv. unfold en_at.
  assert (A := W_cont w W Dw 2 0 ltac:(lia) ltac:(lia)). assert (B := W_cont w W Dw 0 2 ltac:(lia) ltac:(lia)). assert (C := W_cont w W Dw 1 1 ltac:(lia) ltac:(lia)). assert (E := W_cont w W Dw 1 0 ltac:(lia) ltac:(lia)). assert (F := W_cont w W Dw 0 1 ltac:(lia) ltac:(lia)).
  assert (A' := W_cont v V Dv 2 0 ltac:(lia) ltac:(lia)). assert (B' := W_cont v V Dv 0 2 ltac:(lia) ltac:(lia)). assert (C' := W_cont v V Dv 1 1 ltac:(lia) ltac:(lia)). assert (E' := W_cont v V Dv 1 0 ltac:(lia) ltac:(lia)). assert (F' := W_cont v V Dv 0 1 ltac:(lia) ltac:(lia)).
  repeat first [apply (cont2_add (fun x y => _) (fun x y => _))|apply (cont2_mul (fun x y => _) (fun x y => _))|apply cont2_const|assumption].
Qed.
Lemma en_entry w W : derivatives w W -> en w = entry W W.
Proof.
  intros Dw. rewrite (bending_W w W Dw), (load_W w W Dw), <- (over2_scal a b t) by (try exact Hb; apply (load_cont w W Dw)).
  rewrite <- over2_add; [|exact Hb|apply (bend_cont w W Dw)|apply cont2_mul; [apply cont2_const|apply (load_cont w W Dw)]].
  apply over_ext. intros x y. unfold bend_at, load_at, en_at, dot, mvec. cbn [vx vy vz]. field.
Qed.
Lemma over_sm j c f : (forall k, (k < j)%nat -> cont2 (f k)) -> over a b (fun x y => sm j (fun k => c k * f k x y)) = sm j (fun k => c k * over a b (f k)) /\ cont2 (fun x y => sm j (fun k => c k * f k x y)).
Proof.
  induction j as [|j IH]; intros H; cbn [sm]; [split; [apply over_null|apply cont2_const]|]. destruct (IH (fun k Hk => H k ltac:(lia))) as (E & C). assert (Cj := H j ltac:(lia)).
  assert (Cc : cont2 (fun x y => c j * f j x y)) by (apply (cont2_mul (fun _ _ => c j)); [apply cont2_const|exact Cj]). split.
  - rewrite (over2_add a b (fun x y => sm j (fun k => c k * f k x y)) (fun x y => c j * f j x y) Hb C Cc), E, over2_scal by assumption. reflexivity.
  - apply (cont2_add (fun x y => sm j (fun k => c k * f k x y)) (fun x y => c j * f j x y)); assumption.
Qed.
Lemma prod_bil j (c u v : nat -> R) : sm j (fun k => c k * u k) * sm j (fun k => c k * v k) = bil j (fun i k => u i * v k) c c.
Proof.
  unfold bil, app. rewrite Rmult_comm, <- sm_scal. apply sm_ext. intros i Hi. rewrite <- (Rmult_1_l (sm j (fun j0 => u i * v j0 * c j0))).
  rewrite (sm_ext j (fun k => u i * v k * c k) (fun k => u i * (c k * v k))) by (intros; ring). rewrite sm_scal. ring.
Qed.
Lemma bil_sc j e M c : e * bil j M c c = bil j (fun i k => e * M i k) c c.
Proof.
  unfold bil, app. rewrite <- sm_scal. apply sm_ext. intros i Hi. rewrite (sm_ext j (fun k => e * M i k * c k) (fun k => e * (M i k * c k))) by (intros; ring). rewrite sm_scal. ring.
Qed.
Lemma bil_plus j M N c : bil j M c c + bil j N c c = bil j (fun i k => M i k + N i k) c c.
Proof.
  unfold bil, app. rewrite <- sm_add. apply sm_ext. intros i Hi. rewrite (sm_ext j (fun k => (M i k + N i k) * c k) (fun k => M i k * c k + N i k * c k)) by (intros; ring). rewrite sm_add. ring.
Qed.
Lemma en_bil j c W x y : en_at (cW j c W) (cW j c W) x y = bil j (fun i k => en_at (W i) (W k) x y) c c.
Proof. unfold en_at, cW. rewrite !prod_bil, !bil_sc, !bil_plus. reflexivity. Qed.
Lemma en_form j c w W : (forall k, (k < j)%nat -> derivatives (w k) (W k)) -> en (cf j c w) = bil j (fun i k => entry (W i) (W k)) c c.
Proof.
  intros H. rewrite (en_entry _ _ (derivs_cf j c w W H)). unfold entry at 1.
  rewrite (over_ext a b _ (fun x y => sm j (fun i => c i * sm j (fun k => c k * en_at (W i) (W k) x y)))).
  - assert (In : forall i, (i < j)%nat -> over a b (fun x y => sm j (fun k => c k * en_at (W i) (W k) x y)) = sm j (fun k => c k * over a b (en_at (W i) (W k))) /\ cont2 (fun x y => sm j (fun k => c k * en_at (W i) (W k) x y))).
    { intros i Hi. apply over_sm. intros k Hk. apply (en_cont (w i) (W i) (w k) (W k)); apply H; assumption. }
    rewrite (proj1 (over_sm j c (fun i x y => sm j (fun k => c k * en_at (W i) (W k) x y)) (fun i Hi => proj2 (In i Hi)))). unfold bil, app. apply sm_ext. intros i Hi. rewrite (proj1 (In i Hi)). f_equal. apply sm_ext. intros; unfold entry; ring.
  - intros x y. rewrite en_bil. unfold bil, app. apply sm_ext. intros i Hi. f_equal. apply sm_ext. intros; ring.
Qed.
(** nearby families have nearby forms *)
Lemma entry_close w W v V l r M e : derivatives w W -> derivatives v V -> 0 <= e <= 1 -> close a b l W e -> close a b r V e ->
  (forall p q x y, (p + q <= 2)%nat -> 0 <= x <= a -> 0 <= y <= b -> Rabs (W p q x y) <= M) -> (forall p q x y, (p + q <= 2)%nat -> 0 <= x <= a -> 0 <= y <= b -> Rabs (V p q x y) <= M) ->
  Rabs (entry (fun p q => ev (DD p q l)) (fun p q => ev (DD p q r)) - entry W V) <= a * b * (size * (e * (2 * M + 1))).
Proof.
  intros Dw Dv He Cl Cr MW MV. assert (Dl := ev_derivatives l). assert (Dr := ev_derivatives r). unfold entry. apply (over_close a b _ _ _ Ha Hb); [apply (en_cont _ _ _ _ Dl Dr)|apply (en_cont _ _ _ _ Dw Dv)|].
  intros x y Hx Hy.
  assert (Pr : forall p q p' q' c, (p + q <= 2)%nat -> (p' + q' <= 2)%nat ->
    Rabs (c * (ev (DD p q l) x y * ev (DD p' q' r) x y) - c * (W p q x y * V p' q' x y)) <= Rabs c * (e * (2 * M + 1))).
  { intros p q p' q' c Hpq Hrs. apply L_Limit.prod_close; [exact He|apply MW; assumption|apply MV; assumption|apply Cl; try assumption; lia|apply Cr; try assumption; lia]. }
  assert (Q1 := Pr 2%nat 0%nat 2%nat 0%nat (a11 D) ltac:(lia) ltac:(lia)). assert (Q2 := Pr 0%nat 2%nat 0%nat 2%nat (a22 D) ltac:(lia) ltac:(lia)). assert (Q3 := Pr 1%nat 1%nat 1%nat 1%nat (4 * a33 D) ltac:(lia) ltac:(lia)).
  assert (Q4 := Pr 2%nat 0%nat 0%nat 2%nat ((a12 D + a21 D) / 2) ltac:(lia) ltac:(lia)). assert (Q5 := Pr 0%nat 2%nat 2%nat 0%nat ((a12 D + a21 D) / 2) ltac:(lia) ltac:(lia)).
  assert (Q6 := Pr 2%nat 0%nat 1%nat 1%nat (a13 D + a31 D) ltac:(lia) ltac:(lia)). assert (Q7 := Pr 1%nat 1%nat 2%nat 0%nat (a13 D + a31 D) ltac:(lia) ltac:(lia)).
  assert (Q8 := Pr 0%nat 2%nat 1%nat 1%nat (a23 D + a32 D) ltac:(lia) ltac:(lia)). assert (Q9 := Pr 1%nat 1%nat 0%nat 2%nat (a23 D + a32 D) ltac:(lia) ltac:(lia)).
  assert (R1 := Pr 1%nat 0%nat 1%nat 0%nat (t * Nxx) ltac:(lia) ltac:(lia)). assert (R2 := Pr 0%nat 1%nat 0%nat 1%nat (t * Nyy) ltac:(lia) ltac:(lia)).
  assert (R3 := Pr 1%nat 0%nat 0%nat 1%nat (t * Nxy) ltac:(lia) ltac:(lia)). assert (R4 := Pr 0%nat 1%nat 1%nat 0%nat (t * Nxy) ltac:(lia) ltac:(lia)).
  unfold size, en_at. apply Rabs_le_between in Q1, Q2, Q3, Q4, Q5, Q6, Q7, Q8, Q9, R1, R2, R3, R4. apply Rabs_le_between. lra.
Qed.
End Form.
Lemma small_form j M d c : 0 <= d -> (forall i k, (i < j)%nat -> (k < j)%nat -> Rabs (M i k) <= d) -> Rabs (bil j M c c) <= d * (INR j * INR j) * sq j c.
Proof.
  intros Hd H. unfold bil. eapply Rle_trans; [apply sm_abs|].
  assert (Cn : forall z, sm j (fun _ => z) = INR j * z) by (intros z; clear; induction j as [|j IH]; [cbn; ring|]; cbn [sm]; rewrite IH, S_INR; ring).
  replace (d * (INR j * INR j) * sq j c) with (sm j (fun _ => sm j (fun _ => d * sq j c))) by (rewrite !Cn; ring).
  apply sm_le. intros i Hi. rewrite Rabs_mult. unfold app. eapply Rle_trans; [apply Rmult_le_compat_l; [apply Rabs_pos|apply sm_abs]|]. rewrite <- sm_scal. apply sm_le. intros k Hk. rewrite Rabs_mult.
  assert (Ai : c i * c i <= sq j c) by (apply (sm_le1 j (fun i => c i * c i)); [intros; apply Rle_0_sqr|exact Hi]).
  assert (Aj : c k * c k <= sq j c) by (apply (sm_le1 j (fun i => c i * c i)); [intros; apply Rle_0_sqr|exact Hk]).
  assert (Z : Rabs (c i) * Rabs (c k) <= sq j c).
  { assert (T := pow2_ge_0 (Rabs (c i) - Rabs (c k))). assert (Rabs (c i) * Rabs (c i) = c i * c i) by (rewrite <- Rabs_mult; apply Rabs_pos_eq, Rle_0_sqr).
    assert (Rabs (c k) * Rabs (c k) = c k * c k) by (rewrite <- Rabs_mult; apply Rabs_pos_eq, Rle_0_sqr). nra. }
  assert (Pg := Rabs_pos (M i k)). assert (Hm := H i k Hi Hk). assert (P1 : 0 <= Rabs (c i) * Rabs (c k)) by (apply Rmult_le_pos; apply Rabs_pos).
  replace (Rabs (c i) * (Rabs (M i k) * Rabs (c k))) with (Rabs (M i k) * (Rabs (c i) * Rabs (c k))) by ring. apply Rmult_le_compat; assumption.
Qed.

(** ** spaces of deflections *)
Lemma blend_cf cs ws : List.length cs = List.length ws -> blend cs ws = cf (List.length ws) (fn cs) (fun k => nth k ws (fun _ _ => 0)).
Proof.
  intros L. apply functional_extensionality; intros x; apply functional_extensionality; intros y. unfold blend, cf. revert ws L. induction cs as [|c cs IH]; intros [|w ws] L; try discriminate L; [reflexivity|].
  cbn [map2 rsum List.length]. rewrite sm_shift, IH by (cbn in L; lia). reflexivity.
Qed.
Lemma nth_map_seq {X} (f : nat -> X) j d k : (k < j)%nat -> nth k (map f (seq 0 j)) d = f k.
Proof. intros Hk. rewrite (nth_indep _ d (f 0%nat)) by (rewrite map_length, seq_length; exact Hk). rewrite map_nth, seq_nth by exact Hk. reflexivity. Qed.
Section Spaces.
Variables (D : mat3) (a b Nxx Nyy Nxy : R) (c0 ca d0 db : condition) (Ha : 0 < a) (Hb : 0 < b) (Sy : symmetric D) (PD : pos_def D) (Rs : restrained c0 ca d0 db).
Notation defl := (deflection a b c0 ca d0 db).
Notation bend w := (bending D a b w w).
Notation work w := (load_work Nxx Nyy Nxy a b w w).
Notation un := (unstable_plate D a b Nxx Nyy Nxy c0 ca d0 db).
Definition pfam (t : R) (j : nat) (w : nat -> field) : Prop := (forall k, (k < j)%nat -> defl (w k)) /\ forall c, nz j c -> bend (cf j c w) + t * work (cf j c w) < 0.
Lemma cf_ext j c c' w w' : (forall k, (k < j)%nat -> c k = c' k) -> (forall k, (k < j)%nat -> w k = w' k) -> cf j c w = cf j c' w'.
Proof. intros H H'. apply functional_extensionality; intros x; apply functional_extensionality; intros y. unfold cf. apply sm_ext. intros k Hk. rewrite H, H' by exact Hk. reflexivity. Qed.
Lemma unstable_pfam t j : un t j <-> exists w, pfam t j w.
Proof.
  split.
  - intros (ws & L & F & H). exists (fun k => nth k ws (fun _ _ => 0)). split.
    + intros k Hk. rewrite Forall_forall in F. apply F, nth_In. lia.
    + intros c Nc. specialize (H (ls j c) (ls_length j c)). cbv zeta in H. rewrite blend_cf in H by (rewrite ls_length; lia). rewrite L in H.
      rewrite (cf_ext j (fn (ls j c)) c _ (fun k => nth k ws (fun _ _ => 0))) in H by (intros; try apply fn_ls; auto). apply H.
      apply (nonzero_nz j); [apply ls_length|]. apply (nz_ext j c); [|exact Nc]. intros; symmetry; apply fn_ls; assumption.
  - intros (w & F & H). exists (map w (seq 0 j)). split; [rewrite map_length, seq_length; reflexivity|]. split.
    + apply Forall_forall. intros v Hv. apply in_map_iff in Hv. destruct Hv as (k & <- & Hk). apply in_seq in Hk. apply F. lia.
    + intros cs Lc Nc. cbv zeta. rewrite blend_cf by (rewrite map_length, seq_length; exact Lc). rewrite map_length, seq_length.
      rewrite (cf_ext j (fn cs) (fn cs) _ w) by (intros; try apply nth_map_seq; auto). apply H. apply (nonzero_nz j); assumption.
Qed.
Lemma defl_cf j c w : (forall k, (k < j)%nat -> defl (w k)) -> defl (cf j c w).
Proof.
  intros H. destruct (choose (fun _ _ _ _ => 0) j (fun k W => derivatives (w k) W) (fun k Hk => proj1 (H k Hk))) as (W & HW). split; [exists (cW j c W); apply derivs_cf, HW|].
  assert (Dc := derivs_cf j c w W HW). assert (X : forall x y, dx (cf j c w) x y = sm j (fun k => c k * dx (w k) x y)).
  { intros x y. rewrite (d_x _ _ Dc). unfold cW. apply sm_ext. intros k Hk. rewrite (d_x _ _ (HW k Hk)). reflexivity. }
  assert (Y : forall x y, dy (cf j c w) x y = sm j (fun k => c k * dy (w k) x y)).
  { intros x y. rewrite (d_y _ _ Dc). unfold cW. apply sm_ext. intros k Hk. rewrite (d_y _ _ (HW k Hk)). reflexivity. }
  assert (Z : forall f : nat -> R, (forall k, (k < j)%nat -> f k = 0) -> sm j (fun k => c k * f k) = 0) by (intros f Hf; apply sm_zero; intros k Hk; rewrite Hf by exact Hk; ring).
  constructor; intros s Hs; split; intros Q; rewrite ?X, ?Y; try (unfold cf); apply Z; intros k Hk; destruct (proj2 (H k Hk)) as [K1 K2 K3 K4];
    [apply (K1 s Hs)|apply (K1 s Hs)|apply (K2 s Hs)|apply (K2 s Hs)|apply (K3 s Hs)|apply (K3 s Hs)|apply (K4 s Hs)|apply (K4 s Hs)]; exact Q.
Qed.
Lemma pfam_up t t' j w : 0 <= t -> t <= t' -> pfam t j w -> pfam t' j w.
Proof.
  intros Ht Le (F & H). split; [exact F|]. intros c Nc. specialize (H c Nc). assert (B := bend_nonneg D a b c0 ca d0 db Ha Hb PD _ (defl_cf j c w F)).
  set (g := work (cf j c w)) in *. assert (t * g < 0) by lra. assert (g < 0) by nra. assert (t' * g <= t * g) by nra. lra.
Qed.
Lemma forms j w : (forall k, (k < j)%nat -> defl (w k)) -> exists W, (forall k, (k < j)%nat -> derivatives (w k) (W k)) /\ forall t c, bend (cf j c w) + t * work (cf j c w) = bil j (fun i k => entry D a b Nxx Nyy Nxy t (W i) (W k)) c c.
Proof.
  intros F. destruct (choose (fun _ _ _ _ => 0) j (fun k W => derivatives (w k) W) (fun k Hk => proj1 (F k Hk))) as (W & HW). exists W. split; [exact HW|]. intros t c. apply (en_form D a b Nxx Nyy Nxy t Hb j c w W HW).
Qed.
Lemma neg_uniform j M : symf j M -> (forall c, nz j c -> bil j M c c < 0) -> exists u, 0 < u /\ forall c, bil j M c c <= - u * sq j c.
Proof.
  intros S H. destruct (uniform j (fun i k => -1 * M i k)) as (u & Pu & Hu).
  - intros i k Hi Hk. rewrite (S i k Hi Hk). reflexivity.
  - intros c Nc. rewrite <- bil_sc. specialize (H c Nc). lra.
  - exists u. split; [exact Pu|]. intros c. specialize (Hu c). rewrite <- bil_sc in Hu. lra.
Qed.
(** a space of deflections with negative energy has polynomial neighbours *)
Lemma poly_near t j w : pfam t j w -> exists l, (forall k, (k < j)%nat -> fits a b c0 ca d0 db (ev (l k))) /\ forall c, nz j c -> bend (cf j c (fun k => ev (l k))) + t * work (cf j c (fun k => ev (l k))) < 0.
Proof.
  intros (F & H). destruct (forms j w F) as (W & HW & E0). assert (E := E0 t). clear E0. set (Em := fun i k => entry D a b Nxx Nyy Nxy t (W i) (W k)) in *.
  destruct (neg_uniform j Em) as (u & Pu & Hu); [intros i k _ _; exact (entry_sym D a b Nxx Nyy Nxy t (W i) (W k))|intros c Nc; exact (eq_ind _ (fun z => z < 0) (H c Nc) _ (E c))|].
  destruct (bound_all j (fun k M => forall p q x y, (p + q <= 2)%nat -> 0 <= x <= a -> 0 <= y <= b -> Rabs (W k p q x y) <= M)) as (M & PM & HM).
  { intros k x y Q Le p q x' y' Hpq Hx Hy. specialize (Q p q x' y' Hpq Hx Hy). lra. }
  { intros k Hk. destruct (W_bounded (w k) (W k) (HW k Hk) a b Ha Hb) as (M & _ & Q). exists M. exact Q. }
  set (s := size D Nxx Nyy Nxy t). assert (Ps : 0 <= s) by (unfold s, size; repeat match goal with |- context[Rabs ?z] => let q := fresh in assert (q := Rabs_pos z); revert q; generalize (Rabs z); intros end; lra).
  set (C := a * b * (s * (2 * M + 1)) * (INR j * INR j)). assert (PC : 0 <= C).
  { unfold C. assert (X := pos_INR j). repeat apply Rmult_le_pos; lra. }
  set (e := Rmin 1 (u / (2 * (C + 1)))). assert (Pe : 0 < e) by (apply Rmin_pos; [lra|apply Rdiv_lt_0_compat; lra]). assert (M1 := Rmin_l 1 (u / (2 * (C + 1)))). assert (M2 := Rmin_r 1 (u / (2 * (C + 1)))). fold e in M1, M2.
  destruct (choose [] j (fun k l => close a b l (W k) e /\ fits a b c0 ca d0 db (ev l))) as (l & Hl).
  { intros k Hk. apply (approx a b c0 ca d0 db (w k) (W k) e Ha Hb (HW k Hk) (proj2 (F k Hk)) Pe). }
  exists l. split; [intros k Hk; apply (Hl k Hk)|]. intros c Nc.
  rewrite (en_form D a b Nxx Nyy Nxy t Hb j c (fun k => ev (l k)) (fun k p q => ev (DD p q (l k))) (fun k _ => ev_derivatives (l k))).
  set (Fm := fun i k => entry D a b Nxx Nyy Nxy t (fun p q => ev (DD p q (l i))) (fun p q => ev (DD p q (l k)))).
  assert (Q := small_form j (fun i k => -1 * Em i k + Fm i k) (a * b * (s * (e * (2 * M + 1)))) c).
  assert (P1 : 0 <= a * b * (s * (e * (2 * M + 1)))) by (repeat apply Rmult_le_pos; lra).
  specialize (Q P1). lapply Q.
  - clear Q. intros Q. rewrite <- (bil_plus j (fun i k => -1 * Em i k) Fm), <- bil_sc in Q. specialize (Hu c). assert (Sq := sq_pos j c Nc).
    replace (a * b * (s * (e * (2 * M + 1))) * (INR j * INR j)) with (C * e) in Q by (unfold C; ring).
    assert (C * e <= u / 2).
    { assert (T : (C + 1) * e <= (C + 1) * (u / (2 * (C + 1)))) by (apply Rmult_le_compat_l; lra). replace ((C + 1) * (u / (2 * (C + 1)))) with (u / 2) in T by (field; lra). lra. }
    apply Rabs_le_between in Q. assert (C * e * sq j c <= u / 2 * sq j c) by (apply Rmult_le_compat_r; lra). assert (0 < u * sq j c) by (apply Rmult_lt_0_compat; assumption). lra.
  - intros i k Hi Hk. replace (-1 * Em i k + Fm i k) with (Fm i k - Em i k) by ring. apply (entry_close D a b Nxx Nyy Nxy t Ha Hb (w i) (W i) (w k) (W k) (l i) (l k) M e); [apply HW, Hi|apply HW, Hk|lra|apply Hl, Hi|apply Hl, Hk|apply HM, Hi|apply HM, Hk].
Qed.
End Spaces.

(** ** combinations of shape functions *)
Lemma combine_sm a b x y : forall idx v, List.length v = List.length idx ->
  combine_shapes a b idx v x y = sm (List.length idx) (fun k => fn v k * shape a b (fst (nth k idx (0, 0)%nat)) (snd (nth k idx (0, 0)%nat)) x y).
Proof.
  induction idx as [|z idx IH]; intros [|r v] L; try discriminate L; [reflexivity|]. cbn [List.length]. rewrite sm_shift, (combine_cons a b z idx r v), IH by (cbn in L; lia). reflexivity.
Qed.
Lemma combine_cf a b idx j c w : combine_shapes a b idx (ls (List.length idx) (comb j c w)) = cf j c (fun k => combine_shapes a b idx (ls (List.length idx) (w k))).
Proof.
  apply functional_extensionality; intros x; apply functional_extensionality; intros y. unfold cf. rewrite combine_sm by apply ls_length.
  rewrite (sm_ext j _ (fun k => sm (List.length idx) (fun i => c k * (w k i * shape a b (fst (nth i idx (0, 0)%nat)) (snd (nth i idx (0, 0)%nat)) x y)))).
  - rewrite sm_swap. apply sm_ext. intros i Hi. rewrite fn_ls by exact Hi. unfold comb. rewrite Rmult_comm, <- sm_scal. apply sm_ext. intros; ring.
  - intros k Hk. rewrite combine_sm by apply ls_length. rewrite <- sm_scal. apply sm_ext. intros i Hi. rewrite fn_ls by exact Hi. reflexivity.
Qed.
Lemma shape_deflection D a b Nxx Nyy Nxy c c0 ca d0 db m n idx K KG cw : plate_any D a b c c0 ca d0 db -> view D a b Nxx Nyy Nxy c m n idx K KG -> List.length cw = (m * n)%nat -> deflection a b c0 ca d0 db (combine_shapes a b (sw_idx idx) cw).
Proof.
  intros Pk V Lc. set (M := (m + 4)%nat). set (N := (n + 4)%nat).
  destruct (t_C34_index_sets c c0 ca d0 db m n (any_edges _ _ _ _ _ _ _ _ Pk)) as (idx' & fx & fy & E' & Fx & Fy & _ & _ & RM & _). rewrite (v_idx _ _ _ _ _ _ _ _ _ _ _ _ V) in E'. injection E' as <-.
  assert (Ad : forall p, In p (sw_idx idx) -> S_Plate.admissible c0 ca (fst p) /\ S_Plate.admissible d0 db (snd p)).
  { intros [i j] I. destruct (row_major_in _ _ _ _ _ RM I) as [Ix Iy]. destruct Fx as (_ & _ & Px & _). destruct Fy as (_ & _ & Py & _). rewrite Forall_forall in Px, Py. split; [apply Px, Ix|apply Py, Iy]. }
  assert (Bx := admissible_below _ _ _ _ Fx). assert (By := admissible_below _ _ _ _ Fy). rewrite Forall_forall in Bx, By.
  assert (T2 : forall e, (taken e <= 2)%nat) by (intros [| |]; cbn; lia).
  assert (Bi : bipoly M N (combine_shapes a b (sw_idx idx) cw)).
  { destruct Pk as [Ha Hb _ _ _ _]. apply (bipoly_ext _ _ (fun x y => T_Shape.defl (sw_idx idx) cw (2 / a * x + -1) (2 / b * y + -1))).
    - intros x y. rewrite combine_defl. f_equal; field; lra.
    - apply (bipoly_affine _ _ (2 / a) (-1) (2 / b) (-1) (T_Shape.defl (sw_idx idx) cw)). apply defl_bipoly; [unfold M; lia|unfold N; lia|].
      intros [i j] I. destruct (row_major_in _ _ _ _ _ RM I) as [Ix Iy]. specialize (Bx i Ix). specialize (By j Iy). cbv beta in Bx, By. cbn. assert (X1 := T2 c0). assert (X2 := T2 ca). assert (X3 := T2 d0). assert (X4 := T2 db). unfold M, N. lia. }
  destruct (bipoly_ev _ _ _ Bi) as (t & Et). rewrite Et. apply ev_deflection. rewrite <- Et. destruct Pk as [Ha Hb _ _ _ _].
  constructor; split; intros Hh s.
  + eapply edge_x0; eassumption.
  + eapply slope_x0; eassumption.
  + eapply edge_xa; eassumption.
  + eapply slope_xa; eassumption.
  + eapply edge_y0; eassumption.
  + eapply slope_y0; eassumption.
  + eapply edge_yb; eassumption.
  + eapply slope_yb; eassumption.
Qed.
Lemma factor_space D a b Nxx Nyy Nxy c c0 ca d0 db m n fs j l t : plate_any D a b c c0 ca d0 db -> lowest_factors D a b Nxx Nyy Nxy c m n fs -> nth_error fs j = Some l -> l < t ->
  0 < l /\ unstable_plate D a b Nxx Nyy Nxy c0 ca d0 db t (Datatypes.S j).
Proof.
  intros Pk Lw Hj Ht. destruct (look_any D a b Nxx Nyy Nxy c c0 ca d0 db m n Pk) as (idx & K & KG & V). apply (lowest_view _ _ _ _ _ _ _ _ _ _ _ _ _ V) in Lw. assert (Pn := v_pen _ _ _ _ _ _ _ _ _ _ _ _ V).
  assert (Hl : 0 < l). { destruct (lowest_low K KG fs Pn Lw) as (_ & _ & Q). destruct (fn_error _ _ _ Hj) as (Hx & <-). apply Q, Hx. } split; [exact Hl|].
  destruct (t_C91_minmax K KG fs j l Pn Lw Hj) as (U & _). apply (unstable_fam K KG l _ Pn) in U. destruct U as (w & F). rewrite (v_len _ _ _ _ _ _ _ _ _ _ _ _ V) in F.
  assert (LN := v_w _ _ _ _ _ _ _ _ _ _ _ _ V). destruct (pencil_parts K KG Pn) as [_ _ _ _ PM]. rewrite (v_len _ _ _ _ _ _ _ _ _ _ _ _ V) in PM.
  apply unstable_pfam. exists (fun k => combine_shapes a b (sw_idx idx) (ls (m * n) (w k))). split.
  - intros k Hk. apply (shape_deflection _ _ _ _ _ _ _ _ _ _ _ _ _ _ _ _ _ Pk V), ls_length.
  - intros q Nq. destruct (F q Nq) as (Nx & Ex). rewrite <- LN, <- combine_cf, LN. set (x := comb (Datatypes.S j) q w) in *.
    assert (E := view_bil D a b Nxx Nyy Nxy c m n idx K KG t x V). cbv zeta in E. rewrite <- E. rewrite bil_pen in Ex |- *. specialize (PM x Nx). set (g := bil (m * n) (fm KG) x x) in *. assert (g < 0) by nra. nra.
Qed.
(** conversely, a space of deflections is found by enough functions *)
Lemma space_factors D a b Nxx Nyy Nxy c c0 ca d0 db t j : plate_any D a b c c0 ca d0 db -> 0 < t -> unstable_plate D a b Nxx Nyy Nxy c0 ca d0 db t j ->
  exists M, forall m n, (M <= m)%nat -> (M <= n)%nat -> exists fs, lowest_factors D a b Nxx Nyy Nxy c m n fs /\ List.length fs = j /\ Forall (fun l => l <= t) fs.
Proof.
  intros Pk Ht U. apply unstable_pfam in U. destruct U as (w & F). assert (Ha := any_a _ _ _ _ _ _ _ _ Pk). assert (Hb := any_b _ _ _ _ _ _ _ _ Pk).
  destruct (poly_near D a b Nxx Nyy Nxy c0 ca d0 db Ha Hb t j w F) as (l & Fl & Hl).
  destruct (nat_all j (fun k M => bipoly M M (ev (l k)))) as (M & HM).
  { intros k x y B Le. apply (bipoly_mono x x); assumption. }
  { intros k _. apply ev_bipoly. }
  exists (M + 4)%nat. intros m n Hm Hn. destruct (look_any D a b Nxx Nyy Nxy c c0 ca d0 db m n Pk) as (idx & K & KG & V).
  assert (PS := plate_space a b c c0 ca d0 db m n idx Ha Hb (any_edges _ _ _ _ _ _ _ _ Pk) (v_idx _ _ _ _ _ _ _ _ _ _ _ _ V) ltac:(lia) ltac:(lia)).
  destruct (choose [] j (fun k cw => List.length cw = (m * n)%nat /\ ev (l k) = combine_shapes a b (sw_idx idx) cw)) as (cw & Hc).
  { intros k Hk. apply (proj1 (PS (ev (l k)))). split; [apply (bipoly_mono M M); [lia|lia|apply HM, Hk]|apply Fl, Hk]. }
  assert (Pn := v_pen _ _ _ _ _ _ _ _ _ _ _ _ V). assert (LN := v_w _ _ _ _ _ _ _ _ _ _ _ _ V).
  assert (Un : unstable K KG t j).
  { apply (unstable_fam K KG t j Pn). exists (fun k => fn (cw k)). rewrite (v_len _ _ _ _ _ _ _ _ _ _ _ _ V). intros q Nq. specialize (Hl q Nq).
    assert (E := view_bil D a b Nxx Nyy Nxy c m n idx K KG t (comb j q (fun k => fn (cw k))) V). cbv zeta in E. rewrite <- LN, combine_cf, LN in E.
    rewrite (cf_ext j q q (fun k => combine_shapes a b (sw_idx idx) (ls (m * n) (fn (cw k)))) (fun k => ev (l k))) in E.
    - split; [|rewrite E; lra]. apply NNPP. intros Nz. set (x := comb j q (fun k => fn (cw k))) in *. assert (Z : bil (m * n) (pen (fm K) (fm KG) t) x x = 0); [|lra].
      unfold bil. apply sm_zero. intros i Hi. destruct (Req_dec (x i) 0) as [->|Hx]; [ring|]. exfalso. apply Nz. exists i. split; assumption.
    - reflexivity.
    - intros k Hk. destruct (Hc k Hk) as (Lc & ->). f_equal. apply (list_fn _ _ (m * n)); [apply ls_length|exact Lc|]. intros; apply fn_ls; assumption. }
  destruct (t_C91_exists K KG t j Pn Ht Un) as (fs & Lf & Ln & Ff). exists fs. split; [apply (lowest_view _ _ _ _ _ _ _ _ _ _ _ _ _ V), Lf|]. split; assumption.
Qed.

(*@ C92: no factor of the buckling analysis is on the unsafe side of the continuous plate: the one in place j, counted from 0, is never below the multiplier of the
    loads up to which no space of j + 1 dimensions of smooth deflections has negative energy. @*)
Lemma t_C92_above : forall (D : mat3) a b Nxx Nyy Nxy c c0 ca d0 db m n fs j L l, plate_any D a b c c0 ca d0 db ->
  higher_limit D a b Nxx Nyy Nxy c0 ca d0 db (Datatypes.S j) L -> lowest_factors D a b Nxx Nyy Nxy c m n fs -> nth_error fs j = Some l -> L <= l.
Proof.
  intros D a b Nxx Nyy Nxy c c0 ca d0 db m n fs j L l Pk (HL & Nu & _) Lw Hj. destruct (Rle_lt_dec L l) as [Q|Q]; [exact Q|exfalso].
  destruct (factor_space _ _ _ _ _ _ _ _ _ _ _ _ _ _ _ _ ((l + L) / 2) Pk Lw Hj ltac:(lra)) as (Hl & U). apply (Nu ((l + L) / 2)); [lra|exact U].
Qed.
(*@ C92: convergence of all the factors: with enough functions in both directions the analysed plate has as many positive factors as limits are given, and each
    is as close to its limit as wanted. @*)
Lemma t_C92_converges : forall (D : mat3) a b Nxx Nyy Nxy c c0 ca d0 db Ls eps, plate_any D a b c c0 ca d0 db ->
  higher_limits D a b Nxx Nyy Nxy c0 ca d0 db Ls -> 0 < eps ->
  exists M, forall m n, (M <= m)%nat -> (M <= n)%nat -> exists fs, lowest_factors D a b Nxx Nyy Nxy c m n fs /\ Forall2 (fun L l => L <= l < L + eps) Ls fs.
Proof.
  intros D a b Nxx Nyy Nxy c c0 ca d0 db Ls eps Pk HL He.
  destruct (nat_all (List.length Ls) (fun j M => forall m n, (M <= m)%nat -> (M <= n)%nat -> exists fs, lowest_factors D a b Nxx Nyy Nxy c m n fs /\ List.length fs = Datatypes.S j /\ Forall (fun l => l < fn Ls j + eps) fs)) as (M & HM).
  { intros k x y Q Le m n Hm Hn. apply Q; lia. }
  { intros j Hj. assert (Ej : nth_error Ls j = Some (fn Ls j)) by (apply nth_error_nth'; exact Hj). destruct (HL j _ Ej) as (P & _ & U).
    assert (P2 : 0 < fn Ls j + eps / 2) by lra. destruct (space_factors D a b Nxx Nyy Nxy c c0 ca d0 db (fn Ls j + eps / 2) (Datatypes.S j) Pk P2 (U (fn Ls j + eps / 2) ltac:(lra))) as (M & HM). exists M. intros m n Hm Hn. destruct (HM m n Hm Hn) as (fs & Q1 & Q2 & Q3). exists fs. split; [exact Q1|]. split; [exact Q2|].
    eapply Forall_impl; [|exact Q3]. cbn. intros; lra. }
  exists M. intros m n Hm Hn. destruct (look_any D a b Nxx Nyy Nxy c c0 ca d0 db m n Pk) as (idx & K & KG & V). assert (Pn := v_pen _ _ _ _ _ _ _ _ _ _ _ _ V).
  destruct (List.length Ls) as [|p] eqn:Lp.
  - destruct Ls; [|discriminate]. exists []. split; [|constructor]. apply (lowest_view _ _ _ _ _ _ _ _ _ _ _ _ _ V). exists []. split; [reflexivity|]. split; [intros i ? ? H; destruct i; discriminate|]. split; [intros i ? ? ? _ H; destruct i; discriminate|]. split; [constructor|]. intros ? ? _ _ _ ? [].
  - destruct (HM p ltac:(lia) m n Hm Hn) as (fs & Lf & Ln & _). exists fs. split; [exact Lf|].
    assert (X : forall j, (j < Datatypes.S p)%nat -> fn Ls j <= fn fs j < fn Ls j + eps).
    { intros j Hj. assert (Ej : nth_error Ls j = Some (fn Ls j)) by (apply nth_error_nth'; lia). assert (Fj : nth_error fs j = Some (fn fs j)) by (apply nth_error_nth'; lia).
      split; [apply (t_C92_above D a b Nxx Nyy Nxy c c0 ca d0 db m n fs j _ _ Pk (HL j _ Ej) Lf Fj)|].
      destruct (HM j Hj m n Hm Hn) as (gs & Lg & Lj & Fg). assert (Gj : nth_error gs j = Some (fn gs j)) by (apply nth_error_nth'; lia).
      apply (lowest_view _ _ _ _ _ _ _ _ _ _ _ _ _ V) in Lf, Lg. rewrite (t_C91_unique K KG fs gs j _ _ Pn Lf Lg Fj Gj). rewrite Forall_forall in Fg. apply Fg. apply nth_In. lia. }
    clear - X Ln Lp. revert fs Ln X. generalize dependent (Datatypes.S p). clear p. induction Ls as [|x Ls IH]; intros q Lf [|y fs'] Ln X; cbn in *; try lia; [constructor|]. constructor; [apply (X 0%nat); lia|].
    apply (IH (q - 1)%nat); [lia|lia|]. intros j Hj. apply (X (Datatypes.S j)). lia.
Qed.
Section More.
Variables (D : mat3) (a b Nxx Nyy Nxy : R) (c0 ca d0 db : condition) (Ha : 0 < a) (Hb : 0 < b) (Sy : symmetric D) (PD : pos_def D) (Rs : restrained c0 ca d0 db).
Notation defl := (deflection a b c0 ca d0 db).
Notation bend w := (bending D a b w w).
Notation work w := (load_work Nxx Nyy Nxy a b w w).
Notation fam t := (pfam D a b Nxx Nyy Nxy c0 ca d0 db t).
Lemma driven_fam j : driven a b Nxx Nyy Nxy c0 ca d0 db j <-> exists w, (forall k, (k < j)%nat -> defl (w k)) /\ forall c, nz j c -> work (cf j c w) < 0.
Proof.
  split.
  - intros (ws & L & F & H). exists (fun k => nth k ws (fun _ _ => 0)). split.
    + intros k Hk. rewrite Forall_forall in F. apply F, nth_In. lia.
    + intros c Nc. specialize (H (ls j c) (ls_length j c)). rewrite blend_cf in H by (rewrite ls_length; lia). rewrite L in H.
      rewrite (cf_ext j (fn (ls j c)) c _ (fun k => nth k ws (fun _ _ => 0))) in H by (intros; try apply fn_ls; auto). apply H.
      apply (nonzero_nz j); [apply ls_length|]. apply (nz_ext j c); [|exact Nc]. intros; symmetry; apply fn_ls; assumption.
  - intros (w & F & H). exists (map w (seq 0 j)). split; [rewrite map_length, seq_length; reflexivity|]. split.
    + apply Forall_forall. intros v Hv. apply in_map_iff in Hv. destruct Hv as (k & <- & Hk). apply in_seq in Hk. apply F. lia.
    + intros cs Lc Nc. rewrite blend_cf by (rewrite map_length, seq_length; exact Lc). rewrite map_length, seq_length.
      rewrite (cf_ext j (fn cs) (fn cs) _ w) by (intros; try apply nth_map_seq; auto). apply H. apply (nonzero_nz j); assumption.
Qed.
Lemma fam_work t j w : 0 <= t -> fam t j w -> forall c, nz j c -> work (cf j c w) < 0.
Proof.
  intros Ht (F & H) c Nc. specialize (H c Nc). assert (B := bend_nonneg D a b c0 ca d0 db Ha Hb PD _ (defl_cf a b c0 ca d0 db j c w F)). set (g := work (cf j c w)) in *. nra.
Qed.
Lemma fam_restrict t j j' w : (j <= j')%nat -> fam t j' w -> fam t j w.
Proof.
  intros Le (F & H). split; [intros k Hk; apply F; lia|]. intros c (i & Hi & Ni). set (c' := fun k => if Nat.ltb k j then c k else 0).
  assert (E : cf j c w = cf j' c' w).
  { apply functional_extensionality; intros x; apply functional_extensionality; intros y. unfold cf. replace j' with (j + (j' - j))%nat by lia. induction (j' - j)%nat as [|d IH].
    - rewrite Nat.add_0_r. apply sm_ext. intros k Hk. unfold c'. destruct (Nat.ltb_spec k j); [reflexivity|lia].
    - rewrite Nat.add_succ_r. cbn [sm]. rewrite <- IH. unfold c'. destruct (Nat.ltb_spec (j + d) j); [lia|]. ring. }
  rewrite E. apply H. exists i. split; [lia|]. unfold c'. destruct (Nat.ltb_spec i j); [exact Ni|lia].
Qed.
Lemma driven_unstable j w : (forall k, (k < j)%nat -> defl (w k)) -> (forall c, nz j c -> work (cf j c w) < 0) -> exists t, 0 < t /\ fam t j w.
Proof.
  intros F H. destruct (forms D a b Nxx Nyy Nxy c0 ca d0 db Hb j w F) as (W & HW & E).
  set (E0 := fun i k => entry D a b Nxx Nyy Nxy 0 (W i) (W k)). set (E1 := fun i k => entry D a b Nxx Nyy Nxy 1 (W i) (W k)).
  assert (B : forall c, bend (cf j c w) = bil j E0 c c) by (intros c; assert (X := E 0 c); fold E0 in X; lra).
  assert (G : forall c, work (cf j c w) = bil j (fun i k => E1 i k + -1 * E0 i k) c c).
  { intros c. rewrite <- (bil_plus j E1 (fun i k => -1 * E0 i k)), <- bil_sc. assert (X := E 1 c). assert (Y := E 0 c). fold E0 in Y. fold E1 in X. lra. }
  destruct (neg_uniform j (fun i k => E1 i k + -1 * E0 i k)) as (u & Pu & Hu).
  - intros i k _ _. f_equal; [apply (entry_sym D a b Nxx Nyy Nxy 1 (W i) (W k))|f_equal; apply (entry_sym D a b Nxx Nyy Nxy 0 (W i) (W k))].
  - intros c Nc. assert (X := H c Nc). rewrite G in X. exact X.
  - destruct (L_Quad.bounded j E0) as (C & PC & HC). exists (C / u + 1). assert (Q : 0 <= C / u) by (apply Rmult_le_pos; [exact PC|left; apply Rinv_0_lt_compat, Pu]). split; [lra|]. split; [exact F|].
    intros c Nc. rewrite B, G. specialize (HC c). specialize (Hu c). assert (S := sq_pos j c Nc). apply Rabs_le_between in HC. set (g := bil j (fun i k => E1 i k + -1 * E0 i k) c c) in *.
    assert (X : (C / u + 1) * g <= (C / u + 1) * (- u * sq j c)) by (apply Rmult_le_compat_l; lra). replace ((C / u + 1) * (- u * sq j c)) with (- C * sq j c - u * sq j c) in X by (field; lra). assert (0 < u * sq j c) by (apply Rmult_lt_0_compat; assumption). lra.
Qed.
Lemma never_small : exists t0, 0 < t0 /\ forall t j w, 0 <= t <= t0 -> ~ fam t (Datatypes.S j) w.
Proof.
  destruct (work_small D a b Nxx Nyy Nxy c0 ca d0 db Ha Hb Sy PD Rs) as (C & PC & HC). exists (/ C). split; [apply Rinv_0_lt_compat, PC|]. intros t j w Ht (F & H).
  set (c := fun _ : nat => 1). assert (Nc : nz (Datatypes.S j) c) by (exists 0%nat; split; [lia|unfold c; lra]). specialize (H c Nc). assert (Df := defl_cf a b c0 ca d0 db _ c w F).
  assert (B := bend_nonneg D a b c0 ca d0 db Ha Hb PD _ Df). specialize (HC _ Df). set (g := work (cf (Datatypes.S j) c w)) in *. set (e := bend (cf (Datatypes.S j) c w)) in *.
  assert (g < 0) by nra. assert (X : / C * g <= t * g) by nra. assert (Y : / C * - g <= / C * (C * e)) by (apply Rmult_le_compat_l; [left; apply Rinv_0_lt_compat, PC|exact HC]). rewrite <- Rmult_assoc, Rinv_l, Rmult_1_l in Y by lra. lra.
Qed.
End More.
(*@ C92: the limit for j + 1 dimensions exists exactly when the loads do work on a space of j + 1 dimensions, there is only one, and the limits ascend with the
    dimension. @*)
Lemma t_C92_exists : forall (D : mat3) a b Nxx Nyy Nxy c0 ca d0 db, 0 < a -> 0 < b -> symmetric D -> pos_def D -> restrained c0 ca d0 db ->
  (forall j, (exists L, higher_limit D a b Nxx Nyy Nxy c0 ca d0 db (Datatypes.S j) L) <-> driven a b Nxx Nyy Nxy c0 ca d0 db (Datatypes.S j)) /\
  (forall j j' L L', (j <= j')%nat -> higher_limit D a b Nxx Nyy Nxy c0 ca d0 db j L -> higher_limit D a b Nxx Nyy Nxy c0 ca d0 db j' L' -> L <= L') /\
  (forall j L L', higher_limit D a b Nxx Nyy Nxy c0 ca d0 db j L -> higher_limit D a b Nxx Nyy Nxy c0 ca d0 db j L' -> L = L').
Proof.
  intros D a b Nxx Nyy Nxy c0 ca d0 db Ha Hb Sy PD Rs.
  assert (Or : forall j j' L L', (j <= j')%nat -> higher_limit D a b Nxx Nyy Nxy c0 ca d0 db j L -> higher_limit D a b Nxx Nyy Nxy c0 ca d0 db j' L' -> L <= L').
  { intros j j' L L' Le (HL & Nn & Up) (HL' & Nn' & Up'). destruct (Rle_lt_dec L L') as [Q|Q]; [exact Q|exfalso]. apply (Nn ((L + L') / 2)); [lra|].
    assert (U := Up' ((L + L') / 2) ltac:(lra)). apply unstable_pfam in U. destruct U as (w & F). apply unstable_pfam. exists w. apply (fam_restrict _ _ _ _ _ _ _ _ _ _ _ j j' w Le F). }
  split; [|split; [exact Or|]].
  - intros j. split.
    + intros (L & HL & Nn & Up). assert (U := Up (L + 1) ltac:(lra)). apply unstable_pfam in U. destruct U as (w & F). apply (driven_fam a b Nxx Nyy Nxy c0 ca d0 db). exists w. split; [apply F|].
      apply (fam_work D a b Nxx Nyy Nxy c0 ca d0 db Ha Hb PD (L + 1) _ w ltac:(lra) F).
    + intros Dr. apply driven_fam in Dr. destruct Dr as (w & F & G). destruct (driven_unstable D a b Nxx Nyy Nxy c0 ca d0 db Hb _ w F G) as (t1 & Pt1 & F1).
      destruct (never_small D a b Nxx Nyy Nxy c0 ca d0 db Ha Hb Sy PD Rs) as (t0 & Pt0 & H0).
      set (E := fun t => 0 <= t /\ ~ unstable_plate D a b Nxx Nyy Nxy c0 ca d0 db t (Datatypes.S j)).
      assert (Up : forall t t', 0 <= t -> t <= t' -> unstable_plate D a b Nxx Nyy Nxy c0 ca d0 db t (Datatypes.S j) -> unstable_plate D a b Nxx Nyy Nxy c0 ca d0 db t' (Datatypes.S j)).
      { intros t t' Ht Le U. apply unstable_pfam in U. destruct U as (v & Fv). apply unstable_pfam. exists v. apply (pfam_up D a b Nxx Nyy Nxy c0 ca d0 db Ha Hb PD t t' _ v Ht Le Fv). }
      assert (In0 : E t0). { split; [lra|]. intros U. apply unstable_pfam in U. destruct U as (v & Fv). apply (H0 t0 j v ltac:(lra) Fv). }
      assert (Bd : is_upper_bound E t1).
      { intros t [Ht Nu]. destruct (Rle_lt_dec t t1) as [Q|Q]; [exact Q|exfalso]. apply Nu, (Up t1 t); [lra|lra|]. apply unstable_pfam. exists w. exact F1. }
      destruct (completeness E (ex_intro _ _ Bd) (ex_intro _ _ In0)) as (L & Ub & Lst). assert (PL : 0 < L) by (eapply Rlt_le_trans; [apply Pt0|apply Ub, In0]).
      exists L. split; [exact PL|]. split.
      * intros t Ht U. assert (X : is_upper_bound E t). { intros s [Hs Ns]. destruct (Rle_lt_dec s t) as [Q|Q]; [exact Q|exfalso]. apply Ns, (Up t s); [lra|lra|exact U]. } specialize (Lst t X). lra.
      * intros t Ht. apply NNPP. intros Nu. assert (E t) by (split; [lra|exact Nu]). specialize (Ub t H). lra.
  - intros j L L' H H'. apply Rle_antisym; [apply (Or j j L L' (le_n j) H H')|apply (Or j j L' L (le_n j) H' H)].
Qed.
(*@ C92: the first of them is the stability limit of C84. @*)
Lemma t_C92_first : forall (D : mat3) a b Nxx Nyy Nxy c0 ca d0 db L, 0 < a -> 0 < b -> pos_def D ->
  (higher_limit D a b Nxx Nyy Nxy c0 ca d0 db 1 L <-> stability_limit D a b Nxx Nyy Nxy c0 ca d0 db L).
Proof.
  intros D a b Nxx Nyy Nxy c0 ca d0 db L Ha Hb PD.
  assert (One : forall t, unstable_plate D a b Nxx Nyy Nxy c0 ca d0 db t 1 <-> exists w, deflection a b c0 ca d0 db w /\ bending D a b w w + t * load_work Nxx Nyy Nxy a b w w < 0).
  { intros t. assert (U1 : forall w : nat -> field, cf 1 (fun _ => 1) w = w 0%nat) by (intros w; apply functional_extensionality; intros x; apply functional_extensionality; intros y; unfold cf; cbn [sm]; ring). split.
    - intros U. apply unstable_pfam in U. destruct U as (w & F & H). exists (w 0%nat). split; [apply F; lia|]. rewrite <- U1. apply H. exists 0%nat. split; [lia|lra].
    - intros (w & Dw & H). apply unstable_pfam. exists (fun _ => w). assert (F : forall k, (k < 1)%nat -> deflection a b c0 ca d0 db w) by (intros; exact Dw). split; [exact F|]. intros c (i & Hi & Ni).
      destruct (forms D a b Nxx Nyy Nxy c0 ca d0 db Hb 1 (fun _ => w) F) as (W & _ & E). assert (X := E t (fun _ => 1)). rewrite (U1 (fun _ => w)) in X. rewrite E. unfold bil, app in *. cbn [sm] in *.
      replace i with 0%nat in Ni by lia. set (e := entry D a b Nxx Nyy Nxy t (W 0%nat) (W 0%nat)) in *. assert (Y : e < 0) by lra. assert (Z := Rsqr_pos_lt _ Ni). unfold Rsqr in Z. nra. }
  split.
  - intros (HL & Nn & Up). split; [exact HL|]. split.
    + intros w Dw. apply Rnot_lt_le. intros Lt. assert (B := bend_nonneg D a b c0 ca d0 db Ha Hb PD w Dw). set (g := load_work Nxx Nyy Nxy a b w w) in *. set (e := bending D a b w w) in *.
      assert (Hg : g < 0) by nra. assert (Q : e / - g < L) by (apply Rmult_lt_reg_r with (- g); [lra|]; unfold Rdiv; rewrite Rmult_assoc, Rinv_l by lra; lra).
      assert (Q0 : 0 <= e / - g) by (apply Rmult_le_pos; [exact B|left; apply Rinv_0_lt_compat; lra]).
      apply (Nn ((e / - g + L) / 2)); [lra|]. apply One. exists w. split; [exact Dw|]. fold e g.
      assert (X : (e / - g + L) / 2 * - g > e / - g * - g) by (apply Rmult_gt_compat_r; lra). unfold Rdiv at 3 in X. rewrite Rmult_assoc, Rinv_l in X by lra. lra.
    + intros t Ht. apply One, Up, Ht.
  - intros (HL & Nn & Sm). split; [exact HL|]. split.
    + intros t Ht U. apply One in U. destruct U as (w & Dw & H). specialize (Nn w Dw). cbv zeta in Nn. assert (B := bend_nonneg D a b c0 ca d0 db Ha Hb PD w Dw). set (g := load_work Nxx Nyy Nxy a b w w) in *. assert (g < 0) by nra. nra.
    + intros t Ht. apply One, Sm, Ht.
Qed.
(*@ C92: a plate compressed in every direction has all the limits. @*)
Lemma t_C92_all : forall (D : mat3) a b Nxx Nyy Nxy c c0 ca d0 db k, plate_any D a b c c0 ca d0 db -> compression Nxx Nyy Nxy ->
  exists Ls, List.length Ls = k /\ higher_limits D a b Nxx Nyy Nxy c0 ca d0 db Ls.
Proof.
  intros D a b Nxx Nyy Nxy c c0 ca d0 db k Pk C. assert (Pk' := Pk). destruct Pk' as [Ha Hb Sy PD _ Rs].
  destruct (t_C91_all D a b Nxx Nyy Nxy c c0 ca d0 db k k k Pk C ltac:(nia)) as (fs & Lf & Lw).
  destruct (choose 0 k (fun j L => higher_limit D a b Nxx Nyy Nxy c0 ca d0 db (Datatypes.S j) L)) as (f & Hf).
  - intros j Hj. apply (proj1 (t_C92_exists D a b Nxx Nyy Nxy c0 ca d0 db Ha Hb Sy PD Rs) j). assert (Ej : nth_error fs j = Some (fn fs j)) by (apply nth_error_nth'; lia).
    destruct (factor_space _ _ _ _ _ _ _ _ _ _ _ _ _ _ _ _ (fn fs j + 1) Pk Lw Ej ltac:(lra)) as (Hl & U). apply unstable_pfam in U. destruct U as (w & F).
    apply (driven_fam a b Nxx Nyy Nxy c0 ca d0 db). exists w. split; [apply F|]. apply (fam_work D a b Nxx Nyy Nxy c0 ca d0 db Ha Hb PD (fn fs j + 1) _ w ltac:(lra) F).
  - exists (map f (seq 0 k)). split; [rewrite map_length, seq_length; reflexivity|]. intros j L Hj. assert (Lj : (j < k)%nat) by (assert (X : (j < List.length (map f (seq 0 k)))%nat) by (apply nth_error_Some; congruence); rewrite map_length, seq_length in X; exact X).
    apply (nth_error_nth _ _ 0) in Hj. rewrite nth_map_seq in Hj by exact Lj. subst L. apply Hf, Lj.
Qed.
(*@ C92: and so what the analysis reports converges: for a plate compressed in every direction that is stable under its loads, with enough functions and whatever
    the documented solver, the reported factors come in the order of the limits, none left out, each not below its limit and as close to it as wanted. @*)
Lemma t_C92_reported : forall (D : mat3) a b Nxx Nyy Nxy c c0 ca d0 db Ls eps, plate_any D a b c c0 ca d0 db -> compression Nxx Nyy Nxy ->
  higher_limits D a b Nxx Nyy Nxy c0 ca d0 db Ls -> (forall L, nth_error Ls 0 = Some L -> 1 <= L) -> 0 < eps ->
  exists M, forall eigsh m n num out vecs, documented eigsh -> (M <= m)%nat -> (M <= n)%nat ->
    buckling_analysis eigsh exact_tables (as_arr D) a b Nxx Nyy Nxy c m n num = Ok (out, vecs) ->
    forall j L x, nth_error Ls j = Some L -> nth_error out j = Some x -> exists l, x = Fin l /\ L <= l < L + eps.
Proof.
  intros D a b Nxx Nyy Nxy c c0 ca d0 db Ls eps Pk C HL H1 He. destruct (t_C92_converges D a b Nxx Nyy Nxy c c0 ca d0 db Ls eps Pk HL He) as (M & HM). exists M.
  intros eigsh m n num out vecs De Hm Hn B j L x Ej Ex. destruct (HM m n Hm Hn) as (fs & Lf & F). assert (Pk' := Pk). destruct Pk' as [Ha Hb Sy PD _ Rs].
  destruct Ls as [|L0 Ls]; [destruct j; discriminate|]. assert (S0 := proj1 (t_C92_first D a b Nxx Nyy Nxy c0 ca d0 db L0 Ha Hb PD) (HL 0%nat L0 eq_refl)). specialize (H1 L0 eq_refl).
  destruct (t_C91_list eigsh D a b Nxx Nyy Nxy c c0 ca d0 db m n num out vecs De Pk C) as (gs & -> & Lg).
  - intros l Cl. assert (X := t_C84_above D a b Nxx Nyy Nxy c c0 ca d0 db L0 m n l Pk S0 Cl). lra.
  - exact B.
  - rewrite nth_error_map in Ex. destruct (nth_error gs j) as [l|] eqn:Gj; [|discriminate]. exists l. split; [cbn in Ex; congruence|].
    destruct (look_any D a b Nxx Nyy Nxy c c0 ca d0 db m n Pk) as (idx & K & KG & V). assert (Pn := v_pen _ _ _ _ _ _ _ _ _ _ _ _ V). apply (lowest_view _ _ _ _ _ _ _ _ _ _ _ _ _ V) in Lf, Lg.
    assert (X : exists f, nth_error fs j = Some f /\ L <= f < L + eps).
    { clear - F Ej. revert j Ej. induction F as [|y z gs fs Yz F IH]; intros j El; [destruct j; discriminate|]. destruct j as [|j]; cbn in El |- *; [exists z; split; [reflexivity|injection El as <-; exact Yz]|apply IH, El]. }
    destruct X as (f & Fj & Hf). rewrite (t_C91_unique K KG gs fs j l f Pn Lg Lf Gj Fj). exact Hf.
Qed.
(*@ C92 example: the square pinned plate of unit edges and stiffness under equal compression has four limits, the first 2 pi^2; the one of C91 has four limits not
    above the factors 1, 135/52, 135/52, 9/2 found with two functions in each direction. @*)
Example t_C92_ex :
  (exists Ls, List.length Ls = 4%nat /\ higher_limits (M3 1 0 0 0 1 0 0 0 (1 / 2)) 1 1 (- (1)) (- (1)) 0 Pinned Pinned Pinned Pinned Ls /\ nth_error Ls 0 = Some (2 * PI ^ 2) /\ 1 <= 2 * PI ^ 2 /\
    plate_any (M3 1 0 0 0 1 0 0 0 (1 / 2)) 1 1 (CStr "PINNED") Pinned Pinned Pinned Pinned /\ compression (- (1)) (- (1)) 0) /\
  (exists Ls, higher_limits mid 2 2 (-8) (-8) 0 Pinned Pinned Pinned Pinned Ls /\ Forall2 Rle Ls [1; 135/52; 135/52; 9/2]).
Proof.
  assert (Pp := PI2_3_2). split.
  - assert (P : plate_any (M3 1 0 0 0 1 0 0 0 (1 / 2)) 1 1 (CStr "PINNED") Pinned Pinned Pinned Pinned).
    { constructor; [lra|lra|reflexivity|apply diag_def; lra|apply Sp_pinned|unfold restrained; cbn; do 4 right; lia]. }
    assert (C : compression (- (1)) (- (1)) 0) by (unfold compression; lra). destruct (t_C92_all _ 1 1 _ _ _ _ _ _ _ _ 4 P C) as (Ls & Ln & H). exists Ls. split; [exact Ln|]. split; [exact H|].
    destruct Ls as [|L Ls]; [discriminate|]. assert (Hd := H 0%nat L eq_refl). destruct P as [Ha Hb Sy PD Sp Rs]. split; [|split; [|split; [constructor; assumption|exact C]]].
    + cbn. f_equal. apply (proj1 (t_C92_first _ _ _ _ _ _ _ _ _ _ L Ha Hb PD)) in Hd. apply (proj2 (t_C84_exists _ _ _ _ _ _ _ _ _ _ Ha Hb Sy PD Rs) L (2 * PI ^ 2) Hd).
      apply t_C84_ex.
    + assert (PI > 1) by lra. nra.
  - destruct t_C91_ex as (P & C & Lw & _). destruct (t_C92_all mid 2 2 (-8) (-8) 0 _ _ _ _ _ 4 P C) as (Ls & Ln & H). exists Ls. split; [exact H|].
    assert (Q : forall j L l, nth_error Ls j = Some L -> nth_error [1; 135/52; 135/52; 9/2] j = Some l -> L <= l).
    { intros j L l Ej El. apply (t_C92_above mid 2 2 (-8) (-8) 0 _ _ _ _ _ 2 2 _ j L l P (H j L Ej) Lw El). }
    destruct Ls as [|L0 [|L1 [|L2 [|L3 [|? ?]]]]]; try discriminate Ln.
    constructor; [apply (Q 0%nat); reflexivity|]. constructor; [apply (Q 1%nat); reflexivity|]. constructor; [apply (Q 2%nat); reflexivity|]. constructor; [apply (Q 3%nat); reflexivity|]. constructor.
Qed.
