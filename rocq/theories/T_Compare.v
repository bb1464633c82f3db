(** Proofs of the theorems comparing the critical factors of two plates. *)
From Coq Require Import Reals ZArith Lra Lia Bool String Sorting.Sorted Classical.
From Coquelicot Require Import Coquelicot.
From Coq Require Import List.
From Verif Require Import M_Py M_Plate M_K M_RealArith M_Plot M_Buckling S_Plate S_Mat S_Bardell S_Energy S_K S_Ritz S_Eigen S_Compare L_Quad L_Eigen L_Plate L_FirstK L_K L_KR L_Poly L_Shape L_TabV L_Energy L_Ritz L_ABD L_Indep T_Plate T_Shape T_K T_Energy T_ABD T_Buckling L_Ends.
Import ListNotations.
Open Scope R_scope.

(** ** index sets of softer edges *)
Lemma filter_softer c0 ca c0' ca' x : softer c0' c0 -> softer ca' ca ->
  let f c d := allowedb (holds_value c) (holds_slope c) (holds_value d) (holds_slope d) in
  (List.length (filter (f c0' ca') (seq 0 x)) + taken c0' + taken ca' <= List.length (filter (f c0 ca) (seq 0 x)) + taken c0 + taken ca)%nat.
Proof.
  intros S0 Sa f. destruct (le_lt_dec 4 x) as [H|H].
  - assert (E := filter_count4 (holds_value c0') (holds_slope c0') (holds_value ca') (holds_slope ca') x H).
    assert (F := filter_count4 (holds_value c0) (holds_slope c0) (holds_value ca) (holds_slope ca) x H).
    rewrite lost_taken in E, F. unfold f. lia.
  - unfold softer in *. destruct x as [|[|[|[|x]]]]; try lia; destruct c0, c0'; cbn in S0; try lia; destruct ca, ca'; cbn in Sa; try lia; cbn; lia.
Qed.
Lemma admissible_softer c0 ca c0' ca' i : softer c0' c0 -> softer ca' ca -> admissible c0 ca i -> admissible c0' ca' i.
Proof.
  unfold softer, admissible, allowed. intros S0 Sa (A & B & C & E). repeat split; intros H;
    [specialize (A H)|specialize (B H)|specialize (C H)|specialize (E H)]; clear - S0 Sa A B C E H;
    destruct c0, c0', ca, ca'; cbn in *; try lia; try congruence; try reflexivity.
Qed.
Lemma first_incl c0 ca c0' ca' m m' l l' : softer c0' c0 -> softer ca' ca -> (m + taken c0 + taken ca <= m' + taken c0' + taken ca')%nat ->
  first_k (admissible c0 ca) m l -> first_k (admissible c0' ca') m' l' -> incl l l'.
Proof.
  intros S0 Sa Hm (L & Sl & P & Cl) (L' & Sl' & P' & Cl') i Hi. rewrite Forall_forall in P, P'.
  assert (Pi := admissible_softer _ _ _ _ i S0 Sa (P i Hi)).
  destruct (in_dec Nat.eq_dec i l') as [I|NI]; [exact I|exfalso].
  assert (Below : forall j, In j l' -> (j < i)%nat).
  { intros j Hj. destruct (lt_eq_lt_dec j i) as [[H|H]|H]; [exact H|subst; contradiction|]. exfalso. apply NI, (Cl' i j Hj H Pi). }
  assert (I1 : incl l' (filter (allowedb (holds_value c0') (holds_slope c0') (holds_value ca') (holds_slope ca')) (seq 0 i))).
  { intros j Hj. apply filter_In. split; [apply in_seq; specialize (Below j Hj); lia|]. apply allowedb_spec, P', Hj. }
  apply NoDup_incl_length in I1; [|apply sorted_nodup, Sl'].
  assert (I2 : incl (i :: filter (allowedb (holds_value c0) (holds_slope c0) (holds_value ca) (holds_slope ca)) (seq 0 i)) l).
  { intros y [<-|Hy]; [exact Hi|]. apply filter_In in Hy. destruct Hy as [H1 H2]. apply in_seq in H1. apply allowedb_spec in H2.
    apply (Cl y i Hi); [lia|exact H2]. }
  apply NoDup_incl_length in I2.
  - cbn [List.length] in I2. assert (F := filter_softer c0 ca c0' ca' i S0 Sa). cbv zeta in F. lia.
  - constructor; [|apply NoDup_filter, seq_NoDup]. intros F. apply filter_In in F. destruct F as [F _]. apply in_seq in F. lia.
Qed.

(** ** coefficients in a larger family *)
Definition spread (l : list ((nat * nat) * R)) (idx : list (nat * nat)) : list R := map (fun q => pairc l (fst q) (snd q)) idx.
Lemma pick_sum (p : nat * nat) x (F : nat * nat -> R) idx : NoDup idx -> In p idx ->
  rsum (map (fun q => (if (Nat.eqb (fst p) (fst q) && Nat.eqb (snd p) (snd q))%bool then x else 0) * F q) idx) = x * F p.
Proof.
  induction 1 as [|q idx N ND IH]; intros I; [destruct I|]. cbn [map rsum].
  assert (Eq : (Nat.eqb (fst p) (fst q) && Nat.eqb (snd p) (snd q))%bool = true <-> p = q).
  { rewrite andb_true_iff, !Nat.eqb_eq. destruct p, q. cbn. split; [intros [-> ->]; reflexivity|intros E; injection E as -> ->; split; reflexivity]. }
  destruct I as [->|I].
  - rewrite (proj2 Eq eq_refl). rewrite rsum_zero; [ring|]. apply Forall_forall. intros z Iz. apply in_map_iff in Iz. destruct Iz as (r & <- & Ir).
    destruct (Nat.eqb (fst p) (fst r) && Nat.eqb (snd p) (snd r))%bool eqn:E; [|ring]. exfalso. apply andb_prop in E. destruct E as [E1 E2].
    apply Nat.eqb_eq in E1. apply Nat.eqb_eq in E2. apply N. destruct p, r. cbn in *. subst. exact Ir.
  - rewrite IH by exact I. destruct (Nat.eqb (fst p) (fst q) && Nat.eqb (snd p) (snd q))%bool eqn:E; [|ring]. exfalso. apply N.
    rewrite <- (proj1 Eq eq_refl). exact I.
Qed.
Lemma spread_sum (F : nat * nat -> R) idx l : NoDup idx -> incl (map fst l) idx ->
  rsum (map (fun q => pairc l (fst q) (snd q) * F q) idx) = rsum (map (fun p => snd p * F (fst p)) l).
Proof.
  intros ND. induction l as [|[p x] l IH]; intros I.
  - cbn [map rsum]. apply rsum_zero, Forall_forall. intros z Iz. apply in_map_iff in Iz. destruct Iz as (q & <- & _). unfold pairc. cbn. ring.
  - cbn [map fst] in I. apply incl_cons_inv in I. destruct I as [I1 I2]. cbn [map rsum fst snd]. rewrite <- (IH I2), <- (pick_sum p x F idx ND I1), <- rsum_plus.
    f_equal. apply map_ext. intros q. unfold pairc. cbn [map rsum fst snd]. ring.
Qed.
Lemma combine_map {X Y} (f : X -> Y) l : combine l (map f l) = map (fun x => (x, f x)) l.
Proof. induction l as [|x l IH]; [reflexivity|]. cbn. rewrite IH. reflexivity. Qed.
Lemma map_fst_combine {X Y} (l : list X) : forall r : list Y, List.length r = List.length l -> map fst (combine l r) = l.
Proof. induction l as [|x l IH]; intros [|y r] Hl; try discriminate Hl; [reflexivity|]. cbn. f_equal. apply IH. cbn in Hl. lia. Qed.
Lemma spread_field a b idx idx' v : NoDup idx' -> incl idx idx' -> List.length v = List.length idx ->
  combine_shapes a b idx' (spread (combine idx v) idx') = combine_shapes a b idx v.
Proof.
  intros ND I L. apply field_ext. intros x y. unfold combine_shapes, spread. rewrite combine_map, map_map. cbn [fst snd].
  rewrite (spread_sum (fun q => shape a b (fst q) (snd q) x y) idx' (combine idx v) ND); [reflexivity|].
  rewrite map_fst_combine by exact L. exact I.
Qed.
Lemma spread_nonzero idx idx' v : NoDup idx -> incl idx idx' -> List.length v = List.length idx -> nonzero v -> nonzero (spread (combine idx v) idx').
Proof.
  intros ND I L N. apply Exists_exists in N. destruct N as (x & Ix & Nx). destruct (In_nth_error _ _ Ix) as (k & Ek).
  assert (Hk : (k < List.length idx)%nat) by (rewrite <- L; apply nth_error_Some; congruence).
  destruct (nth_error idx k) as [[i j]|] eqn:Ei; [|apply nth_error_None in Ei; lia].
  assert (Ic : In ((i, j), x) (combine idx v)).
  { clear - Ek Ei. revert idx v Ek Ei. induction k as [|k IH]; intros [|p idx] [|y v] Ek Ei; cbn in *; try discriminate; [left; congruence|right; apply IH; assumption]. }
  apply Exists_exists. exists x. split; [|exact Nx]. unfold spread. apply in_map_iff. exists (i, j). cbn [fst snd]. split.
  - apply pairc_in; [rewrite map_fst_combine by exact L; exact ND|exact Ic].
  - apply I. apply (nth_error_In _ _ Ei).
Qed.

(** ** energies *)
Lemma exact_quads D a b Nxx Nyy Nxy c m n (K KG : list (list R)) idx : a <> 0 -> b <> 0 -> symmetric D -> compute_constraints c m n = Ok idx ->
  calc_K_KG_D exact_tables (as_arr D) a b Nxx Nyy Nxy c m n = Ok (K, KG) ->
  (forall cw, quad_rows K cw = bending D a b (combine_shapes a b (sw_idx idx) cw) (combine_shapes a b (sw_idx idx) cw)) /\
  (forall cw, quad_rows KG cw = load_work Nxx Nyy Nxy a b (combine_shapes a b (sw_idx idx) cw) (combine_shapes a b (sw_idx idx) cw)).
Proof.
  intros Ha Hb Sy E H. rewrite (exact_bending D a b Nxx Nyy Nxy c m n idx Ha Hb Sy E) in H.
  assert (H1 := f_equal (fun r => match r with Ok p => p | Err _ => ([], []) end) H). cbn beta iota in H1.
  assert (X := f_equal fst H1). assert (Y := f_equal snd H1). cbn [fst snd] in X, Y.
  split; intros cw; [rewrite <- X; apply quad_bending|rewrite <- Y; apply quad_load]; assumption.
Qed.
Record view D a b Nxx Nyy Nxy c m n idx (K KG : list (list R)) : Prop := {
  v_idx : compute_constraints c m n = Ok idx; v_calc : calc_K_KG_D exact_tables (as_arr D) a b Nxx Nyy Nxy c m n = Ok (K, KG);
  v_pen : pencil K KG; v_len : List.length K = (m * n)%nat; v_w : List.length (sw_idx idx) = (m * n)%nat; v_nodup : NoDup (sw_idx idx);
  v_K : forall cw, quad_rows K cw = bending D a b (combine_shapes a b (sw_idx idx) cw) (combine_shapes a b (sw_idx idx) cw);
  v_G : forall cw, quad_rows KG cw = load_work Nxx Nyy Nxy a b (combine_shapes a b (sw_idx idx) cw) (combine_shapes a b (sw_idx idx) cw) }.
Lemma idx_nodup c c0 ca d0 db m n idx : specifies c c0 ca d0 db -> compute_constraints c m n = Ok idx -> NoDup (sw_idx idx).
Proof.
  intros Sp E. destruct (named_struct c c0 ca d0 db m n Sp) as (idx' & fx & fy & E' & Fx & Fy & RM). rewrite E in E'. injection E' as <-.
  rewrite (row_major_eq _ _ _ RM). apply nodup_list_prod; apply sorted_nodup; [apply Fx|apply Fy].
Qed.
Lemma ok_any D a b c c0 ca d0 db m n : plate_ok D a b c c0 ca d0 db m n -> plate_any D a b c c0 ca d0 db.
Proof. intros []. constructor; assumption. Qed.
Coercion ok_any : plate_ok >-> plate_any.
Lemma look_any D a b Nxx Nyy Nxy c c0 ca d0 db m n : plate_any D a b c c0 ca d0 db -> exists idx K KG, view D a b Nxx Nyy Nxy c m n idx K KG.
Proof.
  intros [Ha Hb Sy PD Sp Rs]. destruct (named_struct c c0 ca d0 db m n Sp) as (idx & fx & fy & E & Fx & Fy & RM).
  assert (H := exact_bending D a b Nxx Nyy Nxy c m n idx ltac:(lra) ltac:(lra) Sy E). eexists idx, _, _. constructor; [exact E|exact H| | | | | |].
  - apply (t_C42_pencil D a b Nxx Nyy Nxy c c0 ca d0 db m n _ _ Ha Hb Sy PD Sp Rs H).
  - apply (calc_square _ _ _ _ _ _ _ _ _ _ _ _ H).
  - destruct (compute_struct _ _ _ _ E) as (_ & _ & Lw & _). exact Lw.
  - apply (idx_nodup c c0 ca d0 db m n idx Sp E).
  - intros cw. apply quad_bending; lra || assumption.
  - intros cw. apply quad_load; lra || assumption.
Qed.
Lemma look D a b Nxx Nyy Nxy c c0 ca d0 db m n : plate_ok D a b c c0 ca d0 db m n -> exists idx K KG, view D a b Nxx Nyy Nxy c m n idx K KG.
Proof. intros P. exact (look_any D a b Nxx Nyy Nxy c c0 ca d0 db m n (ok_any _ _ _ _ _ _ _ _ _ _ P)). Qed.
Lemma same_calc {X} (x y : X) (r : res X) : r = Ok x -> r = Ok y -> x = y.
Proof. intros -> H. injection H as ->. reflexivity. Qed.
Lemma critical_view D a b Nxx Nyy Nxy c m n idx K KG l : view D a b Nxx Nyy Nxy c m n idx K KG ->
  (critical D a b Nxx Nyy Nxy c m n l <-> smallest_factor K KG l).
Proof.
  intros V. split.
  - intros (K1 & G1 & H & S). assert (E := same_calc _ _ _ H (v_calc _ _ _ _ _ _ _ _ _ _ _ _ V)). injection E as -> ->. exact S.
  - intros S. exists K, KG. split; [apply V|exact S].
Qed.
(** a deflection whose energy is not positive at l bounds the critical factor *)
Lemma bounded D a b Nxx Nyy Nxy c m n idx K KG l cw : view D a b Nxx Nyy Nxy c m n idx K KG -> 0 < l -> List.length cw = (m * n)%nat -> nonzero cw ->
  (let w := combine_shapes a b (sw_idx idx) cw in bending D a b w w + l * load_work Nxx Nyy Nxy a b w w <= 0) ->
  exists l', critical D a b Nxx Nyy Nxy c m n l' /\ l' <= l.
Proof.
  intros V Hl L N H. cbv zeta in H. destruct (t_C42_smallest_exists K KG l cw (v_pen _ _ _ _ _ _ _ _ _ _ _ _ V) Hl) as (l' & Le & S).
  - rewrite L. symmetry. apply V.
  - exact N.
  - rewrite (v_K _ _ _ _ _ _ _ _ _ _ _ _ V), (v_G _ _ _ _ _ _ _ _ _ _ _ _ V). exact H.
  - exists l'. split; [|exact Le]. apply (critical_view _ _ _ _ _ _ _ _ _ _ _ _ _ V). exact S.
Qed.
(** the critical mode *)
Lemma mode D a b Nxx Nyy Nxy c m n idx K KG l : view D a b Nxx Nyy Nxy c m n idx K KG -> critical D a b Nxx Nyy Nxy c m n l ->
  0 < l /\ exists cw, List.length cw = (m * n)%nat /\ nonzero cw /\
    let w := combine_shapes a b (sw_idx idx) cw in bending D a b w w + l * load_work Nxx Nyy Nxy a b w w = 0.
Proof.
  intros V C. apply (critical_view _ _ _ _ _ _ _ _ _ _ _ _ _ V) in C. destruct C as (Hl & (v & B) & _). split; [exact Hl|].
  exists v. split; [|split].
  - rewrite <- (v_len _ _ _ _ _ _ _ _ _ _ _ _ V). apply B.
  - apply B.
  - cbv zeta. rewrite <- (v_K _ _ _ _ _ _ _ _ _ _ _ _ V), <- (v_G _ _ _ _ _ _ _ _ _ _ _ _ V). apply buckles_zero; [apply V|exact B].
Qed.

(*@ C65: a plate with more shape functions, or with the same functions and more because its edges hold less, never has a larger
    critical factor. The sizes are compared by the functions they reach: m plus the functions the x edges take away. @*)
Lemma t_C65_refine : forall (D : mat3) a b Nxx Nyy Nxy c c0 ca d0 db m n c' c0' ca' d0' db' m' n' l,
  plate_any D a b c c0 ca d0 db -> plate_any D a b c' c0' ca' d0' db' ->
  softer c0' c0 -> softer ca' ca -> softer d0' d0 -> softer db' db ->
  (m + taken c0 + taken ca <= m' + taken c0' + taken ca')%nat -> (n + taken d0 + taken db <= n' + taken d0' + taken db')%nat ->
  critical D a b Nxx Nyy Nxy c m n l -> exists l', critical D a b Nxx Nyy Nxy c' m' n' l' /\ l' <= l.
Proof.
  intros D a b Nxx Nyy Nxy c c0 ca d0 db m n c' c0' ca' d0' db' m' n' l P P' S0 Sa T0 Tb Hm Hn C.
  destruct (look_any D a b Nxx Nyy Nxy c c0 ca d0 db m n P) as (idx & K & KG & V).
  destruct (look_any D a b Nxx Nyy Nxy c' c0' ca' d0' db' m' n' P') as (idx' & K' & KG' & V').
  assert (I : incl (sw_idx idx) (sw_idx idx')).
  { destruct (named_struct c c0 ca d0 db m n (any_edges _ _ _ _ _ _ _ _ P)) as (i1 & fx & fy & E & Fx & Fy & RM).
    assert (Ei := same_calc _ _ _ E (v_idx _ _ _ _ _ _ _ _ _ _ _ _ V)). subst i1.
    destruct (named_struct c' c0' ca' d0' db' m' n' (any_edges _ _ _ _ _ _ _ _ P')) as (i2 & gx & gy & E' & Gx & Gy & RM').
    assert (Ei := same_calc _ _ _ E' (v_idx _ _ _ _ _ _ _ _ _ _ _ _ V')). subst i2.
    intros [i j] H. destruct (row_major_in _ _ _ _ _ RM H) as [Hi Hj]. apply (row_major_in_conv _ _ _ _ _ RM').
    - apply (first_incl c0 ca c0' ca' m m' fx gx S0 Sa Hm Fx Gx i Hi).
    - apply (first_incl d0 db d0' db' n n' fy gy T0 Tb Hn Fy Gy j Hj). }
  destruct (mode _ _ _ _ _ _ _ _ _ _ _ _ _ V C) as (Hl & cw & L & N & Z). cbv zeta in Z.
  assert (Lw : List.length cw = List.length (sw_idx idx)) by (rewrite L; symmetry; apply V).
  apply (bounded _ _ _ _ _ _ _ _ _ _ _ _ l (spread (combine (sw_idx idx) cw) (sw_idx idx')) V' Hl).
  - unfold spread. rewrite map_length. apply V'.
  - apply spread_nonzero; [apply V|exact I|exact Lw|exact N].
  - cbv zeta. rewrite (spread_field a b (sw_idx idx) (sw_idx idx') cw (v_nodup _ _ _ _ _ _ _ _ _ _ _ _ V') I Lw). lra.
Qed.
(*@ C65: so, with a documented solver, the factor reported first never grows under refinement, as long as the refined plate does not
    buckle below the given loads. @*)
Lemma t_C65_reported : forall eigsh (D : mat3) a b Nxx Nyy Nxy c c0 ca d0 db m n c' c0' ca' d0' db' m' n' num num' l l' out vecs out' vecs',
  documented eigsh -> plate_any D a b c c0 ca d0 db -> plate_any D a b c' c0' ca' d0' db' ->
  softer c0' c0 -> softer ca' ca -> softer d0' d0 -> softer db' db ->
  (m + taken c0 + taken ca <= m' + taken c0' + taken ca')%nat -> (n + taken d0 + taken db <= n' + taken d0' + taken db')%nat ->
  critical D a b Nxx Nyy Nxy c m n l -> critical D a b Nxx Nyy Nxy c' m' n' l' -> 1 <= l' ->
  buckling_analysis eigsh exact_tables (as_arr D) a b Nxx Nyy Nxy c m n num = Ok (out, vecs) ->
  buckling_analysis eigsh exact_tables (as_arr D) a b Nxx Nyy Nxy c' m' n' num' = Ok (out', vecs') ->
  exists x x' rest rest', out = Fin x :: rest /\ out' = Fin x' :: rest' /\ x' <= x.
Proof.
  intros eigsh D a b Nxx Nyy Nxy c c0 ca d0 db m n c' c0' ca' d0' db' m' n' num num' l l' out vecs out' vecs' Dc P P' S0 Sa T0 Tb Hm Hn C C' L1 B B'.
  destruct (t_C65_refine D a b Nxx Nyy Nxy c c0 ca d0 db m n c' c0' ca' d0' db' m' n' l P P' S0 Sa T0 Tb Hm Hn C) as (l1 & C1 & Le).
  destruct (look_any D a b Nxx Nyy Nxy c c0 ca d0 db m n P) as (idx & K & KG & V).
  destruct (look_any D a b Nxx Nyy Nxy c' c0' ca' d0' db' m' n' P') as (idx' & K' & KG' & V').
  apply (critical_view _ _ _ _ _ _ _ _ _ _ _ _ _ V) in C. apply (critical_view _ _ _ _ _ _ _ _ _ _ _ _ _ V') in C', C1.
  assert (E : l1 = l'). { destruct C' as (Z & F & M), C1 as (Z1 & F1 & M1). specialize (M l1 Z1 F1). specialize (M1 l' Z F). lra. }
  subst l1.
  destruct (t_C42_first_above_one eigsh _ _ _ _ _ _ _ _ _ _ num K KG out vecs l Dc (v_calc _ _ _ _ _ _ _ _ _ _ _ _ V) (v_pen _ _ _ _ _ _ _ _ _ _ _ _ V) C ltac:(lra) B) as (r & ->).
  destruct (t_C42_first_above_one eigsh _ _ _ _ _ _ _ _ _ _ num' K' KG' out' vecs' l' Dc (v_calc _ _ _ _ _ _ _ _ _ _ _ _ V') (v_pen _ _ _ _ _ _ _ _ _ _ _ _ V') C' L1 B') as (r' & ->).
  exists l, l', r, r'. repeat split. exact Le.
Qed.
(*@ C65: with the same edges, raising m and n never raises the critical factor. @*)
Lemma t_C65_functions : forall (D : mat3) a b Nxx Nyy Nxy c c0 ca d0 db m n m' n' l,
  plate_any D a b c c0 ca d0 db -> (m <= m')%nat -> (n <= n')%nat ->
  critical D a b Nxx Nyy Nxy c m n l -> exists l', critical D a b Nxx Nyy Nxy c m' n' l' /\ l' <= l.
Proof.
  intros D a b Nxx Nyy Nxy c c0 ca d0 db m n m' n' l P Hm Hn C.
  apply (t_C65_refine D a b Nxx Nyy Nxy c c0 ca d0 db m n c c0 ca d0 db m' n' l P P); unfold softer; lia || exact C.
Qed.

(** ** comparing energies *)
Lemma over_le a b f g : 0 < a -> 0 < b -> nice a b f -> nice a b g -> (forall x y, f x y <= g x y) -> over a b f <= over a b g.
Proof.
  intros Ha Hb F G H. assert (P := over_nonneg a b (fun x y => g x y + (-1) * f x y) Ha Hb).
  rewrite over_add, over_scal in P by (lra || assumption || (apply nice_scal; assumption)).
  assert (Q := P (nice_add a b g _ G (nice_scal a b (-1) f F)) ltac:(intros x y; specialize (H x y); lra)). lra.
Qed.
Lemma bending_le D D' a b w : 0 < a -> 0 < b -> nice a b w -> no_stiffer D D' -> bending D a b w w <= bending D' a b w w.
Proof. intros Ha Hb W H. unfold bending. apply over_le; [exact Ha|exact Hb|apply nice_bend; exact W|apply nice_bend; exact W|]. intros x y. apply H. Qed.
Definition load_i (p q r : R) (w : field) : field := fun x y => p * dx w x y * dx w x y + q * dy w x y * dy w x y + r * (dx w x y * dy w x y + dy w x y * dx w x y).
Lemma nice_load a b p q r w : nice a b w -> nice a b (load_i p q r w).
Proof.
  intros W. unfold load_i. assert (X := nice_dx a b w W). assert (Y := nice_dy a b w W).
  apply nice_add; [apply nice_add|].
  - apply nice_mul; [apply nice_scal|]; assumption.
  - apply nice_mul; [apply nice_scal|]; assumption.
  - apply nice_scal, nice_add; apply nice_mul; assumption.
Qed.
Lemma form_nonneg p q r x y : no_compression p q r -> 0 <= p * x * x + q * y * y + r * (x * y + y * x).
Proof.
  intros (P & Q & H). destruct (Req_dec p 0) as [Z|Z].
  - subst p. assert (r = 0) by nra. subst r. nra.
  - assert (0 <= p * (p * x * x + q * y * y + r * (x * y + y * x))).
    { replace (p * (p * x * x + q * y * y + r * (x * y + y * x))) with ((p * x + r * y) ^ 2 + (p * q - r ^ 2) * (y * y)) by ring.
      apply Rplus_le_le_0_compat; [apply pow2_ge_0|]. apply Rmult_le_pos; [lra|]. nra. }
    assert (0 < p) by lra. apply Rmult_le_reg_l with p; [assumption|]. lra.
Qed.
Lemma load_le p q r p' q' r' a b w : 0 < a -> 0 < b -> nice a b w -> no_compression (p' - p) (q' - q) (r' - r) ->
  load_work p q r a b w w <= load_work p' q' r' a b w w.
Proof.
  intros Ha Hb W H. unfold load_work. apply over_le; [exact Ha|exact Hb|apply (nice_load a b p q r w W)|apply (nice_load a b p' q' r' w W)|].
  intros x y. assert (F := form_nonneg _ _ _ (dx w x y) (dy w x y) H). lra.
Qed.

(*@ C66: reducing the bending stiffness (in the sense that no curvature stores more energy) or adding compression (the loads change by
    a tensor with no tension in any direction) never raises the critical factor. @*)
Lemma t_C66_monotone : forall (D D' : mat3) a b Nxx Nyy Nxy Nxx' Nyy' Nxy' c c0 ca d0 db m n l',
  plate_any D a b c c0 ca d0 db -> plate_any D' a b c c0 ca d0 db -> no_stiffer D D' ->
  no_compression (Nxx' - Nxx) (Nyy' - Nyy) (Nxy' - Nxy) ->
  critical D' a b Nxx' Nyy' Nxy' c m n l' -> exists l, critical D a b Nxx Nyy Nxy c m n l /\ l <= l'.
Proof.
  intros D D' a b Nxx Nyy Nxy Nxx' Nyy' Nxy' c c0 ca d0 db m n l' P P' HD HN C.
  destruct (look_any D a b Nxx Nyy Nxy c c0 ca d0 db m n P) as (idx & K & KG & V).
  destruct (look_any D' a b Nxx' Nyy' Nxy' c c0 ca d0 db m n P') as (idx' & K' & KG' & V').
  assert (E := same_calc _ _ _ (v_idx _ _ _ _ _ _ _ _ _ _ _ _ V) (v_idx _ _ _ _ _ _ _ _ _ _ _ _ V')). subst idx'.
  destruct (mode _ _ _ _ _ _ _ _ _ _ _ _ _ V' C) as (Hl & cw & L & N & Z). cbv zeta in Z.
  apply (bounded _ _ _ _ _ _ _ _ _ _ _ _ l' cw V Hl L N). cbv zeta. set (w := combine_shapes a b (sw_idx idx) cw) in *.
  assert (W : nice a b w) by apply nice_combine. destruct P as [Ha Hb _ _ _ _].
  assert (B := bending_le D D' a b w Ha Hb W HD). assert (G := load_le _ _ _ _ _ _ a b w Ha Hb W HN). nra.
Qed.
(*@ C66: so a plate that carries its loads still carries them with a stiffer D and less compression. @*)
Lemma t_C66_safe : forall (D D' : mat3) a b Nxx Nyy Nxy Nxx' Nyy' Nxy' c c0 ca d0 db m n,
  plate_any D a b c c0 ca d0 db -> plate_any D' a b c c0 ca d0 db -> no_stiffer D D' ->
  no_compression (Nxx' - Nxx) (Nyy' - Nyy) (Nxy' - Nxy) ->
  safe D a b Nxx Nyy Nxy c m n -> safe D' a b Nxx' Nyy' Nxy' c m n.
Proof.
  intros D D' a b Nxx Nyy Nxy Nxx' Nyy' Nxy' c c0 ca d0 db m n P P' HD HN S l' C.
  destruct (t_C66_monotone D D' a b Nxx Nyy Nxy Nxx' Nyy' Nxy' c c0 ca d0 db m n l' P P' HD HN C) as (l & Cl & Le). specialize (S l Cl). lra.
Qed.

(** ** combined loads *)
Lemma energy_pos D a b Nxx Nyy Nxy c m n idx K KG L1 : view D a b Nxx Nyy Nxy c m n idx K KG -> (forall l, critical D a b Nxx Nyy Nxy c m n l -> L1 <= l) ->
  forall t cw, 0 <= t < L1 -> List.length cw = (m * n)%nat -> nonzero cw ->
    let w := combine_shapes a b (sw_idx idx) cw in 0 < bending D a b w w + t * load_work Nxx Nyy Nxy a b w w.
Proof.
  intros V H t cw Ht L N w. destruct (Rlt_le_dec 0 (bending D a b w w + t * load_work Nxx Nyy Nxy a b w w)) as [Q|Q]; [exact Q|exfalso].
  destruct (Req_dec t 0) as [->|T].
  - assert (Pd := pen_def _ _ (v_pen _ _ _ _ _ _ _ _ _ _ _ _ V) cw ltac:(rewrite L; symmetry; apply V) N).
    rewrite (v_K _ _ _ _ _ _ _ _ _ _ _ _ V) in Pd. fold w in Pd. lra.
  - destruct (bounded _ _ _ _ _ _ _ _ _ _ _ _ t cw V ltac:(lra) L N Q) as (l & C & Le). specialize (H l C). lra.
Qed.
Lemma load_add p q r p' q' r' a b w s s' : 0 < a -> 0 < b -> nice a b w ->
  load_work (s * p + s' * p') (s * q + s' * q') (s * r + s' * r') a b w w = s * load_work p q r a b w w + s' * load_work p' q' r' a b w w.
Proof.
  intros Ha Hb W. unfold load_work. fold (load_i p q r w). fold (load_i p' q' r' w).
  assert (N1 := nice_load a b p q r w W). assert (N2 := nice_load a b p' q' r' w W).
  rewrite <- (over_scal a b ltac:(lra) ltac:(lra) s _ N1), <- (over_scal a b ltac:(lra) ltac:(lra) s' _ N2), <- over_add by (lra || (apply nice_scal; assumption)).
  apply over_ext. intros x y. unfold load_i. ring.
Qed.
(*@ C67: the reciprocal of the critical factor is subadditive in the loads (Dunkerley's rule is safe): if the critical factors of two
    load cases, where they exist, are at least l1 and l2, the one of the combined loads is at least l1 l2 / (l1 + l2). @*)
Lemma t_C67_combined : forall (D : mat3) a b Nxx Nyy Nxy Nxx' Nyy' Nxy' c c0 ca d0 db m n l1 l2 l,
  plate_any D a b c c0 ca d0 db -> 0 < l1 -> 0 < l2 ->
  (forall x, critical D a b Nxx Nyy Nxy c m n x -> l1 <= x) -> (forall x, critical D a b Nxx' Nyy' Nxy' c m n x -> l2 <= x) ->
  critical D a b (Nxx + Nxx') (Nyy + Nyy') (Nxy + Nxy') c m n l -> l1 * l2 / (l1 + l2) <= l.
Proof.
  intros D a b Nxx Nyy Nxy Nxx' Nyy' Nxy' c c0 ca d0 db m n l1 l2 l P H1 H2 C1 C2 C.
  destruct (look_any D a b Nxx Nyy Nxy c c0 ca d0 db m n P) as (idx & K & KG & V).
  destruct (look_any D a b Nxx' Nyy' Nxy' c c0 ca d0 db m n P) as (idx' & K' & KG' & V').
  destruct (look_any D a b (Nxx + Nxx') (Nyy + Nyy') (Nxy + Nxy') c c0 ca d0 db m n P) as (idx'' & K'' & KG'' & V'').
  assert (E := same_calc _ _ _ (v_idx _ _ _ _ _ _ _ _ _ _ _ _ V) (v_idx _ _ _ _ _ _ _ _ _ _ _ _ V')). subst idx'.
  assert (E := same_calc _ _ _ (v_idx _ _ _ _ _ _ _ _ _ _ _ _ V) (v_idx _ _ _ _ _ _ _ _ _ _ _ _ V'')). subst idx''.
  destruct (mode _ _ _ _ _ _ _ _ _ _ _ _ _ V'' C) as (Hl & cw & L & N & Z). cbv zeta in Z.
  destruct (Rle_lt_dec (l1 * l2 / (l1 + l2)) l) as [Q|Q]; [exact Q|exfalso].
  assert (Q' : l * (l1 + l2) < l1 * l2). { apply Rmult_lt_compat_r with (r := l1 + l2) in Q; [|lra]. replace (l1 * l2 / (l1 + l2) * (l1 + l2)) with (l1 * l2) in Q by (field; lra). exact Q. }
  assert (T1 : 0 <= l * (l1 + l2) / l2 < l1).
  { split; [apply Rmult_le_pos; [nra|left; apply Rinv_0_lt_compat, H2]|]. apply Rmult_lt_reg_r with l2; [exact H2|]. replace (l * (l1 + l2) / l2 * l2) with (l * (l1 + l2)) by (field; lra). exact Q'. }
  assert (T2 : 0 <= l * (l1 + l2) / l1 < l2).
  { split; [apply Rmult_le_pos; [nra|left; apply Rinv_0_lt_compat, H1]|]. apply Rmult_lt_reg_r with l1; [exact H1|]. replace (l * (l1 + l2) / l1 * l1) with (l * (l1 + l2)) by (field; lra). lra. }
  assert (E1 := energy_pos _ _ _ _ _ _ _ _ _ _ _ _ l1 V C1 _ cw T1 L N). assert (E2 := energy_pos _ _ _ _ _ _ _ _ _ _ _ _ l2 V' C2 _ cw T2 L N).
  cbv zeta in E1, E2. set (w := combine_shapes a b (sw_idx idx) cw) in *.
  assert (A := load_add Nxx Nyy Nxy Nxx' Nyy' Nxy' a b w 1 1 (any_a _ _ _ _ _ _ _ _ P) (any_b _ _ _ _ _ _ _ _ P) (nice_combine a b _ _)).
  rewrite !Rmult_1_l in A. rewrite A in Z. set (B := bending D a b w w) in *. set (W1 := load_work Nxx Nyy Nxy a b w w) in *. set (W2 := load_work Nxx' Nyy' Nxy' a b w w) in *.
  assert (F1 : 0 < l2 * B + l * (l1 + l2) * W1). { replace (l2 * B + l * (l1 + l2) * W1) with (l2 * (B + l * (l1 + l2) / l2 * W1)) by (field; lra). apply Rmult_lt_0_compat; assumption. }
  assert (F2 : 0 < l1 * B + l * (l1 + l2) * W2). { replace (l1 * B + l * (l1 + l2) * W2) with (l1 * (B + l * (l1 + l2) / l1 * W2)) by (field; lra). apply Rmult_lt_0_compat; assumption. }
  assert (0 < (l1 + l2) * (B + l * (W1 + W2))) by lra. nra.
Qed.
(*@ C67: the loads under which a plate is safe form a convex set. @*)
Lemma t_C67_convex : forall (D : mat3) a b Nxx Nyy Nxy Nxx' Nyy' Nxy' c c0 ca d0 db m n s,
  plate_any D a b c c0 ca d0 db -> 0 <= s <= 1 -> safe D a b Nxx Nyy Nxy c m n -> safe D a b Nxx' Nyy' Nxy' c m n ->
  safe D a b (s * Nxx + (1 - s) * Nxx') (s * Nyy + (1 - s) * Nyy') (s * Nxy + (1 - s) * Nxy') c m n.
Proof.
  intros D a b Nxx Nyy Nxy Nxx' Nyy' Nxy' c c0 ca d0 db m n s P Hs S1 S2 l C.
  destruct (look_any D a b Nxx Nyy Nxy c c0 ca d0 db m n P) as (idx & K & KG & V).
  destruct (look_any D a b Nxx' Nyy' Nxy' c c0 ca d0 db m n P) as (idx' & K' & KG' & V').
  destruct (look_any D a b (s * Nxx + (1 - s) * Nxx') (s * Nyy + (1 - s) * Nyy') (s * Nxy + (1 - s) * Nxy') c c0 ca d0 db m n P) as (idx'' & K'' & KG'' & V'').
  assert (E := same_calc _ _ _ (v_idx _ _ _ _ _ _ _ _ _ _ _ _ V) (v_idx _ _ _ _ _ _ _ _ _ _ _ _ V')). subst idx'.
  assert (E := same_calc _ _ _ (v_idx _ _ _ _ _ _ _ _ _ _ _ _ V) (v_idx _ _ _ _ _ _ _ _ _ _ _ _ V'')). subst idx''.
  destruct (mode _ _ _ _ _ _ _ _ _ _ _ _ _ V'' C) as (Hl & cw & L & N & Z). cbv zeta in Z.
  destruct (Rlt_le_dec 1 l) as [Q|Q]; [exact Q|exfalso].
  assert (Pos : forall p q r K1 G1, view D a b p q r c m n idx K1 G1 -> safe D a b p q r c m n ->
    let w := combine_shapes a b (sw_idx idx) cw in 0 < bending D a b w w + l * load_work p q r a b w w).
  { intros p q r K1 G1 W S w. destruct (Rlt_le_dec 0 (bending D a b w w + l * load_work p q r a b w w)) as [X|X]; [exact X|exfalso].
    destruct (bounded _ _ _ _ _ _ _ _ _ _ _ _ l cw W Hl L N X) as (l' & C' & Le). specialize (S l' C'). lra. }
  assert (E1 := Pos _ _ _ _ _ V S1). assert (E2 := Pos _ _ _ _ _ V' S2). cbv zeta in E1, E2. set (w := combine_shapes a b (sw_idx idx) cw) in *.
  rewrite (load_add Nxx Nyy Nxy Nxx' Nyy' Nxy' a b w s (1 - s) (any_a _ _ _ _ _ _ _ _ P) (any_b _ _ _ _ _ _ _ _ P) (nice_combine a b _ _)) in Z.
  set (B := bending D a b w w) in *. set (W1 := load_work Nxx Nyy Nxy a b w w) in *. set (W2 := load_work Nxx' Nyy' Nxy' a b w w) in *.
  assert (Y : s * (B + l * W1) + (1 - s) * (B + l * W2) = 0) by (rewrite <- Z; ring).
  destruct (Req_dec s 0) as [->|Ns]; [lra|]. assert (0 < s * (B + l * W1)) by (apply Rmult_lt_0_compat; lra).
  assert (0 <= (1 - s) * (B + l * W2)) by (apply Rmult_le_pos; lra). lra.
Qed.

(** ** tension and compression *)
(*@ C68: under loads that compress no direction there is no positive factor, and every factor returned by a documented solver is
    negative or infinite. @*)
Lemma t_C68_tension : forall eigsh (D : mat3) a b Nxx Nyy Nxy c c0 ca d0 db m n,
  plate_any D a b c c0 ca d0 db -> no_compression Nxx Nyy Nxy ->
  (forall l, ~ critical D a b Nxx Nyy Nxy c m n l) /\
  (forall num out vecs, documented eigsh -> buckling_analysis eigsh exact_tables (as_arr D) a b Nxx Nyy Nxy c m n num = Ok (out, vecs) ->
     Forall (fun y => match y with Fin z => z < 0 | Infinite => True end) out).
Proof.
  intros eigsh D a b Nxx Nyy Nxy c c0 ca d0 db m n P T. destruct (look_any D a b Nxx Nyy Nxy c c0 ca d0 db m n P) as (idx & K & KG & V).
  assert (G : forall cw, 0 <= quad_rows KG cw).
  { intros cw. rewrite (v_G _ _ _ _ _ _ _ _ _ _ _ _ V). set (w := combine_shapes a b (sw_idx idx) cw). unfold load_work. fold (load_i Nxx Nyy Nxy w).
    apply over_nonneg; [apply P|apply P|apply nice_load, nice_combine|]. intros x y. apply form_nonneg, T. }
  assert (F : forall z v, buckles K KG z v -> z < 0).
  { intros z v B. assert (Z := buckles_zero K KG z v (v_pen _ _ _ _ _ _ _ _ _ _ _ _ V) B). destruct B as (L & N & _).
    assert (Pd := pen_def _ _ (v_pen _ _ _ _ _ _ _ _ _ _ _ _ V) v L N). specialize (G v). nra. }
  split.
  - intros l C. apply (critical_view _ _ _ _ _ _ _ _ _ _ _ _ _ V) in C. destruct C as (Hl & (v & B) & _). specialize (F l v B). lra.
  - intros num out vecs Dc B. apply Forall_forall. intros y Iy. destruct y as [z|]; [|exact I]. apply In_nth_error in Iy. destruct Iy as (j & Ej).
    destruct (t_C42_pairs eigsh _ _ _ _ _ _ _ _ _ _ num K KG out vecs Dc (v_calc _ _ _ _ _ _ _ _ _ _ _ _ V) (v_pen _ _ _ _ _ _ _ _ _ _ _ _ V) B j (Fin z) Ej) as (v & _ & Bv).
    exact (F z v Bv).
Qed.
(** no shape function is carried along a straight line *)
Lemma bardell_somewhere i : exists t, -1 < t < 1 /\ bardell i t <> 0.
Proof.
  apply NNPP. intros H. assert (Z : forall t, -1 < t < 1 -> bardell i t = 0). { intros t Ht. apply NNPP. intros E. apply H. exists t. split; assumption. }
  assert (C := indep (Datatypes.S i) (fun k => if Nat.eqb i k then 1 else 0)). specialize (C ltac:(intros x Hx; transitivity (1 * bardell i x); [apply (rsum_pick (Datatypes.S i) i 1 (fun k => bardell k x) ltac:(lia))|rewrite Z by exact Hx; ring]) i ltac:(lia)).
  cbn beta in C. rewrite Nat.eqb_refl in C. lra.
Qed.
Lemma bardell_is_derive i t : is_derive (bardell i) t (Derive (bardell i) t).
Proof.
  apply Derive_correct. apply (ex_derive_ext (qeval (bpoly i))); [intros; symmetry; apply bardell_poly|]. eexists. apply qeval_derive.
Qed.
Lemma no_slide i j P Q : P <> 0 ->
  (forall t s, -1 < t < 1 -> -1 < s < 1 -> P * Derive (bardell i) t * bardell j s + Q * bardell i t * Derive (bardell j) s = 0) -> False.
Proof.
  intros HP H. destruct (bardell_somewhere j) as (s & Hs & Ns). destruct (bardell_somewhere i) as (t0 & Ht0 & Nt).
  set (k := - (Q / P) * (Derive (bardell j) s / bardell j s)).
  assert (E : forall t, -1 < t < 1 -> Derive (bardell i) t = k * bardell i t).
  { intros t Ht. specialize (H t s Ht Hs). apply Rmult_eq_reg_l with (P * bardell j s); [|apply Rmult_integral_contrapositive_currified; assumption].
    unfold k. transitivity (- (Q * bardell i t * Derive (bardell j) s)); [lra|]. field. split; assumption. }
  set (h := fun t => bardell i t * exp (- k * t)).
  assert (Dh : forall t, is_derive h t (Derive (bardell i) t * exp (- k * t) + bardell i t * (- k * exp (- k * t)))).
  { intros t. unfold h. apply (is_derive_mult (bardell i) (fun t => exp (- k * t)) t); [apply bardell_is_derive| |intros; apply Rmult_comm].
    auto_derive; [exact I|]. ring. }
  assert (C : forall t, -1 <= t <= 1 -> h t = h (-1)).
  { apply const_on; [lra| |].
    - intros t. apply (ex_derive_continuous (V := R_NormedModule)). eexists. apply Dh.
    - intros t Ht. replace 0 with (Derive (bardell i) t * exp (- k * t) + bardell i t * (- k * exp (- k * t))); [apply Dh|]. rewrite (E t Ht). ring. }
  assert (Z : h t0 = 0).
  { destruct (Nat.eq_dec i 0) as [->|N0].
    - rewrite (C t0) by lra. rewrite <- (C 1) by lra. unfold h. rewrite L_Ends.value1 by discriminate. ring.
    - rewrite (C t0) by lra. unfold h. rewrite L_Ends.value0 by assumption. ring. }
  unfold h in Z. apply Rmult_integral in Z. destruct Z as [Z|Z]; [exact (Nt Z)|]. assert (X := exp_pos (- k * t0)). lra.
Qed.
Lemma form_zero p q r x y : no_compression p q r -> p * x * x + q * y * y + r * (x * y + y * x) = 0 -> p * x + r * y = 0 /\ r * x + q * y = 0.
Proof.
  intros (P & Q & H) Z.
  assert (A : (p * x + r * y) ^ 2 + (p * q - r ^ 2) * y ^ 2 = 0) by (transitivity (p * (p * x * x + q * y * y + r * (x * y + y * x))); [ring|rewrite Z; ring]).
  assert (B : (r * x + q * y) ^ 2 + (p * q - r ^ 2) * x ^ 2 = 0) by (transitivity (q * (p * x * x + q * y * y + r * (x * y + y * x))); [ring|rewrite Z; ring]).
  assert (0 <= (p * q - r ^ 2) * y ^ 2) by (apply Rmult_le_pos; [lra|apply pow2_ge_0]).
  assert (0 <= (p * q - r ^ 2) * x ^ 2) by (apply Rmult_le_pos; [lra|apply pow2_ge_0]).
  assert (X := pow2_ge_0 (p * x + r * y)). assert (Y := pow2_ge_0 (r * x + q * y)).
  split; apply Rsqr_0_uniq; unfold Rsqr; lra.
Qed.
Lemma shape_compressed a b i j p q r : 0 < a -> 0 < b -> no_compression p q r -> p <> 0 \/ q <> 0 ->
  0 < load_work p q r a b (shape a b i j) (shape a b i j).
Proof.
  intros Ha Hb N NZ. assert (W : nice a b (shape a b i j)) by apply nice_shape.
  assert (P := over_nonneg a b (load_i p q r (shape a b i j)) Ha Hb (nice_load _ _ _ _ _ _ W) ltac:(intros; apply form_nonneg, N)).
  destruct (Rle_lt_or_eq_dec _ _ P) as [Q|Q]; [exact Q|exfalso].
  assert (Z := over_zero a b _ Ha Hb (nice_load a b p q r _ W) ltac:(intros; apply form_nonneg, N) (eq_sym Q)).
  assert (Z' : forall t s, -1 < t < 1 -> -1 < s < 1 ->
    p * (2 / a * Derive (bardell i) t * bardell j s) + r * (2 / b * bardell i t * Derive (bardell j) s) = 0 /\
    r * (2 / a * Derive (bardell i) t * bardell j s) + q * (2 / b * bardell i t * Derive (bardell j) s) = 0).
  { intros t s Ht Hs. specialize (Z (a * (t + 1) / 2) (b * (s + 1) / 2)).
    assert (Z1 := Z ltac:(split; nra) ltac:(split; nra)). apply (form_zero p q r _ _ N) in Z1.
    rewrite dx_shape, dy_shape in Z1. replace (2 * (a * (t + 1) / 2) / a - 1) with t in Z1 by (field; lra). replace (2 * (b * (s + 1) / 2) / b - 1) with s in Z1 by (field; lra). exact Z1. }
  assert (A2 : 2 / a <> 0) by (apply Rgt_not_eq, Rdiv_lt_0_compat; lra). assert (B2 : 2 / b <> 0) by (apply Rgt_not_eq, Rdiv_lt_0_compat; lra).
  destruct NZ as [NZ|NZ].
  - apply (no_slide i j (p * (2 / a)) (r * (2 / b))); [apply Rmult_integral_contrapositive_currified; assumption|].
    intros t s Ht Hs. destruct (Z' t s Ht Hs) as [E _]. rewrite <- E. ring.
  - apply (no_slide j i (q * (2 / b)) (r * (2 / a))); [apply Rmult_integral_contrapositive_currified; assumption|].
    intros t s Ht Hs. destruct (Z' s t Hs Ht) as [_ E]. rewrite <- E. ring.
Qed.

(*@ C68: loads that stretch no direction and are not all zero always have a critical factor. @*)
Lemma t_C68_compression : forall (D : mat3) a b Nxx Nyy Nxy c c0 ca d0 db m n,
  plate_any D a b c c0 ca d0 db -> (1 <= m)%nat -> (1 <= n)%nat -> no_compression (- Nxx) (- Nyy) (- Nxy) -> Nxx <> 0 \/ Nyy <> 0 ->
  exists l, critical D a b Nxx Nyy Nxy c m n l.
Proof.
  intros D a b Nxx Nyy Nxy c c0 ca d0 db m n P Hm Hn T NZ. destruct (look_any D a b Nxx Nyy Nxy c c0 ca d0 db m n P) as (idx & K & KG & V).
  assert (Lw := v_w _ _ _ _ _ _ _ _ _ _ _ _ V). destruct (sw_idx idx) as [|[i j] rest] eqn:Ei; [cbn in Lw; nia|].
  set (cw := 1 :: repeat 0 (List.length rest)).
  assert (Ew : combine_shapes a b (sw_idx idx) cw = shape a b i j).
  { rewrite Ei. apply field_ext. intros x y. unfold combine_shapes, cw. cbn [combine map rsum fst snd]. rewrite rsum_zero; [ring|].
    apply Forall_forall. intros z Iz. apply in_map_iff in Iz. destruct Iz as ([q u] & <- & I). apply in_combine_r in I. apply repeat_spec in I. cbn [fst snd]. rewrite I. ring. }
  assert (L : List.length cw = (m * n)%nat). { unfold cw. cbn [List.length]. rewrite repeat_length. rewrite <- Lw. reflexivity. }
  assert (N : nonzero cw) by (apply Exists_cons_hd; lra).
  assert (W := shape_compressed a b i j _ _ _ (any_a _ _ _ _ _ _ _ _ P) (any_b _ _ _ _ _ _ _ _ P) T ltac:(destruct NZ; [left|right]; lra)).
  assert (Neg := load_add Nxx Nyy Nxy 0 0 0 a b (shape a b i j) (-1) 0 (any_a _ _ _ _ _ _ _ _ P) (any_b _ _ _ _ _ _ _ _ P) (nice_shape a b i j)).
  replace (-1 * Nxx + 0 * 0) with (- Nxx) in Neg by ring. replace (-1 * Nyy + 0 * 0) with (- Nyy) in Neg by ring. replace (-1 * Nxy + 0 * 0) with (- Nxy) in Neg by ring.
  rewrite Neg in W.
  assert (Bd : 0 < bending D a b (shape a b i j) (shape a b i j)).
  { assert (Q := pen_def _ _ (v_pen _ _ _ _ _ _ _ _ _ _ _ _ V) cw ltac:(rewrite L; symmetry; apply V) N). rewrite (v_K _ _ _ _ _ _ _ _ _ _ _ _ V), Ew in Q. exact Q. }
  set (E := bending D a b (shape a b i j) (shape a b i j)) in *. set (G := load_work Nxx Nyy Nxy a b (shape a b i j) (shape a b i j)) in *.
  destruct (bounded _ _ _ _ _ _ _ _ _ _ _ _ (E / - G) cw V ltac:(apply Rdiv_lt_0_compat; lra) L N) as (l & C & _).
  - cbv zeta. rewrite Ew. fold E. fold G. right. field. lra.
  - exists l. exact C.
Qed.

(** ** instances *)
Lemma unit_ok k s cd m n : 0 < k -> specifies (CStr s) cd cd cd cd -> cd = Clamped \/ cd = Pinned -> (m <= 20)%nat -> (n <= 20)%nat ->
  plate_ok (M3 k 0 0 0 k 0 0 0 k) 2 1 (CStr s) cd cd cd cd m n.
Proof.
  intros Hk Sp Hc Hm Hn. constructor; try lra; try exact Sp.
  - reflexivity.
  - intros [x y z] N. unfold quad, dot, mvec. cbn. assert (x <> 0 \/ y <> 0 \/ z <> 0).
    { destruct (Req_dec x 0) as [->|]; [|tauto]. destruct (Req_dec y 0) as [->|]; [|tauto]. destruct (Req_dec z 0) as [->|]; [|tauto]. exfalso. apply N. reflexivity. }
    assert (0 < x * x + y * y + z * z) by nra. replace (x * (k * x + 0 * y + 0 * z) + y * (0 * x + k * y + 0 * z) + z * (0 * x + 0 * y + k * z)) with (k * (x * x + y * y + z * z)) by ring.
    apply Rmult_lt_0_compat; assumption.
  - unfold restrained. destruct Hc as [-> | ->]; cbn; [left; reflexivity|do 4 right; lia].
  - destruct Hc as [-> | ->]; cbn; lia.
  - destruct Hc as [-> | ->]; cbn; lia.
Qed.
Lemma clamped_ok k m n : 0 < k -> (m <= 20)%nat -> (n <= 20)%nat -> plate_ok (M3 k 0 0 0 k 0 0 0 k) 2 1 (CStr "CLAMPED") Clamped Clamped Clamped Clamped m n.
Proof. intros. apply unit_ok; try assumption; [constructor|left; reflexivity]. Qed.
Lemma pinned_ok k m n : 0 < k -> (m <= 20)%nat -> (n <= 20)%nat -> plate_ok (M3 k 0 0 0 k 0 0 0 k) 2 1 (CStr "PINNED") Pinned Pinned Pinned Pinned m n.
Proof. intros. apply unit_ok; try assumption; [constructor|right; reflexivity]. Qed.
(*@ C65 example: a clamped plate with 3 x 2 functions and the same plate with pinned edges and 5 x 4 functions, in compression. @*)
Lemma t_C65_ex : plate_ok mid 2 1 (CStr "CLAMPED") Clamped Clamped Clamped Clamped 3 2 /\
  plate_ok mid 2 1 (CStr "PINNED") Pinned Pinned Pinned Pinned 5 4 /\ softer Pinned Clamped /\
  exists l l', critical mid 2 1 (-1) 0 0 (CStr "CLAMPED") 3 2 l /\ critical mid 2 1 (-1) 0 0 (CStr "PINNED") 5 4 l' /\ l' <= l.
Proof.
  assert (P := clamped_ok 1 3 2 ltac:(lra) ltac:(lia) ltac:(lia)). assert (P' := pinned_ok 1 5 4 ltac:(lra) ltac:(lia) ltac:(lia)).
  split; [exact P|]. split; [exact P'|]. assert (S : softer Pinned Clamped) by (unfold softer; cbn; lia). split; [exact S|].
  destruct (t_C68_compression mid 2 1 (-1) 0 0 _ _ _ _ _ 3 2 P ltac:(lia) ltac:(lia) ltac:(unfold no_compression; lra) ltac:(lra)) as (l & C).
  destruct (t_C65_refine mid 2 1 (-1) 0 0 _ _ _ _ _ 3 2 _ _ _ _ _ 5 4 l P P' S S S S ltac:(cbn; lia) ltac:(cbn; lia) C) as (l' & C' & Le).
  exists l, l'. repeat split; assumption.
Qed.
(*@ C66 example: doubling D and halving the compression. @*)
Lemma t_C66_ex : no_stiffer mid (M3 2 0 0 0 2 0 0 0 2) /\ no_compression (-1 - -2) (0 - -1) (0 - 0) /\
  exists l l', critical mid 2 1 (-2) (-1) 0 (CStr "PINNED") 3 3 l /\ critical (M3 2 0 0 0 2 0 0 0 2) 2 1 (-1) 0 0 (CStr "PINNED") 3 3 l' /\ l <= l'.
Proof.
  assert (N : no_stiffer mid (M3 2 0 0 0 2 0 0 0 2)) by (intros [x y z]; unfold quad, dot, mvec, mid; cbn; nra).
  split; [exact N|]. split; [unfold no_compression; split; [lra|split; [lra|nra]]|].
  assert (P := pinned_ok 1 3 3 ltac:(lra) ltac:(lia) ltac:(lia)). assert (P' := pinned_ok 2 3 3 ltac:(lra) ltac:(lia) ltac:(lia)).
  destruct (t_C68_compression _ 2 1 (-1) 0 0 _ _ _ _ _ 3 3 P' ltac:(lia) ltac:(lia) ltac:(unfold no_compression; lra) ltac:(lra)) as (l' & C).
  destruct (t_C66_monotone mid _ 2 1 (-2) (-1) 0 (-1) 0 0 _ _ _ _ _ 3 3 l' P P' N ltac:(unfold no_compression; lra) C) as (l & C' & Le).
  exists l, l'. repeat split; assumption.
Qed.
(*@ C67 example: compression along x combined with compression along y; all three critical factors exist and obey Dunkerley's rule. @*)
Lemma t_C67_ex : exists l1 l2 l, critical mid 2 1 (-1) 0 0 (CStr "CLAMPED") 3 3 l1 /\ critical mid 2 1 0 (-1) 0 (CStr "CLAMPED") 3 3 l2 /\
  critical mid 2 1 (-1) (-1) 0 (CStr "CLAMPED") 3 3 l /\ / l <= / l1 + / l2.
Proof.
  assert (P := clamped_ok 1 3 3 ltac:(lra) ltac:(lia) ltac:(lia)).
  destruct (t_C68_compression _ 2 1 (-1) 0 0 _ _ _ _ _ 3 3 P ltac:(lia) ltac:(lia) ltac:(unfold no_compression; lra) ltac:(lra)) as (l1 & C1).
  destruct (t_C68_compression _ 2 1 0 (-1) 0 _ _ _ _ _ 3 3 P ltac:(lia) ltac:(lia) ltac:(unfold no_compression; lra) ltac:(lra)) as (l2 & C2).
  destruct (t_C68_compression _ 2 1 (-1) (-1) 0 _ _ _ _ _ 3 3 P ltac:(lia) ltac:(lia) ltac:(unfold no_compression; lra) ltac:(lra)) as (l & C).
  assert (Un : forall p q r x y, critical mid 2 1 p q r (CStr "CLAMPED") 3 3 x -> critical mid 2 1 p q r (CStr "CLAMPED") 3 3 y -> 0 < x /\ x <= y).
  { intros p q r x y Cx Cy. destruct (look mid 2 1 p q r _ _ _ _ _ 3 3 P) as (idx & K & KG & V). apply (critical_view _ _ _ _ _ _ _ _ _ _ _ _ _ V) in Cx, Cy.
    destruct Cx as (X & F & M), Cy as (Y & G & N). split; [exact X|]. apply M; assumption. }
  assert (L1 := proj1 (Un _ _ _ _ _ C1 C1)). assert (L2 := proj1 (Un _ _ _ _ _ C2 C2)). assert (L := proj1 (Un _ _ _ _ _ C C)).
  assert (T := t_C67_combined mid 2 1 (-1) 0 0 0 (-1) 0 _ _ _ _ _ 3 3 l1 l2 l P L1 L2 (fun x H => proj2 (Un _ _ _ _ _ C1 H)) (fun x H => proj2 (Un _ _ _ _ _ C2 H))).
  replace (-1 + 0) with (-1) in T by ring. replace (0 + -1) with (-1) in T by ring. replace (0 + 0) with 0 in T by ring. specialize (T C).
  exists l1, l2, l. repeat (split; [assumption|]).
  replace (/ l1 + / l2) with (/ (l1 * l2 / (l1 + l2))) by (field; repeat split; lra).
  apply Rinv_le_contravar; [|exact T]. apply Rdiv_lt_0_compat; [apply Rmult_lt_0_compat; assumption|lra].
Qed.
(*@ C67 example: a plate safe under two load cases and their mean. @*)
Lemma t_C67_ex_convex : exists s, 0 < s /\ safe mid 2 1 (- s) 0 0 (CStr "CLAMPED") 3 3 /\ safe mid 2 1 0 (- s) 0 (CStr "CLAMPED") 3 3 /\
  safe mid 2 1 (- s / 2) (- s / 2) 0 (CStr "CLAMPED") 3 3.
Proof.
  assert (P := clamped_ok 1 3 3 ltac:(lra) ltac:(lia) ltac:(lia)).
  assert (Sc : forall p q r l s, 0 < s -> 2 * s <= l -> critical mid 2 1 p q r (CStr "CLAMPED") 3 3 l -> safe mid 2 1 (s * p) (s * q) (s * r) (CStr "CLAMPED") 3 3).
  { intros p q r l s Hs Hl C x Cx. destruct (look mid 2 1 p q r _ _ _ _ _ 3 3 P) as (idx & K & KG & V).
    destruct (look mid 2 1 (s * p) (s * q) (s * r) _ _ _ _ _ 3 3 P) as (idx' & K' & KG' & V').
    assert (E := same_calc _ _ _ (v_idx _ _ _ _ _ _ _ _ _ _ _ _ V) (v_idx _ _ _ _ _ _ _ _ _ _ _ _ V')). subst idx'.
    destruct (mode _ _ _ _ _ _ _ _ _ _ _ _ _ V' Cx) as (Hx & cw & L & N & Z). cbv zeta in Z.
    assert (A := load_add p q r 0 0 0 2 1 (combine_shapes 2 1 (sw_idx idx) cw) s 0 ltac:(lra) ltac:(lra) (nice_combine 2 1 _ _)).
    replace (s * p + 0 * 0) with (s * p) in A by ring. replace (s * q + 0 * 0) with (s * q) in A by ring. replace (s * r + 0 * 0) with (s * r) in A by ring. rewrite A in Z.
    destruct (bounded _ _ _ _ _ _ _ _ _ _ _ _ (x * s) cw V ltac:(nra) L N ltac:(cbv zeta; lra)) as (l' & C' & Le).
    apply (critical_view _ _ _ _ _ _ _ _ _ _ _ _ _ V) in C, C'. destruct C as (_ & _ & M), C' as (P1 & F1 & _). specialize (M l' P1 F1). nra. }
  destruct (t_C68_compression _ 2 1 (-1) 0 0 _ _ _ _ _ 3 3 P ltac:(lia) ltac:(lia) ltac:(unfold no_compression; lra) ltac:(lra)) as (l1 & C1).
  destruct (t_C68_compression _ 2 1 0 (-1) 0 _ _ _ _ _ 3 3 P ltac:(lia) ltac:(lia) ltac:(unfold no_compression; lra) ltac:(lra)) as (l2 & C2).
  assert (H1 : 0 < l1) by (destruct C1 as (K & KG & _ & H & _); exact H). assert (H2 : 0 < l2) by (destruct C2 as (K & KG & _ & H & _); exact H).
  assert (M1 := Rmin_l l1 l2). assert (M2 := Rmin_r l1 l2). assert (M : 0 < Rmin l1 l2) by (apply Rmin_glb_lt; assumption).
  exists (Rmin l1 l2 / 2). set (s := Rmin l1 l2 / 2) in *. assert (Hs : 0 < s) by (unfold s; lra).
  assert (S1 := Sc (-1) 0 0 l1 s Hs ltac:(unfold s; lra) C1). assert (S2 := Sc 0 (-1) 0 l2 s Hs ltac:(unfold s; lra) C2).
  replace (s * -1) with (- s) in S1, S2 by ring. replace (s * 0) with 0 in S1, S2 by ring.
  split; [exact Hs|]. split; [exact S1|]. split; [exact S2|].
  assert (T := t_C67_convex mid 2 1 (- s) 0 0 0 (- s) 0 _ _ _ _ _ 3 3 (1 / 2) P ltac:(lra) S1 S2).
  replace (1 / 2 * - s + (1 - 1 / 2) * 0) with (- s / 2) in T by field. replace (1 / 2 * 0 + (1 - 1 / 2) * - s) with (- s / 2) in T by field.
  replace (1 / 2 * 0 + (1 - 1 / 2) * 0) with 0 in T by field. exact T.
Qed.
(*@ C68 example: tension along x with tension along y and some shear has no critical factor; the opposite loads have one. @*)
Lemma t_C68_ex : no_compression 2 1 1 /\ (forall l, ~ critical mid 2 1 2 1 1 (CStr "PINNED") 3 3 l) /\
  exists l, critical mid 2 1 (-2) (-1) (-1) (CStr "PINNED") 3 3 l.
Proof.
  assert (N : no_compression 2 1 1) by (unfold no_compression; lra). split; [exact N|].
  assert (P := pinned_ok 1 3 3 ltac:(lra) ltac:(lia) ltac:(lia)). split.
  - apply (t_C68_tension (fun _ _ _ => Err ValueError) mid 2 1 2 1 1 _ _ _ _ _ 3 3 P N).
  - apply (t_C68_compression mid 2 1 (-2) (-1) (-1) _ _ _ _ _ 3 3 P ltac:(lia) ltac:(lia)); [unfold no_compression; lra|lra].
Qed.
