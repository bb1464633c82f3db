(** Proofs of the theorems about the stored tables *)
From Coq Require Import Reals ZArith QArith Qreals Lra Lia Bool String FunctionalExtensionality.
From Coquelicot Require Import Coquelicot.
From Coq Require Import List.
From Verif Require Import M_Py M_Plate M_K M_Tables M_Expr M_RealArith M_Plot M_Buckling M_Material M_Laminate M_Optimize S_Plate S_Mat S_Bardell S_Shape S_Energy S_K S_Ritz S_Eigen S_Compare S_Space S_Stored L_FirstK L_K L_KR L_Poly L_Shape L_Ritz L_Eigen L_Quad L_TabV L_TabX T_Plate T_Shape T_K T_Energy T_Buckling T_Compare T_Space.
Import ListNotations.
Open Scope R_scope.
Notation length := List.length (only parsing).

(*@ C75: every stored integral of two of the functions with numbers 4 to 29 is exact: the text evaluates, in real arithmetic, to the
    integral of the product of the derivatives it names. @*)
Lemma t_C75_exact : forall i k, (4 <= i < 30)%nat -> (4 <= k < 30)%nat ->
  t_ff stored_R i k = Ok (exact_int 0 0 i k) /\ t_fxi_f stored_R i k = Ok (exact_int 1 0 i k) /\
  t_fxi_fxi stored_R i k = Ok (exact_int 1 1 i k) /\ t_fxixi_f stored_R i k = Ok (exact_int 2 0 i k) /\
  t_fxixi_fxi stored_R i k = Ok (exact_int 2 1 i k) /\ t_fxixi_fxixi stored_R i k = Ok (exact_int 2 2 i k).
Proof.
  intros i k Hi Hk. destruct (all_value 0 1 4 26 i k exact_high ltac:(lia) ltac:(lia) ltac:(lia) ltac:(lia)) as (H1 & H2 & H3 & H4 & H5 & H6).
  repeat split; apply near_0; assumption.
Qed.
(*@ C75: the other stored integrals are within 1e-15 of the exact ones while both numbers are below 10, within 2e-12 while they are below
    20, and within 1e-8 always. @*)
Lemma t_C75_accuracy : forall M i k, (M <= 30)%nat -> (i < M)%nat -> (k < M)%nat -> exists v00 v10 v11 v20 v21 v22,
    t_ff stored_R i k = Ok v00 /\ within (tolerance M) v00 (exact_int 0 0 i k) /\
    t_fxi_f stored_R i k = Ok v10 /\ within (tolerance M) v10 (exact_int 1 0 i k) /\
    t_fxi_fxi stored_R i k = Ok v11 /\ within (tolerance M) v11 (exact_int 1 1 i k) /\
    t_fxixi_f stored_R i k = Ok v20 /\ within (tolerance M) v20 (exact_int 2 0 i k) /\
    t_fxixi_fxi stored_R i k = Ok v21 /\ within (tolerance M) v21 (exact_int 2 1 i k) /\
    t_fxixi_fxixi stored_R i k = Ok v22 /\ within (tolerance M) v22 (exact_int 2 2 i k).
Proof.
  intros M i k HM Hi Hk. unfold tolerance. destruct (Nat.leb M 10) eqn:E1; [|destruct (Nat.leb M 20) eqn:E2].
  - apply Nat.leb_le in E1.
    destruct (all_value 1 1000000000000000 0 10 i k tol_10 ltac:(lia) ltac:(lia) ltac:(lia) ltac:(lia)) as ((a & A & A') & (b & B & B') & (c & C & C') & (d & D & D') & (e & E & E') & (f & F & F')).
    exists a, b, c, d, e, f. unfold within. tauto.
  - apply Nat.leb_le in E2.
    destruct (all_value 2 1000000000000 0 20 i k tol_20 ltac:(lia) ltac:(lia) ltac:(lia) ltac:(lia)) as ((a & A & A') & (b & B & B') & (c & C & C') & (d & D & D') & (e & E & E') & (f & F & F')).
    exists a, b, c, d, e, f. unfold within. tauto.
  - apply t_C45_accuracy; lia.
Qed.

(** ** plates clamped on all edges *)
Definition agree4 (t t' : tables RA) (P : nat -> Prop) : Prop := forall i k, P i -> P k ->
  t_ff t i k = t_ff t' i k /\ t_fxi_f t i k = t_fxi_f t' i k /\ t_fxi_fxi t i k = t_fxi_fxi t' i k /\
  t_fxixi_f t i k = t_fxixi_f t' i k /\ t_fxixi_fxi t i k = t_fxixi_fxi t' i k /\ t_fxixi_fxixi t i k = t_fxixi_fxixi t' i k.
Section Same.
Variables (t t' : tables RA) (P : nat -> Prop) (H : agree4 t t' P).
Ltac same := intros [[i j] [k l]] (Hi & Hj & Hk & Hl) *; cbn [fst snd] in *;
  destruct (H i k Hi Hk) as (A1 & A2 & A3 & A4 & A5 & A6); destruct (H k i Hk Hi) as (B1 & B2 & B3 & B4 & B5 & B6);
  destruct (H j l Hj Hl) as (C1 & C2 & C3 & C4 & C5 & C6); destruct (H l j Hl Hj) as (D1 & D2 & D3 & D4 & D5 & D6);
  cbv [calc_k33 calc_kG33 calc_k11 calc_k12 calc_k13 calc_k21 calc_k22 calc_k23 calc_k31 calc_k32 ii_ff ii_fxi_f ii_f_fxi ii_fxi_fxi ii_fxixi_f ii_f_fxixi ii_fxixi_fxi ii_fxi_fxixi ii_fxixi_fxixi];
  cbn [fst snd]; rewrite ?A1, ?A2, ?A3, ?A4, ?A5, ?A6, ?B1, ?B2, ?B3, ?B4, ?B5, ?B6, ?C1, ?C2, ?C3, ?C4, ?C5, ?C6, ?D1, ?D2, ?D3, ?D4, ?D5, ?D6; reflexivity.
Lemma same33 a b : forall q, in4 P q -> forall x1 x2 x3 x4 x5 x6, calc_k33 t a b q x1 x2 x3 x4 x5 x6 = calc_k33 t' a b q x1 x2 x3 x4 x5 x6. Proof. same. Qed.
Lemma sameG a b : forall q, in4 P q -> forall x1 x2 x3, calc_kG33 t a b q x1 x2 x3 = calc_kG33 t' a b q x1 x2 x3. Proof. same. Qed.
Lemma same11 a b : forall q, in4 P q -> forall x1 x2 x3, calc_k11 t a b q x1 x2 x3 = calc_k11 t' a b q x1 x2 x3. Proof. same. Qed.
Lemma same12 a b : forall q, in4 P q -> forall x1 x2 x3 x4, calc_k12 t a b q x1 x2 x3 x4 = calc_k12 t' a b q x1 x2 x3 x4. Proof. same. Qed.
Lemma same13 a b : forall q, in4 P q -> forall x1 x2 x3 x4 x5, calc_k13 t a b q x1 x2 x3 x4 x5 = calc_k13 t' a b q x1 x2 x3 x4 x5. Proof. same. Qed.
Lemma same21 a b : forall q, in4 P q -> forall x1 x2 x3 x4, calc_k21 t a b q x1 x2 x3 x4 = calc_k21 t' a b q x1 x2 x3 x4. Proof. same. Qed.
Lemma same22 a b : forall q, in4 P q -> forall x1 x2 x3, calc_k22 t a b q x1 x2 x3 = calc_k22 t' a b q x1 x2 x3. Proof. same. Qed.
Lemma same23 a b : forall q, in4 P q -> forall x1 x2 x3 x4 x5, calc_k23 t a b q x1 x2 x3 x4 x5 = calc_k23 t' a b q x1 x2 x3 x4 x5. Proof. same. Qed.
Lemma same31 a b : forall q, in4 P q -> forall x1 x2 x3 x4 x5, calc_k31 t a b q x1 x2 x3 x4 x5 = calc_k31 t' a b q x1 x2 x3 x4 x5. Proof. same. Qed.
Lemma same32 a b : forall q, in4 P q -> forall x1 x2 x3 x4 x5, calc_k32 t a b q x1 x2 x3 x4 x5 = calc_k32 t' a b q x1 x2 x3 x4 x5. Proof. same. Qed.

Lemma same_D D a b Nxx Nyy Nxy c m n idx : compute_constraints c m n = Ok idx -> (forall p, In p (sw_idx idx) -> P (fst p) /\ P (snd p)) ->
  calc_K_KG_D t D a b Nxx Nyy Nxy c m n = calc_K_KG_D t' D a b Nxx Nyy Nxy c m n.
Proof.
  intros E I. rewrite (K_D_loop t _ _ _ _ _ _ _ _ _ idx E), (K_D_loop t' _ _ _ _ _ _ _ _ _ idx E).
  rewrite (mapM_ext_in (ent_D t D a b Nxx Nyy Nxy) (ent_D t' D a b Nxx Nyy Nxy)); [reflexivity|].
  intros [p q] J. apply in_prod_iff in J. destruct J as [Jp Jq].
  assert (I4 : in4 P (p, q)) by (destruct (I p Jp), (I q Jq); repeat split; assumption).
  unfold ent_D. rewrite same33, sameG by exact I4. reflexivity.
Qed.
Lemma get_in {X} (l : list X) i x : get l i = Ok x -> In x l.
Proof. unfold get. destruct (nth_error l i) as [y|] eqn:E; [|discriminate]. intros H0. injection H0 as <-. apply (nth_error_In _ _ E). Qed.
Lemma same_ABD M a b Nxx Nyy Nxy c m n idx : compute_constraints c m n = Ok idx ->
  (forall p, In p (su_idx idx) \/ In p (sv_idx idx) \/ In p (sw_idx idx) -> P (fst p) /\ P (snd p)) ->
  calc_K_KG_ABD t M a b Nxx Nyy Nxy c m n = calc_K_KG_ABD t' M a b Nxx Nyy Nxy c m n.
Proof.
  intros E I. destruct (compute_struct _ _ _ _ E) as (_ & _ & _ & U & V & W).
  unfold calc_K_KG_ABD. cbv zeta. rewrite E. cbn [bind]. rewrite U, V, W.
  match goal with |- bind (mapM ?f ?s) _ = bind (mapM ?g ?s) _ => rewrite (mapM_ext_in f g s) end; [reflexivity|].
  intros i _.
  destruct (get (list_prod (su_idx idx) (su_idx idx)) i) as [qu|] eqn:Eu; [|reflexivity].
  destruct (get (list_prod (sv_idx idx) (sv_idx idx)) i) as [qv|] eqn:Ev; [|reflexivity].
  destruct (get (list_prod (sw_idx idx) (sw_idx idx)) i) as [qw|] eqn:Ew; [|reflexivity]. cbn [bind].
  apply get_in in Eu. apply get_in in Ev. apply get_in in Ew. destruct qu as [u1 u2], qv as [v1 v2], qw as [w1 w2].
  apply in_prod_iff in Eu. apply in_prod_iff in Ev. apply in_prod_iff in Ew.
  assert (Pu1 := I u1 (or_introl (proj1 Eu))). assert (Pu2 := I u2 (or_introl (proj2 Eu))).
  assert (Pv1 := I v1 (or_intror (or_introl (proj1 Ev)))). assert (Pv2 := I v2 (or_intror (or_introl (proj2 Ev)))).
  assert (Pw1 := I w1 (or_intror (or_intror (proj1 Ew)))). assert (Pw2 := I w2 (or_intror (or_intror (proj2 Ew)))).
  unfold loop_ABD. cbn [fst snd].
  rewrite same11, same12, same13, same21, same22, same23, same31, same32, same33, sameG by (unfold in4; cbn [fst snd]; tauto). reflexivity.
Qed.
End Same.

Lemma high_agree : agree4 stored_R exact_tables (fun i => (4 <= i < 30)%nat).
Proof. intros i k Hi Hk. destruct (t_C75_exact i k Hi Hk) as (H1 & H2 & H3 & H4 & H5 & H6). rewrite H1, H2, H3, H4, H5, H6. repeat split. Qed.
Lemma clamped_idx c m n : specifies c Clamped Clamped Clamped Clamped -> (m <= 26)%nat -> (n <= 26)%nat ->
  exists idx, compute_constraints c m n = Ok idx /\
  forall p, In p (su_idx idx) \/ In p (sv_idx idx) \/ In p (sw_idx idx) -> (4 <= fst p < 30)%nat /\ (4 <= snd p < 30)%nat.
Proof.
  intros Sp Hm Hn. destruct (t_C34_index_sets c _ _ _ _ m n Sp) as (idx & fx & fy & E & Fx & Fy & Bx & By & RM & Su & Sv & _).
  exists idx. split; [exact E|]. rewrite Su, Sv. intros [i j] I. assert (J : In (i, j) (sw_idx idx)) by tauto.
  destruct (row_major_in _ _ _ _ _ RM J) as [Ii Ij]. rewrite Forall_forall in Bx, By. specialize (Bx i Ii). specialize (By j Ij).
  destruct Fx as (_ & _ & Ax & _), Fy as (_ & _ & Ay & _). rewrite Forall_forall in Ax, Ay. specialize (Ax i Ii). specialize (Ay j Ij).
  assert (Z : forall x, admissible Clamped Clamped x -> (4 <= x)%nat).
  { intros x (H0 & H1 & H2 & H3). cbn in *. destruct x as [|[|[|[|x]]]]; [discriminate H0|discriminate H1|discriminate H2|discriminate H3|lia]; reflexivity. }
  cbn [fst snd]. apply Z in Ax. apply Z in Ay. lia.
Qed.

(*@ C75: so for plates clamped on all four edges with m and n up to 26 both assembly functions compute exactly what they would with exact
    integrals, whatever the stiffness, the lengths and the loads, errors included. @*)
Lemma t_C75_clamped : forall c m n (D ABD : @arr RA) a b Nxx Nyy Nxy, specifies c Clamped Clamped Clamped Clamped -> (m <= 26)%nat -> (n <= 26)%nat ->
  calc_K_KG_D stored_R D a b Nxx Nyy Nxy c m n = calc_K_KG_D exact_tables D a b Nxx Nyy Nxy c m n /\
  calc_K_KG_ABD stored_R ABD a b Nxx Nyy Nxy c m n = calc_K_KG_ABD exact_tables ABD a b Nxx Nyy Nxy c m n.
Proof.
  intros c m n D ABD a b Nxx Nyy Nxy Sp Hm Hn. destruct (clamped_idx c m n Sp Hm Hn) as (idx & E & I). split.
  - apply (same_D _ _ _ high_agree _ _ _ _ _ _ _ _ _ idx E). intros p Hp. apply I. tauto.
  - apply (same_ABD _ _ _ high_agree _ _ _ _ _ _ _ _ _ idx E). exact I.
Qed.
(*@ C75: and so do the buckling analysis, the load computed from lamination parameters, both optimisation problems and the data of the contour
    plot: every theorem about these with exact integrals holds of clamped plates as the code computes them. @*)
Lemma t_C75_users : forall eigsh c m n, specifies c Clamped Clamped Clamped Clamped -> (m <= 26)%nat -> (n <= 26)%nat ->
  (forall D a b Nxx Nyy Nxy num, buckling_analysis eigsh stored_R D a b Nxx Nyy Nxy c m n num = buckling_analysis eigsh exact_tables D a b Nxx Nyy Nxy c m n num) /\
  (forall a b T xi1 xi3 E1 E2 v12 G12 Nxx Nyy Nxy,
     Ncr_from_lp eigsh stored_R a b T m n xi1 xi3 E1 E2 v12 G12 Nxx Nyy Nxy c = Ncr_from_lp eigsh exact_tables a b T m n xi1 xi3 E1 E2 v12 G12 Nxx Nyy Nxy c) /\
  (forall a b T E1 E2 v12 G12 Nxx Nyy Nxy penalty,
     maximize_buckling_load eigsh stored_R a b T E1 E2 v12 G12 Nxx Nyy Nxy m n c penalty = maximize_buckling_load eigsh exact_tables a b T E1 E2 v12 G12 Nxx Nyy Nxy m n c penalty) /\
  (forall a b E1 E2 v12 G12 Nxx Nyy Nxy start,
     minimize_panel_weight eigsh stored_R a b E1 E2 v12 G12 Nxx Nyy Nxy m n start c = minimize_panel_weight eigsh exact_tables a b E1 E2 v12 G12 Nxx Nyy Nxy m n start c) /\
  (forall a b T E1 E2 v12 G12 Nxx Nyy Nxy p penalty,
     plot_optimization eigsh stored_R a b T m n E1 E2 v12 G12 Nxx Nyy Nxy c p penalty = plot_optimization eigsh exact_tables a b T m n E1 E2 v12 G12 Nxx Nyy Nxy c p penalty).
Proof.
  intros eigsh c m n Sp Hm Hn.
  assert (B : forall D a b Nxx Nyy Nxy num, buckling_analysis eigsh stored_R D a b Nxx Nyy Nxy c m n num = buckling_analysis eigsh exact_tables D a b Nxx Nyy Nxy c m n num).
  { intros. unfold buckling_analysis. rewrite (proj1 (t_C75_clamped c m n D D a b Nxx Nyy Nxy Sp Hm Hn)). reflexivity. }
  assert (N : forall a b T xi1 xi3 E1 E2 v12 G12 Nxx Nyy Nxy,
     Ncr_from_lp eigsh stored_R a b T m n xi1 xi3 E1 E2 v12 G12 Nxx Nyy Nxy c = Ncr_from_lp eigsh exact_tables a b T m n xi1 xi3 E1 E2 v12 G12 Nxx Nyy Nxy c).
  { intros. unfold Ncr_from_lp. destruct (ortho_real _ _ _ _ _); [|reflexivity]. cbn [bind]. destruct (construct _ _) as [L|]; [|reflexivity]. cbn [bind].
    destruct (plate_real _ _ _ _); [|reflexivity]. cbn [bind]. destruct (snd _) as [D|]; [|reflexivity]. cbn [bind]. rewrite B. reflexivity. }
  split; [exact B|]. split; [exact N|]. split; [|split].
  - intros. unfold maximize_buckling_load. destruct (normalize_critical_load Nxx Nyy Nxy) as [[[[Nx Ny] Nz] mx]|]; [|reflexivity]. cbn [bind].
    match goal with |- (_, Ok (Problem ?f _ _ _)) = (_, Ok (Problem ?g _ _ _)) => replace f with g; [reflexivity|] end.
    apply functional_extensionality. intros y. destruct y as [|x [|z [|? ?]]]; try reflexivity. rewrite N. reflexivity.
  - intros. unfold minimize_panel_weight. destruct (normalize_critical_load Nxx Nyy Nxy) as [[[[Nx Ny] Nz] mx]|]; [|reflexivity]. cbn [bind].
    match goal with |- (_, Ok (Problem _ _ ((?f, _, _) :: _) _)) = (_, Ok (Problem _ _ ((?g, _, _) :: _) _)) => replace f with g; [reflexivity|] end.
    apply functional_extensionality. intros y. destruct y as [|x [|z [|w [|? ?]]]]; try reflexivity. rewrite N. reflexivity.
  - intros. unfold plot_optimization. cbv zeta.
    match goal with |- bind (mapM ?f ?s) _ = bind (mapM ?g ?s) _ => rewrite (mapM_ext_in f g s) end; [reflexivity|].
    intros q _. rewrite N. reflexivity.
Qed.

Lemma clamped_restrained : restrained Clamped Clamped Clamped Clamped. Proof. left. reflexivity. Qed.
Lemma clamped_plate D a b c m n : 0 < a -> 0 < b -> symmetric D -> pos_def D -> specifies c Clamped Clamped Clamped Clamped -> (m <= 26)%nat -> (n <= 26)%nat ->
  plate_ok D a b c Clamped Clamped Clamped Clamped m n.
Proof. intros. constructor; try assumption; [apply clamped_restrained|cbn; lia|cbn; lia]. Qed.
Lemma stored_critical D a b Nxx Nyy Nxy c m n l : specifies c Clamped Clamped Clamped Clamped -> (m <= 26)%nat -> (n <= 26)%nat ->
  (critical_with stored_R D a b Nxx Nyy Nxy c m n l <-> critical D a b Nxx Nyy Nxy c m n l).
Proof. intros Sp Hm Hn. unfold critical_with, critical. rewrite (proj1 (t_C75_clamped c m n (as_arr D) (as_arr D) a b Nxx Nyy Nxy Sp Hm Hn)). reflexivity. Qed.

(*@ C75: the Ritz principle for the matrices the code assembles: for a clamped plate with symmetric positive definite D, the smallest positive
    factor of K and KG as built from the stored tables is the exact one over all polynomial deflections of the degrees considered
    that meet the edge conditions. @*)
Lemma t_C75_ritz : forall (D : mat3) a b Nxx Nyy Nxy c m n l, 0 < a -> 0 < b -> symmetric D -> pos_def D ->
  specifies c Clamped Clamped Clamped Clamped -> (m <= 26)%nat -> (n <= 26)%nat ->
  let trial w := bipoly (m + 4) (n + 4) w /\ fits a b Clamped Clamped Clamped Clamped w in
  let energy w := bending D a b w w + l * load_work Nxx Nyy Nxy a b w w in
  (critical_with stored_R D a b Nxx Nyy Nxy c m n l <->
   0 < l /\ (forall w, trial w -> 0 <= energy w) /\ (exists w, trial w /\ (exists x y, w x y <> 0) /\ energy w = 0)).
Proof.
  intros D a b Nxx Nyy Nxy c m n l Ha Hb Sy PD Sp Hm Hn trial energy. rewrite stored_critical by assumption.
  assert (R0 := t_C72_ritz D a b Nxx Nyy Nxy c Clamped Clamped Clamped Clamped m n l (ok_any _ _ _ _ _ _ _ _ _ _ (clamped_plate D a b c m n Ha Hb Sy PD Sp Hm Hn)) ltac:(cbn; lia) ltac:(cbn; lia)).
  cbn [taken] in R0. cbv zeta in R0. unfold trial, energy. rewrite <- !Nat.add_assoc in R0. exact R0.
Qed.
(*@ C75: the matrices the code assembles for a clamped plate are symmetric, K is positive definite, and the quadratic forms are exactly the
    bending energy and the work of the loads. @*)
Lemma t_C75_pencil : forall (D : mat3) a b Nxx Nyy Nxy c m n, 0 < a -> 0 < b -> symmetric D -> pos_def D ->
  specifies c Clamped Clamped Clamped Clamped -> (m <= 26)%nat -> (n <= 26)%nat ->
  exists idx (K KG : list (list R)), compute_constraints c m n = Ok idx /\ calc_K_KG_D stored_R (as_arr D) a b Nxx Nyy Nxy c m n = Ok (K, KG) /\ pencil K KG /\
  forall cw, let w := combine_shapes a b (sw_idx idx) cw in quad_rows K cw = bending D a b w w /\ quad_rows KG cw = load_work Nxx Nyy Nxy a b w w.
Proof.
  intros D a b Nxx Nyy Nxy c m n Ha Hb Sy PD Sp Hm Hn.
  destruct (look D a b Nxx Nyy Nxy _ _ _ _ _ m n (clamped_plate D a b c m n Ha Hb Sy PD Sp Hm Hn)) as (idx & K & KG & V).
  exists idx, K, KG. split; [apply V|]. split; [rewrite (proj1 (t_C75_clamped c m n (as_arr D) (as_arr D) a b Nxx Nyy Nxy Sp Hm Hn)); apply V|].
  split; [apply V|]. intros cw w. split; [apply V|apply V].
Qed.
(*@ C75: the plate of C42_unsafe_refuted is clamped, so the code as it stands reports it as safe: whatever documented solver answers, one factor
    above 1.3 is returned while the smallest positive factor of the same matrices is below 0.62. @*)
Lemma t_C75_unsafe_refuted : forall eigsh num out vecs, documented eigsh ->
  buckling_analysis eigsh stored_R (as_arr mid) 1 1 (-200) 0 0 (CStr "CLAMPED") 3 1 num = Ok (out, vecs) ->
  exists (K KG : list (list R)) l z, calc_K_KG_D stored_R (as_arr mid) 1 1 (-200) 0 0 (CStr "CLAMPED") 3 1 = Ok (K, KG) /\
    smallest_factor K KG l /\ l < 62 / 100 /\ out = [Fin z] /\ 13 / 10 < z.
Proof.
  intros eigsh num out vecs Dc H. rewrite (proj1 (t_C75_users eigsh (CStr "CLAMPED") 3 1 Sp_clamped ltac:(lia) ltac:(lia))) in H.
  rewrite (proj1 (t_C75_clamped (CStr "CLAMPED") 3 1 (as_arr mid) (as_arr mid) 1 1 (-200) 0 0 Sp_clamped ltac:(lia) ltac:(lia))).
  apply (t_C42_unsafe_refuted eigsh num out vecs Dc H).
Qed.
Lemma text_value t i k s v : M_Expr.lookup t i k = Ok s -> text_poly s = Some [v] -> tab_at t i k = Ok (Q2R v).
Proof.
  intros L T. unfold text_poly in T. destruct (parse s) as [e|] eqn:P; [|discriminate T].
  unfold tab_at. rewrite L. cbn [bind]. unfold eval. rewrite P, (to_poly_eval _ _ 0 0 T). cbn [qeval]. f_equal. lra.
Qed.
(*@ C75: exactness fails for pinned plates already at the first entry: the stored integral of the square of function 0 is not 26/35, and the
    K of a pinned plate with m = n = 1 is not the bending energy. @*)
Lemma t_C75_rounded_refuted : exact_int 0 0 0 0 = 26 / 35 /\ t_ff stored_R 0 0 <> Ok (exact_int 0 0 0 0) /\
  calc_K_KG_D stored_R (as_arr mid) 2 2 0 0 0 (CStr "PINNED") 1 1 <> calc_K_KG_D exact_tables (as_arr mid) 2 2 0 0 0 (CStr "PINNED") 1 1.
Proof.
  assert (A0 : exact_int 0 0 0 0 = 26 / 35) by (rewrite (T_ABD.small_int 0 0 0 0 (26 # 35)) by (vm_compute; reflexivity); unfold Q2R; cbn; lra).
  assert (A1 : exact_int 0 0 1 1 = 2 / 105) by (rewrite (T_ABD.small_int 0 0 1 1 (2 # 105)) by (vm_compute; reflexivity); unfold Q2R; cbn; lra).
  assert (A2 : exact_int 1 1 1 1 = 1 / 15) by (rewrite (T_ABD.small_int 1 1 1 1 (1 # 15)) by (vm_compute; reflexivity); unfold Q2R; cbn; lra).
  assert (A3 : exact_int 2 2 1 1 = 1 / 2) by (rewrite (T_ABD.small_int 2 2 1 1 (1 # 2)) by (vm_compute; reflexivity); unfold Q2R; cbn; lra).
  assert (B0 : t_ff stored_R 0 0 = Ok (742857142857143 / 1000000000000000)).
  { change (tab_at ii_FF 0 0 = Ok (742857142857143 / 1000000000000000)).
    rewrite (text_value ii_FF 0 0 "0.742857142857143" (742857142857143 # 1000000000000000)) by (vm_compute; reflexivity). unfold Q2R. reflexivity. }
  assert (B1 : t_ff stored_R 1 1 = Ok (19047619047619 / 1000000000000000)).
  { change (tab_at ii_FF 1 1 = Ok (19047619047619 / 1000000000000000)).
    rewrite (text_value ii_FF 1 1 "0.0190476190476190" (19047619047619 # 1000000000000000)) by (vm_compute; reflexivity). unfold Q2R. reflexivity. }
  assert (B2 : t_fxi_fxi stored_R 1 1 = Ok (666666666666667 / 10000000000000000)).
  { change (tab_at ii_FXI_FXI 1 1 = Ok (666666666666667 / 10000000000000000)).
    rewrite (text_value ii_FXI_FXI 1 1 "0.0666666666666667" (666666666666667 # 10000000000000000)) by (vm_compute; reflexivity). unfold Q2R. reflexivity. }
  assert (B3 : t_fxixi_fxixi stored_R 1 1 = Ok (1 / 2)).
  { change (tab_at ii_FXIXI_FXIXI 1 1 = Ok (1 / 2)).
    rewrite (text_value ii_FXIXI_FXIXI 1 1 "0.500000000000000" (1 # 2)) by (vm_compute; reflexivity). unfold Q2R; f_equal; cbn; try lra. }
  split; [exact A0|]. split; [rewrite A0, B0; intros H; injection H; lra|]. intros H.
  assert (Ec : exists idx, compute_constraints (CStr "PINNED") 1 1 = Ok idx /\ sw_idx idx = [(1, 1)]%nat).
  { eexists. split; [vm_compute; reflexivity|reflexivity]. }
  destruct Ec as (idx & Ec & Es). rewrite (exact_fwd mid 2 2 0 0 0 _ _ _ idx ltac:(lra) ltac:(lra) Ec) in H.
  destruct (stored_as mid 2 2 0 0 0 _ _ _ _ _ ltac:(lra) ltac:(lra) H) as (idx' & Ec' & _ & EK & _). rewrite Ec in Ec'. injection Ec' as <-.
  rewrite Es in EK. cbn [map] in EK. assert (EE := f_equal (fun l => nth 0 (nth 0 l []) 0) EK). cbn [nth] in EE.
  assert (L1 : (1 < 30)%nat) by lia. destruct (stored_good 1%nat 1%nat L1 L1) as (G1 & G2 & G3 & G4 & G5 & G6). rewrite B1 in G1. rewrite B2 in G3. rewrite B3 in G6.
  apply (f_equal (fun r => match r with Ok x => x | Err _ => 0 end)) in G1, G3, G6. 
  unfold kx, k33f in EE. cbn [fst snd] in EE. rewrite <- G1, <- G3, <- G6 in EE. unfold exact_e in EE. cbn [e00 e10 e11 e20 e21 e22] in EE.
  rewrite A1, A2, A3 in EE. cbn [mid a11 a21 a22 a31 a32 a33] in EE. lra.
Qed.
(*@ C75: a clamped plate with 26 functions each way meets the hypotheses, and the code assembles matrices of order 676 for it. @*)
Example t_C75_ex : specifies (CStr "CLAMPED") Clamped Clamped Clamped Clamped /\ symmetric mid /\ pos_def mid /\
  exists K KG : list (list R), calc_K_KG_D stored_R (as_arr mid) 1 2 (-1) 0 3 (CStr "CLAMPED") 26 26 = Ok (K, KG) /\ pencil K KG /\ square 676 K.
Proof.
  split; [exact Sp_clamped|]. split; [reflexivity|]. split; [exact mid_def|].
  destruct (t_C75_pencil mid 1 2 (-1) 0 3 (CStr "CLAMPED") 26 26 ltac:(lra) ltac:(lra) eq_refl mid_def Sp_clamped ltac:(lia) ltac:(lia)) as (idx & K & KG & _ & E & Pn & _).
  exists K, KG. split; [exact E|]. split; [exact Pn|]. assert (S0 := pen_K _ _ Pn). rewrite (proj1 (calc_square _ _ _ _ _ _ _ _ _ _ _ _ E)) in S0. exact S0.
Qed.
