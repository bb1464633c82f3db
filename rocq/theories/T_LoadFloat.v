(** Proofs of the theorems on the loads a design carries and the normalised loads in binary64 *)
From Coq Require Import Reals ZArith Lra Lia Bool String.
From Coquelicot Require Import Coquelicot.
From Flocq Require Import Core.Core IEEE754.BinarySingleNaN.
From Coq Require Import List.
From Verif Require Import M_Py M_Plate M_K M_Tables M_Expr M_Float M_FloatArith M_RealArith M_Validate M_Material M_Laminate M_Plot M_MatFloat M_LamArith M_LayupFloat M_LpFloat M_OptFloat M_Buckling M_BucklingFloat M_NcrFloat M_Optimize S_Validate S_Plate S_Mat S_Laminate S_Bardell S_Shape S_Energy S_K S_Ritz S_Eigen S_Compare S_Stored S_Round S_LamRound S_MatFloat S_Sens S_LayupFloat S_LpFloat S_OptFloat S_Higher S_Optimize S_BucklingFloat S_NcrFloat S_LoadFloat L_Quad L_Plate L_FirstK L_K L_KR L_Energy L_ABD L_Ritz L_Spectral L_Higher L_Inexact L_Eigen L_Float L_Round T_Laminate T_Plate T_K T_Energy T_Buckling T_Compare T_Stored T_Solver T_Perturb T_Higher T_Round T_Validate T_MatFloat T_LamRound T_Sens T_LayupFloat T_LpFloat T_OptFloat T_BucklingFloat T_NcrFloat.
Import ListNotations.
Open Scope R_scope.

(** ** the geometric stiffness moves with the loads *)
Section Entry.
Variables (M : nat) (HM : (M <= 30)%nat).
Lemma exact_size i k : (i < M)%nat -> (k < M)%nat -> Rabs (e00 exact_e i k) <= 17/10 /\ Rabs (e10 exact_e i k) <= 17/10 /\ Rabs (e11 exact_e i k) <= 17/10.
Proof.
  intros Hi Hk. destruct (tol_close M HM i k Hi Hk) as (A1 & A2 & A3 & _). assert (T := tol_small M).
  assert (Y : forall s x, Rabs (s - x) <= tolerance M /\ Rabs s <= 8/5 -> Rabs x <= 17/10).
  { intros s x [B1 B2]. replace x with (s - (s - x)) by ring. eapply Rle_trans; [apply Rabs_triang|]. rewrite Rabs_Ropp. lra. }
  split; [|split]; eapply Y; eassumption.
Qed.
Lemma prod_size x y : Rabs x <= 17/10 -> Rabs y <= 17/10 -> Rabs (x * y) <= 33/10.
Proof. intros H1 H2. rewrite Rabs_mult. assert (P := Rmult_le_compat _ _ _ _ (Rabs_pos x) (Rabs_pos y) H1 H2). lra. Qed.
Lemma scaled_size w N x (B : R) : 0 <= w -> Rabs x <= B -> Rabs (N * w * x) <= B * (w * Rabs N).
Proof. intros Hw H. rewrite !Rabs_mult, (Rabs_right w) by lra. assert (0 <= Rabs N * w) by (apply Rmult_le_pos; [apply Rabs_pos|exact Hw]). replace (B * (w * Rabs N)) with (Rabs N * w * B) by ring. apply Rmult_le_compat_l; assumption. Qed.
Lemma kG_moves a b Nxx Nyy Nxy Nxx' Nyy' Nxy' i j k l : 0 < a -> 0 < b -> (i < M)%nat -> (j < M)%nat -> (k < M)%nat -> (l < M)%nat ->
  Rabs (kGf exact_e a b ((i, j), (k, l)) Nxx' Nyy' Nxy' - kGf exact_e a b ((i, j), (k, l)) Nxx Nyy Nxy) <= kG_off 1 (Nxx' - Nxx) (Nyy' - Nyy) (Nxy' - Nxy) a b.
Proof.
  intros Ha Hb Hi Hj Hk Hl.
  destruct (exact_size i k Hi Hk) as (A1 & A2 & A3). destruct (exact_size k i Hk Hi) as (B1 & B2 & B3). destruct (exact_size j l Hj Hl) as (C1 & C2 & C3). destruct (exact_size l j Hl Hj) as (E1 & E2 & E3).
  unfold kGf. cbn [fst snd].
  assert (H1 : 0 <= b / a) by (apply Rmult_le_pos; [lra|left; apply Rinv_0_lt_compat, Ha]). assert (H2 : 0 <= a / b) by (apply Rmult_le_pos; [lra|left; apply Rinv_0_lt_compat, Hb]).
  assert (P1 := scaled_size (b / a) (Nxx' - Nxx) _ _ H1 (prod_size _ _ A3 C1)). assert (P2 := scaled_size (a / b) (Nyy' - Nyy) _ _ H2 (prod_size _ _ A1 C3)).
  assert (P3 : Rabs ((Nxy' - Nxy) * 1 * (e10 exact_e k i * e10 exact_e j l + e10 exact_e i k * e10 exact_e l j)) <= 33/5 * (1 * Rabs (Nxy' - Nxy))).
  { apply scaled_size; [lra|]. eapply Rle_trans; [apply Rabs_triang|]. assert (X := prod_size _ _ B2 C2). assert (Y := prod_size _ _ A2 E2). lra. }
  match goal with |- Rabs ?g <= _ => replace g with ((Nxx' - Nxx) * (b / a) * (e11 exact_e i k * e00 exact_e j l) + (Nyy' - Nyy) * (a / b) * (e00 exact_e i k * e11 exact_e j l) + (Nxy' - Nxy) * 1 * (e10 exact_e k i * e10 exact_e j l + e10 exact_e i k * e10 exact_e l j)) by ring end.
  replace (kG_off 1 (Nxx' - Nxx) (Nyy' - Nyy) (Nxy' - Nxy) a b) with (33/10 * (b / a * Rabs (Nxx' - Nxx)) + 33/10 * (a / b * Rabs (Nyy' - Nyy)) + 33/5 * (1 * Rabs (Nxy' - Nxy))) by (unfold kG_off; field; lra).
  eapply Rle_trans; [apply Rabs_triang|]. apply Rplus_le_compat; [|exact P3]. eapply Rle_trans; [apply Rabs_triang|]. lra.
Qed.
End Entry.
Lemma kG_off_nonneg e x y z a b : 0 <= e -> 0 < a -> 0 < b -> 0 <= kG_off e x y z a b.
Proof.
  intros He Ha Hb. unfold kG_off. assert (H1 : 0 <= b / a) by (apply Rmult_le_pos; [lra|left; apply Rinv_0_lt_compat, Ha]). assert (H2 : 0 <= a / b) by (apply Rmult_le_pos; [lra|left; apply Rinv_0_lt_compat, Hb]).
  assert (A1 := Rmult_le_pos _ _ H1 (Rabs_pos x)). assert (A2 := Rmult_le_pos _ _ H2 (Rabs_pos y)). assert (A3 := Rabs_pos z). apply Rmult_le_pos; lra.
Qed.
Lemma loads_move D a b Nxx Nyy Nxy Nxx' Nyy' Nxy' c c0 ca d0 db m n (K KG K' KG' : list (list R)) : plate_ok D a b c c0 ca d0 db m n ->
  calc_K_KG_D exact_tables (as_arr D) a b Nxx Nyy Nxy c m n = Ok (K, KG) -> calc_K_KG_D exact_tables (as_arr D) a b Nxx' Nyy' Nxy' c m n = Ok (K', KG') ->
  K' = K /\ forall v, List.length v = List.length K -> Rabs (quad_rows KG' v - quad_rows KG v) <= INR (m * n) * kG_off 1 (Nxx' - Nxx) (Nyy' - Nyy) (Nxy' - Nxy) a b * sum_sq v.
Proof.
  intros P H H'. assert (LK := proj1 (calc_square _ _ _ _ _ _ _ _ _ _ _ _ H)). destruct P as [Ha Hb Sy PD Sp Rs Bm Bn]. destruct (named_struct c c0 ca d0 db m n Sp) as (idx & fx & fy & E & Fx & Fy & RM).
  assert (I : forall p, In p (sw_idx idx) -> (fst p < 30)%nat /\ (snd p < 30)%nat).
  { intros [i j] J. destruct (row_major_in _ _ _ _ _ RM J) as [Ii Ij].
    assert (Bx := admissible_below _ _ _ _ Fx). assert (By := admissible_below _ _ _ _ Fy). rewrite Forall_forall in Bx, By.
    specialize (Bx i Ii). specialize (By j Ij). cbn [fst snd]. lia. }
  destruct (compute_struct _ _ _ _ E) as (_ & _ & Lw & _).
  assert (Q := same_calc _ _ _ H (exact_fwd D a b Nxx Nyy Nxy c m n idx ltac:(lra) ltac:(lra) E)). assert (Q' := same_calc _ _ _ H' (exact_fwd D a b Nxx' Nyy' Nxy' c m n idx ltac:(lra) ltac:(lra) E)).
  apply pair_equal_spec in Q, Q'. destruct Q as (QK & QG), Q' as (QK' & QG'). split; [congruence|].
  intros v L. rewrite LK in L. rewrite QG, QG'. replace (m * n)%nat with (List.length v) by exact L. rewrite (Rmult_comm (INR _)). rewrite <- Lw in L.
  apply (quad_off (fun p q => kGf exact_e a b (p, q) Nxx' Nyy' Nxy') (fun p q => kGf exact_e a b (p, q) Nxx Nyy Nxy)); [apply kG_off_nonneg; lra|].
  intros [i j] [k l] Ip Iq. destruct (I _ Ip), (I _ Iq). cbn [fst snd] in *. apply (kG_moves 30 ltac:(lia)); assumption.
Qed.
Lemma loads_scale D a b Nxx Nyy Nxy s c m n (K KG K' KG' : list (list R)) : 0 < a -> 0 < b ->
  calc_K_KG_D exact_tables (as_arr D) a b Nxx Nyy Nxy c m n = Ok (K, KG) -> calc_K_KG_D exact_tables (as_arr D) a b (s * Nxx) (s * Nyy) (s * Nxy) c m n = Ok (K', KG') ->
  K' = K /\ KG' = map (map (Rmult s)) KG.
Proof.
  intros Ha Hb H H'. destruct (compute_constraints c m n) as [idx|e] eqn:E.
  - assert (Q := same_calc _ _ _ H (exact_fwd D a b Nxx Nyy Nxy c m n idx ltac:(lra) ltac:(lra) E)). assert (Q' := same_calc _ _ _ H' (exact_fwd D a b (s * Nxx) (s * Nyy) (s * Nxy) c m n idx ltac:(lra) ltac:(lra) E)).
    apply pair_equal_spec in Q, Q'. destruct Q as (QK & QG), Q' as (QK' & QG'). split; [congruence|]. rewrite QG, QG', map_map. apply map_ext. intros p. rewrite map_map. apply map_ext. intros q. unfold kGf. ring.
  - exfalso. unfold calc_K_KG_D in H. rewrite E in H. discriminate.
Qed.
Lemma factor_scale K KG s l : s <> 0 -> (factor K (map (map (Rmult s)) KG) l <-> factor K KG (s * l)).
Proof.
  intros Hs. unfold factor, buckles. assert (E : forall v, map2 (fun k g => k + l * g) (mat_vec K v) (mat_vec (map (map (Rmult s)) KG) v) = map2 (fun k g => k + s * l * g) (mat_vec K v) (mat_vec KG v)).
  { intros v. unfold mat_vec. rewrite map_map. generalize KG. induction K as [|k K0 IH]; intros [|g G]; try reflexivity. cbn [map map2]. rewrite IH.
    assert (Z : forall x y, dot_list (map (Rmult s) x) y = s * dot_list x y). { clear. unfold dot_list. induction x as [|x0 x IH]; intros [|y0 y]; cbn [map map2 rsum]; try ring. rewrite IH. ring. }
    rewrite Z. apply f_equal2; [ring|reflexivity]. }
  split; intros (v & L & N & Q); exists v; (split; [exact L|]; split; [exact N|]); [rewrite <- E|rewrite E]; exact Q.
Qed.
Lemma critical_scale D a b Nxx Nyy Nxy s c c0 ca d0 db m n l : plate_ok D a b c c0 ca d0 db m n -> 0 < s ->
  critical D a b (s * Nxx) (s * Nyy) (s * Nxy) c m n l -> critical D a b Nxx Nyy Nxy c m n (s * l).
Proof.
  intros P Hs (K' & KG' & H' & Hl & Fl & Mn). destruct (look_any D a b Nxx Nyy Nxy c c0 ca d0 db m n (ok_any _ _ _ _ _ _ _ _ _ _ P)) as (idx & K & KG & V). assert (H := v_calc _ _ _ _ _ _ _ _ _ _ _ _ V).
  destruct (loads_scale D a b Nxx Nyy Nxy s c m n K KG K' KG' (ok_a _ _ _ _ _ _ _ _ _ _ P) (ok_b _ _ _ _ _ _ _ _ _ _ P) H H') as (-> & ->). exists K, KG. split; [exact H|]. split; [apply Rmult_lt_0_compat; assumption|]. split; [apply factor_scale in Fl; [exact Fl|lra]|].
  intros l' Hl' F'. assert (E : l' = s * (l' / s)) by (field; lra). rewrite E in F'. apply factor_scale in F'; [|lra]. assert (0 < l' / s) by (apply Rdiv_lt_0_compat; assumption). specialize (Mn _ H0 F'). rewrite E. apply Rmult_le_compat_l; lra.
Qed.

(*@ C99: the exact factor of a plate does not mind small changes of the loads: if the loads change, so does the reciprocal of the critical factor, by no more than the
    bound. A plate whose factor is within the bound of not existing may gain or lose it. @*)
Lemma t_C99_loads : forall D a b Nxx Nyy Nxy Nxx' Nyy' Nxy' c c0 ca d0 db m n u (K KG : list (list R)) l, plate_ok D a b c c0 ca d0 db m n ->
  calc_K_KG_D exact_tables (as_arr D) a b Nxx Nyy Nxy c m n = Ok (K, KG) -> 0 < u -> at_least u K -> critical D a b Nxx Nyy Nxy c m n l ->
  let g := INR (m * n) * kG_off 1 (Nxx' - Nxx) (Nyy' - Nyy) (Nxy' - Nxy) a b / u in
  (g < 1 / l -> exists l', critical D a b Nxx' Nyy' Nxy' c m n l') /\
  forall l', critical D a b Nxx' Nyy' Nxy' c m n l' -> Rabs (1 / l - 1 / l') <= g.
Proof.
  intros D a b Nxx Nyy Nxy Nxx' Nyy' Nxy' c c0 ca d0 db m n u K KG l P H Hu U (K0 & KG0 & H0 & S) g. assert (E := same_calc _ _ _ H H0). apply pair_equal_spec in E. destruct E as (<- & <-). clear H0.
  destruct (look_any D a b Nxx' Nyy' Nxy' c c0 ca d0 db m n (ok_any _ _ _ _ _ _ _ _ _ _ P)) as (idx & K' & KG' & V). assert (H' := v_calc _ _ _ _ _ _ _ _ _ _ _ _ V). assert (Pn' := v_pen _ _ _ _ _ _ _ _ _ _ _ _ V).
  destruct (loads_move D a b Nxx Nyy Nxy Nxx' Nyy' Nxy' c c0 ca d0 db m n K KG K' KG' P H H') as (-> & CG).
  assert (Pn : pencil K KG) by (destruct P as [A1 A2 A3 A4 A5 A6 A7 A8]; exact (t_C42_pencil D a b Nxx Nyy Nxy c c0 ca d0 db m n K KG A1 A2 A3 A4 A5 A6 H)).
  set (F := INR (m * n) * kG_off 1 (Nxx' - Nxx) (Nyy' - Nyy) (Nxy' - Nxy) a b) in *. assert (HF : 0 <= F) by (apply Rmult_le_pos; [apply pos_INR|apply kG_off_nonneg; [lra|apply P|apply P]]).
  assert (CE : close_by 0 K K) by (intros v _; rewrite Rminus_diag_eq, Rabs_R0 by reflexivity; lra).
  split.
  - intros Hg. destruct (move_fwd K KG K KG' u 0 F Pn U Hu CE eq_refl (pen_K _ _ Pn') (pen_KG _ _ Pn') (pen_symK _ _ Pn') (pen_symKG _ _ Pn') ltac:(lra) HF CG l S Hg) as (l' & S' & _). exists l', K, KG'. auto.
  - intros l' (K1 & KG1 & H1 & S1). assert (E := same_calc _ _ _ H' H1). apply pair_equal_spec in E. destruct E as (<- & <-).
    assert (Q := move_close K KG K KG' u 0 F Pn U Hu CE eq_refl (pen_K _ _ Pn') (pen_KG _ _ Pn') (pen_symK _ _ Pn') (pen_symKG _ _ Pn') ltac:(lra) HF CG l l' S S1).
    replace (0 / u * (1 / l') + F / u) with g in Q by (unfold g, Rdiv; ring). exact Q.
Qed.

Lemma off_mono a b u m n x y z w : 0 < a -> 0 < b -> 0 < u -> 0 <= w -> Rabs x <= w -> Rabs y <= w -> Rabs z <= w -> INR (m * n) * kG_off 1 x y z a b / u <= INR (m * n) * kG_off w 1 1 1 a b / u.
Proof.
  intros Ha Hb Hu Hw X Y Z. assert (H1 : 0 <= b / a) by (apply Rmult_le_pos; [lra|left; apply Rinv_0_lt_compat, Ha]). assert (H2 : 0 <= a / b) by (apply Rmult_le_pos; [lra|left; apply Rinv_0_lt_compat, Hb]).
  apply Rmult_le_compat_r; [left; apply Rinv_0_lt_compat, Hu|]. apply Rmult_le_compat_l; [apply pos_INR|]. unfold kG_off. rewrite (Rabs_right 1) by lra.
  assert (A1 := Rmult_le_compat_l _ _ _ H1 X). assert (A2 := Rmult_le_compat_l _ _ _ H2 Y). lra.
Qed.
Lemma off_pos a b u m n : 0 < a -> 0 < b -> 0 < u -> 0 <= load_off m n a b u.
Proof. intros Ha Hb Hu. unfold load_off. apply Rmult_le_pos; [|left; apply Rinv_0_lt_compat, Hu]. apply Rmult_le_pos; [apply pos_INR|]. apply kG_off_nonneg; [unfold unit; lra|exact Ha|exact Hb]. Qed.
Lemma tiny_unit : powerRZ 2 (-1075) <= unit.
Proof. rewrite pz. apply Rle_trans with (bp (-53)); [apply bpow_le; lia|cbn; unfold unit; lra]. Qed.

(*@ C99: the largest load times the factor of the given loads is the factor of the loads the optimisers normalise in binary64, up to the bound, and one of them exists
    when the other does, unless the bound reaches it. @*)
Lemma t_C99_normalised : forall (X : mat3) a b (Nxx Nyy Nxy Nx Ny Nz mx : f64) c c0 ca d0 db m n u (K KG : list (list R)), plate_ok X a b c c0 ca d0 db m n ->
  is_finite Nxx = true -> is_finite Nyy = true -> is_finite Nxy = true -> normalize_f Nxx Nyy Nxy = Ok (Nx, Ny, Nz, mx) ->
  calc_K_KG_D exact_tables (as_arr X) a b (B2R Nxx) (B2R Nyy) (B2R Nxy) c m n = Ok (K, KG) -> 0 < u -> at_least u K ->
  0 < B2R mx /\
  (forall l, critical X a b (B2R Nxx) (B2R Nyy) (B2R Nxy) c m n l -> load_off m n a b u < 1 / (B2R mx * l) -> exists l', critical X a b (B2R Nx) (B2R Ny) (B2R Nz) c m n l') /\
  (forall l', critical X a b (B2R Nx) (B2R Ny) (B2R Nz) c m n l' -> load_off m n a b u < 1 / l' -> exists l, critical X a b (B2R Nxx) (B2R Nyy) (B2R Nxy) c m n l) /\
  forall l l', critical X a b (B2R Nxx) (B2R Nyy) (B2R Nxy) c m n l -> critical X a b (B2R Nx) (B2R Ny) (B2R Nz) c m n l' -> Rabs (1 / (B2R mx * l) - 1 / l') <= load_off m n a b u.
Proof.
  intros X a b Nxx Nyy Nxy Nx Ny Nz mx c c0 ca d0 db m n u K KG P F1 F2 F3 En H Hu U. assert (Ha := ok_a _ _ _ _ _ _ _ _ _ _ P). assert (Hb := ok_b _ _ _ _ _ _ _ _ _ _ P).
  assert (Nz0 : ~ (B2R Nxx = 0 /\ B2R Nyy = 0 /\ B2R Nxy = 0)).
  { intros Z. assert (Q := proj2 (t_C93_error Nxx Nyy Nxy ZeroDivisionError F1 F2 F3)). rewrite En in Q. specialize (Q ltac:(split; [reflexivity|exact Z])). discriminate. }
  destruct (t_C93_normalised Nxx Nyy Nxy F1 F2 F3 Nz0) as (x1 & x2 & x3 & mx' & En' & _ & Vm & Pm & Q & _). rewrite En in En'. apply Ok_inj in En'. assert (E : Nx = x1 /\ Ny = x2 /\ Nz = x3 /\ mx = mx') by (repeat split; congruence). destruct E as (<- & <- & <- & <-). clear En'.
  assert (B : forall N v, In (N, v) [(Nxx, Nx); (Nyy, Ny); (Nxy, Nz)] -> Rabs (B2R v - B2R N / B2R mx) <= 2 * unit).
  { intros N v I. destruct (Q N v I) as (_ & _ & _ & E & _). assert (L : Rabs (B2R N) <= B2R mx) by (rewrite Vm; destruct (largest_ge (B2R Nxx) (B2R Nyy) (B2R Nxy)) as (L1 & L2 & L3 & _); destruct I as [I|[I|[I|[]]]]; apply pair_equal_spec in I; destruct I as (<- & _); assumption).
    assert (L' : Rabs (B2R N / B2R mx) <= 1) by (unfold Rdiv; rewrite Rabs_mult, (Rabs_right (/ B2R mx)) by (apply Rle_ge; left; apply Rinv_0_lt_compat, Pm); apply (Rmult_le_reg_r (B2R mx)); [exact Pm|]; rewrite Rmult_assoc, Rinv_l by lra; lra).
    assert (T := tiny_unit). assert (uu : 0 < unit) by (unfold unit; lra). assert (unit * Rabs (B2R N / B2R mx) <= unit * 1) by (apply Rmult_le_compat_l; lra). lra. }
  assert (B1 := B _ _ (or_introl eq_refl)). assert (B2 := B _ _ (or_intror (or_introl eq_refl))). assert (B3 := B _ _ (or_intror (or_intror (or_introl eq_refl)))). clear B Q.
  set (p := B2R Nxx / B2R mx) in *. set (q := B2R Nyy / B2R mx) in *. set (r := B2R Nxy / B2R mx) in *.
  assert (Ep : B2R Nxx = B2R mx * p) by (unfold p; field; lra). assert (Eq : B2R Nyy = B2R mx * q) by (unfold q; field; lra). assert (Er : B2R Nxy = B2R mx * r) by (unfold r; field; lra).
  destruct (look_any X a b p q r c c0 ca d0 db m n (ok_any _ _ _ _ _ _ _ _ _ _ P)) as (idx & K0 & KG0 & V). assert (H0 := v_calc _ _ _ _ _ _ _ _ _ _ _ _ V).
  rewrite Ep, Eq, Er in H. destruct (loads_scale X a b p q r (B2R mx) c m n K0 KG0 K KG Ha Hb H0 H) as (-> & _).
  destruct (look_any X a b (B2R Nx) (B2R Ny) (B2R Nz) c c0 ca d0 db m n (ok_any _ _ _ _ _ _ _ _ _ _ P)) as (idx1 & K1 & KG1 & V1). assert (H1 := v_calc _ _ _ _ _ _ _ _ _ _ _ _ V1).
  destruct (loads_move X a b p q r (B2R Nx) (B2R Ny) (B2R Nz) c c0 ca d0 db m n K0 KG0 K1 KG1 P H0 H1) as (-> & _).
  assert (uu : 0 <= 2 * unit) by (unfold unit; lra).
  assert (W1 := off_mono a b u m n _ _ _ _ Ha Hb Hu uu B1 B2 B3).
  assert (W2 : INR (m * n) * kG_off 1 (p - B2R Nx) (q - B2R Ny) (r - B2R Nz) a b / u <= INR (m * n) * kG_off (2 * unit) 1 1 1 a b / u) by (apply off_mono; try assumption; rewrite Rabs_minus_sym; assumption).
  fold (load_off m n a b u) in W1, W2.
  assert (Dn : forall l, critical X a b (B2R Nxx) (B2R Nyy) (B2R Nxy) c m n l -> critical X a b p q r c m n (B2R mx * l)) by (intros l; rewrite Ep, Eq, Er; apply (critical_scale X a b p q r (B2R mx) c c0 ca d0 db m n l P Pm)).
  assert (Up : forall l, critical X a b p q r c m n l -> critical X a b (B2R Nxx) (B2R Nyy) (B2R Nxy) c m n (/ B2R mx * l)).
  { intros l C. apply (critical_scale X a b _ _ _ (/ B2R mx) c c0 ca d0 db m n l P (Rinv_0_lt_compat _ Pm)). rewrite Ep, Eq, Er. replace (/ B2R mx * (B2R mx * p)) with p by (field; lra). replace (/ B2R mx * (B2R mx * q)) with q by (field; lra). replace (/ B2R mx * (B2R mx * r)) with r by (field; lra). exact C. }
  split; [exact Pm|]. split; [|split].
  - intros l C G. apply (proj1 (t_C99_loads X a b p q r (B2R Nx) (B2R Ny) (B2R Nz) c c0 ca d0 db m n u K0 KG0 _ P H0 Hu U (Dn l C))). lra.
  - intros l' C G. destruct (proj1 (t_C99_loads X a b (B2R Nx) (B2R Ny) (B2R Nz) p q r c c0 ca d0 db m n u K0 KG1 _ P H1 Hu U C)) as (l & C'); [lra|]. eexists. exact (Up l C').
  - intros l l' C C'. eapply Rle_trans; [apply (proj2 (t_C99_loads X a b p q r (B2R Nx) (B2R Ny) (B2R Nz) c c0 ca d0 db m n u K0 KG0 _ P H0 Hu U (Dn l C)) l' C')|exact W1].
Qed.

(*@ C99: a design the weight optimiser takes for feasible carries the loads it was given, not only the normalised ones: when its constraint function returns x, x is at
    least the largest load and x stands for the factor of the exact plate up to E and G, then the exact plate does not buckle below nearly one times the given loads. @*)
Lemma t_C99_carries : forall parse eigsh pow dec (X : mat3) (a b : f64) m n (E1 E2 v12 G12 Nxx Nyy Nxy : f64) c c0 ca d0 db g mx t xi1 xi3 x u E G (K KG : list (list R)),
  weight_constraint_f parse eigsh pow dec a b m n E1 E2 v12 G12 Nxx Nyy Nxy c = Ok (g, mx) -> is_finite Nxx = true -> is_finite Nyy = true -> is_finite Nxy = true ->
  g [t; xi1; xi3] = Ok x -> is_finite x = true -> B2R mx <= B2R x ->
  plate_ok X (B2R a) (B2R b) c c0 ca d0 db m n ->
  calc_K_KG_D exact_tables (as_arr X) (B2R a) (B2R b) (B2R Nxx) (B2R Nyy) (B2R Nxy) c m n = Ok (K, KG) -> 0 < u -> at_least u K -> 0 <= E -> 0 <= G ->
  (forall Nx Ny Nz l', normalize_f Nxx Nyy Nxy = Ok (Nx, Ny, Nz, mx) -> Ncr_from_lp_f parse eigsh pow dec a b t m n xi1 xi3 E1 E2 v12 G12 Nx Ny Nz c = Ok x ->
     critical X (B2R a) (B2R b) (B2R Nx) (B2R Ny) (B2R Nz) c m n l' -> reports E G l' x) ->
  forall l, critical X (B2R a) (B2R b) (B2R Nxx) (B2R Nyy) (B2R Nxy) c m n l -> 1 / (1 + E + (G + load_off m n (B2R a) (B2R b) u) * B2R mx) <= l.
Proof.
  intros parse eigsh pow dec X a b m n E1 E2 v12 G12 Nxx Nyy Nxy c c0 ca d0 db g mx t xi1 xi3 x u E G K KG W F1 F2 F3 Gx Fx Le P H Hu U HE HG Rp l C.
  destruct (t_C98_feasible parse eigsh pow dec a b m n E1 E2 v12 G12 Nxx Nyy Nxy c g mx t xi1 xi3 x W F1 F2 F3 Gx Fx Le) as (Nx & Ny & Nz & En & Ex & Pm & Fe).
  destruct (t_C99_normalised X (B2R a) (B2R b) Nxx Nyy Nxy Nx Ny Nz mx c c0 ca d0 db m n u K KG P F1 F2 F3 En H Hu U) as (_ & A1 & _ & A3).
  set (o := load_off m n (B2R a) (B2R b) u) in *. assert (Ho : 0 <= o) by (apply off_pos; [apply P|apply P|exact Hu]).
  assert (Hl : 0 < l) by (destruct C as (? & ? & _ & S); apply S). assert (J : 1 / (B2R mx * l) <= (1 + E) / B2R mx + G + o).
  { destruct (Rlt_or_le o (1 / (B2R mx * l))) as [L|L].
    - destruct (A1 l C L) as (l' & C'). assert (Hl' : 0 < l') by (destruct C' as (? & ? & _ & S); apply S). specialize (A3 l l' C C'). specialize (Fe E G l' HE HG Hl' (Rp Nx Ny Nz l' En Ex C')). apply Rcomplements.Rabs_le_between in A3.
      assert (I : 1 / l' <= (1 + E) / B2R mx + G).
      { assert (0 < 1 + E + G * B2R mx) by (assert (0 <= G * B2R mx) by (apply Rmult_le_pos; lra); lra).
        apply (Rmult_le_reg_r l'); [exact Hl'|]. replace (1 / l' * l') with 1 by (field; lra). apply (Rmult_le_compat_l ((1 + E) / B2R mx + G)) in Fe; [|assert (0 <= (1 + E) / B2R mx) by (apply Rmult_le_pos; [lra|left; apply Rinv_0_lt_compat, Pm]); lra].
        replace (((1 + E) / B2R mx + G) * (B2R mx / (1 + E + G * B2R mx))) with 1 in Fe by (field; lra). lra. }
      lra.
    - assert (0 <= (1 + E) / B2R mx) by (apply Rmult_le_pos; [lra|left; apply Rinv_0_lt_compat, Pm]). lra. }
  assert (Z : 0 < 1 + E + (G + o) * B2R mx) by (assert (0 <= (G + o) * B2R mx) by (apply Rmult_le_pos; lra); lra).
  apply (Rmult_le_reg_r (1 + E + (G + o) * B2R mx)); [exact Z|]. replace (1 / (1 + E + (G + o) * B2R mx) * (1 + E + (G + o) * B2R mx)) with 1 by (field; lra).
  apply (Rmult_le_compat_l (B2R mx * l)) in J; [|apply Rmult_le_pos; lra]. replace (B2R mx * l * (1 / (B2R mx * l))) with 1 in J by (field; lra).
  replace (B2R mx * l * ((1 + E) / B2R mx + G + o)) with (l * (1 + E + (G + o) * B2R mx)) in J by (field; lra). exact J.
Qed.

Lemma k_off_nonneg e D a b : 0 <= e -> 0 < a -> 0 < b -> 0 <= k_off e D a b.
Proof.
  intros He Ha Hb. replace (k_off e D a b) with (e * 100000000 * k_err D a b) by (unfold k_off, k_err; field; lra). assert (P := k_err_pos D a b Ha Hb). apply Rmult_le_pos; lra.
Qed.
Lemma lp_off_nonneg mu q T : 0 < mu -> 0 <= q -> usual T -> 0 <= lp_off mu q 3 T.
Proof.
  intros Hm Hq [_ [HT _]]. assert (0 < B2R T) by (eapply Rlt_le_trans; [apply (powerRZ_lt 2 (-64)); lra|exact HT]). unfold lp_off.
  apply Rmult_le_pos; [apply Rmult_le_pos; [apply Rmult_le_pos|exact Hq]|apply pow_le; lra]; [|unfold unit; lra]. apply Rmult_le_pos; [lra|left; apply Rinv_0_lt_compat, Hm].
Qed.

(*@ C99: from the inputs of the weight optimiser to the loads the design carries, everything in binary64: if the constraint function returns at least the largest load at
    thickness t and parameters xi1, xi3, then the exact plate with these parameters has no buckling factor below nearly one under the given loads. Everything lost on
    the way is in the bound: the computed stiffness, the tables, the assembled matrices, the solver, the final division and the normalised loads. The factor of the
    normalised loads must not be below one (nearly) nor astronomically large, as in C98. @*)
Lemma t_C99_design : forall parse eigsh eps gam mu q nu f t xi1 xi3 E1 E2 v12 G12 (X : mat3) (M : farr) pow dec a b Nxx Nyy Nxy Nx Ny Nz h mx c c0 ca d0 db m n N u (K KG : list (list R)) x,
  accurate_to eps gam eigsh -> 0 <= eps -> 0 <= gam ->
  ortho_init parse (oargs5 (PFloat E1) (PFloat E2) (PFloat v12) (PFloat G12) (PFloat (dec 1%Z (-1)%Z))) = Ok f ->
  powerRZ 2 (-40) <= mu -> powerRZ 2 (-200) <= q <= powerRZ 2 190 -> lp_ply mu q f -> four_parameters [xi1; fzero; xi3; fzero] -> usual t ->
  exact_D f [xi1; fzero; xi3; fzero] t = Ok X -> plate_ok X (B2R a) (B2R b) c c0 ca d0 db m n -> (forall e, nu * dot e e <= quad X e) -> 3 * lp_off mu q 3 t < nu ->
  is_finite Nxx = true -> is_finite Nyy = true -> is_finite Nxy = true -> normalize_f Nxx Nyy Nxy = Ok (Nx, Ny, Nz, mx) ->
  D_lp_f pow f [xi1; fzero; xi3; fzero] t = Ok M -> usual_inputs pow dec M a b Nx Ny Nz -> (N <= 30)%nat -> (m + taken c0 + taken ca <= N)%nat -> (n + taken d0 + taken db <= N)%nat ->
  calc_K_KG_D exact_tables (as_arr X) (B2R a) (B2R b) (B2R Nxx) (B2R Nyy) (B2R Nxy) c m n = Ok (K, KG) -> at_least u K ->
  let d := 3 * lp_off mu q 3 t / nu in
  let e := INR (m * n) * k_off (tolerance N + 16 * unit) (numbers M) (B2R a) (B2R b) / ((1 - d) * u) in
  let g := INR (m * n) * kG_off (tolerance N + 16 * unit) (B2R Nx) (B2R Ny) (B2R Nz) (B2R a) (B2R b) / ((1 - d) * u) in
  let E := (d + e * (1 + d)) + eps * (1 + (d + e * (1 + d))) in
  let G := g * (1 + d) + gam * (1 + (d + e * (1 + d))) in
  INR (m * n) * k_off (tolerance N + 16 * unit) (numbers M) (B2R a) (B2R b) < (1 - d) * u ->
  (forall l', critical X (B2R a) (B2R b) (B2R Nx) (B2R Ny) (B2R Nz) c m n l' -> 1 / l' + G <= 1 - E /\ powerRZ 2 (-900) <= 1 / l' - G) ->
  weight_constraint_f parse eigsh pow dec a b m n E1 E2 v12 G12 Nxx Nyy Nxy c = Ok (h, mx) -> h [t; xi1; xi3] = Ok x -> is_finite x = true -> B2R mx <= B2R x ->
  forall l, critical X (B2R a) (B2R b) (B2R Nxx) (B2R Nyy) (B2R Nxy) c m n l ->
    1 / (1 + (E * (1 + unit) + unit) + (G + load_off m n (B2R a) (B2R b) u) * B2R mx) <= l.
Proof.
  intros parse eigsh eps gam mu q nu f t xi1 xi3 E1 E2 v12 G12 X M pow dec a b Nxx Nyy Nxy Nx Ny Nz h mx c c0 ca d0 db m n N u K KG x Ac He Hg Ef Hm Hq Hf Hx HT EX P Hn Hs F1 F2 F3 En EM UI HN Hmm Hnn H U d e g E G Hu Cr W Hh Fx Le.
  assert (Ha := ok_a _ _ _ _ _ _ _ _ _ _ P). assert (Hb := ok_b _ _ _ _ _ _ _ _ _ _ P). assert (uu : 0 < unit) by (unfold unit; lra). assert (tt : 0 <= tolerance N + 16 * unit) by (assert (T := tol_small N); lra).
  assert (Hmu : 0 < mu) by (eapply Rlt_le_trans; [apply (powerRZ_lt 2 (-40)); lra|exact Hm]). assert (Hq0 : 0 <= q) by (eapply Rle_trans; [left; apply (powerRZ_lt 2 (-200)); lra|apply Hq]).
  assert (Ho := lp_off_nonneg mu q t Hmu Hq0 HT). assert (Hnu : 0 < nu) by lra.
  assert (Hd : 0 <= d < 1) by (unfold d; split; [apply Rmult_le_pos; [lra|left; apply Rinv_0_lt_compat, Hnu]|apply (Rmult_lt_reg_r nu); [exact Hnu|]; replace (3 * lp_off mu q 3 t / nu * nu) with (3 * lp_off mu q 3 t) by (field; lra); lra]).
  assert (Hk : 0 <= INR (m * n) * k_off (tolerance N + 16 * unit) (numbers M) (B2R a) (B2R b)) by (apply Rmult_le_pos; [apply pos_INR|apply k_off_nonneg; assumption]).
  assert (Hdu : 0 < (1 - d) * u) by lra. assert (Hu0 : 0 < u) by (apply (Rmult_lt_reg_l (1 - d)); [lra|]; lra).
  assert (He0 : 0 <= e) by (apply Rmult_le_pos; [exact Hk|left; apply Rinv_0_lt_compat, Hdu]).
  assert (Hg0 : 0 <= g) by (apply Rmult_le_pos; [apply Rmult_le_pos; [apply pos_INR|apply kG_off_nonneg; assumption]|left; apply Rinv_0_lt_compat, Hdu]).
  assert (He1 : 0 <= d + e * (1 + d)) by (assert (0 <= e * (1 + d)) by (apply Rmult_le_pos; lra); lra).
  assert (HE : 0 <= E) by (unfold E; assert (0 <= eps * (1 + (d + e * (1 + d)))) by (apply Rmult_le_pos; lra); lra).
  assert (HG : 0 <= G) by (unfold G; assert (0 <= gam * (1 + (d + e * (1 + d)))) by (apply Rmult_le_pos; lra); assert (0 <= g * (1 + d)) by (apply Rmult_le_pos; lra); lra).
  assert (HE' : 0 <= E * (1 + unit) + unit) by (assert (0 <= E * (1 + unit)) by (apply Rmult_le_pos; lra); lra).
  apply (t_C99_carries parse eigsh pow dec X a b m n E1 E2 v12 G12 Nxx Nyy Nxy c c0 ca d0 db h mx t xi1 xi3 x u (E * (1 + unit) + unit) G K KG W F1 F2 F3 Hh Fx Le P H Hu0 U HE' HG).
  intros Nx' Ny' Nz' l' En' R C. rewrite En in En'. apply Ok_inj in En'. assert (Q : Nx' = Nx /\ Ny' = Ny /\ Nz' = Nz) by (repeat split; congruence). destruct Q as (-> & -> & ->).
  destruct (look_any X (B2R a) (B2R b) (B2R Nx) (B2R Ny) (B2R Nz) c c0 ca d0 db m n (ok_any _ _ _ _ _ _ _ _ _ _ P)) as (idx1 & K1 & KG1 & V1). assert (H1 := v_calc _ _ _ _ _ _ _ _ _ _ _ _ V1).
  destruct (loads_move X (B2R a) (B2R b) _ _ _ _ _ _ c c0 ca d0 db m n K KG K1 KG1 P H H1) as (-> & _). destruct (Cr l' C) as [C1 C2].
  exact (t_C98_ncr parse eigsh eps gam mu q nu f t xi1 xi3 E1 E2 v12 G12 X M pow dec a b Nx Ny Nz c c0 ca d0 db m n N u K KG1 l' x Ac He Hg Ef Hm Hq Hf Hx HT EX P Hn Hs EM UI HN Hmm Hnn H1 U Hu C C1 C2 R).
Qed.

(** ** the square pinned plate of C98 under five quarters *)
Lemma q5 : is_finite (f_of_Z_exp (-5) (-2)) = true /\ B2R (f_of_Z_exp (-5) (-2)) = -5 / 4.
Proof. split; [reflexivity|]. rewrite T_MatFloat.val by lia. cbn. lra. Qed.
Lemma norm99 : exists z mx, normalize_f (f_of_Z_exp (-5) (-2)) (f_of_Z_exp (-5) (-2)) fzero = Ok (f_of_Z (-1), f_of_Z (-1), z, mx) /\ is_finite z = true /\ B2R z = 0 /\ B2R mx = 5 / 4.
Proof.
  destruct q5 as [F1 V1]. destruct (f_small (-1) eq_refl) as [G1 W1].
  destruct (t_C93_normalised _ _ fzero F1 F1 eq_refl ltac:(rewrite V1; lra)) as (x & y & z & mx & E & _ & Vm & _ & Q & _).
  assert (Em : B2R mx = 5 / 4) by (rewrite Vm, V1; change (B2R fzero) with 0; unfold largest; rewrite Rabs_R0, (Rabs_left (-5 / 4)) by lra; unfold Rmax; repeat destruct Rle_dec; lra).
  assert (Y : forall v, In (f_of_Z_exp (-5) (-2), v) [(f_of_Z_exp (-5) (-2), x); (f_of_Z_exp (-5) (-2), y); (fzero, z)] -> v = f_of_Z (-1)).
  { intros v I. destruct (Q _ _ I) as (Nv & _ & Sg & _ & Ab). rewrite V1, Em in *. specialize (Ab ltac:(rewrite Rabs_left; lra)).
    assert (Ev : B2R v = -1) by (unfold Rabs in Ab; destruct Rcase_abs in Ab; lra). apply B2R_inj; [destruct v; cbn in Ev; try reflexivity; lra|reflexivity|rewrite Ev, W1; reflexivity]. }
  assert (Ex := Y x (or_introl eq_refl)). assert (Ey := Y y (or_intror (or_introl eq_refl))). subst x y. exists z, mx. split; [exact E|].
  destruct (Q fzero z ltac:(do 2 right; left; reflexivity)) as (Nz & _ & _ & Bz & _). change (B2R fzero) with 0 in *. split; [apply Nz|]. split; [|exact Em].
  assert (Q0 := proj2 Nz fzero eq_refl). change (B2R fzero) with 0 in Q0. rewrite Em in Q0. replace (0 / (5 / 4)) with 0 in Q0 by field. rewrite !Rminus_0_r, Rabs_R0 in Q0.
  assert (A := Rabs_pos (B2R z)). destruct (Req_dec (B2R z) 0) as [|C]; [assumption|]. apply Rabs_pos_lt in C. lra.
Qed.
Lemma crit99 : critical Xq 2 2 (-5 / 4) (-5 / 4) 0 (CStr "PINNED") 2 2 (671 / 620).
Proof.
  replace (671 / 620) with (4 / 5 * (671 / 496)) by field. apply (critical_scale Xq 2 2 _ _ _ (4 / 5) (CStr "PINNED") Pinned Pinned Pinned Pinned 2 2 _ plateX); [lra|].
  replace (4 / 5 * (-5 / 4)) with (-1) by field. replace (4 / 5 * 0) with 0 by ring. exact critX.
Qed.
(*@ C99 example: the plate of C98 under five quarters in both directions. The largest load is 5/4 and the exact factor of the given loads 671/620. There is an accurate
    solver with which the constraint function of the weight optimiser returns at least 5/4 for thickness 1, and what it returns stands for the factor of the exact
    plate to 10^-7, as C99_carries asks. @*)
Example t_C99_ex : exists pow, pow_close pow /\ forall parse dec, dec_close dec -> exists X : mat3,
  plate_ok X 2 2 (CStr "PINNED") Pinned Pinned Pinned Pinned 2 2 /\ critical X 2 2 (-5 / 4) (-5 / 4) 0 (CStr "PINNED") 2 2 (671 / 620) /\
  (exists K KG : list (list R), calc_K_KG_D exact_tables (as_arr X) 2 2 (-5 / 4) (-5 / 4) 0 (CStr "PINNED") 2 2 = Ok (K, KG) /\ at_least (1 / 400) K) /\
  load_off 2 2 2 2 (1 / 400) <= 1 / 100000000000 /\
  exists eigsh g mx x, accurate_to 0 (2 * unit) eigsh /\
    weight_constraint_f parse eigsh pow dec (f_of_Z 2) (f_of_Z 2) 2 2 (f_of_Z 4) (f_of_Z 2) (f_of_Z_exp 1 (-2)) (f_of_Z 1) (f_of_Z_exp (-5) (-2)) (f_of_Z_exp (-5) (-2)) fzero (CStr "PINNED") = Ok (g, mx) /\
    B2R (f_of_Z_exp (-5) (-2)) = -5 / 4 /\ B2R mx = 5 / 4 /\ g [f_of_Z 1; fzero; fzero] = Ok x /\ is_finite x = true /\ B2R mx <= B2R x /\
    forall Nx Ny Nz l', normalize_f (f_of_Z_exp (-5) (-2)) (f_of_Z_exp (-5) (-2)) fzero = Ok (Nx, Ny, Nz, mx) ->
      critical X 2 2 (B2R Nx) (B2R Ny) (B2R Nz) (CStr "PINNED") 2 2 l' -> reports 0 (1 / 10000000) l' x.
Proof.
  exists pow_mul. split; [exact pow_mul_close|]. intros parse dec HD. exists Xq. split; [exact plateX|]. split; [exact crit99|]. split.
  { destruct (look_any Xq 2 2 (-5 / 4) (-5 / 4) 0 (CStr "PINNED") Pinned Pinned Pinned Pinned 2 2 (ok_any _ _ _ _ _ _ _ _ _ _ plateX)) as (idx & K & KG & V). assert (H := v_calc _ _ _ _ _ _ _ _ _ _ _ _ V).
    destruct (loads_move Xq 2 2 (-1) (-1) 0 (-5 / 4) (-5 / 4) 0 (CStr "PINNED") Pinned Pinned Pinned Pinned 2 2 KX GX K KG plateX pinnedX H) as (-> & _). exists KX, KG. split; [exact H|exact leastX]. }
  split. { unfold load_off, kG_off, unit. rewrite (Rabs_right 1) by lra. cbn -[Rabs]. lra. }
  destruct norm99 as (z & mx & En & Fz & Vz & Em). destruct (runs98 parse dec z HD Fz Vz) as (eigsh & v & Ac & Rn).
  destruct (proj2 (t_C98_handed parse eigsh pow_mul dec (f_of_Z 2) (f_of_Z 2) (f_of_Z 1) 2 2 (f_of_Z 4) (f_of_Z 2) (f_of_Z_exp 1 (-2)) (f_of_Z 1) (f_of_Z_exp (-5) (-2)) (f_of_Z_exp (-5) (-2)) fzero (CStr "PINNED")) _ _ _ _ En) as (f & g & _ & Eg & _ & _ & H).
  destruct (H (f_of_Z 1) fzero fzero) as (_ & _ & _ & H4 & _ & _).
  destruct (close98 parse dec z HD Fz Vz 0 (2 * unit) eigsh v ltac:(lra) ltac:(unfold unit; lra) Ac Rn) as (Fv & Bv). unfold run98 in Rn. change (f_of_Z_exp 1 0) with (f_of_Z 1) in Rn.
  apply Rcomplements.Rabs_le_between in Bv.
  exists eigsh, g, mx, v. split; [exact Ac|]. split; [exact Eg|]. split; [exact (proj2 q5)|]. split; [exact Em|]. split; [exact (H4 v Rn)|]. split; [exact Fv|]. split; [lra|].
  intros Nx Ny Nz l' En' C. rewrite En in En'. apply Ok_inj in En'. assert (E : Nx = f_of_Z (-1) /\ Ny = f_of_Z (-1) /\ Nz = z) by (repeat split; congruence). destruct E as (-> & -> & ->). rewrite (proj2 (f_small (-1) eq_refl)), Vz in C.
  assert (El : l' = 671 / 496). { destruct C as (K & KG & HC & S), critX as (K1 & KG1 & HC1 & S1). assert (E := same_calc _ _ _ HC HC1). apply pair_equal_spec in E. destruct E as (-> & ->). exact (smallest_unique _ _ _ _ S S1). }
  subst l'. split; [exact Fv|]. split; [lra|]. set (w := B2R v) in *. assert (Hw : 1 <= w) by lra. replace (1 / (671 / 496) - 1 / w) with ((w - 671 / 496) / (w * (671 / 496))) by (field; lra).
  unfold Rdiv at 1. rewrite Rabs_mult. rewrite (Rabs_right (/ (w * (671 / 496)))) by (apply Rle_ge; left; apply Rinv_0_lt_compat; lra). apply Rle_trans with (Rabs (w - 671 / 496) * 1).
  - apply Rmult_le_compat_l; [apply Rabs_pos|]. apply Rle_trans with (/ 1); [apply Rinv_le_contravar; lra|lra].
  - rewrite Rmult_1_r, Rmult_0_l. assert (Rabs (w - 671 / 496) <= 1 / 100000000) by (apply Rabs_le; lra). lra.
Qed.
(*@ C99 example: the same plate meets the hypotheses of C99_design with every solver accurate to 10^-12; the bound is below 1 by less than 10^-8. @*)
Example t_C99_ex_design : exists pow, pow_close pow /\ forall parse dec, dec_close dec -> exists f (X : mat3) (M : farr) Nx Ny Nz mx (K KG : list (list R)),
  ortho_init parse (oargs5 (PFloat (f_of_Z 4)) (PFloat (f_of_Z 2)) (PFloat (f_of_Z_exp 1 (-2))) (PFloat (f_of_Z 1)) (PFloat (dec 1%Z (-1)%Z))) = Ok f /\
  lp_ply (1 / 2) 8 f /\ exact_D f [fzero; fzero; fzero; fzero] (f_of_Z 1) = Ok X /\ plate_ok X 2 2 (CStr "PINNED") Pinned Pinned Pinned Pinned 2 2 /\
  (forall e, / 20 * dot e e <= quad X e) /\ 3 * lp_off (1 / 2) 8 3 (f_of_Z 1) < / 20 /\
  normalize_f (f_of_Z_exp (-5) (-2)) (f_of_Z_exp (-5) (-2)) fzero = Ok (Nx, Ny, Nz, mx) /\ B2R mx = 5 / 4 /\
  D_lp_f pow f [fzero; fzero; fzero; fzero] (f_of_Z 1) = Ok M /\ usual_inputs pow dec M (f_of_Z 2) (f_of_Z 2) Nx Ny Nz /\
  calc_K_KG_D exact_tables (as_arr X) 2 2 (-5 / 4) (-5 / 4) 0 (CStr "PINNED") 2 2 = Ok (K, KG) /\ at_least (1 / 400) K /\
  let d := 3 * lp_off (1 / 2) 8 3 (f_of_Z 1) / / 20 in
  let e := INR (2 * 2) * k_off (tolerance 10 + 16 * unit) (numbers M) 2 2 / ((1 - d) * (1 / 400)) in
  let g := INR (2 * 2) * kG_off (tolerance 10 + 16 * unit) (B2R Nx) (B2R Ny) (B2R Nz) 2 2 / ((1 - d) * (1 / 400)) in
  INR (2 * 2) * k_off (tolerance 10 + 16 * unit) (numbers M) 2 2 < (1 - d) * (1 / 400) /\
  forall eps gam, 0 <= eps <= 1 / 1000000000000 -> 0 <= gam <= 1 / 1000000000000 ->
    let E := (d + e * (1 + d)) + eps * (1 + (d + e * (1 + d))) in
    let G := g * (1 + d) + gam * (1 + (d + e * (1 + d))) in
    (forall l', critical X 2 2 (B2R Nx) (B2R Ny) (B2R Nz) (CStr "PINNED") 2 2 l' -> 1 / l' + G <= 1 - E /\ powerRZ 2 (-900) <= 1 / l' - G) /\
    1 - 1 / 100000000 <= 1 / (1 + (E * (1 + unit) + unit) + (G + load_off 2 2 2 2 (1 / 400)) * B2R mx).
Proof.
  exists pow_mul. split; [exact pow_mul_close|]. intros parse dec HD. destruct norm99 as (z & mx & En & Fz & Vz & Em).
  destruct (M98 parse dec z HD Fz Vz) as (M & EM & UI & Bd & SL). destruct (k98 M Bd) as (Hv & HK & HG). assert (uv : unit = / 9007199254740992) by (unfold unit; lra).
  destruct (look_any Xq 2 2 (-5 / 4) (-5 / 4) 0 (CStr "PINNED") Pinned Pinned Pinned Pinned 2 2 (ok_any _ _ _ _ _ _ _ _ _ _ plateX)) as (idx & K & KG & V). assert (H := v_calc _ _ _ _ _ _ _ _ _ _ _ _ V).
  destruct (loads_move Xq 2 2 (-1) (-1) 0 (-5 / 4) (-5 / 4) 0 (CStr "PINNED") Pinned Pinned Pinned Pinned 2 2 KX GX K KG plateX pinnedX H) as (-> & _).
  assert (Of := off98). change (f_of_Z_exp 1 0) with (f_of_Z 1) in *.
  exists (ply98 (dec 1%Z (-1)%Z)), Xq, M, (f_of_Z (-1)), (f_of_Z (-1)), z, mx, KX, KG.
  split; [exact (made98 parse dec HD)|]. split; [exact (lp98 parse dec HD)|]. split; [exact (D98 dec)|]. split; [exact plateX|]. split; [exact quadX|]. split; [rewrite Of, uv; lra|]. split; [exact En|]. split; [exact Em|]. split; [exact EM|]. split; [exact UI|]. split; [exact H|]. split; [exact leastX|].
  rewrite Of, (proj2 (f_small (-1) eq_refl)), Vz. set (ev := tolerance 10 + 16 * unit) in *. intros d e g.
  assert (Hd : 0 < d <= 1 / 1000000000000) by (unfold d; rewrite uv; lra).
  assert (HG' : g = 264 / 10 * ev / ((1 - d) * (1 / 400))) by (unfold g; rewrite HG; reflexivity).
  assert (Q : forall w, 0 <= w <= 100 * ev -> 0 <= w / ((1 - d) * (1 / 400)) <= 2 / 10000000000).
  { intros w Hw. assert (0 < (1 - d) * (1 / 400)) by (apply Rmult_lt_0_compat; lra). split; [apply Rmult_le_pos; [lra|left; apply Rinv_0_lt_compat; assumption]|]. apply (Rmult_le_reg_r ((1 - d) * (1 / 400))); [assumption|].
    replace (w / ((1 - d) * (1 / 400)) * ((1 - d) * (1 / 400))) with w by (field; lra). lra. }
  assert (He1 := Q _ HK). fold e in He1. assert (Hg1 : 0 <= g <= 2 / 10000000000) by (rewrite HG'; apply Q; lra). clear Q. clearbody e g.
  split; [lra|]. intros eps gam He Hg E G.
  set (E0 := d + e * (1 + d)) in *. assert (HE0 : 0 <= E0 <= 3 / 10000000000) by (unfold E0; assert (0 <= e * (1 + d) <= 2 / 10000000000 * (1 + 1 / 1000)) by (split; [apply Rmult_le_pos; lra|apply Rmult_le_compat; lra]); lra).
  assert (HEE : 0 <= E <= 4 / 10000000000) by (unfold E; assert (0 <= eps * (1 + E0) <= 1 / 1000000000000 * (1 + 1)) by (split; [apply Rmult_le_pos; lra|apply Rmult_le_compat; lra]); lra).
  assert (HGG : 0 <= G <= 4 / 10000000000) by (unfold G; assert (0 <= gam * (1 + E0) <= 1 / 1000000000000 * (1 + 1)) by (split; [apply Rmult_le_pos; lra|apply Rmult_le_compat; lra]); assert (0 <= g * (1 + d) <= 2 / 10000000000 * (1 + 1 / 1000)) by (split; [apply Rmult_le_pos; lra|apply Rmult_le_compat; lra]); lra).
  clearbody E G. assert (Tiny : powerRZ 2 (-900) <= 1 / 16) by (rewrite pow2_bp; replace (1 / 16) with (bp (-4)) by (cbn; lra); apply bpow_le; lia). split.
  - intros l' C. assert (El : l' = 671 / 496). { destruct C as (K1 & KG1 & HC & S), critX as (K2 & KG2 & HC1 & S1). assert (EQ := same_calc _ _ _ HC HC1). apply pair_equal_spec in EQ. destruct EQ as (-> & ->). exact (smallest_unique _ _ _ _ S S1). }
    subst l'. split; lra.
  - assert (Lo : 0 <= load_off 2 2 2 2 (1 / 400) <= 1 / 100000000000) by (split; [apply off_pos; lra|unfold load_off, kG_off, unit; rewrite (Rabs_right 1) by lra; cbn -[Rabs]; lra]). set (lo := load_off 2 2 2 2 (1 / 400)) in *. clearbody lo. rewrite Em.
    assert (W : 0 <= E * (1 + unit) + unit <= 5 / 10000000000) by (rewrite uv; nra). set (w := E * (1 + unit) + unit) in *. clearbody w.
    assert (Z : 1 <= 1 + w + (G + lo) * (5 / 4) <= 1 + 2 / 1000000000) by lra. set (y := 1 + w + (G + lo) * (5 / 4)) in *. clearbody y.
    apply (Rmult_le_reg_r y); [lra|]. replace (1 / y * y) with 1 by (field; lra). nra.
Qed.
