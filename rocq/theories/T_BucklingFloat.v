(** Proofs of the theorems on the buckling analysis with an eigen-solver of limited accuracy *)
From Coq Require Import Reals ZArith Lra Lia Bool String Sorting.Sorted.
From Coquelicot Require Import Coquelicot.
From Flocq Require Import Core.Core IEEE754.BinarySingleNaN.
From Coq Require Import List.
From Verif Require Import M_Py M_Plate M_K M_Tables M_Expr M_Float M_FloatArith M_RealArith M_Plot M_Buckling M_BucklingFloat S_Validate S_Plate S_Mat S_Bardell S_Shape S_Energy S_K S_Ritz S_Eigen S_Compare S_Stored S_Round S_Higher S_BucklingFloat L_Quad L_Spectral L_Higher L_Inexact L_Eigen L_Float L_Round T_Laminate T_Plate T_K T_Buckling T_Compare T_Stored T_Solver T_Perturb T_Higher T_Round.
Import ListNotations.
Open Scope R_scope.

(** ** matrices that are near each other *)
Lemma near_trans E G E' G' K KG K1 G1 K2 G2 : 0 <= E -> 0 <= E' -> 0 <= G' -> near E G K KG K1 G1 -> near E' G' K1 G1 K2 G2 ->
  near (E + E' * (1 + E)) (G + G' * (1 + E)) K KG K2 G2.
Proof.
  intros HE HE' HG' [L A B] [L' A' B']. constructor; [congruence| |]; intros v Lv.
  - specialize (A v Lv). specialize (A' v ltac:(congruence)). apply Rabs_le_between in A. apply Rabs_le_between in A'. apply Rabs_le_between.
    assert (E' * quad_rows K1 v <= E' * ((1 + E) * quad_rows K v)) by (apply Rmult_le_compat_l; lra). lra.
  - specialize (A v Lv). specialize (B v Lv). specialize (B' v ltac:(congruence)). apply Rabs_le_between in A. apply Rabs_le_between in B. apply Rabs_le_between in B'. apply Rabs_le_between.
    assert (G' * quad_rows K1 v <= G' * ((1 + E) * quad_rows K v)) by (apply Rmult_le_compat_l; lra). lra.
Qed.
Lemma quad_pos K KG v : pencil K KG -> List.length v = List.length K -> nonzero v -> 0 < quad_rows K v.
Proof. intros P. apply (pen_def _ _ P). Qed.
Lemma near_fwd E G K KG K' KG' t j : pencil K KG -> near E G K KG K' KG' -> 0 <= E -> 0 < t -> G < 1 / t -> unstable K KG t j ->
  unstable K' KG' ((1 + E) / (1 / t - G)) j.
Proof.
  intros Pn [L A B] HE Ht HG (vs & Lv & F & U). exists vs. rewrite L. split; [exact Lv|]. split; [exact F|]. intros cs Lc Nc. destruct (U cs Lc Nc) as (N & Q).
  cbv zeta. set (x := mix (List.length K) cs vs) in *. split; [exact N|]. assert (Lx : List.length x = List.length K) by apply mix_length.
  assert (P := pen_def _ _ Pn x Lx N). specialize (A x Lx). specialize (B x Lx). apply Rabs_le_between in A. apply Rabs_le_between in B.
  set (q := quad_rows K x) in *. set (g := quad_rows KG x) in *. set (y := 1 / t) in *.
  assert (Hg : g <= - y * q). { apply (Rmult_le_reg_l t); [exact Ht|]. replace (t * (- y * q)) with (- q) by (unfold y; field; lra). lra. }
  assert (Hs : 0 < (1 + E) / (y - G)) by (apply Rdiv_lt_0_compat; lra).
  assert (H : (1 + E) / (y - G) * quad_rows KG' x <= (1 + E) / (y - G) * ((G - y) * q)) by (apply Rmult_le_compat_l; lra).
  replace ((1 + E) / (y - G) * ((G - y) * q)) with (- ((1 + E) * q)) in H by (field; lra). lra.
Qed.
Lemma near_bwd E G K KG K' KG' t j : pencil K KG -> near E G K KG K' KG' -> 0 < t -> G < (1 - E) / t -> unstable K' KG' t j ->
  unstable K KG (1 / ((1 - E) / t - G)) j.
Proof.
  intros Pn [L A B] Ht HG (vs & Lv & F & U). rewrite L in F, U. exists vs. split; [exact Lv|]. split; [exact F|]. intros cs Lc Nc. destruct (U cs Lc Nc) as (N & Q).
  cbv zeta. set (x := mix (List.length K) cs vs) in *. split; [exact N|]. assert (Lx : List.length x = List.length K) by apply mix_length.
  assert (P := pen_def _ _ Pn x Lx N). specialize (A x Lx). specialize (B x Lx). apply Rabs_le_between in A. apply Rabs_le_between in B.
  set (q := quad_rows K x) in *. set (g := quad_rows KG x) in *. set (q' := quad_rows K' x) in *. set (g' := quad_rows KG' x) in *. set (y := (1 - E) / t) in *.
  assert (Hg : g' <= - y * q). { apply (Rmult_le_reg_l t); [exact Ht|]. replace (t * (- y * q)) with (- ((1 - E) * q)) by (unfold y; field; lra). lra. }
  assert (Hs : 0 < 1 / (y - G)) by (apply Rdiv_lt_0_compat; lra).
  assert (H : 1 / (y - G) * g <= 1 / (y - G) * ((G - y) * q)) by (apply Rmult_le_compat_l; lra).
  replace (1 / (y - G) * ((G - y) * q)) with (- q) in H by (field; lra). lra.
Qed.
Lemma lowest_pos K KG fs j l : pencil K KG -> lowest K KG fs -> nth_error fs j = Some l -> 0 < l.
Proof. intros Pn L H. destruct (lowest_low K KG fs Pn L) as (_ & _ & Q). destruct (fn_error _ _ _ H) as (Hj & <-). apply Q, Hj. Qed.
Lemma inv_le l t : 0 < l -> 0 < t -> l <= 1 / t -> t <= 1 / l.
Proof.
  intros Hl Ht H. apply (Rmult_le_reg_l l); [exact Hl|]. replace (l * (1 / l)) with 1 by (field; lra). apply (Rmult_le_compat_r t) in H; [|lra].
  replace (1 / t * t) with 1 in H by (field; lra). lra.
Qed.
(*@ C97: if two pencils are near each other, every one of the lowest factors of the one is near the factor in the same place of the other:
    |1/l - 1/l'| <= E/l' + G. @*)
Lemma t_C97_factors : forall E G (K KG K' KG' : list (list R)) fs fs' j l l', pencil K KG -> pencil K' KG' -> near E G K KG K' KG' -> 0 <= E -> 0 <= G ->
  lowest K KG fs -> lowest K' KG' fs' -> nth_error fs j = Some l -> nth_error fs' j = Some l' -> Rabs (1 / l - 1 / l') <= E * (1 / l') + G.
Proof.
  intros E G K KG K' KG' fs fs' j l l' Pn Pn' Nr HE HG L L' H H'.
  assert (Hl := lowest_pos _ _ _ _ _ Pn L H). assert (Hl' := lowest_pos _ _ _ _ _ Pn' L' H').
  destruct (t_C91_minmax K KG fs j l Pn L H) as (U & Mn). destruct (t_C91_minmax K' KG' fs' j l' Pn' L' H') as (U' & Mn').
  assert (A0 : 0 < 1 / l) by (apply Rdiv_lt_0_compat; lra). assert (A0' : 0 < 1 / l') by (apply Rdiv_lt_0_compat; lra).
  assert (A1 : (1 + E) / l' = 1 / l' + E * (1 / l')) by (unfold Rdiv; ring). assert (A2 : (1 - E) / l' = 1 / l' - E * (1 / l')) by (unfold Rdiv; ring).
  assert (P : 0 <= E * (1 / l')) by (apply Rmult_le_pos; lra).
  apply Rabs_le. split.
  - destruct (Rlt_or_le G ((1 - E) / l')) as [Q|Q]; [|lra]. assert (X := near_bwd E G K KG K' KG' l' (Datatypes.S j) Pn Nr Hl' Q U').
    assert (T : 0 < (1 - E) / l' - G) by lra. assert (T' : 0 < 1 / ((1 - E) / l' - G)) by (apply Rdiv_lt_0_compat; lra). specialize (Mn _ T' X). assert (Y := inv_le l _ Hl T Mn). lra.
  - destruct (Rlt_or_le G (1 / l)) as [Q|Q]; [|lra]. assert (X := near_fwd E G K KG K' KG' l (Datatypes.S j) Pn Nr HE Hl Q U).
    clear Mn. assert (T' : 0 < (1 + E) / (1 / l - G)) by (apply Rdiv_lt_0_compat; lra). specialize (Mn' _ T' X). rename X into X0. rename Mn' into X. apply (Rmult_le_compat_r (1 / l - G)) in X; [|lra].
    set (y := 1 / l) in *. replace ((1 + E) / (y - G) * (y - G)) with (1 + E) in X by (field; lra).
    apply (Rmult_le_compat_l (1 / l')) in X; [|lra]. replace (1 / l' * (l' * (y - G))) with (y - G) in X by (field; lra). replace (1 / l' * (1 + E)) with ((1 + E) / l') in X by (unfold Rdiv; ring). lra.
Qed.
(*@ C97: and the other pencil has as many positive factors, if those of the one are small enough to be told from infinite ones. @*)
Lemma t_C97_many : forall E G (K KG K' KG' : list (list R)) fs, pencil K KG -> pencil K' KG' -> near E G K KG K' KG' -> 0 <= E ->
  lowest K KG fs -> Forall (fun l => G < 1 / l) fs -> exists fs', lowest K' KG' fs' /\ List.length fs' = List.length fs.
Proof.
  intros E G K KG K' KG' fs Pn Pn' Nr HE L F. destruct (List.length fs) as [|p] eqn:Lf.
  - exists []. split; [|reflexivity]. exists []. split; [reflexivity|]. split; [intros i ? ? H; destruct i; discriminate|]. split; [intros i ? ? ? _ H; destruct i; discriminate|]. split; [constructor|]. intros ? ? _ _ _ ? [].
  - assert (Hp : nth_error fs p = Some (fn fs p)) by (apply nth_error_nth'; lia). destruct (t_C91_minmax K KG fs p _ Pn L Hp) as (U & _).
    assert (Pp := lowest_pos _ _ _ _ _ Pn L Hp). rewrite Forall_forall in F. assert (Q := F _ (nth_error_In _ _ Hp)). cbv beta in Q.
    assert (X := near_fwd E G K KG K' KG' _ _ Pn Nr HE Pp Q U).
    assert (T' : 0 < (1 + E) / (1 / fn fs p - G)) by (apply Rdiv_lt_0_compat; lra). destruct (t_C91_exists K' KG' _ _ Pn' T' X) as (fs' & L' & Ln & _). exists fs'. split; assumption.
Qed.

(** ** the division *)
Lemma minus_one : is_finite (fopp (f_of_Z 1)) = true /\ B2R (fopp (f_of_Z 1)) = -1.
Proof. destruct (f_small 1 eq_refl) as (F & V). unfold fopp. rewrite is_finite_Bopp, B2R_Bopp, V. split; [exact F|lra]. Qed.
(*@ C97: the last step, -1./x in binary64, is accurate to one unit wherever x is neither tiny nor huge; x = 0, of either sign, gives an infinity. @*)
Lemma t_C97_divide : forall x : f64, (powerRZ 2 (-1000) <= Rabs (B2R x) <= powerRZ 2 1000 ->
    is_finite (fneg_recip x) = true /\ Rabs (B2R (fneg_recip x) - -1 / B2R x) <= unit * Rabs (-1 / B2R x)) /\
  forall s, fneg_recip (B754_zero s) = B754_infinity (negb s).
Proof.
  intros x. split; [|intros []; vm_compute; reflexivity]. rewrite !pow2_bp. intros (H1 & H2). destruct minus_one as (F & V). unfold fneg_recip.
  assert (P : 0 < bp (-1000)) by apply bpow_gt_0. assert (Nx : B2R x <> 0) by (intros Z; rewrite Z, Rabs_R0 in H1; lra).
  assert (E : Rabs (-1 / B2R x) = / Rabs (B2R x)) by (unfold Rdiv; rewrite Rabs_mult, Rabs_inv, (Rabs_left (-1)) by lra; ring).
  assert (Up : Rabs (-1 / B2R x) <= bp 1000) by (rewrite E; replace (bp 1000) with (/ bp (-1000)) by (rewrite <- bpow_opp; reflexivity); apply Rinv_le_contravar; assumption).
  assert (Lo : bp (-1000) <= Rabs (-1 / B2R x)) by (rewrite E; change (bp (-1000)) with (bp (- (1000))); rewrite (bpow_opp radix2 1000); apply Rinv_le_contravar; lra).
  destruct (div_rnd (fopp (f_of_Z 1)) x F Nx) as (Fd & R).
  - rewrite V. eapply Rle_trans; [exact Up|apply bpow_le; lia].
  - split; [exact Fd|]. rewrite R, V. apply rnd_rel. right. eapply Rle_trans; [|exact Lo]. apply bpow_le. lia.
Qed.

(** ** the plate *)
Section Plate.
Context (pow : f64 -> nat -> res f64) (dec : Z -> Z -> f64) (D : nat -> nat -> f64) (a b Nxx Nyy Nxy : f64) (UI : usual_inputs pow dec D a b Nxx Nyy Nxy).
Let Dr := numbers D. Let ra := B2R a. Let rb := B2R b. Let lx := B2R Nxx. Let ly := B2R Nyy. Let lxy := B2R Nxy.
Variables (c : constraints) (c0 ca d0 db : condition) (m n M : nat) (u : R) (K KG : list (list R)).
Hypotheses (P : plate_ok Dr ra rb c c0 ca d0 db m n) (HM : (M <= 30)%nat) (Hm : (m + taken c0 + taken ca <= M)%nat) (Hn : (n + taken d0 + taken db <= M)%nat)
  (H : calc_K_KG_D exact_tables (as_arr Dr) ra rb lx ly lxy c m n = Ok (K, KG)) (U : at_least u K) (Hu : INR (m * n) * k_off (tolerance M + 16 * unit) Dr ra rb < u).
Let e := INR (m * n) * k_off (tolerance M + 16 * unit) Dr ra rb / u.
Let g := INR (m * n) * kG_off (tolerance M + 16 * unit) lx ly lxy ra rb / u.
Lemma fplate_near : pencil K KG /\ 0 <= e < 1 /\ 0 <= g /\ exists K' KG' : list (list f64), calc_K_KG_D (stored (FA pow) dec) D a b Nxx Nyy Nxy c m n = Ok (K', KG') /\
  all_finite K' /\ all_finite KG' /\ pencil (reals K') (reals KG') /\ near e g K KG (reals K') (reals KG') /\ List.length KG' = (m * n)%nat.
Proof.
  destruct (both Dr ra rb lx ly lxy c c0 ca d0 db m n M K KG P HM Hm Hn H) as (_ & Pn & _).
  assert (Ha := ok_a _ _ _ _ _ _ _ _ _ _ P). assert (Hb := ok_b _ _ _ _ _ _ _ _ _ _ P). assert (Sp := ok_edges _ _ _ _ _ _ _ _ _ _ P).
  destruct (tables_off Dr ra rb lx ly lxy c c0 ca d0 db m n M Ha Hb Sp HM Hm Hn) as (idx & E & L & I & Ht & TK & TG).
  destruct (core pow dec D a b Nxx Nyy Nxy UI c m n idx E L I _ Ht TK TG _ _ H) as (K' & KG' & H' & L' & S1 & S2 & Y1 & Y2 & _ & _ & CK & CG).
  destruct (t_C77_rounding pow dec D a b Nxx Nyy Nxy c c0 ca d0 db m n UI Sp ltac:(lia) ltac:(lia)) as (K1 & G1 & ? & ? & H1 & F1 & F2 & Q1 & Q2 & _).
  rewrite H' in H1. apply Ok_inj in H1. apply pair_equal_spec in H1. destruct H1 as (<- & <-).
  assert (uv := unit_val). destruct (off_pos (tolerance M + 16 * unit) Dr ra rb lx ly lxy ltac:(lra) Ha Hb) as [O1 O2].
  assert (E0 := Rmult_le_pos _ _ (pos_INR (m * n)) O1). assert (G0 := Rmult_le_pos _ _ (pos_INR (m * n)) O2).
  assert (U0 : 0 < u) by lra. assert (EE := conj E0 Hu).
  split; [exact Pn|]. split; [apply (eps_lt u _ U0 EE)|]. split; [apply (gam_pos u _ U0 G0)|]. exists K', KG'. split; [exact H'|]. split; [exact F1|]. split; [exact F2|].
  split; [apply (moved_pencil K KG _ _ u _ Pn U U0 CK L' S1 S2 Y1 Y2 EE)|]. split; [|apply Q2]. constructor; [exact L'| |]; intros v Lv.
  - apply (K_by K (reals K') u _ U U0 CK EE v Lv).
  - apply (G_by K KG (reals KG') u _ U U0 G0 CG v Lv).
Qed.
End Plate.
Lemma recip_near x y (d : R) : 0 < x -> 0 <= d < 1 -> Rabs (y - x) <= d * x -> 0 < y /\ Rabs (1 / x - 1 / y) <= d * (1 / y) /\ 1 / x <= (1 + d) * (1 / y).
Proof.
  intros Hx Hd A. apply Rabs_le_between in A. assert (Hy : 0 < y). { assert (0 < (1 - d) * x) by (apply Rmult_lt_0_compat; lra). lra. }
  split; [exact Hy|]. assert (I : 0 < 1 / (x * y)) by (apply Rdiv_lt_0_compat; [lra|apply Rmult_lt_0_compat; lra]). split.
  - replace (1 / x - 1 / y) with ((y - x) * (1 / (x * y))) by (field; lra). replace (d * (1 / y)) with (d * x * (1 / (x * y))) by (field; lra).
    rewrite Rabs_mult, (Rabs_right (1 / (x * y))) by lra. apply Rmult_le_compat_r; [lra|]. apply Rabs_le_between. exact A.
  - replace (1 / x) with (y * (1 / (x * y))) by (field; lra). replace ((1 + d) * (1 / y)) with ((1 + d) * x * (1 / (x * y))) by (field; lra). apply Rmult_le_compat_r; lra.
Qed.
(** the size the theorems ask of a factor *)
Definition fits (E G : R) (l : R) : Prop := 1 / l + G <= 1 - E /\ powerRZ 2 (-900) <= 1 / l - G.
Lemma answer_near E G K KG K2 G2 k (vals : list f64) ws fs : pencil K KG -> pencil K2 G2 -> near E G K KG K2 G2 -> 0 <= E -> 0 <= G ->
  eigsh_result G2 K2 k (map (@B2R 53 1024) vals) ws -> lowest K KG fs -> Forall (fits E G) fs -> (List.length fs <= k)%nat ->
  forall j l, nth_error fs j = Some l -> exists f, nth_error (map fneg_recip vals) j = Some f /\ is_finite f = true /\ 0 < B2R f /\
    Rabs (1 / l - 1 / B2R f) <= (E * (1 + unit) + unit) * (1 / B2R f) + G.
Proof.
  intros Pn P2 Nr HE HG Er L F Hk j l Hj. assert (uv := unit_val). assert (B900 : 0 < bp (-900)) by apply bpow_gt_0.
  assert (F' : Forall (fun l => G < 1 / l) fs). { revert F. apply Forall_impl. intros x (_ & X). rewrite pow2_bp in X. lra. }
  destruct (t_C97_many E G K KG K2 G2 fs Pn P2 Nr HE L F') as (fs2 & L2 & Ln).
  assert (Cl : forall i, (i < List.length fs)%nat -> 0 < fn fs2 i /\ 1 / fn fs2 i <= 1 /\ bp (-1000) <= 1 / fn fs2 i /\ Rabs (1 / fn fs i - 1 / fn fs2 i) <= E * (1 / fn fs2 i) + G).
  { intros i Hi. assert (Ei : nth_error fs i = Some (fn fs i)) by (apply nth_error_nth'; exact Hi). assert (Ei2 : nth_error fs2 i = Some (fn fs2 i)) by (apply nth_error_nth'; lia).
    assert (B := t_C97_factors E G K KG K2 G2 fs fs2 i _ _ Pn P2 Nr HE HG L L2 Ei Ei2). assert (Pi := lowest_pos _ _ _ _ _ Pn L Ei). assert (Pi2 := lowest_pos _ _ _ _ _ P2 L2 Ei2).
    split; [exact Pi2|]. rewrite Forall_forall in F. destruct (F _ (nth_error_In _ _ Ei)) as (X1 & X2). rewrite pow2_bp in X2.
    assert (B' := B). apply Rabs_le_between in B'. assert (0 < 1 / fn fs i) by (apply Rdiv_lt_0_compat; lra). assert (0 < 1 / fn fs2 i) by (apply Rdiv_lt_0_compat; lra).
    set (y := 1 / fn fs2 i) in *. set (z := 1 / fn fs i) in *.
    split; [apply (Rmult_le_reg_l (1 - E)); lra|]. split; [|exact B].
    assert (E * y <= 1 * y) by (apply Rmult_le_compat_r; lra). apply Rle_trans with (bp (-900) * / 2); [|lra]. change (/ 2) with (bp (-1)). rewrite <- bpow_plus. apply bpow_le. lia. }
  destruct (lowest_low K2 G2 fs2 P2 L2) as (w & Lw & _). rewrite Ln in Lw. destruct (fn_error _ _ _ Hj) as (Jl & <-).
  assert (Ev : fn (map (@B2R 53 1024) vals) j = -1 / fn fs2 j).
  { apply (answer_low (List.length K2) K2 G2 k (map (@B2R 53 1024) vals) ws (List.length fs) (fun i => -1 / fn fs2 i) w eq_refl P2 Er Lw Hk); [|exact Jl].
    intros i Hi. destruct (Cl i Hi) as (_ & X & _). replace (-1 / fn fs2 i) with (- (1 / fn fs2 i)) by (unfold Rdiv; ring). lra. }
  assert (Lv : List.length vals = k) by (rewrite <- (er_count _ _ _ _ _ Er), map_length; reflexivity).
  assert (Nv : nth_error vals j = Some (nth j vals fzero)) by (apply nth_error_nth'; lia).
  assert (Ev' : B2R (nth j vals fzero) = -1 / fn fs2 j).
  { rewrite <- Ev. unfold fn. apply (map_nth_error (@B2R 53 1024)) in Nv. symmetry. apply nth_error_nth, Nv. }
  destruct (Cl j Jl) as (P0 & C1 & C2 & C3). set (x := nth j vals fzero) in *.
  assert (Ax : Rabs (B2R x) = 1 / fn fs2 j). { rewrite Ev'. replace (-1 / fn fs2 j) with (- (1 / fn fs2 j)) by (unfold Rdiv; ring). rewrite Rabs_Ropp. apply Rabs_right, Rle_ge. assert (0 < bp (-1000)) by apply bpow_gt_0. lra. }
  destruct (t_C97_divide x) as (Dv & _). destruct Dv as (Fd & Ed).
  { rewrite Ax, !pow2_bp. split; [exact C2|]. eapply Rle_trans; [exact C1|]. change 1 with (bp 0). apply bpow_le. lia. }
  assert (Ex : -1 / B2R x = fn fs2 j) by (rewrite Ev'; field; lra). rewrite Ex, (Rabs_right (fn fs2 j)) in Ed by lra.
  destruct (recip_near _ _ unit P0 ltac:(lra) Ed) as (Py & R1 & R2). exists (fneg_recip x). split; [apply (map_nth_error fneg_recip), Nv|]. split; [exact Fd|]. split; [exact Py|].
  assert (E * (1 / fn fs2 j) <= E * ((1 + unit) * (1 / B2R (fneg_recip x)))) by (apply Rmult_le_compat_l; assumption).
  replace (1 / fn fs j - 1 / B2R (fneg_recip x)) with ((1 / fn fs j - 1 / fn fs2 j) + (1 / fn fs2 j - 1 / B2R (fneg_recip x))) by ring.
  eapply Rle_trans; [apply Rabs_triang|]. lra.
Qed.
Lemma bind_ok {X Y} (r : res X) (f : X -> res Y) y : (x <- r ;; f x) = Ok y -> exists x, r = Ok x /\ f x = Ok y.
Proof. destruct r as [x|]; [|discriminate]. intros H. exists x. split; [reflexivity|exact H]. Qed.
(*@ C97: the buckling analysis in binary64 from the stiffnesses and loads to the reported list, with an eigen-solver of limited accuracy: the values
    returned are finite and positive, and the one in place j is near the exact factor in place j. The bound adds up the rounding of the tables and of
    the assembly (e and g, as in C77), the inaccuracy of the solver (eps and gam) and one unit for the division. @*)
Lemma t_C97_reported : forall eigsh eps gam pow dec D a b Nxx Nyy Nxy c c0 ca d0 db m n M u (K KG : list (list R)) fs num out vecs,
  accurate_to eps gam eigsh -> 0 <= eps -> 0 <= gam -> usual_inputs pow dec D a b Nxx Nyy Nxy ->
  plate_ok (numbers D) (B2R a) (B2R b) c c0 ca d0 db m n ->
  (M <= 30)%nat -> (m + taken c0 + taken ca <= M)%nat -> (n + taken d0 + taken db <= M)%nat ->
  calc_K_KG_D exact_tables (as_arr (numbers D)) (B2R a) (B2R b) (B2R Nxx) (B2R Nyy) (B2R Nxy) c m n = Ok (K, KG) -> at_least u K ->
  INR (m * n) * k_off (tolerance M + 16 * unit) (numbers D) (B2R a) (B2R b) < u ->
  let e := INR (m * n) * k_off (tolerance M + 16 * unit) (numbers D) (B2R a) (B2R b) / u in
  let g := INR (m * n) * kG_off (tolerance M + 16 * unit) (B2R Nxx) (B2R Nyy) (B2R Nxy) (B2R a) (B2R b) / u in
  let E := e + eps * (1 + e) in
  let G := g + gam * (1 + e) in
  lowest_factors (numbers D) (B2R a) (B2R b) (B2R Nxx) (B2R Nyy) (B2R Nxy) c m n fs ->
  Forall (fun l => 1 / l + G <= 1 - E /\ powerRZ 2 (-900) <= 1 / l - G) fs ->
  buckling_float eigsh pow dec D a b Nxx Nyy Nxy c m n num = Ok (out, vecs) ->
  List.length out = Z.to_nat (Z.min num (Z.of_nat (m * n) - 2)) /\
  ((List.length fs <= List.length out)%nat -> forall j l, nth_error fs j = Some l ->
    exists f, nth_error out j = Some f /\ is_finite f = true /\ 0 < B2R f /\ Rabs (1 / l - 1 / B2R f) <= (E * (1 + unit) + unit) * (1 / B2R f) + G).
Proof.
  intros eigsh eps gam pow dec D a b Nxx Nyy Nxy c c0 ca d0 db m n M u K KG fs num out vecs Ac He Hg UI P HM Hm Hn H U Hu e g E G L F R.
  destruct (fplate_near pow dec D a b Nxx Nyy Nxy UI c c0 ca d0 db m n M u K KG P HM Hm Hn H U Hu) as (Pn & He0 & Hg0 & K1 & G1 & H1 & F1 & F2 & Pn1 & Nr & Lk).
  fold e in He0, Nr. fold g in Hg0, Nr.
  destruct L as (K0 & G0 & H0 & L). rewrite H in H0. apply Ok_inj in H0. apply pair_equal_spec in H0. destruct H0 as (<- & <-).
  unfold buckling_float in R. rewrite H1 in R. cbn [bind fst snd] in R.
  apply bind_ok in R. destruct R as ((vals, vs) & Ev0 & R). assert (Ev : eigsh G1 K1 (Z.min num (Z.of_nat (m * n) - 2)) = Ok (vals, vs)) by (rewrite <- Lk; exact Ev0). clear Ev0. set (k := Z.min num (Z.of_nat (m * n) - 2)) in *. cbn [fst snd] in R. apply Ok_inj in R. apply pair_equal_spec in R. destruct R as (<- & <-).
  destruct (proj2 (Ac G1 K1 k) vals vs F2 F1 Pn1 Ev) as (_ & A2 & M2 & ws & P2 & Nr2 & Er).
  assert (Nr' := near_trans e g eps gam K KG _ _ M2 A2 ltac:(lra) He Hg Nr Nr2). fold E G in Nr'.
  assert (Lv : List.length vals = Z.to_nat k) by (rewrite <- (er_count _ _ _ _ _ Er), map_length; reflexivity). rewrite map_length. split; [exact Lv|]. intros Hk.
  assert (HE : 0 <= E) by (unfold E; assert (0 <= eps * (1 + e)) by (apply Rmult_le_pos; lra); lra). assert (HG : 0 <= G) by (unfold G; assert (0 <= gam * (1 + e)) by (apply Rmult_le_pos; lra); lra).
  apply (answer_near E G K KG M2 A2 (Z.to_nat k) vals ws fs Pn P2 Nr' HE HG Er L F). lia.
Qed.

Lemma fcalc_square {X : arith} (t : tables X) D a b Nxx Nyy Nxy c m n K KG : calc_K_KG_D t D a b Nxx Nyy Nxy c m n = Ok (K, KG) -> List.length KG = (m * n)%nat.
Proof.
  intros H. unfold calc_K_KG_D in H. apply bind_ok in H. destruct H as (idx & _ & H). apply bind_ok in H. destruct H as (kk & _ & H).
  apply bind_ok in H. destruct H as (K0 & E1 & H). apply bind_ok in H. destruct H as (K1 & E2 & H).
  assert (H1 := f_equal (fun r => match r with Ok p => p | Err _ => ([], []) end) H). cbn beta iota in H1.
  assert (Y := f_equal snd H1). cbn [fst snd] in Y. subst K1.
  unfold reshape in E2. destruct (Nat.eqb _ _) in E2; [|discriminate].
  assert (Q2 := f_equal (fun r => match r with Ok p => List.length p | Err _ => 0%nat end) E2).
  cbn beta iota in Q2. rewrite map_length, seq_length in Q2. auto.
Qed.
(*@ C97: exceptions: one raised by the assembly or by the solver leaves the analysis as it is, and fewer than three terms, or a num_eigvalues that is not
    positive, are a ValueError of the solver. @*)
Lemma t_C97_raises : forall eigsh pow dec D a b Nxx Nyy Nxy c m n num e,
  (calc_K_KG_D (stored (FA pow) dec) D a b Nxx Nyy Nxy c m n = Err e -> buckling_float eigsh pow dec D a b Nxx Nyy Nxy c m n num = Err e) /\
  forall K KG : list (list f64), calc_K_KG_D (stored (FA pow) dec) D a b Nxx Nyy Nxy c m n = Ok (K, KG) ->
    let k := Z.min num (Z.of_nat (m * n) - 2) in
    (eigsh KG K k = Err e -> buckling_float eigsh pow dec D a b Nxx Nyy Nxy c m n num = Err e) /\
    (forall eps gam, accurate_to eps gam eigsh -> (m * n <= 2)%nat \/ (num <= 0)%Z -> buckling_float eigsh pow dec D a b Nxx Nyy Nxy c m n num = Err ValueError).
Proof.
  intros eigsh pow dec D a b Nxx Nyy Nxy c m n num e. split.
  - intros H. unfold buckling_float. rewrite H. reflexivity.
  - intros K KG H k. assert (L := fcalc_square _ _ _ _ _ _ _ _ _ _ _ _ H).
    assert (Q : forall x, eigsh KG K k = Err x -> buckling_float eigsh pow dec D a b Nxx Nyy Nxy c m n num = Err x).
    { intros x Ex. unfold buckling_float. rewrite H. cbn [bind fst snd]. unfold k in Ex. rewrite <- L in Ex.
      change (bind (eigsh KG K (Z.min num (Z.of_nat (List.length KG) - 2))) (fun r => Ok (map fneg_recip (fst r), snd r)) = Err x).
      assert (Ex' : eigsh KG K (Z.min num (Z.of_nat (List.length KG) - 2)) = Err x) by exact Ex. rewrite Ex'. reflexivity. }
    split; [apply Q|]. intros eps gam Ac Hk. apply Q. apply (proj1 (Ac KG K k)). unfold k. lia.
Qed.

(** ** approximate pairs *)
Lemma sum_sq_sq l n : List.length l = n -> sum_sq l = sq n (fn l).
Proof.
  intros L. subst n. induction l as [|x l IH]; [reflexivity|]. unfold sq. cbn [List.length]. rewrite sm_shift. unfold sum_sq in *. cbn [map rsum]. rewrite IH. reflexivity.
Qed.
Lemma at_least_f n u K : square n K -> at_least u K -> forall y, u * sq n y <= bil n (fm K) y y.
Proof.
  intros S U y. assert (Q := U (ls n y)). rewrite ls_length in Q. specialize (Q (eq_sym (proj1 S))). rewrite (sum_sq_sq _ n (ls_length n y)), (quad_bil n K S) in Q by apply ls_length.
  assert (E : forall i, (i < n)%nat -> fn (ls n y) i = y i) by (intros; apply fn_ls; assumption). rewrite (bil_ext n _ _ _ _ _ E E) in Q.
  replace (sq n y) with (sq n (fn (ls n y))); [exact Q|]. apply sm_ext. intros i Hi. rewrite E by exact Hi. reflexivity.
Qed.
Lemma residual_f n A M x v : square n A -> square n M -> List.length v = n ->
  sum_sq (residual A M x v) = sq n (fun i => app n (fm A) (fn v) i - x * app n (fm M) (fn v) i).
Proof.
  intros SA SM L. assert (La := mat_vec_length n A SA v). assert (Lm := mat_vec_length n M SM v).
  rewrite (sum_sq_sq _ n) by (unfold residual; rewrite map2_length; congruence). apply sm_ext. intros i Hi. unfold residual. rewrite (fn_map2 _ _ _ n i La Lm Hi), (mat_vec_at n A SA v i L Hi), (mat_vec_at n M SM v i L Hi). reflexivity.
Qed.
(*@ C97: what a pair (x, v) proves on its own, wherever it comes from: if KG v - x K v is small, there is an eigenvalue within e of x. @*)
Lemma t_C97_residual : forall (K KG : list (list R)) u e x v, pencil K KG -> at_least u K -> 0 < u -> 0 <= e -> List.length v = List.length K -> nonzero v ->
  sum_sq (residual KG K x v) <= e ^ 2 * u * quad_rows K v -> exists mu w, gen_pair KG K mu w /\ Rabs (mu - x) <= e.
Proof.
  intros K KG u e x v Pn U Hu He L N R. destruct (pencil_parts K KG Pn) as [S1 S2 SM SA PM]. set (n := List.length K) in *.
  rewrite (residual_f n KG K x v S2 S1 L), (quad_bil n K S1 v L) in R.
  destruct (enclose n (fm KG) (fm K) u SA SM PM Hu (at_least_f n u K S1 U) e x (fn v) He (proj1 (nonzero_nz n v L) N)) as (mu & w & P & C); [eapply Rle_trans; [exact R|right; ring]|].
  exists mu, (ls n w). split; [apply pairf_gen; assumption|exact C].
Qed.
(*@ C97: and what j pairs prove together, if their vectors are nearly orthonormal in K: there are j positive factors, counted with their independent modes,
    not above the largest reported one by more than the bound. No mode is then reported twice, and no reported factor is below the true one in its place by more than that. @*)
Lemma t_C97_count : forall (K KG : list (list R)) u o e h z Z xs vs, pencil K KG -> at_least u K -> 0 < u -> 0 <= o -> 0 < h ->
  let j := INR (List.length xs) in j * o < 1 -> j * e ^ 2 <= h ^ 2 * (1 - j * o) ->
  List.length vs = List.length xs -> Forall (fun v => List.length v = List.length K) vs ->
  (forall i k v w, nth_error vs i = Some v -> nth_error vs k = Some w -> Rabs (inner K v w - (if Nat.eqb i k then 1 else 0)) <= o) ->
  (forall i x v, nth_error xs i = Some x -> nth_error vs i = Some v -> - Z <= x <= - z /\ sum_sq (residual KG K x v) <= e ^ 2 * u) ->
  let d := (z - Z * o * j) / (1 + j * o) - h in 0 < d ->
  exists fs, lowest K KG fs /\ List.length fs = List.length xs /\ Forall (fun l => l <= 1 / d) fs.
Proof.
  intros K KG u o e h z Z xs vs Pn U Hu Ho Hh j Hj He Lv F Or Rs d Hd. destruct (pencil_parts K KG Pn) as [S1 S2 SM SA PM]. set (n := List.length K) in *.
  apply (t_C91_exists K KG (1 / d) (List.length xs) Pn); [apply Rdiv_lt_0_compat; lra|]. apply (unstable_fam K KG _ _ Pn). fold n. exists (fun i => fn (nth i vs [])).
  assert (Nv : forall i, (i < List.length xs)%nat -> nth_error vs i = Some (nth i vs []) /\ List.length (nth i vs []) = n).
  { intros i Hi. assert (Q : nth_error vs i = Some (nth i vs [])) by (apply nth_error_nth'; lia). split; [exact Q|]. rewrite Forall_forall in F. apply F, (nth_error_In _ _ Q). }
  apply (several n (fm KG) (fm K) u SM Hu (at_least_f n u K S1 U) (List.length xs) _ (fn xs) o e h z Z Ho Hh Hj).
  - fold j. replace (e * e) with (e ^ 2) by ring. replace (h * h) with (h ^ 2) by ring. exact He.
  - intros i k Hi Hk. destruct (Nv i Hi) as (E1 & L1). destruct (Nv k Hk) as (E2 & L2). rewrite <- (inner_bil n K S1) by assumption. apply (Or i k _ _ E1 E2).
  - intros i Hi. destruct (Nv i Hi) as (E1 & L1). assert (Ex : nth_error xs i = Some (fn xs i)) by (apply nth_error_nth'; exact Hi). destruct (Rs i _ _ Ex E1) as (B & R).
    split; [exact B|]. rewrite (residual_f n KG K _ _ S2 S1 L1) in R. eapply Rle_trans; [exact R|right; ring].
  - exact Hd.
Qed.

(** ** such solvers exist *)
Lemma cayley_mono a b : -1 <= a -> a <= b -> b <= 0 -> Rabs (cayley a) <= Rabs (cayley b).
Proof.
  intros H1 H2 H3. unfold cayley. assert (Q : forall x, -1 <= x <= 0 -> Rabs ((x + 1) / (x - 1)) = (1 + x) / (1 - x)).
  { intros x Hx. rewrite Rabs_left1.
    - field. lra.
    - replace ((x + 1) / (x - 1)) with (- ((1 + x) / (1 - x))) by (field; lra). assert (0 <= (1 + x) / (1 - x)) by (apply Rmult_le_pos; [lra|apply Rlt_le, Rinv_0_lt_compat; lra]). lra. }
  rewrite !Q by lra. apply (Rmult_le_reg_l ((1 - a) * (1 - b))); [apply Rmult_lt_0_compat; lra|].
  replace ((1 - a) * (1 - b) * ((1 + a) / (1 - a))) with ((1 - b) * (1 + a)) by (field; lra). replace ((1 - a) * (1 - b) * ((1 + b) / (1 - b))) with ((1 - a) * (1 + b)) by (field; lra). nra.
Qed.
Lemma rnd_range x : -1 <= x <= 0 -> -1 <= rnd64 x <= 0 /\ Rabs (rnd64 x - x) <= 2 * unit.
Proof.
  intros H. assert (V : Valid_exp fexp64) by apply (fexp_correct 53 1024 eq_refl). assert (uv := unit_val). split.
  - split.
    + apply round_ge_generic; [exact V|apply valid_rnd_round_mode| |lra]. replace (-1) with (- bp 0) by (cbn; lra). apply generic_format_opp, generic_format_bpow. cbn. lia.
    + apply round_le_generic; [exact V|apply valid_rnd_round_mode|apply generic_format_0|lra].
  - destruct (rnd_err x) as (d & h & H1 & H2 & ->). replace (x * (1 + d) + h - x) with (d * x + h) by ring. eapply Rle_trans; [apply Rabs_triang|]. rewrite Rabs_mult.
    assert (Rabs d * Rabs x <= unit * 1) by (apply Rmult_le_compat; try apply Rabs_pos; [exact H1|apply Rabs_le; lra]).
    assert (bp (-1075) <= unit) by (rewrite unit_bp; apply bpow_le; lia). lra.
Qed.
Definition f64_dec (x y : f64) : {x = y} + {x <> y}.
Proof.
  destruct (Bool.bool_dec (match B2SF x, B2SF y with
    | SpecFloat.S754_zero s, SpecFloat.S754_zero t => Bool.eqb s t | SpecFloat.S754_infinity s, SpecFloat.S754_infinity t => Bool.eqb s t | SpecFloat.S754_nan, SpecFloat.S754_nan => true
    | SpecFloat.S754_finite s m e, SpecFloat.S754_finite t p q => (Bool.eqb s t && Pos.eqb m p && Z.eqb e q)%bool | _, _ => false end) true) as [H|H].
  - left. apply B2SF_inj. destruct (B2SF x) as [s|s| |s m e], (B2SF y) as [t|t| |t p q]; try discriminate H; try reflexivity.
    + apply Bool.eqb_prop in H. congruence.
    + apply Bool.eqb_prop in H. congruence.
    + apply andb_true_iff in H. destruct H as (H & H3). apply andb_true_iff in H. destruct H as (H1 & H2). apply Bool.eqb_prop in H1. apply Pos.eqb_eq in H2. apply Z.eqb_eq in H3. congruence.
  - right. intros ->. apply H. destruct (B2SF y) as [t|t| |t p q]; try apply Bool.eqb_reflx; try reflexivity. rewrite Bool.eqb_reflx, Pos.eqb_refl, Z.eqb_refl. reflexivity.
Defined.
Definition fanswering (A0 M0 : list (list f64)) (k0 : Z) (vals : list f64) (vecs : list (list f64)) : fsolver := fun A M k =>
  if (k <=? 0)%Z then Err ValueError
  else if list_eq_dec (list_eq_dec f64_dec) A A0 then if list_eq_dec (list_eq_dec f64_dec) M M0 then if (k =? k0)%Z then Ok (vals, vecs) else Err ArpackError else Err ArpackError else Err ArpackError.
Lemma fm_table n (f : nat -> nat -> R) i j : (i < n)%nat -> (j < n)%nat -> fm (map (fun p => map (f p) (seq 0 n)) (seq 0 n)) i j = f i j.
Proof.
  intros Hi Hj. unfold fm. rewrite (nth_indep _ [] (map (f 0%nat) (seq 0 n))) by (rewrite map_length, seq_length; exact Hi).
  rewrite (map_nth (fun p => map (f p) (seq 0 n))), seq_nth by exact Hi. change (0 + i)%nat with i. apply (fn_ls n (f i) j Hj).
Qed.
Lemma app_table n f x i : (i < n)%nat -> app n (fm (map (fun p => map (f p) (seq 0 n)) (seq 0 n))) x i = app n f x i.
Proof. intros Hi. apply sm_ext. intros j Hj. rewrite fm_table by assumption. reflexivity. Qed.
Lemma bil_table n f x y : bil n (fm (map (fun p => map (f p) (seq 0 n)) (seq 0 n))) x y = bil n f x y.
Proof. apply sm_ext. intros i Hi. rewrite app_table by exact Hi. reflexivity. Qed.
Lemma sym_table n (f : nat -> nat -> R) : symf n f -> sym_rows (map (fun p => map (f p) (seq 0 n)) (seq 0 n)).
Proof.
  intros S. assert (Sq := map_sq f (seq 0 n)). rewrite seq_length in Sq. assert (Out : forall i j, (n <= i)%nat \/ (n <= j)%nat -> entry (map (fun p => map (f p) (seq 0 n)) (seq 0 n)) i j = None).
  { intros i j H. unfold entry. destruct (nth_error (map (fun p => map (f p) (seq 0 n)) (seq 0 n)) i) as [r|] eqn:E; [|reflexivity].
    assert (Hi : (i < n)%nat). { assert (Q : nth_error (map (fun p => map (f p) (seq 0 n)) (seq 0 n)) i <> None) by congruence. apply nth_error_Some in Q. rewrite map_length, seq_length in Q. exact Q. }
    apply nth_error_In in E. apply in_map_iff in E. destruct E as (p & <- & _). apply nth_error_None. rewrite map_length, seq_length. lia. }
  intros i j. destruct (le_lt_dec n i) as [Li|Li]; [rewrite !Out by auto; reflexivity|]. destruct (le_lt_dec n j) as [Lj|Lj]; [rewrite !Out by auto; reflexivity|].
  rewrite !(entry_fm n _ Sq) by assumption. rewrite !fm_table by assumption. rewrite (S i j) by assumption. reflexivity.
Qed.
(*@ C97: there are such solvers: for a pencil of doubles whose eigenvalues lie between -1 and 0 (no factor below one, no negative one) there is a solver,
    accurate to two units, that answers. @*)
Lemma t_C97_solver : forall (A M : list (list f64)) k, pencil (reals M) (reals A) -> (0 < k <= Z.of_nat (List.length M))%Z ->
  (forall mu v, gen_pair (reals A) (reals M) mu v -> -1 <= mu <= 0) ->
  exists eigsh r, accurate_to 0 (2 * unit) eigsh /\ eigsh A M k = Ok r.
Proof.
  intros A M k Pn Hk Rg. destruct (pencil_parts (reals M) (reals A) Pn) as [S1 S2 SM SA PM]. set (n := List.length (reals M)) in *.
  assert (Ln : n = List.length M) by (unfold n, reals; apply map_length).
  destruct (sorted_basis n (fm (reals A)) (fm (reals M)) SA SM PM) as (mu & v & P & O & Sr).
  assert (Rm : forall i, (i < n)%nat -> -1 <= mu i <= 0) by (intros i Hi; apply (Rg _ (ls n (v i))); apply pairf_gen; auto).
  assert (Nz : forall i, (i < n)%nat -> nz n (v i)) by (intros i Hi; apply (P i Hi)).
  set (mu' := fun i => rnd64 (mu i)). set (A' := map (fun p => map (rebuilt n (fm (reals M)) mu' v p) (seq 0 n)) (seq 0 n)).
  assert (SqA : square n A') by (unfold A'; rewrite <- (seq_length n 0) at 1; apply (map_sq (rebuilt n (fm (reals M)) mu' v))).
  assert (SyA : sym_rows A') by (apply sym_table, rebuilt_sym).
  assert (SfA := sym_f n A' SqA SyA).
  assert (P' : forall i, (i < n)%nat -> pairf n (fm A') (fm (reals M)) (mu' i) (v i)).
  { intros i Hi. destruct (rebuilt_pair n (fm (reals M)) PM mu' v Nz O i Hi) as (N & E). split; [exact N|]. intros p Hp. unfold A'. rewrite app_table by exact Hp. apply E, Hp. }
  assert (Pn' : pencil (reals M) A') by (constructor; try apply Pn; fold n; assumption).
  assert (Mono : forall i j, (i <= j)%nat -> (j < n)%nat -> mu' i <= mu' j) by (intros i j Hi Hj; apply round_le; [apply (fexp_correct 53 1024 eq_refl)|apply valid_rnd_round_mode|apply Sr; assumption]).
  set (kk := Z.to_nat k). assert (Hkk : (kk <= n)%nat) by lia. set (vals := map (fun i => near64 (mu i)) (seq 0 kk)).
  assert (Bv : forall i, (i < n)%nat -> is_finite (near64 (mu i)) = true /\ B2R (near64 (mu i)) = mu' i) by (intros i Hi; apply near64_ok; assert (Q := Rm i Hi); apply Rabs_le; lra).
  assert (Ev : map (@B2R 53 1024) vals = map mu' (seq 0 kk)) by (unfold vals; rewrite map_map; apply map_ext_in; intros i Hi; apply in_seq in Hi; apply Bv; lia).
  set (ws := map (fun i => map (fun s => v s i) (seq 0 kk)) (seq 0 n)).
  assert (Cl : forall j, (j < kk)%nat -> column ws j = Ok (ls n (v j))) by (intros j Hj; unfold ws; rewrite column_table by (rewrite seq_length; exact Hj); rewrite seq_nth by exact Hj; reflexivity).
  assert (R1 : forall i, (i < n)%nat -> -1 <= mu' i <= 0) by (intros i Hi; apply rnd_range, Rm, Hi).
  assert (Er : eigsh_result A' (reals M) kk (map mu' (seq 0 kk)) ws).
  { constructor.
    - rewrite map_length, seq_length. reflexivity.
    - intros j nu Hj. assert (Hj' : (j < kk)%nat). { assert (Q : nth_error (map mu' (seq 0 kk)) j <> None) by congruence. apply nth_error_Some in Q. rewrite map_length, seq_length in Q. exact Q. }
      rewrite (map_nth_error mu' j (seq 0 kk) (d := j)) in Hj by (rewrite (nth_error_nth' (seq 0 kk) 0%nat) by (rewrite seq_length; exact Hj'); rewrite seq_nth by exact Hj'; reflexivity).
      assert (nu = mu' j) by congruence. subst nu. assert (Q := R1 j ltac:(lia)). split; [lra|]. exists (ls n (v j)). split; [apply Cl, Hj'|]. apply pairf_gen; [exact S1|exact SqA|apply P'; lia].
    - intros i j x y Hi Hj N Ci Cj. rewrite (Cl i Hi) in Ci. rewrite (Cl j Hj) in Cj. assert (x = ls n (v i)) by congruence. assert (y = ls n (v j)) by congruence. subst x y.
      rewrite (inner_bil n _ S1) by apply ls_length. rewrite (bil_ext n _ _ _ (v i) (v j)) by (intros; apply fn_ls; assumption). apply O; lia.
    - intros nu w G _ Or nu' Inu. destruct (gen_pairf n A' (reals M) _ _ S1 SqA G) as (Lw & Gf). destruct (complete n (fm A') (fm (reals M)) mu' v nu (fn w) SfA SM PM P' O Gf) as (i & Hi & Ni & <-).
      apply in_map_iff in Inu. destruct Inu as (q & <- & Iq). apply in_seq in Iq.
      assert (Ki : (kk <= i)%nat). { destruct (le_lt_dec kk i) as [Q|Q]; [exact Q|exfalso]. apply Ni. assert (X := Or i _ Q (Cl i Q)). rewrite (inner_bil n _ S1) in X by (apply ls_length || exact Lw).
        rewrite (bil_ext n _ _ _ (v i) (fn w)) in X by (intros; try apply fn_ls; auto). exact X. }
      apply cayley_mono; [apply R1; lia|apply Mono; lia|apply R1; exact Hi].
    - assert (G : forall l s, (s + l <= n)%nat -> StronglySorted Rle (map mu' (seq s l))).
      { induction l as [|l IH]; intros s Hs; [constructor|]. cbn [seq map]. constructor; [apply IH; lia|]. apply Forall_forall. intros y Hy. apply in_map_iff in Hy. destruct Hy as (q & <- & Iq). apply in_seq in Iq. apply Mono; lia. }
      apply G. lia. }
  exists (fanswering A M k vals []), (vals, []). split.
  - intros A1 M1 k1. unfold fanswering. destruct (Z.leb_spec k1 0); [split; [reflexivity|discriminate]|]. split; [lia|]. intros vs ws' _ _ _.
    destruct (list_eq_dec (list_eq_dec f64_dec) A1 A) as [->|]; [|discriminate]. destruct (list_eq_dec (list_eq_dec f64_dec) M1 M) as [->|]; [|discriminate]. destruct (Z.eqb_spec k1 k) as [->|]; [|discriminate].
    intros Eq. apply Ok_inj in Eq. apply pair_equal_spec in Eq. destruct Eq as (<- & _). split.
    + apply Forall_forall. intros x Hx. apply in_map_iff in Hx. destruct Hx as (i & <- & Ii). apply in_seq in Ii. apply Bv. lia.
    + exists A', (reals M), ws. split; [exact Pn'|]. split; [|rewrite Ev; exact Er]. constructor; [reflexivity| |]; intros x Lx.
      * rewrite Rminus_diag_eq, Rabs_R0 by reflexivity. lra.
      * fold n in Lx. rewrite (quad_bil n _ SqA), (quad_bil n _ S2), (quad_bil n _ S1) by exact Lx. unfold A'. rewrite bil_table.
        apply (rebuilt_near n (fm (reals A)) (fm (reals M)) SM PM mu v mu' (2 * unit) P O). intros i Hi. apply rnd_range, Rm, Hi.
  - unfold fanswering. destruct (Z.leb_spec k 0); [lia|]. destruct (list_eq_dec (list_eq_dec f64_dec) A A); [|congruence]. destruct (list_eq_dec (list_eq_dec f64_dec) M M); [|congruence]. rewrite Z.eqb_refl. reflexivity.
Qed.
Lemma pencil22 : pencil K22 G22.
Proof. apply (t_C42_pencil mid 2 2 (-8) 0 0 (CStr "PINNED") Pinned Pinned Pinned Pinned 2 2); try apply T_Perturb.pinned_ok; exact pinned22. Qed.
Lemma lowest22 : lowest K22 G22 [2; 45/14].
Proof.
  exists [[1; -1; -1; 1]; [1; -1; 1; -1]]. split; [reflexivity|]. split; [|split; [|split]].
  - intros [|[|i]] l v Hl Hv; cbn [nth_error] in Hl, Hv; try (destruct i; discriminate); apply some_inj in Hl; try exact 0; apply some_inj in Hv; try exact []; subst l v; (split; [lra|]); (split; [reflexivity|]); (split; [left; lra|]);
      unfold K22, G22; cbv [mat_vec dot_list map map2 rsum length repeat]; repeat (apply f_equal2; [field|]); reflexivity.
  - intros [|[|i]] [|[|j]] u v N Hu Hv; cbn [nth_error] in Hu, Hv; try (destruct i; discriminate); try (destruct j; discriminate); try lia; apply some_inj in Hu; try exact []; apply some_inj in Hv; try exact []; subst u v;
      unfold K22; cbv [inner mat_vec dot_list map map2 rsum]; field.
  - repeat (constructor; [|repeat (constructor; try lra)]); constructor.
  - intros l v Hl B Or l' I. assert (Hl' : l' <= 45 / 14) by (destruct I as [<-|[<-|[]]]; lra). eapply Rle_trans; [exact Hl'|]. assert (Z := buckles_zero K22 G22 l v pencil22 B). destruct B as (Lv & Nv & _). destruct (four v Lv) as (x & y & z & t & ->).
    assert (O1 := Or _ (or_introl eq_refl)). assert (O2 := Or _ (or_intror (or_introl eq_refl))). unfold K22 in O1, O2. cbv [inner mat_vec dot_list map map2 rsum] in O1, O2.
    assert (E4 : x - y - z + t = 0) by lra. assert (E2 : x - y + z - t = 0) by lra. destruct (modes22 x y z t) as (EK & EG & ES). rewrite E4, E2 in EK, EG, ES. rewrite EK, EG in Z. assert (Q := sum_sq_nz _ Nv). rewrite ES in Q.
    assert (A1 := pow2_ge_0 (x + y + z + t)). assert (A3 := pow2_ge_0 (x + y - z - t)). destruct (Rle_or_lt (45/14) l) as [|Lt]; [assumption|exfalso].
    set (p := (x + y + z + t) ^ 2) in *. set (q := (x + y - z - t) ^ 2) in *. nra.
Qed.
Lemma form22 v : List.length v = 4%nat -> - (1/2) * quad_rows K22 v <= quad_rows G22 v <= - (1/14) * quad_rows K22 v.
Proof.
  intros L. destruct (four v L) as (x & y & z & t & ->). destruct (modes22 x y z t) as (-> & -> & _).
  assert (A1 := pow2_ge_0 (x + y + z + t)). assert (A2 := pow2_ge_0 (x - y + z - t)). assert (A3 := pow2_ge_0 (x + y - z - t)). assert (A4 := pow2_ge_0 (x - y - z + t)). lra.
Qed.
Lemma gen_quad A M mu v : pencil M A -> gen_pair A M mu v -> quad_rows A v = mu * quad_rows M v.
Proof.
  intros Pn G. destruct (pencil_parts M A Pn) as [S1 S2 _ _ _]. destruct (gen_pairf _ A M _ _ S1 S2 G) as (L & _ & Q). rewrite (quad_bil _ _ S2), (quad_bil _ _ S1) by exact L.
  unfold bil. rewrite <- sm_scal. apply sm_ext. intros i Hi. rewrite (Q i Hi). ring.
Qed.
Lemma off_bound x y (d : R) : 0 < y -> 0 < x <= 33/10 -> 0 <= d <= 3 / 100000000000 -> Rabs (1 / x - 1 / y) <= d * (1 / y) + 2 * d -> Rabs (y - x) <= 1 / 1000000000.
Proof.
  intros Hy Hx Hd Q. apply Rcomplements.Rabs_le_between in Q. destruct Q as [Q1 Q2]. apply (Rmult_le_compat_l (x * y)) in Q1, Q2; try (apply Rmult_le_pos; lra).
  replace (x * y * (1 / x - 1 / y)) with (y - x) in * by (field; lra). replace (x * y * (d * (1 / y) + 2 * d)) with (x * d + 2 * (x * d) * y) in Q2 by (field; lra). replace (x * y * - (d * (1 / y) + 2 * d)) with (- (x * d + 2 * (x * d) * y)) in Q1 by (field; lra).
  assert (Z : 0 <= x * d <= 99 / 1000000000000) by (split; [apply Rmult_le_pos; lra|replace (99 / 1000000000000) with (33/10 * (3 / 100000000000)) by field; apply Rmult_le_compat; lra]).
  set (w := x * d) in *. assert (y <= 34/10) by nra. apply Rabs_le. nra.
Qed.
(*@ C97 example: the square pinned plate of C77 with m = n = 2. Its two lowest factors are 2 and 45/14. There is an accurate solver that answers, and every
    solver accurate to a few parts in 10^12 makes the analysis in binary64 report two values within a billionth of them. @*)
Example t_C97_ex : forall pow dec, pow_close pow -> dec_close dec ->
  lowest_factors mid 2 2 (-8) 0 0 (CStr "PINNED") 2 2 [2; 45/14] /\
  (exists eigsh out vecs, accurate_to 0 (2 * unit) eigsh /\
     buckling_float eigsh pow dec fid (f_of_Z 2) (f_of_Z 2) (f_of_Z (-8)) fzero fzero (CStr "PINNED") 2 2 5 = Ok (out, vecs)) /\
  forall eps gam eigsh out vecs, 0 <= eps <= 1 / 1000000000000 -> 0 <= gam <= 1 / 1000000000000 -> accurate_to eps gam eigsh ->
    buckling_float eigsh pow dec fid (f_of_Z 2) (f_of_Z 2) (f_of_Z (-8)) fzero fzero (CStr "PINNED") 2 2 5 = Ok (out, vecs) ->
    exists p q, out = [p; q] /\ is_finite p = true /\ is_finite q = true /\ Rabs (B2R p - 2) <= 1 / 1000000000 /\ Rabs (B2R q - 45 / 14) <= 1 / 1000000000.
Proof.
  intros pow dec HP HD. assert (UI := fid_inputs pow dec HP HD).
  assert (T : tolerance 10 = 1 / 1000000000000000) by reflexivity. assert (uv := unit_val).
  set (e := tolerance 10 + 16 * unit) in *. assert (He : 0 < e <= 3 / 1000000000000000) by (unfold e, unit; lra).
  assert (E : INR (2 * 2) * k_off e mid 2 2 = 792 / 10 * e).
  { unfold k_off, mid. cbn [a11 a21 a22 a31 a32 a33]. rewrite Rabs_R0, Rabs_R1. cbn. field. }
  assert (G : INR (2 * 2) * kG_off e (-8) 0 0 2 2 = 1056 / 10 * e).
  { unfold kG_off. rewrite Rabs_R0, (Rabs_left (-8)) by lra. cbn. field. }
  assert (P2 := proj2 (f_small 2 eq_refl)). assert (P8 := proj2 (f_small (-8) eq_refl)).
  assert (LF : lowest_factors mid 2 2 (-8) 0 0 (CStr "PINNED") 2 2 [2; 45/14]) by (exists K22, G22; split; [exact pinned22|exact lowest22]).
  set (k1 := 792 / 10 * e / (1 / 100)). set (k2 := 1056 / 10 * e / (1 / 100)).
  assert (B1 : 0 < k1 <= 3 * 792 / 100000000000000) by (unfold k1; lra). assert (B2 : 0 < k2 <= 3 * 1056 / 100000000000000) by (unfold k2; lra).
  split; [exact LF|]. split.
  - assert (X := fplate_near pow dec fid (f_of_Z 2) (f_of_Z 2) (f_of_Z (-8)) fzero fzero UI (CStr "PINNED") Pinned Pinned Pinned Pinned 2 2 10 (1 / 100) K22 G22).
    rewrite fid_numbers, P2, P8 in X. change (B2R fzero) with 0 in X. fold e in X. rewrite E, G in X. fold k1 k2 in X.
    destruct (X T_Perturb.pinned_ok ltac:(lia) ltac:(cbn; lia) ltac:(cbn; lia) pinned22 least22 ltac:(lra)) as (_ & _ & _ & K1 & G1 & H1 & _ & _ & Pn & Nr & Lk). change (2 * 2)%nat with 4%nat in Lk.
    assert (L4 : List.length K1 = 4%nat) by (assert (Q := nr_len _ _ _ _ _ _ Nr); unfold reals in Q; rewrite map_length in Q; exact Q).
    destruct (t_C97_solver G1 K1 2 Pn ltac:(lia)) as (eigsh & (vals, vs) & Ac & Ev).
    + intros mu v Gp. assert (Q := gen_quad _ _ _ _ Pn Gp). destruct Gp as (Lv & Nv & _). assert (Lv4 : List.length v = 4%nat) by (rewrite Lv; unfold reals; rewrite map_length; exact L4).
      assert (F := form22 v Lv4). assert (N1 := nr_K _ _ _ _ _ _ Nr v Lv4). assert (N2 := nr_KG _ _ _ _ _ _ Nr v Lv4). assert (Ps := quad_pos _ _ v pencil22 Lv4 Nv).
      assert (Ps' := quad_pos _ _ v Pn Lv Nv). rewrite Q in N2. set (s := quad_rows K22 v) in *. set (s' := quad_rows (reals K1) v) in *. set (h := quad_rows G22 v) in *.
      apply Rcomplements.Rabs_le_between in N1. apply Rcomplements.Rabs_le_between in N2. 
      assert (W1 : k1 * s <= 1 / 100 * s) by (apply Rmult_le_compat_r; lra). assert (W2 : k2 * s <= 1 / 100 * s) by (apply Rmult_le_compat_r; lra).
      split; apply (Rmult_le_reg_r s'); lra.
    + exists eigsh, (map fneg_recip vals), vs. split; [exact Ac|]. unfold buckling_float. rewrite H1. cbn [bind fst snd].
      assert (Ek : Z.min 5 (Z.of_nat (List.length G1) - 2) = 2%Z) by (rewrite Lk; reflexivity).
      change (bind (eigsh G1 K1 (Z.min 5 (Z.of_nat (List.length G1) - 2))) (fun r => Ok (map fneg_recip (fst r), snd r)) = Ok (map fneg_recip vals, vs)). rewrite Ek, Ev. reflexivity.
  - intros eps gam eigsh out vecs He1 Hg1 Ac R.
    assert (Y := t_C97_reported eigsh eps gam pow dec fid (f_of_Z 2) (f_of_Z 2) (f_of_Z (-8)) fzero fzero (CStr "PINNED") Pinned Pinned Pinned Pinned 2 2 10 (1 / 100) K22 G22 [2; 45/14] 5 out vecs Ac ltac:(lra) ltac:(lra) UI).
    rewrite fid_numbers, P2, P8 in Y. change (B2R fzero) with 0 in Y. fold e in Y. rewrite E, G in Y. cbv zeta in Y. fold k1 k2 in Y.
    set (EE := k1 + eps * (1 + k1)) in *. set (GG := k2 + gam * (1 + k1)) in *.
    assert (HE : 0 <= EE <= 26 / 1000000000000) by (unfold EE; assert (0 <= eps * (1 + k1) <= 1 / 1000000000000 * (1 + 1)) by (split; [apply Rmult_le_pos; lra|apply Rmult_le_compat; lra]); lra).
    assert (HG : 0 <= GG <= 35 / 1000000000000) by (unfold GG; assert (0 <= gam * (1 + k1) <= 1 / 1000000000000 * (1 + 1)) by (split; [apply Rmult_le_pos; lra|apply Rmult_le_compat; lra]); lra).
    assert (Tiny : powerRZ 2 (-900) <= 1 / 16) by (rewrite pow2_bp; replace (1 / 16) with (bp (-4)) by (cbn; lra); apply bpow_le; lia).
    destruct (Y T_Perturb.pinned_ok ltac:(lia) ltac:(cbn; lia) ltac:(cbn; lia) pinned22 least22 ltac:(lra) LF) as (Lo & Q).
    + repeat constructor; lra.
    + exact R.
    + change (Z.to_nat (Z.min 5 (Z.of_nat (2 * 2) - 2))) with 2%nat in Lo. destruct out as [|p [|q [|? ?]]]; try discriminate Lo. exists p, q. split; [reflexivity|].
      destruct (Q (le_n 2) 0%nat 2 eq_refl) as (f & Ef & Ff & Pf & Qf). destruct (Q (le_n 2) 1%nat (45/14) eq_refl) as (f' & Ef' & Ff' & Pf' & Qf'). cbn in Ef, Ef'. assert (f = p) by congruence. assert (f' = q) by congruence. subst f f'.
      split; [exact Ff|]. split; [exact Ff'|].
      assert (W : EE * (1 + unit) + unit <= 3 / 100000000000) by nra.
      split; [apply (off_bound 2 (B2R p) (3 / 100000000000))|apply (off_bound (45/14) (B2R q) (3 / 100000000000))]; try lra.
      * eapply Rle_trans; [exact Qf|]. apply Rplus_le_compat; [|lra]. apply Rmult_le_compat_r; [apply Rlt_le, Rdiv_lt_0_compat; lra|exact W].
      * eapply Rle_trans; [exact Qf'|]. apply Rplus_le_compat; [|lra]. apply Rmult_le_compat_r; [apply Rlt_le, Rdiv_lt_0_compat; lra|exact W].
Qed.
(*@ C97 example: two pairs that are not exact, and what they prove. @*)
Example t_C97_ex_count : let K := [[1; 0; 0]; [0; 1; 0]; [0; 0; 1]] in let KG := [[-1/2; 0; 0]; [0; 1; 0]; [0; 0; -1/2]] in
  pencil K KG /\ at_least 1 K /\
  (exists mu w, gen_pair KG K mu w /\ Rabs (mu - (-1/2)) <= 1 / 50) /\
  (forall i x v, nth_error [-1/2; -1/2] i = Some x -> nth_error [[1; 1/100; 0]; [0; 0; 1]] i = Some v -> - (1/2) <= x <= - (1/2) /\ sum_sq (residual KG K x v) <= (1/50) ^ 2 * 1) /\
  exists fs, lowest K KG fs /\ List.length fs = 2%nat /\ Forall (fun l => l <= 22 / 10) fs.
Proof.
  cbv zeta. fold K_ex G_ex. assert (Pn := pencil_ex).
  assert (U : at_least 1 K_ex) by (intros v L; destruct v as [|x [|y [|z [|? ?]]]]; try discriminate L; unfold K_ex, quad_rows, sum_sq, dot_list; cbn; lra).
  assert (Rs : forall i x v, nth_error [-1/2; -1/2] i = Some x -> nth_error [[1; 1/100; 0]; [0; 0; 1]] i = Some v -> - (1/2) <= x <= - (1/2) /\ sum_sq (residual G_ex K_ex x v) <= (1/50) ^ 2 * 1).
  { intros [|[|i]] x v Hx Hv; cbn [nth_error] in Hx, Hv; try (destruct i; discriminate); apply some_inj in Hx; try exact 0; apply some_inj in Hv; try exact []; subst x v; (split; [lra|]);
      unfold residual, K_ex, G_ex, sum_sq; cbv [mat_vec dot_list map map2 rsum]; lra. }
  split; [exact Pn|]. split; [exact U|]. split; [|split; [exact Rs|]].
  - apply (t_C97_residual K_ex G_ex 1 (1/50) (-1/2) [1; 1/100; 0] Pn U ltac:(lra) ltac:(lra) eq_refl); [left; lra|]. destruct (Rs 0%nat _ _ eq_refl eq_refl) as (_ & Q).
    assert (1 <= quad_rows K_ex [1; 1/100; 0]) by (unfold K_ex, quad_rows, dot_list; cbn; lra). lra.
  - assert (X := t_C97_count K_ex G_ex 1 (1/1000) (1/50) (1/30) (1/2) (1/2) [-1/2; -1/2] [[1; 1/100; 0]; [0; 0; 1]] Pn U ltac:(lra) ltac:(lra) ltac:(lra)). cbv zeta in X. cbn [List.length INR] in X.
    destruct X as (fs & L1 & L2 & L3); [lra|lra|reflexivity|repeat constructor| |exact Rs|lra|].
    + intros [|[|i]] [|[|k]] v w Hv Hw; cbn [nth_error] in Hv, Hw; try (destruct i; discriminate); try (destruct k; discriminate); apply some_inj in Hv; try exact []; apply some_inj in Hw; try exact []; subst v w;
        unfold K_ex; cbv [inner mat_vec dot_list map map2 rsum Nat.eqb]; apply Rabs_le; lra.
    + exists fs. split; [exact L1|]. split; [exact L2|]. eapply Forall_impl; [|exact L3]. intros l Hl. cbn beta in Hl. eapply Rle_trans; [exact Hl|]. lra.
Qed.
