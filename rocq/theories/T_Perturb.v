(** Proofs of the theorems on how far the stored tables move the critical factor *)
From Coq Require Import Reals ZArith QArith Qreals Lra Lia Bool String.
From Coquelicot Require Import Coquelicot.
From Coq Require Import List.
From Verif Require Import M_Py M_Plate M_K M_Tables M_RealArith M_Plot M_Buckling S_Plate S_Mat S_Bardell S_Shape S_Energy S_K S_Ritz S_Eigen S_Compare S_Stored L_FirstK L_K L_KR L_Poly L_Shape L_Ritz L_Eigen L_Quad L_TabV T_Plate T_Shape T_K T_Energy T_Buckling T_Compare T_Stored.
Import ListNotations.
Open Scope R_scope.
Notation length := List.length (only parsing).

(** ** matrices close as quadratic forms *)
Definition close_by (E : R) (K K' : list (list R)) : Prop := forall c, length c = length K -> Rabs (quad_rows K' c - quad_rows K c) <= E * sum_sq c.
Lemma sum_sq_pos c : 0 <= sum_sq c.
Proof. unfold sum_sq. induction c as [|x c IH]; cbn [map rsum]; [lra|]. assert (T := Rle_0_sqr x). unfold Rsqr in T. lra. Qed.
Lemma sum_sq_nz c : nonzero c -> 0 < sum_sq c.
Proof.
  unfold sum_sq. intros N. induction N as [x c Hx|x c N IH]; cbn [map rsum].
  - assert (T := Rsqr_pos_lt x Hx). assert (S0 := sum_sq_pos c). unfold sum_sq, Rsqr in *. lra.
  - assert (T := Rle_0_sqr x). unfold Rsqr in T. lra.
Qed.
Lemma smallest_unique K KG l l' : smallest_factor K KG l -> smallest_factor K KG l' -> l = l'.
Proof. intros (A & B & C) (A' & B' & C'). specialize (C l' A' B'). specialize (C' l A B). lra. Qed.

Section Move.
Variables (K KG K' KG' : list (list R)) (u E F : R).
Hypotheses (Pn : pencil K KG) (U : at_least u K) (Hu : 0 < u) (CE : close_by E K K')
  (LK : length K' = length K) (S1 : square (length K) K') (S2 : square (length K) KG') (Y1 : sym_rows K') (Y2 : sym_rows KG')
  (HE : 0 <= E < u) (HF : 0 <= F) (CG : forall c, length c = length K -> Rabs (quad_rows KG' c - quad_rows KG c) <= F * sum_sq c).
Lemma sq_by c : length c = length K -> sum_sq c <= quad_rows K c / u.
Proof. intros L. specialize (U c L). apply (Rmult_le_reg_l u); [exact Hu|]. replace (u * (quad_rows K c / u)) with (quad_rows K c) by (field; lra). exact U. Qed.
Lemma K_by c : length c = length K -> Rabs (quad_rows K' c - quad_rows K c) <= E / u * quad_rows K c.
Proof.
  intros L. eapply Rle_trans; [apply CE, L|]. replace (E / u * quad_rows K c) with (E * (quad_rows K c / u)) by (field; lra).
  apply Rmult_le_compat_l; [lra|apply sq_by, L].
Qed.
Lemma G_by c : length c = length K -> Rabs (quad_rows KG' c - quad_rows KG c) <= F / u * quad_rows K c.
Proof.
  intros L. eapply Rle_trans; [apply CG, L|]. replace (F / u * quad_rows K c) with (F * (quad_rows K c / u)) by (field; lra).
  apply Rmult_le_compat_l; [lra|apply sq_by, L].
Qed.
Lemma eps_lt : 0 <= E / u < 1.
Proof.
  split; [apply Rmult_le_pos; [lra|left; apply Rinv_0_lt_compat, Hu]|]. apply (Rmult_lt_reg_l u); [exact Hu|].
  replace (u * (E / u)) with E by (field; lra). lra.
Qed.
Lemma gam_pos : 0 <= F / u. Proof. apply Rmult_le_pos; [lra|left; apply Rinv_0_lt_compat, Hu]. Qed.
Lemma moved_pencil : pencil K' KG'.
Proof.
  constructor; try assumption; rewrite ?LK; try assumption. intros c L N. rewrite LK in L.
  assert (P := pen_def _ _ Pn c L N). assert (B := K_by c L). apply Rcomplements.Rabs_le_between in B. assert (e := eps_lt). nra.
Qed.
Lemma move_fwd l : smallest_factor K KG l -> F / u < 1 / l -> exists l', smallest_factor K' KG' l' /\ 1 / l - F / u <= (1 + E / u) / l'.
Proof.
  intros (Hl & (v & Bv) & _) G. assert (Z := buckles_zero K KG l v Pn Bv). destruct Bv as (L & N & _).
  assert (P := pen_def _ _ Pn v L N). assert (A := K_by v L). assert (B := G_by v L).
  apply Rcomplements.Rabs_le_between in A. apply Rcomplements.Rabs_le_between in B. assert (e := eps_lt).
  set (eps := E / u) in *. set (g := F / u) in *. set (x := 1 / l) in *. set (q := quad_rows K v) in *.
  assert (Q : quad_rows KG v = - x * q). { apply (Rmult_eq_reg_l l); [|lra]. unfold x. replace (l * (- (1 / l) * q)) with (- q) by (field; lra). lra. }
  assert (Hs : 0 < (1 + eps) / (x - g)) by (apply Rdiv_lt_0_compat; lra).
  destruct (first_exists K' KG' ((1 + eps) / (x - g)) v moved_pencil Hs) as (l' & Le & S).
  - rewrite LK. exact L.
  - exact N.
  - assert (H : (1 + eps) / (x - g) * quad_rows KG' v <= (1 + eps) / (x - g) * ((g - x) * q)) by (apply Rmult_le_compat_l; lra).
    replace ((1 + eps) / (x - g) * ((g - x) * q)) with (- ((1 + eps) * q)) in H by (field; lra). lra.
  - exists l'. split; [exact S|]. destruct S as (Hl' & _).
    apply (Rmult_le_reg_l l'); [exact Hl'|]. replace (l' * ((1 + eps) / l')) with (1 + eps) by (field; lra).
    apply (Rmult_le_compat_r (x - g)) in Le; [|lra]. replace ((1 + eps) / (x - g) * (x - g)) with (1 + eps) in Le by (field; lra). exact Le.
Qed.
Lemma move_bwd l' : smallest_factor K' KG' l' -> F / u < (1 - E / u) / l' -> exists l, smallest_factor K KG l /\ (1 - E / u) / l' - F / u <= 1 / l.
Proof.
  intros (Hl & (v & Bv) & _) G. assert (Z := buckles_zero K' KG' l' v moved_pencil Bv). destruct Bv as (L & N & _). rewrite LK in L.
  assert (P := pen_def _ _ Pn v L N). assert (A := K_by v L). assert (B := G_by v L).
  apply Rcomplements.Rabs_le_between in A. apply Rcomplements.Rabs_le_between in B. assert (e := eps_lt).
  set (eps := E / u) in *. set (g := F / u) in *. set (q := quad_rows K v) in *. set (q' := quad_rows K' v) in *.
  assert (Q : quad_rows KG' v = - (q' / l')). { apply (Rmult_eq_reg_l l'); [|lra]. replace (l' * - (q' / l')) with (- q') by (field; lra). lra. }
  set (y := (1 - eps) / l') in *.
  assert (Q1 : y * q <= q' / l').
  { apply (Rmult_le_reg_l l'); [exact Hl|]. replace (l' * (q' / l')) with q' by (field; lra). replace (l' * (y * q)) with ((1 - eps) * q) by (unfold y; field; lra). lra. }
  assert (Hs : 0 < 1 / (y - g)) by (apply Rdiv_lt_0_compat; lra).
  destruct (first_exists K KG (1 / (y - g)) v Pn Hs L N) as (l & Le & S).
  - assert (H : 1 / (y - g) * quad_rows KG v <= 1 / (y - g) * ((g - y) * q)) by (apply Rmult_le_compat_l; lra).
    replace (1 / (y - g) * ((g - y) * q)) with (- q) in H by (field; lra). unfold q in *. lra.
  - exists l. split; [exact S|]. destruct S as (Hl' & _).
    apply (Rmult_le_reg_l l); [exact Hl'|]. replace (l * (1 / l)) with 1 by (field; lra).
    apply (Rmult_le_compat_r (y - g)) in Le; [|lra]. replace (1 / (y - g) * (y - g)) with 1 in Le by (field; lra). exact Le.
Qed.
Lemma move_close l l' : smallest_factor K KG l -> smallest_factor K' KG' l' -> Rabs (1 / l - 1 / l') <= E / u * (1 / l') + F / u.
Proof.
  intros S S'. assert (e := eps_lt). assert (g := gam_pos). assert (Hl : 0 < 1 / l) by (apply Rdiv_lt_0_compat; [lra|apply S]).
  assert (Hl' : 0 < 1 / l') by (apply Rdiv_lt_0_compat; [lra|apply S']).
  assert (A1 : (1 + E / u) / l' = 1 / l' + E / u * (1 / l')) by (unfold Rdiv; ring). assert (A2 : (1 - E / u) / l' = 1 / l' - E / u * (1 / l')) by (unfold Rdiv; ring).
  assert (P : 0 <= E / u * (1 / l')) by (apply Rmult_le_pos; lra).
  apply Rabs_le. split.
  - destruct (Rlt_or_le (F / u) ((1 - E / u) / l')) as [G|G]; [|lra].
    destruct (move_bwd l' S' G) as (l1 & S1' & B). rewrite (smallest_unique _ _ _ _ S1' S) in B. lra.
  - destruct (Rlt_or_le (F / u) (1 / l)) as [G|G]; [|lra].
    destruct (move_fwd l S G) as (l1 & S1' & B). rewrite (smallest_unique _ _ _ _ S1' S') in B. lra.
Qed.
End Move.

(** ** entries *)
Section Entries.
Variables (M : nat) (HM : (M <= 30)%nat).
Notation tol := (tolerance M).
Definition pt := 33 / 10 * tol.
Lemma tol_small : 0 < tol <= 1 / 100000000.
Proof. unfold tolerance. destruct (Nat.leb M 10); [lra|]. destruct (Nat.leb M 20); lra. Qed.
Lemma tol_close i k : (i < M)%nat -> (k < M)%nat ->
  let ok s x := Rabs (s - x) <= tol /\ Rabs s <= 8/5 in
  ok (e00 stored_e i k) (e00 exact_e i k) /\ ok (e10 stored_e i k) (e10 exact_e i k) /\ ok (e11 stored_e i k) (e11 exact_e i k) /\
  ok (e20 stored_e i k) (e20 exact_e i k) /\ ok (e21 stored_e i k) (e21 exact_e i k) /\ ok (e22 stored_e i k) (e22 exact_e i k).
Proof.
  intros Hi Hk ok. assert (Z := stored_e_close i k ltac:(lia) ltac:(lia)). cbv zeta in Z.
  destruct (t_C75_accuracy M i k HM Hi Hk) as (v1 & v2 & v3 & v4 & v5 & v6 & E1 & B1 & E2 & B2 & E3 & B3 & E4 & B4 & E5 & B5 & E6 & B6).
  unfold within in *. unfold ok, stored_e, exact_e in *. cbn [e00 e10 e11 e20 e21 e22] in *. rewrite E1, E2, E3, E4, E5, E6 in *. tauto.
Qed.
Lemma prod_off p p' q q' : Rabs (p - p') <= tol /\ Rabs p <= 8/5 -> Rabs (q - q') <= tol /\ Rabs q <= 8/5 -> Rabs (p * q - p' * q') <= pt.
Proof.
  intros [P1 P2] [Q1 Q2]. replace (p * q - p' * q') with (p * (q - q') + (q - (q - q')) * (p - p')) by ring.
  eapply Rle_trans; [apply Rabs_triang|]. rewrite !Rabs_mult. assert (T := tol_small).
  assert (Q3 : Rabs (q - (q - q')) <= 17/10).
  { eapply Rle_trans; [apply Rabs_triang|]. rewrite Rabs_Ropp. lra. }
  assert (A := Rmult_le_compat _ _ _ _ (Rabs_pos p) (Rabs_pos (q - q')) P2 Q1).
  assert (B := Rmult_le_compat _ _ _ _ (Rabs_pos (q - (q - q'))) (Rabs_pos (p - p')) Q3 P1).
  unfold pt. lra.
Qed.
Lemma two_off p p' q q' : Rabs (p - p') <= pt -> Rabs (q - q') <= pt -> Rabs (p + q - (p' + q')) <= 2 * pt.
Proof. intros H1 H2. replace (p + q - (p' + q')) with ((p - p') + (q - q')) by ring. eapply Rle_trans; [apply Rabs_triang|]. lra. Qed.
Lemma k33_off D a b i j k l : 0 < a -> 0 < b -> (i < M)%nat -> (j < M)%nat -> (k < M)%nat -> (l < M)%nat ->
  Rabs (kx D a b stored_e ((i, j), (k, l)) - kx D a b exact_e ((i, j), (k, l))) <= k_off tol D a b.
Proof.
  intros Ha Hb Hi Hj Hk Hl.
  destruct (tol_close i k Hi Hk) as (A1 & A2 & A3 & A4 & A5 & A6). destruct (tol_close k i Hk Hi) as (B1 & B2 & B3 & B4 & B5 & B6).
  destruct (tol_close j l Hj Hl) as (C1 & C2 & C3 & C4 & C5 & C6). destruct (tol_close l j Hl Hj) as (E1 & E2 & E3 & E4 & E5 & E6).
  unfold kx, k33f. cbn [fst snd].
  assert (P1 := prod_off _ _ _ _ A6 C1).
  assert (P2 := two_off _ _ _ _ (prod_off _ _ _ _ A4 E4) (prod_off _ _ _ _ B4 C4)).
  assert (P3 := prod_off _ _ _ _ A1 C6).
  assert (P4 := two_off _ _ _ _ (prod_off _ _ _ _ A5 E2) (prod_off _ _ _ _ B5 C2)).
  assert (P5 := two_off _ _ _ _ (prod_off _ _ _ _ A2 E5) (prod_off _ _ _ _ B2 C5)).
  assert (P6 := prod_off _ _ _ _ A3 C3).
  assert (Ia : 0 < / a) by (apply Rinv_0_lt_compat; lra). assert (Ib : 0 < / b) by (apply Rinv_0_lt_compat; lra).
  assert (Hab : 0 < a * b) by (apply Rmult_lt_0_compat; assumption).
  assert (H1 : 0 <= 4 * (b / a ^ 3)) by (apply Rmult_le_pos; [lra|]; apply Rmult_le_pos; [lra|apply inv_pos, pow_lt, Ha]).
  assert (H2 : 0 <= 4 / (a * b)) by (apply Rmult_le_pos; [lra|apply inv_pos, Hab]).
  assert (H3 : 0 <= 4 * (a / b ^ 3)) by (apply Rmult_le_pos; [lra|]; apply Rmult_le_pos; [lra|apply inv_pos, pow_lt, Hb]).
  assert (H4 : 0 <= 8 / a ^ 2) by (apply Rmult_le_pos; [lra|apply inv_pos, pow_lt, Ha]).
  assert (H5 : 0 <= 8 / b ^ 2) by (apply Rmult_le_pos; [lra|apply inv_pos, pow_lt, Hb]).
  assert (H6 : 0 <= 16 / (a * b)) by (apply Rmult_le_pos; [lra|apply inv_pos, Hab]).
  assert (T1 := term_close _ (a11 D) _ _ _ H1 P1). assert (T2 := term_close _ (a21 D) _ _ _ H2 P2). assert (T3 := term_close _ (a22 D) _ _ _ H3 P3).
  assert (T4 := term_close _ (a31 D) _ _ _ H4 P4). assert (T5 := term_close _ (a32 D) _ _ _ H5 P5). assert (T6 := term_close _ (a33 D) _ _ _ H6 P6).
  match type of T1 with Rabs ?t1 <= _ => match type of T2 with Rabs ?t2 <= _ => match type of T3 with Rabs ?t3 <= _ =>
  match type of T4 with Rabs ?t4 <= _ => match type of T5 with Rabs ?t5 <= _ => match type of T6 with Rabs ?t6 <= _ =>
    match goal with |- Rabs ?g <= _ => replace g with (t1 + t2 + t3 + t4 + t5 + t6) by ring end end end end end end end.
  replace (k_off tol D a b) with (pt * (4 * (b / a ^ 3) * Rabs (a11 D)) + 2 * pt * (4 / (a * b) * Rabs (a21 D)) + pt * (4 * (a / b ^ 3) * Rabs (a22 D))
    + 2 * pt * (8 / a ^ 2 * Rabs (a31 D)) + 2 * pt * (8 / b ^ 2 * Rabs (a32 D)) + pt * (16 / (a * b) * Rabs (a33 D))).
  2:{ unfold k_off, pt, Rdiv. ring. }
  repeat apply abs_add; assumption.
Qed.
Lemma kG_offs a b Nxx Nyy Nxy i j k l : 0 < a -> 0 < b -> (i < M)%nat -> (j < M)%nat -> (k < M)%nat -> (l < M)%nat ->
  Rabs (kGf stored_e a b ((i, j), (k, l)) Nxx Nyy Nxy - kGf exact_e a b ((i, j), (k, l)) Nxx Nyy Nxy) <= kG_off tol Nxx Nyy Nxy a b.
Proof.
  intros Ha Hb Hi Hj Hk Hl.
  destruct (tol_close i k Hi Hk) as (A1 & A2 & A3 & _). destruct (tol_close k i Hk Hi) as (B1 & B2 & B3 & _).
  destruct (tol_close j l Hj Hl) as (C1 & C2 & C3 & _). destruct (tol_close l j Hl Hj) as (E1 & E2 & E3 & _).
  unfold kGf. cbn [fst snd].
  assert (P1 := prod_off _ _ _ _ A3 C1). assert (P2 := prod_off _ _ _ _ A1 C3).
  assert (P3 := two_off _ _ _ _ (prod_off _ _ _ _ B2 C2) (prod_off _ _ _ _ A2 E2)).
  assert (H1 : 0 <= b / a) by (apply Rmult_le_pos; [lra|apply inv_pos, Ha]).
  assert (H2 : 0 <= a / b) by (apply Rmult_le_pos; [lra|apply inv_pos, Hb]).
  assert (T1 := term_close _ Nxx _ _ _ H1 P1). assert (T2 := term_close _ Nyy _ _ _ H2 P2). assert (T3 := term_close 1 Nxy _ _ _ Rle_0_1 P3).
  match type of T1 with Rabs ?t1 <= _ => match type of T2 with Rabs ?t2 <= _ => match type of T3 with Rabs ?t3 <= _ =>
    match goal with |- Rabs ?g <= _ => replace g with (t1 + t2 + t3) by ring end end end end.
  replace (kG_off tol Nxx Nyy Nxy a b) with (pt * (b / a * Rabs Nxx) + pt * (a / b * Rabs Nyy) + 2 * pt * (1 * Rabs Nxy)).
  2:{ unfold kG_off, pt, Rdiv. ring. }
  repeat apply abs_add; assumption.
Qed.
Lemma k_off_pos D a b : 0 < a -> 0 < b -> 0 <= k_off tol D a b.
Proof.
  intros Ha Hb. assert (P := k_err_pos D a b Ha Hb). assert (T := tol_small).
  replace (k_off tol D a b) with (tol * 100000000 * k_err D a b) by (unfold k_off, k_err; field; lra).
  apply Rmult_le_pos; lra.
Qed.
Lemma kG_off_pos Nxx Nyy Nxy a b : 0 < a -> 0 < b -> 0 <= kG_off tol Nxx Nyy Nxy a b.
Proof.
  intros Ha Hb. assert (T := tol_small). unfold kG_off.
  assert (H1 : 0 <= b / a) by (apply Rmult_le_pos; [lra|apply inv_pos, Ha]).
  assert (H2 : 0 <= a / b) by (apply Rmult_le_pos; [lra|apply inv_pos, Hb]).
  assert (A1 := Rmult_le_pos _ _ H1 (Rabs_pos Nxx)). assert (A2 := Rmult_le_pos _ _ H2 (Rabs_pos Nyy)). assert (A3 := Rabs_pos Nxy).
  apply Rmult_le_pos; lra.
Qed.
End Entries.

(** ** quadratic forms *)
Lemma cauchy c : rsum (map Rabs c) * rsum (map Rabs c) <= INR (length c) * sum_sq c.
Proof.
  unfold sum_sq. induction c as [|x c IH]; [cbn; lra|].
  change (length (x :: c)) with (S (length c)). rewrite S_INR. cbn [map rsum].
  set (s := rsum (map Rabs c)) in *. set (q := rsum (map (fun x => x * x) c)) in *. set (N := INR (length c)) in *.
  assert (HN : 0 <= N) by apply pos_INR. assert (Hs : 0 <= s) by apply rsum_abs_pos. assert (Hq : 0 <= q) by apply (sum_sq_pos c).
  assert (X : x * x = Rabs x * Rabs x) by (rewrite <- Rabs_mult; symmetry; apply Rabs_right; assert (T := Rle_0_sqr x); unfold Rsqr in T; lra).
  rewrite X. set (y := Rabs x) in *. assert (Hy : 0 <= y) by apply Rabs_pos.
  destruct (Req_dec N 0) as [Z|Z].
  - assert (s = 0) by (apply Rsqr_0_uniq; unfold Rsqr; apply Rle_antisym; [rewrite Z in IH; lra|apply Rmult_le_pos; lra]). rewrite Z, H. nra.
  - assert (HN1 : 0 < N) by lra.
    assert (T : 2 * y * s <= N * (y * y) + q).
    { apply (Rmult_le_reg_l N); [exact HN1|]. assert (W := Rle_0_sqr (N * y - s)). unfold Rsqr in W. nra. }
    nra.
Qed.
Lemma quad_off {X} (F G : X -> X -> R) (l : list X) E : 0 <= E -> (forall p q, In p l -> In q l -> Rabs (F p q - G p q) <= E) ->
  forall c, Rabs (quad_rows (map (fun p => map (F p) l) l) c - quad_rows (map (fun p => map (G p) l) l) c) <= E * INR (length c) * sum_sq c.
Proof.
  intros HE H c. unfold quad_rows. rewrite !map_map. rewrite !(dot_comm c).
  eapply Rle_trans.
  - apply (dot_close (fun p => dot_list (map (F p) l) c) (fun p => dot_list (map (G p) l) c) l (E * rsum (map Rabs c))).
    + intros p Ip. apply dot_close; [intros q Iq; apply H; assumption|exact HE].
    + apply Rmult_le_pos; [exact HE|apply rsum_abs_pos].
  - rewrite !Rmult_assoc. apply Rmult_le_compat_l; [exact HE|apply cauchy].
Qed.

(** ** plates *)
Lemma stored_fwd D a b Nxx Nyy Nxy c m n idx : a <> 0 -> b <> 0 -> compute_constraints c m n = Ok idx ->
  (forall p, In p (sw_idx idx) -> (fst p < 30)%nat /\ (snd p < 30)%nat) ->
  calc_K_KG_D stored_R (as_arr D) a b Nxx Nyy Nxy c m n = Ok (
   map (fun p => map (fun q => kx D a b stored_e (p, q)) (sw_idx idx)) (sw_idx idx),
   map (fun p => map (fun q => kGf stored_e a b (p, q) Nxx Nyy Nxy) (sw_idx idx)) (sw_idx idx)).
Proof.
  intros Ha Hb E B.
  apply (K_D_ok stored_R (as_arr D) a b Nxx Nyy Nxy c m n idx (kx D a b stored_e) (fun pq => kGf stored_e a b pq Nxx Nyy Nxy) E).
  intros p q Ip Iq. assert (I4 : in4 (fun i => (i < 30)%nat) (p, q)) by (destruct (B p Ip), (B q Iq); repeat split; assumption). unfold ent_D.
  rewrite (k33_ok _ _ _ stored_good a b Ha Hb (p, q)) by exact I4. cbn [bind].
  rewrite (kG_ok _ _ _ stored_good a b Ha Hb (p, q)) by exact I4. reflexivity.
Qed.
Lemma both D a b Nxx Nyy Nxy c c0 ca d0 db m n M (K KG : list (list R)) : plate_ok D a b c c0 ca d0 db m n -> (M <= 30)%nat ->
  (m + taken c0 + taken ca <= M)%nat -> (n + taken d0 + taken db <= M)%nat ->
  calc_K_KG_D exact_tables (as_arr D) a b Nxx Nyy Nxy c m n = Ok (K, KG) ->
  length K = (m * n)%nat /\ pencil K KG /\ exists K' KG' : list (list R), calc_K_KG_D stored_R (as_arr D) a b Nxx Nyy Nxy c m n = Ok (K', KG') /\
    length K' = length K /\ square (length K) K' /\ square (length K) KG' /\ sym_rows K' /\ sym_rows KG' /\
    close_by (INR (m * n) * k_off (tolerance M) D a b) K K' /\
    (forall v, length v = length K -> Rabs (quad_rows KG' v - quad_rows KG v) <= INR (m * n) * kG_off (tolerance M) Nxx Nyy Nxy a b * sum_sq v).
Proof.
  intros P HM Hm Hn H. destruct P as [Ha Hb Sy PD Sp Rs Bm Bn].
  destruct (named_struct c c0 ca d0 db m n Sp) as (idx & fx & fy & E & Fx & Fy & RM).
  assert (LK := proj1 (calc_square _ _ _ _ _ _ _ _ _ _ _ _ H)).
  split; [exact LK|]. split; [apply (t_C42_pencil D a b Nxx Nyy Nxy c c0 ca d0 db m n K KG Ha Hb Sy PD Sp Rs H)|].
  assert (I : forall p, In p (sw_idx idx) -> (fst p < M)%nat /\ (snd p < M)%nat).
  { intros [i j] J. destruct (row_major_in _ _ _ _ _ RM J) as [Ii Ij].
    assert (Bx := admissible_below _ _ _ _ Fx). assert (By := admissible_below _ _ _ _ Fy). rewrite Forall_forall in Bx, By.
    specialize (Bx i Ii). specialize (By j Ij). cbn [fst snd]. lia. }
  assert (H' := stored_fwd D a b Nxx Nyy Nxy c m n idx ltac:(lra) ltac:(lra) E ltac:(intros p Ip; destruct (I p Ip); lia)).
  destruct (compute_struct _ _ _ _ E) as (_ & _ & Lw & _).
  eexists _, _. split; [exact H'|]. rewrite LK, <- Lw.
  match type of H' with _ = Ok (?x, ?y) => set (K' := x) in *; set (KG' := y) in * end.
  assert (SK : square (length (sw_idx idx)) K') by apply (map_square (fun p q => kx D a b stored_e (p, q))).
  assert (SG : square (length (sw_idx idx)) KG') by apply (map_square (fun p q => kGf stored_e a b (p, q) Nxx Nyy Nxy)).
  split; [apply SK|]. split; [exact SK|]. split; [exact SG|].
  destruct (t_C39_symmetric RA Rdec (proj2 t_C39_arithmetics) (as_arr D) a b Nxx Nyy Nxy c m n K' KG' H') as [Y1 Y2].
  split; [exact Y1|]. split; [exact Y2|].
  rewrite (exact_fwd D a b Nxx Nyy Nxy c m n idx ltac:(lra) ltac:(lra) E) in H. apply (f_equal (fun r => match r with Ok p => p | Err _ => ([], []) end)) in H.
  assert (X := f_equal fst H). assert (Y := f_equal snd H). cbn [fst snd] in X, Y. clear H.
  split.
  - intros v L. rewrite LK, <- Lw in L. unfold K'. rewrite <- X, <- L. rewrite (Rmult_comm (INR _)). apply quad_off; [apply k_off_pos; assumption|].
    intros [i j] [k l] Ip Iq. destruct (I _ Ip), (I _ Iq). cbn [fst snd] in *. apply k33_off; assumption.
  - intros v L. unfold KG'. rewrite <- Y, <- L. rewrite (Rmult_comm (INR _)). 
    apply (quad_off (fun p q => kGf stored_e a b (p, q) Nxx Nyy Nxy) (fun p q => kGf exact_e a b (p, q) Nxx Nyy Nxy)); [apply kG_off_pos; assumption|].
    intros [i j] [k l] Ip Iq. destruct (I _ Ip), (I _ Iq). cbn [fst snd] in *. apply kG_offs; assumption.
Qed.

(*@ C76: every plate with symmetric positive definite D and held edges has a positive margin u: with exact integrals the energy of any coefficient
    vector is at least u times its squared length. @*)
Lemma t_C76_margin : forall (D : mat3) a b Nxx Nyy Nxy c c0 ca d0 db m n (K KG : list (list R)), plate_ok D a b c c0 ca d0 db m n ->
  calc_K_KG_D exact_tables (as_arr D) a b Nxx Nyy Nxy c m n = Ok (K, KG) -> exists u, 0 < u /\ at_least u K.
Proof.
  intros D a b Nxx Nyy Nxy c c0 ca d0 db m n K KG P H. destruct (both _ _ _ _ _ _ _ _ _ _ _ _ _ 30 K KG P ltac:(lia) (ok_m _ _ _ _ _ _ _ _ _ _ P) (ok_n _ _ _ _ _ _ _ _ _ _ P) H) as (_ & Pn & _).
  assert (S0 := pen_K _ _ Pn). destruct (uniform (length K) (fm K)) as (u & Hu & B); [apply sym_f; [exact S0|apply Pn]|apply pos_f; [exact S0|apply Pn]|].
  exists u. split; [exact Hu|]. intros v L. rewrite (quad_bil _ K S0) by exact L. specialize (B (fn v)).
  replace (sum_sq v) with (sq (length K) (fn v)); [exact B|]. unfold sum_sq, sq. rewrite <- L. clear. unfold fn.
  induction v as [|x v IH] using rev_ind; [reflexivity|]. rewrite app_length, Nat.add_1_r. cbn [sm]. rewrite map_app. cbn [map].
  rewrite (sm_ext (length v) _ (fun i => nth i v 0 * nth i v 0)) by (intros i Hi; rewrite app_nth1 by exact Hi; reflexivity).
  rewrite IH, app_nth2, Nat.sub_diag by lia. cbn [nth].
  assert (Z : forall l (y : R), rsum (l ++ [y]) = rsum l + y) by (induction l as [|z l IHl]; intros y; cbn [List.app rsum]; [lra|rewrite IHl; lra]).
  rewrite Z. reflexivity.
Qed.
(*@ C76: if the rounding of the tables is smaller than that margin, the matrices the code assembles are symmetric and K is positive definite,
    so that everything proved of such pencils holds of them. @*)
Lemma t_C76_pencil : forall (D : mat3) a b Nxx Nyy Nxy c c0 ca d0 db m n M u (K KG : list (list R)), plate_ok D a b c c0 ca d0 db m n ->
  (M <= 30)%nat -> (m + taken c0 + taken ca <= M)%nat -> (n + taken d0 + taken db <= M)%nat ->
  calc_K_KG_D exact_tables (as_arr D) a b Nxx Nyy Nxy c m n = Ok (K, KG) -> at_least u K -> INR (m * n) * k_off (tolerance M) D a b < u ->
  exists K' KG' : list (list R), calc_K_KG_D stored_R (as_arr D) a b Nxx Nyy Nxy c m n = Ok (K', KG') /\ pencil K' KG'.
Proof.
  intros D a b Nxx Nyy Nxy c c0 ca d0 db m n M u K KG P HM Hm Hn H U Hu.
  destruct (both D a b Nxx Nyy Nxy c c0 ca d0 db m n M K KG P HM Hm Hn H) as (_ & Pn & K' & KG' & H' & L' & S1 & S2 & Y1 & Y2 & CK & CG).
  exists K', KG'. split; [exact H'|].
  assert (E0 := Rmult_le_pos _ _ (pos_INR (m * n)) (k_off_pos M D a b (ok_a _ _ _ _ _ _ _ _ _ _ P) (ok_b _ _ _ _ _ _ _ _ _ _ P))).
  apply (moved_pencil K KG K' KG' u _ Pn U ltac:(lra) CK L' S1 S2 Y1 Y2 (conj E0 Hu)).
Qed.
Section Plate.
Variables (D : mat3) (a b Nxx Nyy Nxy : R) (c : constraints) (c0 ca d0 db : condition) (m n M : nat) (u : R) (K KG : list (list R)).
Hypotheses (P : plate_ok D a b c c0 ca d0 db m n) (HM : (M <= 30)%nat) (Hm : (m + taken c0 + taken ca <= M)%nat) (Hn : (n + taken d0 + taken db <= M)%nat)
  (H : calc_K_KG_D exact_tables (as_arr D) a b Nxx Nyy Nxy c m n = Ok (K, KG)) (U : at_least u K) (Hu : INR (m * n) * k_off (tolerance M) D a b < u).
Let e := INR (m * n) * k_off (tolerance M) D a b / u.
Let g := INR (m * n) * kG_off (tolerance M) Nxx Nyy Nxy a b / u.
Lemma crit_exact l : critical D a b Nxx Nyy Nxy c m n l <-> smallest_factor K KG l.
Proof.
  split; [|intros S; exists K, KG; auto]. intros (K1 & G1 & E & S). rewrite E in H. injection H as -> ->. exact S.
Qed.
Lemma plate_all : exists K' KG' : list (list R), calc_K_KG_D stored_R (as_arr D) a b Nxx Nyy Nxy c m n = Ok (K', KG') /\ pencil K' KG' /\
  (forall l, critical_with stored_R D a b Nxx Nyy Nxy c m n l <-> smallest_factor K' KG' l) /\
  (forall l l', smallest_factor K KG l -> smallest_factor K' KG' l' -> Rabs (1 / l - 1 / l') <= e * (1 / l') + g) /\
  (forall l, smallest_factor K KG l -> g < 1 / l -> exists l', smallest_factor K' KG' l') /\
  (forall l', smallest_factor K' KG' l' -> g < (1 - e) / l' -> exists l, smallest_factor K KG l) /\ 0 <= e < 1 /\ 0 <= g.
Proof.
  destruct (both D a b Nxx Nyy Nxy c c0 ca d0 db m n M K KG P HM Hm Hn H) as (_ & Pn & K' & KG' & H' & L' & S1 & S2 & Y1 & Y2 & CK & CG).
  assert (Ha := ok_a _ _ _ _ _ _ _ _ _ _ P). assert (Hb := ok_b _ _ _ _ _ _ _ _ _ _ P).
  assert (E0 := Rmult_le_pos _ _ (pos_INR (m * n)) (k_off_pos M D a b Ha Hb)).
  assert (G0 := Rmult_le_pos _ _ (pos_INR (m * n)) (kG_off_pos M Nxx Nyy Nxy a b Ha Hb)).
  assert (U0 : 0 < u) by lra. assert (EE := conj E0 Hu).
  exists K', KG'. split; [exact H'|]. split; [apply (moved_pencil K KG K' KG' u _ Pn U U0 CK L' S1 S2 Y1 Y2 EE)|].
  split. { intros l. split; [|intros S; exists K', KG'; auto]. intros (K1 & G1 & E & S). rewrite E in H'. injection H' as -> ->. exact S. }
  split. { intros l l'. apply (move_close K KG K' KG' u _ _ Pn U U0 CK L' S1 S2 Y1 Y2 EE G0 CG). }
  split. { intros l S G. destruct (move_fwd K KG K' KG' u _ _ Pn U U0 CK L' S1 S2 Y1 Y2 EE G0 CG l S G) as (l' & S' & _). exists l'. exact S'. }
  split. { intros l S G. destruct (move_bwd K KG K' KG' u _ _ Pn U U0 CK L' S1 S2 Y1 Y2 EE G0 CG l S G) as (l' & S' & _). exists l'. exact S'. }
  split; [apply (eps_lt u _ U0 EE)|apply (gam_pos u _ U0 G0)].
Qed.
End Plate.
(*@ C76: then the critical factor l' of the matrices the code assembles and the exact one l satisfy |1/l - 1/l'| <= e/l' + g, where e and g are
    the rounding of K and KG relative to the margin. @*)
Lemma t_C76_close : forall (D : mat3) a b Nxx Nyy Nxy c c0 ca d0 db m n M u (K KG : list (list R)) l l', plate_ok D a b c c0 ca d0 db m n ->
  (M <= 30)%nat -> (m + taken c0 + taken ca <= M)%nat -> (n + taken d0 + taken db <= M)%nat ->
  calc_K_KG_D exact_tables (as_arr D) a b Nxx Nyy Nxy c m n = Ok (K, KG) -> at_least u K -> INR (m * n) * k_off (tolerance M) D a b < u ->
  critical D a b Nxx Nyy Nxy c m n l -> critical_with stored_R D a b Nxx Nyy Nxy c m n l' ->
  let e := INR (m * n) * k_off (tolerance M) D a b / u in
  let g := INR (m * n) * kG_off (tolerance M) Nxx Nyy Nxy a b / u in
  Rabs (1 / l - 1 / l') <= e * (1 / l') + g.
Proof.
  intros D a b Nxx Nyy Nxy c c0 ca d0 db m n M u K KG l l' P HM Hm Hn H U Hu C C' e g.
  destruct (plate_all D a b Nxx Nyy Nxy c c0 ca d0 db m n M u K KG P HM Hm Hn H U Hu) as (K' & KG' & H' & Pn & W & Cl & _).
  apply Cl; [apply (crit_exact D a b Nxx Nyy Nxy c m n K KG H), C|apply W, C'].
Qed.
(*@ C76: and each of the two exists when the other does and is small enough: a buckling load is neither invented nor lost by the rounding. @*)
Lemma t_C76_exists : forall (D : mat3) a b Nxx Nyy Nxy c c0 ca d0 db m n M u (K KG : list (list R)), plate_ok D a b c c0 ca d0 db m n ->
  (M <= 30)%nat -> (m + taken c0 + taken ca <= M)%nat -> (n + taken d0 + taken db <= M)%nat ->
  calc_K_KG_D exact_tables (as_arr D) a b Nxx Nyy Nxy c m n = Ok (K, KG) -> at_least u K -> INR (m * n) * k_off (tolerance M) D a b < u ->
  let e := INR (m * n) * k_off (tolerance M) D a b / u in
  let g := INR (m * n) * kG_off (tolerance M) Nxx Nyy Nxy a b / u in
  (forall l, critical D a b Nxx Nyy Nxy c m n l -> g < 1 / l -> exists l', critical_with stored_R D a b Nxx Nyy Nxy c m n l') /\
  (forall l', critical_with stored_R D a b Nxx Nyy Nxy c m n l' -> g < (1 - e) / l' -> exists l, critical D a b Nxx Nyy Nxy c m n l).
Proof.
  intros D a b Nxx Nyy Nxy c c0 ca d0 db m n M u K KG P HM Hm Hn H U Hu e g.
  destruct (plate_all D a b Nxx Nyy Nxy c c0 ca d0 db m n M u K KG P HM Hm Hn H U Hu) as (K' & KG' & H' & Pn & W & Cl & Fw & Bw & _).
  split; intros l C G.
  - destruct (Fw l) as (l' & S); [apply (crit_exact D a b Nxx Nyy Nxy c m n K KG H), C|exact G|]. exists l'. apply W, S.
  - destruct (Bw l) as (l' & S); [apply W, C|exact G|]. exists l'. apply (crit_exact D a b Nxx Nyy Nxy c m n K KG H), S.
Qed.
(*@ C76: so for an exact factor above one by more than the rounding, the first value returned by the buckling analysis is that close to it, with
    every documented solver and any number of requested values. @*)
Lemma t_C76_reported : forall eigsh (D : mat3) a b Nxx Nyy Nxy c c0 ca d0 db m n M u num (K KG : list (list R)) l out vecs, documented eigsh ->
  plate_ok D a b c c0 ca d0 db m n ->
  (M <= 30)%nat -> (m + taken c0 + taken ca <= M)%nat -> (n + taken d0 + taken db <= M)%nat ->
  calc_K_KG_D exact_tables (as_arr D) a b Nxx Nyy Nxy c m n = Ok (K, KG) -> at_least u K -> INR (m * n) * k_off (tolerance M) D a b < u ->
  let e := INR (m * n) * k_off (tolerance M) D a b / u in
  let g := INR (m * n) * kG_off (tolerance M) Nxx Nyy Nxy a b / u in
  critical D a b Nxx Nyy Nxy c m n l -> g < 1 / l -> 1 / l + g <= 1 - e ->
  buckling_analysis eigsh stored_R (as_arr D) a b Nxx Nyy Nxy c m n num = Ok (out, vecs) ->
  exists l' rest, out = Fin l' :: rest /\ critical_with stored_R D a b Nxx Nyy Nxy c m n l' /\ Rabs (1 / l - 1 / l') <= e * (1 / l') + g.
Proof.
  intros eigsh D a b Nxx Nyy Nxy c c0 ca d0 db m n M u num K KG l out vecs Dc P HM Hm Hn H U Hu e g C G1 G2 B.
  destruct (plate_all D a b Nxx Nyy Nxy c c0 ca d0 db m n M u K KG P HM Hm Hn H U Hu) as (K' & KG' & H' & Pn & W & Cl & Fw & Bw & He & Hg).
  apply (crit_exact D a b Nxx Nyy Nxy c m n K KG H) in C. destruct (Fw l C G1) as (l' & S). assert (Q := Cl l l' C S).
  fold e in He, Q. fold g in Hg, Q. assert (Hl' : 0 < l') by apply S.
  assert (L1 : 1 <= l').
  { apply Rcomplements.Rabs_le_between in Q. assert (T : (1 - e) * (1 / l') <= (1 - e) * 1) by lra. apply Rmult_le_reg_l in T; [|lra].
    apply (Rmult_le_compat_r l') in T; [|lra]. replace (1 / l' * l') with 1 in T by (field; lra). lra. }
  destruct (t_C42_first_above_one eigsh _ _ _ _ _ _ _ _ _ _ num K' KG' out vecs l' Dc H' Pn S L1 B) as (r & ->).
  exists l', r. split; [reflexivity|]. split; [apply W, S|exact Q].
Qed.

(** ** a pinned plate with two functions each way *)
Definition ints13 : Prop :=
  exact_int 0 0 1 1 = 2/105 /\ exact_int 0 0 1 3 = -1/70 /\ exact_int 0 0 3 1 = -1/70 /\ exact_int 0 0 3 3 = 2/105 /\
  exact_int 1 1 1 1 = 1/15 /\ exact_int 1 1 1 3 = -1/60 /\ exact_int 1 1 3 1 = -1/60 /\ exact_int 1 1 3 3 = 1/15 /\
  exact_int 2 2 1 1 = 1/2 /\ exact_int 2 2 1 3 = 1/4 /\ exact_int 2 2 3 1 = 1/4 /\ exact_int 2 2 3 3 = 1/2.
Lemma ints13_ok : ints13.
Proof.
  unfold ints13.
  rewrite (T_ABD.small_int 0 0 1 1 (2 # 105)), (T_ABD.small_int 0 0 1 3 (-1 # 70)), (T_ABD.small_int 0 0 3 1 (-1 # 70)), (T_ABD.small_int 0 0 3 3 (2 # 105)),
    (T_ABD.small_int 1 1 1 1 (1 # 15)), (T_ABD.small_int 1 1 1 3 (-1 # 60)), (T_ABD.small_int 1 1 3 1 (-1 # 60)), (T_ABD.small_int 1 1 3 3 (1 # 15)),
    (T_ABD.small_int 2 2 1 1 (1 # 2)), (T_ABD.small_int 2 2 1 3 (1 # 4)), (T_ABD.small_int 2 2 3 1 (1 # 4)), (T_ABD.small_int 2 2 3 3 (1 # 2)) by (vm_compute; reflexivity).
  unfold Q2R. cbn. repeat split; lra.
Qed.
Definition K22 : list (list R) := [[58/1575; -43/6300; -43/6300; -19/3150]; [-43/6300; 58/1575; -19/3150; -43/6300]; [-43/6300; -19/3150; 58/1575; -43/6300]; [-19/3150; -43/6300; -43/6300; 58/1575]].
Definition G22 : list (list R) := [[-16/1575; 4/525; 4/1575; -1/525]; [4/525; -16/1575; -1/525; 4/1575]; [4/1575; -1/525; -16/1575; 4/525]; [-1/525; 4/1575; 4/525; -16/1575]].
Lemma pinned22 : calc_K_KG_D exact_tables (as_arr mid) 2 2 (-8) 0 0 (CStr "PINNED") 2 2 = Ok (K22, G22).
Proof.
  assert (Ec : exists idx, compute_constraints (CStr "PINNED") 2 2 = Ok idx /\ sw_idx idx = [(1, 1); (1, 3); (3, 1); (3, 3)]%nat).
  { eexists. split; [vm_compute; reflexivity|reflexivity]. }
  destruct Ec as (idx & Ec & Es). rewrite (exact_fwd mid 2 2 (-8) 0 0 _ _ _ idx ltac:(lra) ltac:(lra) Ec).
  rewrite Es. cbn [map]. unfold kx, kGf, k33f, exact_e. cbn [fst snd e00 e10 e11 e20 e21 e22].
  destruct ints13_ok as (-> & -> & -> & -> & -> & -> & -> & -> & -> & -> & -> & ->). cbn [mid a11 a21 a22 a31 a32 a33].
  unfold K22, G22. apply Ok_pair; repeat (apply f_equal2; [try lra; repeat (apply f_equal2; [lra|]); reflexivity|]); reflexivity.
Qed.
Lemma quad22 k11 k12 k13 k14 k21 k22 k23 k24 k31 k32 k33 k34 k41 k42 k43 k44 x y z t :
  quad_rows [[k11; k12; k13; k14]; [k21; k22; k23; k24]; [k31; k32; k33; k34]; [k41; k42; k43; k44]] [x; y; z; t] =
     x * (k11 * x + k12 * y + k13 * z + k14 * t) + y * (k21 * x + k22 * y + k23 * z + k24 * t)
     + z * (k31 * x + k32 * y + k33 * z + k34 * t) + t * (k41 * x + k42 * y + k43 * z + k44 * t).
Proof. cbv [quad_rows dot_list map map2 rsum]. ring. Qed.
Lemma modes22 x y z t : let s1 := x + y + z + t in let s2 := x - y + z - t in let s3 := x + y - z - t in let s4 := x - y - z + t in
  quad_rows K22 [x; y; z; t] = 3/700 * s1^2 + 3/280 * s2^2 + 3/280 * s3^2 + 1/90 * s4^2 /\
  quad_rows G22 [x; y; z; t] = - (1/2100 * s1^2 + 1/300 * s2^2 + 1/1260 * s3^2 + 1/180 * s4^2) /\
  sum_sq [x; y; z; t] = 1/4 * s1^2 + 1/4 * s2^2 + 1/4 * s3^2 + 1/4 * s4^2.
Proof. cbv zeta. unfold K22, G22, sum_sq. rewrite !quad22. cbn [map rsum]. repeat split; field. Qed.
Lemma four (v : list R) : length v = 4%nat -> exists x y z t, v = [x; y; z; t].
Proof. destruct v as [|x [|y [|z [|t [|? ?]]]]]; try discriminate. intros _. exists x, y, z, t. reflexivity. Qed.
Lemma least22 : at_least (1 / 100) K22.
Proof.
  intros v L. destruct (four v L) as (x & y & z & t & ->). destruct (modes22 x y z t) as (-> & _ & ->).
  assert (A1 := pow2_ge_0 (x + y + z + t)). assert (A2 := pow2_ge_0 (x - y + z - t)). assert (A3 := pow2_ge_0 (x + y - z - t)). assert (A4 := pow2_ge_0 (x - y - z + t)). lra.
Qed.
Lemma pinned_ok : plate_ok mid 2 2 (CStr "PINNED") Pinned Pinned Pinned Pinned 2 2.
Proof. constructor; [lra|lra|reflexivity|exact mid_def|exact Sp_pinned|do 4 right; cbn; lia|cbn; lia|cbn; lia]. Qed.
Lemma crit22 : critical mid 2 2 (-8) 0 0 (CStr "PINNED") 2 2 2.
Proof.
  exists K22, G22. split; [exact pinned22|].
  assert (Pn : pencil K22 G22) by (apply (t_C42_pencil mid 2 2 (-8) 0 0 (CStr "PINNED") Pinned Pinned Pinned Pinned 2 2); try apply pinned_ok; exact pinned22).
  split; [lra|]. split.
  - exists [1; -1; -1; 1]. split; [reflexivity|]. split; [left; lra|].
    unfold K22, G22. cbv [mat_vec dot_list map map2 rsum length repeat]. repeat (apply f_equal2; [field|]). reflexivity.
  - intros l Hl (v & B). assert (Z := buckles_zero K22 G22 l v Pn B). destruct B as (L & N & _). destruct (four v L) as (x & y & z & t & ->).
    destruct (modes22 x y z t) as (EK & EG & ES). rewrite EK, EG in Z. assert (Q := sum_sq_nz _ N). rewrite ES in Q.
    assert (A1 := pow2_ge_0 (x + y + z + t)). assert (A2 := pow2_ge_0 (x - y + z - t)). assert (A3 := pow2_ge_0 (x + y - z - t)). assert (A4 := pow2_ge_0 (x - y - z + t)).
    destruct (Rle_or_lt 2 l) as [|Lt]; [assumption|exfalso]. nra.
Qed.
(*@ C76: a square pinned plate under compression, with m = n = 2: its exact factor is 2, and every documented solver makes the code return a first
    value within a billionth of 2. @*)
Lemma t_C76_pinned_plate : critical mid 2 2 (-8) 0 0 (CStr "PINNED") 2 2 2 /\
  forall eigsh num out vecs, documented eigsh -> buckling_analysis eigsh stored_R (as_arr mid) 2 2 (-8) 0 0 (CStr "PINNED") 2 2 num = Ok (out, vecs) ->
  exists l rest, out = Fin l :: rest /\ Rabs (l - 2) <= 1 / 1000000000.
Proof.
  split; [exact crit22|]. intros eigsh num out vecs Dc B.
  assert (T : tolerance 10 = 1 / 1000000000000000) by reflexivity.
  assert (E : INR (2 * 2) * k_off (tolerance 10) mid 2 2 = 792 / 10 / 1000000000000000).
  { rewrite T. unfold k_off, mid. cbn [a11 a21 a22 a31 a32 a33]. rewrite Rabs_R0, Rabs_R1. cbn. field. }
  assert (G : INR (2 * 2) * kG_off (tolerance 10) (-8) 0 0 2 2 = 1056 / 10 / 1000000000000000).
  { rewrite T. unfold kG_off. rewrite Rabs_R0, (Rabs_left (-8)) by lra. cbn. field. }
  destruct (t_C76_reported eigsh mid 2 2 (-8) 0 0 (CStr "PINNED") Pinned Pinned Pinned Pinned 2 2 10 (1 / 100) num K22 G22 2 out vecs Dc pinned_ok
    ltac:(lia) ltac:(cbn; lia) ltac:(cbn; lia) pinned22 least22) as (l & rest & -> & C & Q); [rewrite E; lra|exact crit22|rewrite G; lra|rewrite G, E; lra|exact B|].
  exists l, rest. split; [reflexivity|]. rewrite E, G in Q. destruct C as (? & ? & _ & Hl & _).
  apply Rcomplements.Rabs_le_between in Q. destruct Q as [Q1 Q2].
  apply (Rmult_le_compat_l (2 * l)) in Q1, Q2; try lra.
  replace (2 * l * (1 / 2 - 1 / l)) with (l - 2) in * by (field; lra).
  set (k1 := 792 / 10 / 1000000000000000 / (1 / 100)) in *. set (k2 := 1056 / 10 / 1000000000000000 / (1 / 100)) in *.
  replace (2 * l * (k1 * (1 / l) + k2)) with (2 * k1 + 2 * l * k2) in Q2 by (field; lra).
  replace (2 * l * - (k1 * (1 / l) + k2)) with (- (2 * k1 + 2 * l * k2)) in Q1 by (field; lra).
  unfold k1, k2 in *. apply Rabs_le. lra.
Qed.
(*@ C76: that plate meets the hypotheses of the theorems above, with margin 1/100. @*)
Example t_C76_ex : plate_ok mid 2 2 (CStr "PINNED") Pinned Pinned Pinned Pinned 2 2 /\
  exists K KG : list (list R), calc_K_KG_D exact_tables (as_arr mid) 2 2 (-8) 0 0 (CStr "PINNED") 2 2 = Ok (K, KG) /\ at_least (1 / 100) K /\
  INR (2 * 2) * k_off (tolerance 10) mid 2 2 < 1 / 100 /\ critical mid 2 2 (-8) 0 0 (CStr "PINNED") 2 2 2.
Proof.
  split; [exact pinned_ok|]. exists K22, G22. split; [exact pinned22|]. split; [exact least22|]. split; [|exact crit22].
  unfold tolerance, k_off, mid. cbn [a11 a21 a22 a31 a32 a33]. rewrite Rabs_R0, Rabs_R1. cbn. lra.
Qed.
