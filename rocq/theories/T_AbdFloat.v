(** Proofs of the theorems on the matrices of the coupled problem as assembled in binary64 *)
From Coq Require Import Reals ZArith Lra Lia Bool String.
From Coquelicot Require Import Coquelicot.
From Flocq Require Import Core.Core IEEE754.BinarySingleNaN.
From Coq Require Import List.
From Verif Require Import M_Py M_Plate M_K M_Tables M_Expr M_Float M_FloatArith M_RealArith S_Validate S_Plate S_Mat S_Bardell S_Shape S_Energy S_K S_Ritz S_Eigen S_Compare S_Stored S_Round S_AbdFloat L_FirstK L_K L_KR L_Float L_TabV L_ABD L_Energy L_Ritz L_Round L_RoundTab T_Laminate T_Plate T_K T_Energy T_ABD T_Buckling T_Compare T_Stored T_Perturb T_Round T_Extreme.
Import ListNotations.
Open Scope R_scope.
Notation pm := (64 / 25).

(** ** a double x, the number t with the stored integrals and the number t' with exact ones *)
Section Near.
Variables (M : nat) (HM : (M <= 30)%nat).
Definition near (k w : R) (x : f64) (t t' : R) : Prop := offk k pm w x t /\ Rabs (t - t') <= pt M * w.
Definition readk (x : f64) (v v' : R) : Prop := valk x v /\ Rabs (v - v') <= tolerance M /\ Rabs v <= 8 / 5.
Lemma pt_pos : 0 < pt M. Proof. unfold pt. assert (T := tol_small M). lra. Qed.
Lemma near1 x y v w v' w' : readk x v v' -> readk y w w' -> near 8 1 (fmul x y) (v * w) (v' * w').
Proof. intros (V & C) (W & C'). split; [apply prod1; assumption|]. rewrite Rmult_1_r. apply prod_off; assumption. Qed.
Lemma near_sum k w v x y t t' s s' : near k w x t t' -> near k v y s s' -> 0 <= k <= 400 -> 0 <= w -> 0 <= v -> w + v <= bp 900 ->
  near (k + pm + 1 / 100) (w + v) (fadd x y) (t + s) (t' + s').
Proof.
  intros (X & X') (Y & Y') K W V L. split; [apply offk_add; try assumption; lra|]. replace (t + s - (t' + s')) with ((t - t') + (s - s')) by ring. eapply Rle_trans; [apply Rabs_triang|]. lra.
Qed.
Lemma near_weak k k' w x t t' : near k w x t t' -> k <= k' -> 0 <= w -> near k' w x t t'.
Proof. intros (X & X') K W. split; [apply (offk_weak k); assumption|exact X']. Qed.
Lemma near_scale p j q v x y r t t' : numk p j x r -> near q v y t t' -> (j <= 800)%Z -> 0 <= p <= 100 -> 0 <= q <= 100 -> 1 <= v <= 4 ->
  near (p * pm + q + pm + 1 / 10) (Rabs r * v) (fmul x y) (r * t) (r * t').
Proof.
  intros X (Y & Y') J P Q V. split; [apply (offk_scale p j); try assumption; lra|]. replace (r * t - r * t') with (r * (t - t')) by ring. rewrite Rabs_mult.
  replace (pt M * (Rabs r * v)) with (Rabs r * (pt M * v)) by ring. apply Rmult_le_compat_l; [apply Rabs_pos|exact Y'].
Qed.
Lemma near2 x y x2 y2 v w v2 w2 v' w' v2' w2' : readk x v v' -> readk y w w' -> readk x2 v2 v2' -> readk y2 w2 w2' -> near 11 2 (fadd (fmul x y) (fmul x2 y2)) (v * w + v2 * w2) (v' * w' + v2' * w2').
Proof.
  intros A B C D. assert (L := bp_le_800). assert (Z := near_sum _ _ _ _ _ _ _ _ _ (near1 _ _ _ _ _ _ A B) (near1 _ _ _ _ _ _ C D) ltac:(lra) ltac:(lra) ltac:(lra) ltac:(lra)).
  replace (1 + 1) with 2 in Z by ring. apply (near_weak _ _ _ _ _ _ Z); lra.
Qed.
Lemma near_twice x y v w v' w' : readk x v v' -> readk y w w' -> near 11 2 (fmul (f_of_Z 2) (fmul x y)) (2 * (v * w)) (2 * (v' * w')).
Proof.
  intros A B. assert (Z := near_scale _ _ _ _ _ _ _ _ _ (int_numk 2 eq_refl eq_refl) (near1 _ _ _ _ _ _ A B) ltac:(lia) ltac:(lra) ltac:(lra) ltac:(lra)). rewrite (Rabs_right (IZR 2)), Rmult_1_r in Z by lra. apply (near_weak _ _ _ _ _ _ Z); lra.
Qed.
Lemma near3 x y x2 y2 v w v2 w2 v' w' v2' w2' : readk x v v' -> readk y w w' -> readk x2 v2 v2' -> readk y2 w2 w2' -> near 14 3 (fadd (fmul (f_of_Z 2) (fmul x y)) (fmul x2 y2)) (2 * (v * w) + v2 * w2) (2 * (v' * w') + v2' * w2').
Proof.
  intros A B C D. assert (L := bp_le_800). assert (N := near1 _ _ _ _ _ _ C D). apply (near_weak 8 11) in N; [|lra|lra]. assert (Z := near_sum _ _ _ _ _ _ _ _ _ (near_twice _ _ _ _ _ _ A B) N ltac:(lra) ltac:(lra) ltac:(lra) ltac:(lra)).
  replace (2 + 1) with 3 in Z by ring. apply (near_weak _ _ _ _ _ _ Z); lra.
Qed.
Lemma near3' x y x2 y2 v w v2 w2 v' w' v2' w2' : readk x v v' -> readk y w w' -> readk x2 v2 v2' -> readk y2 w2 w2' -> near 14 3 (fadd (fmul x2 y2) (fmul (f_of_Z 2) (fmul x y))) (v2 * w2 + 2 * (v * w)) (v2' * w2' + 2 * (v' * w')).
Proof.
  intros A B C D. assert (L := bp_le_800). assert (N := near1 _ _ _ _ _ _ C D). apply (near_weak 8 11) in N; [|lra|lra]. assert (Z := near_sum _ _ _ _ _ _ _ _ _ N (near_twice _ _ _ _ _ _ A B) ltac:(lra) ltac:(lra) ltac:(lra) ltac:(lra)).
  replace (1 + 2) with 3 in Z by ring. apply (near_weak _ _ _ _ _ _ Z); lra.
Qed.
(** one term, with a bound C on its coefficient *)
Definition termk (C : R) (x : f64) (t t' : R) : Prop := exists w, near 32 w x t t' /\ 0 <= w <= C /\ w <= bp 802.
Lemma near_term p j q v x y r t t' C : numk p j x r -> near q v y t t' -> (j <= 800)%Z -> 0 <= p -> 0 <= q -> p * pm + q + pm + 1 / 10 <= 32 -> 1 <= v <= 4 -> Rabs r * v <= C -> termk C (fmul x y) (r * t) (r * t').
Proof.
  intros X Y J P Q L V Hc. exists (Rabs r * v). assert (R0 := Rabs_pos r). assert (B := numk_up _ _ _ _ X J). split; [apply (near_weak (p * pm + q + pm + 1 / 10)); [apply (near_scale p j); try assumption; lra|lra|apply Rmult_le_pos; lra]|].
  split; [split; [apply Rmult_le_pos; lra|exact Hc]|]. replace (bp 802) with (bp 800 * 4); [apply Rmult_le_compat; lra|]. change 4 with (bp 2). rewrite <- bpow_plus. reflexivity.
Qed.
Lemma opp_offk k m w x t : offk k m w x t -> offk k m w (fopp x) (- t).
Proof. intros (F & B & C). unfold offk, fopp. rewrite is_finite_Bopp, B2R_Bopp. split; [exact F|]. split; [|rewrite Rabs_Ropp; exact C]. replace (- B2R x - - t) with (- (B2R x - t)) by ring. rewrite Rabs_Ropp. exact B. Qed.
Lemma opp_termk C x t t' : termk C x t t' -> termk C (fopp x) (- t) (- t').
Proof. intros (w & (X & Y) & H). exists w. split; [|exact H]. split; [apply opp_offk, X|]. replace (- t - - t') with (- (t - t')) by ring. rewrite Rabs_Ropp. exact Y. Qed.
Lemma fsub_add x y : fsub x y = fadd x (fopp y). Proof. destruct x, y; reflexivity. Qed.
Lemma numk_opp p j x r : numk p j x r -> numk p j (fopp x) (- r).
Proof.
  intros ((F & B) & R0). split; [split|].
  - unfold fopp. rewrite is_finite_Bopp. exact F.
  - unfold fopp. rewrite B2R_Bopp, Rabs_Ropp. replace (- B2R x - - r) with (- (B2R x - r)) by ring. rewrite Rabs_Ropp. exact B.
  - destruct R0 as [-> |R0]; [left; ring|right; rewrite Rabs_Ropp; exact R0].
Qed.
(** a sum of at most five terms *)
Definition sumk (n : nat) (C : R) (x : f64) (t t' : R) : Prop := exists w, near (32 + INR n * (257 / 100)) w x t t' /\ 0 <= w <= C /\ w <= bp 802 * INR (Datatypes.S n).
Lemma sum_start C x t t' : termk C x t t' -> sumk 0 C x t t'.
Proof. intros (w & N & W & B). exists w. cbn [INR]. split; [replace (32 + 0 * (257 / 100)) with 32 by ring; exact N|]. split; [exact W|lra]. Qed.
Lemma sum_step n C C' x y t t' s s' : sumk n C x t t' -> termk C' y s s' -> (n < 4)%nat -> sumk (Datatypes.S n) (C + C') (fadd x y) (t + s) (t' + s').
Proof.
  intros (w & N & W & B) (v & N' & W' & B') L. exists (w + v). assert (I : 0 <= INR n <= 3) by (split; [apply pos_INR|replace 3 with (INR 3) by (cbn; lra); apply le_INR; lia]).
  assert (Z : 0 < bp 802) by apply bpow_gt_0. rewrite !S_INR in *. assert (Q : 8 * bp 802 <= bp 900) by (change 8 with (bp 3); rewrite <- bpow_plus; apply bpow_le; lia). assert (K : bp 802 * (INR n + 1) <= bp 802 * 4) by (apply Rmult_le_compat_l; lra).
  split; [|split; [lra|lra]].
  apply (near_weak (32 + INR n * (257 / 100) + pm + 1 / 100)); [|lra|lra]. apply near_sum; try lra; [exact N|]. apply (near_weak 32); [exact N'|lra|lra].
Qed.
Lemma sum_sub n C C' x y t t' s s' : sumk n C x t t' -> termk C' y s s' -> (n < 4)%nat -> sumk (Datatypes.S n) (C + C') (fsub x y) (t - s) (t' - s').
Proof. intros X Y L. rewrite fsub_add. apply sum_step; [exact X|apply opp_termk, Y|exact L]. Qed.
Lemma sum_end n C C' x t t' : sumk n C x t t' -> (n <= 4)%nat -> C <= C' ->
  is_finite x = true /\ Rabs (B2R x - t) <= 33 / 10 * (16 * unit) * C' /\ Rabs (B2R x - t') <= 33 / 10 * (tolerance M + 16 * unit) * C'.
Proof.
  intros (w & ((F & B & _) & T) & W & _) L LC. assert (U := unit_val). assert (I : 0 <= INR n <= 4) by (split; [apply pos_INR|replace 4 with (INR 4) by (cbn; lra); apply le_INR; lia]).
  assert (B1 : Rabs (B2R x - t) <= 33 / 10 * (16 * unit) * w) by (eapply Rle_trans; [exact B|]; apply Rmult_le_compat_r; [lra|]; assert ((32 + INR n * (257 / 100)) * unit <= (33 / 10 * 16) * unit) by (apply Rmult_le_compat_r; lra); lra).
  assert (P : 0 < 33 / 10 * (16 * unit)) by lra. assert (Q := pt_pos).
  assert (B2 : 33 / 10 * (16 * unit) * w <= 33 / 10 * (16 * unit) * C') by (apply Rmult_le_compat_l; lra).
  assert (B3 : pt M * w <= pt M * C') by (apply Rmult_le_compat_l; lra).
  split; [exact F|]. split; [lra|]. replace (B2R x - t') with ((B2R x - t) + (t - t')) by ring. eapply Rle_trans; [apply Rabs_triang|]. unfold pt in *. lra.
Qed.

(** ** the eight blocks other than bending *)
Context (pow : f64 -> nat -> res f64) (dec : Z -> Z -> f64) (HP : pow_close pow) (HD : dec_close dec).
Notation T := (stored (FA pow) dec).
Lemma reads i k : (i < M)%nat -> (k < M)%nat -> exists x00 x10 x11 x20 x21 x22 : f64,
  (t_ff T i k = Ok x00 /\ readk x00 (e00 stored_e i k) (e00 exact_e i k)) /\ (t_fxi_f T i k = Ok x10 /\ readk x10 (e10 stored_e i k) (e10 exact_e i k)) /\
  (t_fxi_fxi T i k = Ok x11 /\ readk x11 (e11 stored_e i k) (e11 exact_e i k)) /\ (t_fxixi_f T i k = Ok x20 /\ readk x20 (e20 stored_e i k) (e20 exact_e i k)) /\
  (t_fxixi_fxi T i k = Ok x21 /\ readk x21 (e21 stored_e i k) (e21 exact_e i k)) /\ (t_fxixi_fxixi T i k = Ok x22 /\ readk x22 (e22 stored_e i k) (e22 exact_e i k)).
Proof.
  intros Hi Hk. destruct (read6 pow dec HD i k ltac:(lia) ltac:(lia)) as (x1 & x2 & x3 & x4 & x5 & x6 & (E1 & V1) & (E2 & V2) & (E3 & V3) & (E4 & V4) & (E5 & V5) & (E6 & V6)).
  destruct (tol_close M HM i k Hi Hk) as (C1 & C2 & C3 & C4 & C5 & C6). exists x1, x2, x3, x4, x5, x6.
  split; [exact (conj E1 (conj V1 C1))|]. split; [exact (conj E2 (conj V2 C2))|]. split; [exact (conj E3 (conj V3 C3))|].
  split; [exact (conj E4 (conj V4 C4))|]. split; [exact (conj E5 (conj V5 C5))|]. exact (conj E6 (conj V6 C6)).
Qed.
Variables (a b : f64) (Ua : usual a) (Ub : usual b).
Let ra := B2R a. Let rb := B2R b.
Lemma wt c B v CC : 0 <= c -> 0 <= v -> c * v <= CC -> Rabs (c * B) * v <= CC * Rabs B.
Proof.
  intros H V L. rewrite Rabs_mult, (Rabs_right c) by lra. replace (c * Rabs B * v) with (c * v * Rabs B) by ring. apply Rmult_le_compat_r; [apply Rabs_pos|exact L].
Qed.
Lemma wt' c B v CC : 0 <= c -> 0 <= v -> c * v <= CC -> Rabs (B * c) * v <= CC * Rabs B.
Proof. rewrite (Rmult_comm B c). apply wt. Qed.
Lemma wtn c B v CC : 0 <= c -> 0 <= v -> c * v <= CC -> Rabs (- c * B) * v <= CC * Rabs B.
Proof. intros. replace (- c * B) with (- (c * B)) by ring. rewrite Rabs_Ropp. apply wt; assumption. Qed.
(** coefficients *)
Lemma c_div x y : usual x -> usual y -> exists q, ndiv (FA pow) x y = Ok q /\ numk (11 / 10) 128 q (B2R x / B2R y).
Proof.
  intros Ux Uy. destruct (usual_numk x Ux) as [X _]. destruct (usual_numk y Uy) as [Y Py].
  destruct (div_numk _ _ _ _ _ _ _ _ X Y ltac:(lra) ltac:(lra) ltac:(lia) ltac:(lra)) as [Z N]. exists (fdiv x y). split; [apply fdiv_FA, Z|]. apply (numk_weak _ _ _ _ _ N). lra.
Qed.
Lemma c_over z y : small z = true -> (0 < z)%Z -> usual y -> exists q, ndiv (FA pow) (f_of_Z z) y = Ok q /\ numk (11 / 10) 117 q (IZR z / B2R y).
Proof.
  intros Sz Pz Uy. assert (X := int_numk z Sz Pz). destruct (usual_numk y Uy) as [Y Py].
  destruct (div_numk _ _ _ _ _ _ _ _ X Y ltac:(lra) ltac:(lra) ltac:(lia) ltac:(lra)) as [Z N]. exists (fdiv (f_of_Z z) y). split; [apply fdiv_FA, Z|]. apply (numk_weak _ _ _ _ _ N). lra.
Qed.
Lemma c_twice x y : usual x -> usual y -> exists q, ndiv (FA pow) (fmul (f_of_Z 2) x) y = Ok q /\ numk (22 / 10) 181 q (2 * B2R x / B2R y).
Proof.
  intros Ux Uy. destruct (usual_numk x Ux) as [X _]. destruct (usual_numk y Uy) as [Y Py]. assert (I := int_numk 2 eq_refl eq_refl).
  assert (W := times_l _ _ _ _ _ _ _ I X ltac:(lra) ltac:(lia)).
  destruct (div_numk _ _ _ _ _ _ _ _ W Y ltac:(lra) ltac:(lra) ltac:(lia) ltac:(lra)) as [Z N]. exists (fdiv (fmul (f_of_Z 2) x) y). split; [apply fdiv_FA, Z|]. apply (numk_weak _ _ _ _ _ N). lra.
Qed.
Lemma c_twice2 x y : usual x -> usual y -> exists y2 q, pow y 2 = Ok y2 /\ ndiv (FA pow) (fmul (f_of_Z 2) x) y2 = Ok q /\ numk (52 / 10) 309 q (2 * B2R x / B2R y ^ 2).
Proof.
  intros Ux Uy. destruct (usual_numk x Ux) as [X _]. destruct (pow_numk pow HP y 2 Uy (or_introl eq_refl)) as (y2 & E & Y & Zy). assert (I := int_numk 2 eq_refl eq_refl).
  assert (W := times_l _ _ _ _ _ _ _ I X ltac:(lra) ltac:(lia)).
  destruct (div_numk _ _ _ _ _ _ _ _ W Y ltac:(lra) ltac:(lra) ltac:(lia) Zy) as [Z N]. exists y2, (fdiv (fmul (f_of_Z 2) x) y2). split; [exact E|]. split; [apply fdiv_FA, Z|]. apply (numk_weak _ _ _ _ _ N). lra.
Qed.

Ltac open_reads i j k l Hi Hj Hk Hl :=
  destruct (reads i k Hi Hk) as (p00 & p10 & p11 & p20 & p21 & p22 & (Hp00 & Vp00) & (Hp10 & Vp10) & (Hp11 & Vp11) & (Hp20 & Vp20) & (Hp21 & Vp21) & (Hp22 & Vp22));
  destruct (reads j l Hj Hl) as (q00 & q10 & q11 & q20 & q21 & q22 & (Hq00 & Vq00) & (Hq10 & Vq10) & (Hq11 & Vq11) & (Hq20 & Vq20) & (Hq21 & Vq21) & (Hq22 & Vq22));
  destruct (reads k i Hk Hi) as (r00 & r10 & r11 & r20 & r21 & r22 & (Hr00 & Vr00) & (Hr10 & Vr10) & (Hr11 & Vr11) & (Hr20 & Vr20) & (Hr21 & Vr21) & (Hr22 & Vr22));
  destruct (reads l j Hl Hj) as (s00 & s10 & s11 & s20 & s21 & s22 & (Hs00 & Vs00) & (Hs10 & Vs10) & (Hs11 & Vs11) & (Hs20 & Vs20) & (Hs21 & Vs21) & (Hs22 & Vs22)).
Ltac run f := unfold f; cbn [fst snd]; unfold ii_ff, ii_fxi_f, ii_f_fxi, ii_fxi_fxi, ii_fxixi_f, ii_f_fxixi, ii_fxixi_fxi, ii_fxi_fxixi, ii_fxixi_fxixi, mul2; cbn [fst snd];
  repeat match goal with H : _ T _ _ = Ok _ |- _ => rewrite !H; clear H end; cbn [bind]; change (npow (FA pow)) with pow; change (nmul (FA pow)) with fmul; change (nint (FA pow)) with f_of_Z;
  change (nadd (FA pow)) with fadd; change (nsub (FA pow)) with fsub; change (nneg (FA pow)) with fopp;
  repeat match goal with H : pow _ _ = Ok _ |- _ => rewrite !H; cbn [bind] | H : ndiv (FA pow) _ _ = Ok _ |- _ => rewrite !H; cbn [bind] end.
Definition CA := rb / ra + ra / rb + 2.
Definition CB := 2 * rb / ra + 6 / ra + 6 / rb + 2 * rb / ra ^ 2 + 2 * ra / rb ^ 2 + 2 / rb ^ 2.
Lemma ab_pos : 0 < ra /\ 0 < rb. Proof. split; [apply (usual_numk a Ua)|apply (usual_numk b Ub)]. Qed.
Lemma parts : (0 < rb / ra /\ 0 < ra / rb) /\ (0 < 2 * rb / ra /\ 0 < 2 / ra /\ 0 < 2 / rb /\ 0 < 4 / ra /\ 0 < 4 / rb /\ 0 < 2 * rb / ra ^ 2 /\ 0 < 2 * ra / rb ^ 2 /\ 0 < 2 / rb ^ 2)
  /\ 6 / ra = 3 * (2 / ra) /\ 6 / rb = 3 * (2 / rb) /\ 4 / ra = 2 * (2 / ra) /\ 4 / rb = 2 * (2 / rb).
Proof.
  destruct ab_pos as [Pa Pb]. assert (P2 := pow_lt ra 2 Pa). assert (Q2 := pow_lt rb 2 Pb).
  repeat split; try (apply Rdiv_lt_0_compat; lra); unfold Rdiv; ring.
Qed.
Definition fine (x : f64) (t t' C : R) : Prop :=
  is_finite x = true /\ Rabs (B2R x - t) <= 33 / 10 * (16 * unit) * C /\ Rabs (B2R x - t') <= 33 / 10 * (tolerance M + 16 * unit) * C.
Ltac wtac := destruct parts as ((?Y1 & ?Y2) & (?Y3 & ?Y4 & ?Y5 & ?Y6 & ?Y7 & ?Y8 & ?Y9 & ?Y10) & ?Z1 & ?Z2 & ?Z3 & ?Z4); first [apply wt'|apply wtn|apply wt]; fold ra rb; unfold CA, CB; lra.
Lemma k11_round i j k l (A11 A16 A66 : f64) : (i < M)%nat -> (j < M)%nat -> (k < M)%nat -> (l < M)%nat -> usual0 A11 -> usual0 A16 -> usual0 A66 ->
  exists x, calc_k11 T a b ((i, j), (k, l)) A11 A16 A66 = Ok x /\ fine x (k11f stored_e ra rb ((i, j), (k, l)) (B2R A11) (B2R A16) (B2R A66)) (k11f exact_e ra rb ((i, j), (k, l)) (B2R A11) (B2R A16) (B2R A66)) (CA * Rabs (B2R A11) + CA * Rabs (B2R A16) + CA * Rabs (B2R A66)).
Proof.
  intros Hi Hj Hk Hl UA11 UA16 UA66. open_reads i j k l Hi Hj Hk Hl. apply usual0_numk in UA11, UA16, UA66.
  destruct (c_div b a Ub Ua) as (cba & Eba & Nba).
  run @calc_k11. eexists. split; [reflexivity|].
  assert (M0 := times_l _ _ _ _ _ _ _ UA11 Nba ltac:(lra) ltac:(lia)).
  assert (W0 : Rabs (B2R A11 * (rb / ra)) * 1 <= CA * Rabs (B2R A11)).
  { wtac. }
  assert (T0 := near_term _ _ _ _ _ _ _ _ _ _ M0 (near1 _ _ _ _ _ _ Vp11 Vq00) ltac:(lia) ltac:(lra) ltac:(lra) ltac:(lra) ltac:(lra) W0).
  assert (W1 : Rabs (1 * B2R A16) * 2 <= CA * Rabs (B2R A16)).
  { wtac. }
  rewrite Rmult_1_l in W1.
  assert (T1 := near_term _ _ _ _ _ _ _ _ _ _ UA16 (near2 _ _ _ _ _ _ _ _ _ _ _ _ Vp10 Vs10 Vr10 Vq10) ltac:(lia) ltac:(lra) ltac:(lra) ltac:(lra) ltac:(lra) W1).
  assert (M2 := times_l _ _ _ _ _ _ _ UA66 Nba ltac:(lra) ltac:(lia)).
  assert (W2 : Rabs (B2R A66 * (rb / ra)) * 1 <= CA * Rabs (B2R A66)).
  { wtac. }
  assert (T2 := near_term _ _ _ _ _ _ _ _ _ _ M2 (near1 _ _ _ _ _ _ Vp00 Vq11) ltac:(lia) ltac:(lra) ltac:(lra) ltac:(lra) ltac:(lra) W2).
  assert (S := (sum_step _ _ _ _ _ _ _ _ _ (sum_step _ _ _ _ _ _ _ _ _ (sum_start _ _ _ _ T0) T1 ltac:(lia)) T2 ltac:(lia))).
  apply (sum_end _ _ _ _ _ _ S); [lia|]. lra.
Qed.
Lemma k12_round i j k l (A12 A16 A26 A66 : f64) : (i < M)%nat -> (j < M)%nat -> (k < M)%nat -> (l < M)%nat -> usual0 A12 -> usual0 A16 -> usual0 A26 -> usual0 A66 ->
  exists x, calc_k12 T a b ((i, j), (k, l)) A12 A16 A26 A66 = Ok x /\ fine x (k12f stored_e ra rb ((i, j), (k, l)) (B2R A12) (B2R A16) (B2R A26) (B2R A66)) (k12f exact_e ra rb ((i, j), (k, l)) (B2R A12) (B2R A16) (B2R A26) (B2R A66)) (CA * Rabs (B2R A12) + CA * Rabs (B2R A16) + CA * Rabs (B2R A26) + CA * Rabs (B2R A66)).
Proof.
  intros Hi Hj Hk Hl UA12 UA16 UA26 UA66. open_reads i j k l Hi Hj Hk Hl. apply usual0_numk in UA12, UA16, UA26, UA66.
  destruct (c_div b a Ub Ua) as (cba & Eba & Nba).
  destruct (c_div a b Ua Ub) as (cab & Eab & Nab).
  run @calc_k12. eexists. split; [reflexivity|].
  assert (W0 : Rabs (1 * B2R A12) * 1 <= CA * Rabs (B2R A12)).
  { wtac. }
  rewrite Rmult_1_l in W0.
  assert (T0 := near_term _ _ _ _ _ _ _ _ _ _ UA12 (near1 _ _ _ _ _ _ Vp10 Vs10) ltac:(lia) ltac:(lra) ltac:(lra) ltac:(lra) ltac:(lra) W0).
  assert (M1 := times_l _ _ _ _ _ _ _ UA16 Nba ltac:(lra) ltac:(lia)).
  assert (W1 : Rabs (B2R A16 * (rb / ra)) * 1 <= CA * Rabs (B2R A16)).
  { wtac. }
  assert (T1 := near_term _ _ _ _ _ _ _ _ _ _ M1 (near1 _ _ _ _ _ _ Vp11 Vq00) ltac:(lia) ltac:(lra) ltac:(lra) ltac:(lra) ltac:(lra) W1).
  assert (M2 := times_l _ _ _ _ _ _ _ UA26 Nab ltac:(lra) ltac:(lia)).
  assert (W2 : Rabs (B2R A26 * (ra / rb)) * 1 <= CA * Rabs (B2R A26)).
  { wtac. }
  assert (T2 := near_term _ _ _ _ _ _ _ _ _ _ M2 (near1 _ _ _ _ _ _ Vp00 Vq11) ltac:(lia) ltac:(lra) ltac:(lra) ltac:(lra) ltac:(lra) W2).
  assert (W3 : Rabs (1 * B2R A66) * 1 <= CA * Rabs (B2R A66)).
  { wtac. }
  rewrite Rmult_1_l in W3.
  assert (T3 := near_term _ _ _ _ _ _ _ _ _ _ UA66 (near1 _ _ _ _ _ _ Vr10 Vq10) ltac:(lia) ltac:(lra) ltac:(lra) ltac:(lra) ltac:(lra) W3).
  assert (S := (sum_step _ _ _ _ _ _ _ _ _ (sum_step _ _ _ _ _ _ _ _ _ (sum_step _ _ _ _ _ _ _ _ _ (sum_start _ _ _ _ T0) T1 ltac:(lia)) T2 ltac:(lia)) T3 ltac:(lia))).
  apply (sum_end _ _ _ _ _ _ S); [lia|]. lra.
Qed.
Lemma k21_round i j k l (A12 A16 A26 A66 : f64) : (i < M)%nat -> (j < M)%nat -> (k < M)%nat -> (l < M)%nat -> usual0 A12 -> usual0 A16 -> usual0 A26 -> usual0 A66 ->
  exists x, calc_k21 T a b ((i, j), (k, l)) A12 A16 A26 A66 = Ok x /\ fine x (k21f stored_e ra rb ((i, j), (k, l)) (B2R A12) (B2R A16) (B2R A26) (B2R A66)) (k21f exact_e ra rb ((i, j), (k, l)) (B2R A12) (B2R A16) (B2R A26) (B2R A66)) (CA * Rabs (B2R A12) + CA * Rabs (B2R A16) + CA * Rabs (B2R A26) + CA * Rabs (B2R A66)).
Proof.
  intros Hi Hj Hk Hl UA12 UA16 UA26 UA66. open_reads i j k l Hi Hj Hk Hl. apply usual0_numk in UA12, UA16, UA26, UA66.
  destruct (c_div a b Ua Ub) as (cab & Eab & Nab).
  run @calc_k21. eexists. split; [reflexivity|].
  assert (W0 : Rabs (1 * B2R A12) * 1 <= CA * Rabs (B2R A12)).
  { wtac. }
  rewrite Rmult_1_l in W0.
  assert (T0 := near_term _ _ _ _ _ _ _ _ _ _ UA12 (near1 _ _ _ _ _ _ Vr10 Vq10) ltac:(lia) ltac:(lra) ltac:(lra) ltac:(lra) ltac:(lra) W0).
  assert (M1 := times_l _ _ _ _ _ _ _ UA16 Nab ltac:(lra) ltac:(lia)).
  assert (W1 : Rabs (B2R A16 * (ra / rb)) * 1 <= CA * Rabs (B2R A16)).
  { wtac. }
  assert (T1 := near_term _ _ _ _ _ _ _ _ _ _ M1 (near1 _ _ _ _ _ _ Vp11 Vq00) ltac:(lia) ltac:(lra) ltac:(lra) ltac:(lra) ltac:(lra) W1).
  assert (M2 := times_l _ _ _ _ _ _ _ UA26 Nab ltac:(lra) ltac:(lia)).
  assert (W2 : Rabs (B2R A26 * (ra / rb)) * 1 <= CA * Rabs (B2R A26)).
  { wtac. }
  assert (T2 := near_term _ _ _ _ _ _ _ _ _ _ M2 (near1 _ _ _ _ _ _ Vp00 Vq11) ltac:(lia) ltac:(lra) ltac:(lra) ltac:(lra) ltac:(lra) W2).
  assert (W3 : Rabs (1 * B2R A66) * 1 <= CA * Rabs (B2R A66)).
  { wtac. }
  rewrite Rmult_1_l in W3.
  assert (T3 := near_term _ _ _ _ _ _ _ _ _ _ UA66 (near1 _ _ _ _ _ _ Vp10 Vs10) ltac:(lia) ltac:(lra) ltac:(lra) ltac:(lra) ltac:(lra) W3).
  assert (S := (sum_step _ _ _ _ _ _ _ _ _ (sum_step _ _ _ _ _ _ _ _ _ (sum_step _ _ _ _ _ _ _ _ _ (sum_start _ _ _ _ T0) T1 ltac:(lia)) T2 ltac:(lia)) T3 ltac:(lia))).
  apply (sum_end _ _ _ _ _ _ S); [lia|]. lra.
Qed.
Lemma k22_round i j k l (A22 A26 A66 : f64) : (i < M)%nat -> (j < M)%nat -> (k < M)%nat -> (l < M)%nat -> usual0 A22 -> usual0 A26 -> usual0 A66 ->
  exists x, calc_k22 T a b ((i, j), (k, l)) A22 A26 A66 = Ok x /\ fine x (k22f stored_e ra rb ((i, j), (k, l)) (B2R A22) (B2R A26) (B2R A66)) (k22f exact_e ra rb ((i, j), (k, l)) (B2R A22) (B2R A26) (B2R A66)) (CA * Rabs (B2R A22) + CA * Rabs (B2R A26) + CA * Rabs (B2R A66)).
Proof.
  intros Hi Hj Hk Hl UA22 UA26 UA66. open_reads i j k l Hi Hj Hk Hl. apply usual0_numk in UA22, UA26, UA66.
  destruct (c_div a b Ua Ub) as (cab & Eab & Nab).
  destruct (c_div b a Ub Ua) as (cba & Eba & Nba).
  run @calc_k22. eexists. split; [reflexivity|].
  assert (M0 := times_l _ _ _ _ _ _ _ UA22 Nab ltac:(lra) ltac:(lia)).
  assert (W0 : Rabs (B2R A22 * (ra / rb)) * 1 <= CA * Rabs (B2R A22)).
  { wtac. }
  assert (T0 := near_term _ _ _ _ _ _ _ _ _ _ M0 (near1 _ _ _ _ _ _ Vp00 Vq11) ltac:(lia) ltac:(lra) ltac:(lra) ltac:(lra) ltac:(lra) W0).
  assert (W1 : Rabs (1 * B2R A26) * 2 <= CA * Rabs (B2R A26)).
  { wtac. }
  rewrite Rmult_1_l in W1.
  assert (T1 := near_term _ _ _ _ _ _ _ _ _ _ UA26 (near2 _ _ _ _ _ _ _ _ _ _ _ _ Vp10 Vs10 Vr10 Vq10) ltac:(lia) ltac:(lra) ltac:(lra) ltac:(lra) ltac:(lra) W1).
  assert (M2 := times_l _ _ _ _ _ _ _ UA66 Nba ltac:(lra) ltac:(lia)).
  assert (W2 : Rabs (B2R A66 * (rb / ra)) * 1 <= CA * Rabs (B2R A66)).
  { wtac. }
  assert (T2 := near_term _ _ _ _ _ _ _ _ _ _ M2 (near1 _ _ _ _ _ _ Vp11 Vq00) ltac:(lia) ltac:(lra) ltac:(lra) ltac:(lra) ltac:(lra) W2).
  assert (S := (sum_step _ _ _ _ _ _ _ _ _ (sum_step _ _ _ _ _ _ _ _ _ (sum_start _ _ _ _ T0) T1 ltac:(lia)) T2 ltac:(lia))).
  apply (sum_end _ _ _ _ _ _ S); [lia|]. lra.
Qed.
Lemma k13_round i j k l (B11 B12 B16 B26 B66 : f64) : (i < M)%nat -> (j < M)%nat -> (k < M)%nat -> (l < M)%nat -> usual0 B11 -> usual0 B12 -> usual0 B16 -> usual0 B26 -> usual0 B66 ->
  exists x, calc_k13 T a b ((i, j), (k, l)) B11 B12 B16 B26 B66 = Ok x /\ fine x (k13f stored_e ra rb ((i, j), (k, l)) (B2R B11) (B2R B12) (B2R B16) (B2R B26) (B2R B66)) (k13f exact_e ra rb ((i, j), (k, l)) (B2R B11) (B2R B12) (B2R B16) (B2R B26) (B2R B66)) (CB * Rabs (B2R B11) + CB * Rabs (B2R B12) + CB * Rabs (B2R B16) + CB * Rabs (B2R B26) + CB * Rabs (B2R B66)).
Proof.
  intros Hi Hj Hk Hl UB11 UB12 UB16 UB26 UB66. open_reads i j k l Hi Hj Hk Hl. apply usual0_numk in UB11, UB12, UB16, UB26, UB66.
  destruct (c_twice b a Ub Ua) as (c2ba & E2ba & N2ba).
  destruct (c_over 2 b eq_refl eq_refl Ub) as (c2b & E2b & N2b).
  destruct (c_over 2 a eq_refl eq_refl Ua) as (c2a & E2a & N2a).
  destruct (over2 pow HP b 2 Ub eq_refl eq_refl) as (b2 & c2bb & Eb2 & E2bb & N2bb).
  destruct (c_over 4 b eq_refl eq_refl Ub) as (c4b & E4b & N4b).
  run @calc_k13. eexists. split; [reflexivity|].
  assert (M0 := times _ _ _ _ _ _ _ (numk_opp _ _ _ _ N2ba) UB11 ltac:(lra) ltac:(lia)).
  assert (W0 : Rabs (- (2 * rb / ra) * B2R B11) * 1 <= CB * Rabs (B2R B11)).
  { wtac. }
  assert (T0 := near_term _ _ _ _ _ _ _ _ _ _ M0 (near1 _ _ _ _ _ _ Vr21 Vq00) ltac:(lia) ltac:(lra) ltac:(lra) ltac:(lra) ltac:(lra) W0).
  assert (M1 := times _ _ _ _ _ _ _ N2b UB12 ltac:(lra) ltac:(lia)).
  assert (W1 : Rabs ((2 / rb) * B2R B12) * 1 <= CB * Rabs (B2R B12)).
  { wtac. }
  assert (T1 := near_term _ _ _ _ _ _ _ _ _ _ M1 (near1 _ _ _ _ _ _ Vp10 Vs20) ltac:(lia) ltac:(lra) ltac:(lra) ltac:(lra) ltac:(lra) W1).
  assert (M2 := times _ _ _ _ _ _ _ N2a UB16 ltac:(lra) ltac:(lia)).
  assert (W2 : Rabs ((2 / ra) * B2R B16) * 3 <= CB * Rabs (B2R B16)).
  { wtac. }
  assert (T2 := near_term _ _ _ _ _ _ _ _ _ _ M2 (near3 _ _ _ _ _ _ _ _ _ _ _ _ Vp11 Vs10 Vr20 Vq10) ltac:(lia) ltac:(lra) ltac:(lra) ltac:(lra) ltac:(lra) W2).
  assert (M3 := times _ _ _ _ _ _ _ N2bb UB26 ltac:(lra) ltac:(lia)).
  assert (W3 : Rabs ((2 / rb ^ 2) * B2R B26) * 1 <= CB * Rabs (B2R B26)).
  { wtac. }
  assert (T3 := near_term _ _ _ _ _ _ _ _ _ _ M3 (near1 _ _ _ _ _ _ Vp00 Vs21) ltac:(lia) ltac:(lra) ltac:(lra) ltac:(lra) ltac:(lra) W3).
  assert (M4 := times _ _ _ _ _ _ _ N4b UB66 ltac:(lra) ltac:(lia)).
  assert (W4 : Rabs ((4 / rb) * B2R B66) * 1 <= CB * Rabs (B2R B66)).
  { wtac. }
  assert (T4 := near_term _ _ _ _ _ _ _ _ _ _ M4 (near1 _ _ _ _ _ _ Vr10 Vq11) ltac:(lia) ltac:(lra) ltac:(lra) ltac:(lra) ltac:(lra) W4).
  assert (S := (sum_sub _ _ _ _ _ _ _ _ _ (sum_sub _ _ _ _ _ _ _ _ _ (sum_sub _ _ _ _ _ _ _ _ _ (sum_sub _ _ _ _ _ _ _ _ _ (sum_start _ _ _ _ T0) T1 ltac:(lia)) T2 ltac:(lia)) T3 ltac:(lia)) T4 ltac:(lia))).
  apply (sum_end _ _ _ _ _ _ S); [lia|]. lra.
Qed.
Lemma k23_round i j k l (B12 B16 B22 B26 B66 : f64) : (i < M)%nat -> (j < M)%nat -> (k < M)%nat -> (l < M)%nat -> usual0 B12 -> usual0 B16 -> usual0 B22 -> usual0 B26 -> usual0 B66 ->
  exists x, calc_k23 T a b ((i, j), (k, l)) B12 B16 B22 B26 B66 = Ok x /\ fine x (k23f stored_e ra rb ((i, j), (k, l)) (B2R B12) (B2R B16) (B2R B22) (B2R B26) (B2R B66)) (k23f exact_e ra rb ((i, j), (k, l)) (B2R B12) (B2R B16) (B2R B22) (B2R B26) (B2R B66)) (CB * Rabs (B2R B12) + CB * Rabs (B2R B16) + CB * Rabs (B2R B22) + CB * Rabs (B2R B26) + CB * Rabs (B2R B66)).
Proof.
  intros Hi Hj Hk Hl UB12 UB16 UB22 UB26 UB66. open_reads i j k l Hi Hj Hk Hl. apply usual0_numk in UB12, UB16, UB22, UB26, UB66.
  destruct (c_over 2 a eq_refl eq_refl Ua) as (c2a & E2a & N2a).
  destruct (c_twice2 b a Ub Ua) as (aa2 & c2baa & Eaa2 & E2baa & N2baa).
  destruct (c_twice2 a b Ua Ub) as (bb2 & c2abb & Ebb2 & E2abb & N2abb).
  destruct (c_over 2 b eq_refl eq_refl Ub) as (c2b & E2b & N2b).
  destruct (c_over 4 a eq_refl eq_refl Ua) as (c4a & E4a & N4a).
  run @calc_k23. eexists. split; [reflexivity|].
  assert (M0 := times _ _ _ _ _ _ _ (numk_opp _ _ _ _ N2a) UB12 ltac:(lra) ltac:(lia)).
  assert (W0 : Rabs (- (2 / ra) * B2R B12) * 1 <= CB * Rabs (B2R B12)).
  { wtac. }
  assert (T0 := near_term _ _ _ _ _ _ _ _ _ _ M0 (near1 _ _ _ _ _ _ Vr20 Vq10) ltac:(lia) ltac:(lra) ltac:(lra) ltac:(lra) ltac:(lra) W0).
  assert (M1 := times _ _ _ _ _ _ _ N2baa UB16 ltac:(lra) ltac:(lia)).
  assert (W1 : Rabs ((2 * rb / ra ^ 2) * B2R B16) * 1 <= CB * Rabs (B2R B16)).
  { wtac. }
  assert (T1 := near_term _ _ _ _ _ _ _ _ _ _ M1 (near1 _ _ _ _ _ _ Vr21 Vq00) ltac:(lia) ltac:(lra) ltac:(lra) ltac:(lra) ltac:(lra) W1).
  assert (M2 := times _ _ _ _ _ _ _ N2abb UB22 ltac:(lra) ltac:(lia)).
  assert (W2 : Rabs ((2 * ra / rb ^ 2) * B2R B22) * 1 <= CB * Rabs (B2R B22)).
  { wtac. }
  assert (T2 := near_term _ _ _ _ _ _ _ _ _ _ M2 (near1 _ _ _ _ _ _ Vp00 Vs21) ltac:(lia) ltac:(lra) ltac:(lra) ltac:(lra) ltac:(lra) W2).
  assert (M3 := times _ _ _ _ _ _ _ N2b UB26 ltac:(lra) ltac:(lia)).
  assert (W3 : Rabs ((2 / rb) * B2R B26) * 3 <= CB * Rabs (B2R B26)).
  { wtac. }
  assert (T3 := near_term _ _ _ _ _ _ _ _ _ _ M3 (near3' _ _ _ _ _ _ _ _ _ _ _ _ Vr10 Vq11 Vp10 Vs20) ltac:(lia) ltac:(lra) ltac:(lra) ltac:(lra) ltac:(lra) W3).
  assert (M4 := times _ _ _ _ _ _ _ N4a UB66 ltac:(lra) ltac:(lia)).
  assert (W4 : Rabs ((4 / ra) * B2R B66) * 1 <= CB * Rabs (B2R B66)).
  { wtac. }
  assert (T4 := near_term _ _ _ _ _ _ _ _ _ _ M4 (near1 _ _ _ _ _ _ Vp11 Vs10) ltac:(lia) ltac:(lra) ltac:(lra) ltac:(lra) ltac:(lra) W4).
  assert (S := (sum_sub _ _ _ _ _ _ _ _ _ (sum_sub _ _ _ _ _ _ _ _ _ (sum_sub _ _ _ _ _ _ _ _ _ (sum_sub _ _ _ _ _ _ _ _ _ (sum_start _ _ _ _ T0) T1 ltac:(lia)) T2 ltac:(lia)) T3 ltac:(lia)) T4 ltac:(lia))).
  apply (sum_end _ _ _ _ _ _ S); [lia|]. lra.
Qed.
Lemma k31_round i j k l (B11 B12 B16 B26 B66 : f64) : (i < M)%nat -> (j < M)%nat -> (k < M)%nat -> (l < M)%nat -> usual0 B11 -> usual0 B12 -> usual0 B16 -> usual0 B26 -> usual0 B66 ->
  exists x, calc_k31 T a b ((i, j), (k, l)) B11 B12 B16 B26 B66 = Ok x /\ fine x (k31f stored_e ra rb ((i, j), (k, l)) (B2R B11) (B2R B12) (B2R B16) (B2R B26) (B2R B66)) (k31f exact_e ra rb ((i, j), (k, l)) (B2R B11) (B2R B12) (B2R B16) (B2R B26) (B2R B66)) (CB * Rabs (B2R B11) + CB * Rabs (B2R B12) + CB * Rabs (B2R B16) + CB * Rabs (B2R B26) + CB * Rabs (B2R B66)).
Proof.
  intros Hi Hj Hk Hl UB11 UB12 UB16 UB26 UB66. open_reads i j k l Hi Hj Hk Hl. apply usual0_numk in UB11, UB12, UB16, UB26, UB66.
  destruct (c_twice2 b a Ub Ua) as (aa2 & c2baa & Eaa2 & E2baa & N2baa).
  destruct (c_over 2 b eq_refl eq_refl Ub) as (c2b & E2b & N2b).
  destruct (c_twice2 a b Ua Ub) as (bb2 & c2abb & Ebb2 & E2abb & N2abb).
  destruct (c_over 4 b eq_refl eq_refl Ub) as (c4b & E4b & N4b).
  destruct (c_over 2 a eq_refl eq_refl Ua) as (c2a & E2a & N2a).
  run @calc_k31. eexists. split; [reflexivity|].
  assert (M0 := times _ _ _ _ _ _ _ (numk_opp _ _ _ _ N2baa) UB11 ltac:(lra) ltac:(lia)).
  assert (W0 : Rabs (- (2 * rb / ra ^ 2) * B2R B11) * 1 <= CB * Rabs (B2R B11)).
  { wtac. }
  assert (T0 := near_term _ _ _ _ _ _ _ _ _ _ M0 (near1 _ _ _ _ _ _ Vr21 Vq00) ltac:(lia) ltac:(lra) ltac:(lra) ltac:(lra) ltac:(lra) W0).
  assert (M1 := times _ _ _ _ _ _ _ N2b UB12 ltac:(lra) ltac:(lia)).
  assert (W1 : Rabs ((2 / rb) * B2R B12) * 1 <= CB * Rabs (B2R B12)).
  { wtac. }
  assert (T1 := near_term _ _ _ _ _ _ _ _ _ _ M1 (near1 _ _ _ _ _ _ Vr10 Vq20) ltac:(lia) ltac:(lra) ltac:(lra) ltac:(lra) ltac:(lra) W1).
  assert (M2 := times _ _ _ _ _ _ _ N2abb UB26 ltac:(lra) ltac:(lia)).
  assert (W2 : Rabs ((2 * ra / rb ^ 2) * B2R B26) * 1 <= CB * Rabs (B2R B26)).
  { wtac. }
  assert (T2 := near_term _ _ _ _ _ _ _ _ _ _ M2 (near1 _ _ _ _ _ _ Vp00 Vq21) ltac:(lia) ltac:(lra) ltac:(lra) ltac:(lra) ltac:(lra) W2).
  assert (M3 := times _ _ _ _ _ _ _ N4b UB66 ltac:(lra) ltac:(lia)).
  assert (W3 : Rabs ((4 / rb) * B2R B66) * 1 <= CB * Rabs (B2R B66)).
  { wtac. }
  assert (T3 := near_term _ _ _ _ _ _ _ _ _ _ M3 (near1 _ _ _ _ _ _ Vp10 Vq11) ltac:(lia) ltac:(lra) ltac:(lra) ltac:(lra) ltac:(lra) W3).
  assert (M4 := times _ _ _ _ _ _ _ N2a UB16 ltac:(lra) ltac:(lia)).
  assert (W4 : Rabs ((2 / ra) * B2R B16) * 3 <= CB * Rabs (B2R B16)).
  { wtac. }
  assert (T4 := near_term _ _ _ _ _ _ _ _ _ _ M4 (near3 _ _ _ _ _ _ _ _ _ _ _ _ Vp11 Vq10 Vp20 Vs10) ltac:(lia) ltac:(lra) ltac:(lra) ltac:(lra) ltac:(lra) W4).
  assert (S := (sum_sub _ _ _ _ _ _ _ _ _ (sum_sub _ _ _ _ _ _ _ _ _ (sum_sub _ _ _ _ _ _ _ _ _ (sum_sub _ _ _ _ _ _ _ _ _ (sum_start _ _ _ _ T0) T1 ltac:(lia)) T2 ltac:(lia)) T3 ltac:(lia)) T4 ltac:(lia))).
  apply (sum_end _ _ _ _ _ _ S); [lia|]. lra.
Qed.
Lemma k32_round i j k l (B12 B16 B22 B26 B66 : f64) : (i < M)%nat -> (j < M)%nat -> (k < M)%nat -> (l < M)%nat -> usual0 B12 -> usual0 B16 -> usual0 B22 -> usual0 B26 -> usual0 B66 ->
  exists x, calc_k32 T a b ((i, j), (k, l)) B12 B16 B22 B26 B66 = Ok x /\ fine x (k32f stored_e ra rb ((i, j), (k, l)) (B2R B12) (B2R B16) (B2R B22) (B2R B26) (B2R B66)) (k32f exact_e ra rb ((i, j), (k, l)) (B2R B12) (B2R B16) (B2R B22) (B2R B26) (B2R B66)) (CB * Rabs (B2R B12) + CB * Rabs (B2R B16) + CB * Rabs (B2R B22) + CB * Rabs (B2R B26) + CB * Rabs (B2R B66)).
Proof.
  intros Hi Hj Hk Hl UB12 UB16 UB22 UB26 UB66. open_reads i j k l Hi Hj Hk Hl. apply usual0_numk in UB12, UB16, UB22, UB26, UB66.
  destruct (c_over 2 a eq_refl eq_refl Ua) as (c2a & E2a & N2a).
  destruct (c_twice2 a b Ua Ub) as (bb2 & c2abb & Ebb2 & E2abb & N2abb).
  destruct (c_over 4 a eq_refl eq_refl Ua) as (c4a & E4a & N4a).
  destruct (c_over 2 b eq_refl eq_refl Ub) as (c2b & E2b & N2b).
  destruct (c_twice2 b a Ub Ua) as (aa2 & c2baa & Eaa2 & E2baa & N2baa).
  run @calc_k32. eexists. split; [reflexivity|].
  assert (M0 := times _ _ _ _ _ _ _ (numk_opp _ _ _ _ N2a) UB12 ltac:(lra) ltac:(lia)).
  assert (W0 : Rabs (- (2 / ra) * B2R B12) * 1 <= CB * Rabs (B2R B12)).
  { wtac. }
  assert (T0 := near_term _ _ _ _ _ _ _ _ _ _ M0 (near1 _ _ _ _ _ _ Vp20 Vs10) ltac:(lia) ltac:(lra) ltac:(lra) ltac:(lra) ltac:(lra) W0).
  assert (M1 := times _ _ _ _ _ _ _ N2abb UB22 ltac:(lra) ltac:(lia)).
  assert (W1 : Rabs ((2 * ra / rb ^ 2) * B2R B22) * 1 <= CB * Rabs (B2R B22)).
  { wtac. }
  assert (T1 := near_term _ _ _ _ _ _ _ _ _ _ M1 (near1 _ _ _ _ _ _ Vp00 Vq21) ltac:(lia) ltac:(lra) ltac:(lra) ltac:(lra) ltac:(lra) W1).
  assert (M2 := times _ _ _ _ _ _ _ N4a UB66 ltac:(lra) ltac:(lia)).
  assert (W2 : Rabs ((4 / ra) * B2R B66) * 1 <= CB * Rabs (B2R B66)).
  { wtac. }
  assert (T2 := near_term _ _ _ _ _ _ _ _ _ _ M2 (near1 _ _ _ _ _ _ Vp11 Vq10) ltac:(lia) ltac:(lra) ltac:(lra) ltac:(lra) ltac:(lra) W2).
  assert (M3 := times _ _ _ _ _ _ _ N2b UB26 ltac:(lra) ltac:(lia)).
  assert (W3 : Rabs ((2 / rb) * B2R B26) * 3 <= CB * Rabs (B2R B26)).
  { wtac. }
  assert (T3 := near_term _ _ _ _ _ _ _ _ _ _ M3 (near3' _ _ _ _ _ _ _ _ _ _ _ _ Vp10 Vq11 Vr10 Vq20) ltac:(lia) ltac:(lra) ltac:(lra) ltac:(lra) ltac:(lra) W3).
  assert (M4 := times _ _ _ _ _ _ _ N2baa UB16 ltac:(lra) ltac:(lia)).
  assert (W4 : Rabs ((2 * rb / ra ^ 2) * B2R B16) * 1 <= CB * Rabs (B2R B16)).
  { wtac. }
  assert (T4 := near_term _ _ _ _ _ _ _ _ _ _ M4 (near1 _ _ _ _ _ _ Vp21 Vq00) ltac:(lia) ltac:(lra) ltac:(lra) ltac:(lra) ltac:(lra) W4).
  assert (S := (sum_sub _ _ _ _ _ _ _ _ _ (sum_sub _ _ _ _ _ _ _ _ _ (sum_sub _ _ _ _ _ _ _ _ _ (sum_sub _ _ _ _ _ _ _ _ _ (sum_start _ _ _ _ T0) T1 ltac:(lia)) T2 ltac:(lia)) T3 ltac:(lia)) T4 ltac:(lia))).
  apply (sum_end _ _ _ _ _ _ S); [lia|]. lra.
Qed.
End Near.

(** ** stacked blocks *)
Definition pK {A : arith} (E : @entries A) (d e : nat) : num A :=
  match d, e with
  | 0, 0 => n11 E | 0, 1 => n12 E | 0, _ => n13 E
  | 1, 0 => n21 E | 1, 1 => n22 E | 1, _ => n31 E
  | _, 0 => n31 E | _, 1 => n32 E | _, _ => n33 E
  end%nat.
Definition pG {A : arith} (E : @entries A) (d e : nat) : num A := match d, e with 2%nat, 2%nat => n33g E | _, _ => nint A 0 end.
Definition stack {A : arith} (T : list triple) (f : nat -> nat -> triple * triple -> num A) : list (list (num A)) :=
  hstack (rows T (f 0 0)%nat) (rows T (f 0 1)%nat) (rows T (f 0 2)%nat) ++ hstack (rows T (f 1 0)%nat) (rows T (f 1 1)%nat) (rows T (f 1 2)%nat)
  ++ hstack (rows T (f 2 0)%nat) (rows T (f 2 1)%nat) (rows T (f 2 2)%nat).
Lemma stack_square {A : arith} T (f : nat -> nat -> triple * triple -> num A) : square (3 * List.length T) (stack T f).
Proof.
  unfold stack. rewrite !rows_hstack. split.
  - rewrite !app_length, !map_length. lia.
  - apply Forall_app; split; [|apply Forall_app; split]; apply Forall_forall; intros row I; apply in_map_iff in I; destruct I as (p & <- & _); rewrite !app_length, !map_length; lia.
Qed.
Lemma split3 N r : (r < 3 * N)%nat -> exists d r', (d < 3)%nat /\ (r' < N)%nat /\ r = (d * N + r')%nat.
Proof.
  intros H. assert (N <> 0)%nat by lia. exists (r / N)%nat, (r mod N)%nat. split; [apply Nat.div_lt_upper_bound; lia|]. split; [apply Nat.mod_upper_bound; assumption|].
  rewrite (Nat.div_mod_eq r N) at 1. lia.
Qed.
Lemma entry_lt {X} N (K : list (list X)) r s x : square N K -> entry K r s = Some x -> (r < N)%nat /\ (s < N)%nat.
Proof.
  intros [L F] E. unfold entry in E. destruct (nth_error K r) as [row|] eqn:Er; [|discriminate]. rewrite Forall_forall in F. assert (Lr := F row (nth_error_In _ _ Er)).
  split; [rewrite <- L; apply nth_error_Some; congruence|rewrite <- Lr; apply nth_error_Some; congruence].
Qed.
Lemma entry_some {X} N (K : list (list X)) r s : square N K -> (r < N)%nat -> (s < N)%nat -> exists x, entry K r s = Some x.
Proof.
  intros [L F] Hr Hs. unfold entry. destruct (nth_error K r) as [row|] eqn:Er; [|apply nth_error_None in Er; lia]. rewrite Forall_forall in F. assert (Lr := F row (nth_error_In _ _ Er)).
  destruct (nth_error row s) as [x|] eqn:Es; [exists x; reflexivity|apply nth_error_None in Es; lia].
Qed.
Lemma stack_at {A : arith} T (f : nat -> nat -> triple * triple -> num A) r s x : entry (stack T f) r s = Some x ->
  exists d e p q, (d < 3)%nat /\ (e < 3)%nat /\ In p T /\ In q T /\ x = f d e (p, q) /\
    forall (B : arith) (g : nat -> nat -> triple * triple -> num B), entry (stack T g) r s = Some (g d e (p, q)).
Proof.
  intros E. destruct (entry_lt _ _ _ _ _ (stack_square T f) E) as [Lr Ls].
  destruct (split3 _ _ Lr) as (d & r' & Hd & Hr & ->). destruct (split3 _ _ Ls) as (e & s' & He & Hs & ->).
  destruct (nth_error T r') as [p|] eqn:Ep; [|apply nth_error_None in Ep; lia]. destruct (nth_error T s') as [q|] eqn:Eq; [|apply nth_error_None in Eq; lia].
  exists d, e, p, q. split; [exact Hd|]. split; [exact He|]. split; [apply (nth_error_In _ _ Ep)|]. split; [apply (nth_error_In _ _ Eq)|].
  assert (G : forall (B : arith) (g : nat -> nat -> triple * triple -> num B), entry (stack T g) (d * List.length T + r') (e * List.length T + s') = Some (g d e (p, q))).
  { intros B g. apply (entry_blocks T (List.length T) g d e r' s' p q eq_refl Hd He Ep Eq). }
  split; [|exact G]. rewrite G in E. congruence.
Qed.
Lemma stack_within pow T (f : nat -> nat -> triple * triple -> num (FA pow)) (g : nat -> nat -> triple * triple -> num RA) e :
  (forall i j p q, (i < 3)%nat -> (j < 3)%nat -> In p T -> In q T -> Rabs (B2R (f i j (p, q)) - g i j (p, q)) <= e) -> entries_within e (stack T f) (stack T g).
Proof.
  intros H r s x y E1 E2. destruct (stack_at (A := FA pow) _ _ _ _ _ E1) as (d & e' & p & q & Hd & He & Ip & Iq & -> & G). assert (Z : Some y = Some (g d e' (p, q))) by (etransitivity; [symmetry; exact E2|apply (G RA g)]).
  apply (f_equal (fun o => match o with Some z => z | None => 0 end)) in Z. cbv beta iota in Z. subst y. apply H; assumption.
Qed.
Lemma entry_all {X} (P : X -> Prop) (K : list (list X)) : (forall r s x, entry K r s = Some x -> P x) -> Forall (Forall P) K.
Proof.
  intros H. apply Forall_forall. intros row I. apply In_nth_error in I. destruct I as [r Er]. apply Forall_forall. intros x I. apply In_nth_error in I. destruct I as [s Es].
  apply (H r s). unfold entry. rewrite Er. exact Es.
Qed.
Lemma stack_fin pow T (f : nat -> nat -> triple * triple -> num (FA pow)) :
  (forall i j p q, (i < 3)%nat -> (j < 3)%nat -> In p T -> In q T -> is_finite (f i j (p, q)) = true) -> all_finite (stack T f).
Proof.
  intros H. apply entry_all. intros r s x E. destruct (stack_at (A := FA pow) _ _ _ _ _ E) as (d & e' & p & q & Hd & He & Ip & Iq & -> & _). apply H; assumption.
Qed.
Lemma same_abd {A : arith} (t : tables A) M M' : unpack_abd M = unpack_abd M' -> forall a b Nxx Nyy Nxy c m n, calc_K_KG_ABD t M a b Nxx Nyy Nxy c m n = calc_K_KG_ABD t M' a b Nxx Nyy Nxy c m n.
Proof. intros H a b Nxx Nyy Nxy c m n. unfold calc_K_KG_ABD. rewrite H. reflexivity. Qed.
Lemma triple_below c m n idx N : compute_constraints c m n = Ok idx -> (m + 4 <= N)%nat -> (n + 4 <= N)%nat -> forall p, In p (triples idx) -> in3 (fun i => (i < N)%nat) p.
Proof.
  intros E Hm Hn p I. destruct (triples_ok _ _ _ _ E) as (_ & Lu & Lv & Lw). assert (B := idx_all _ _ _ _ E).
  assert (Iu : In (tu p) (su_idx idx)) by (rewrite Lu; apply in_map; exact I). assert (Iv : In (tv p) (sv_idx idx)) by (rewrite Lv; apply in_map; exact I).
  assert (Iw : In (tw p) (sw_idx idx)) by (rewrite Lw; apply in_map; exact I).
  assert (Bu := B _ (or_introl Iu)). assert (Bv := B _ (or_intror (or_introl Iv))). assert (Bw := B _ (or_intror (or_intror Iw))). unfold in3. lia.
Qed.

(** ** one iteration of the loop *)
Section Loop.
Context (pow : f64 -> nat -> res f64) (dec : Z -> Z -> f64) (M : nat -> nat -> f64) (a b Nxx Nyy Nxy : f64) (UI : usual_inputs6 pow dec M a b Nxx Nyy Nxy).
Variables (N : nat) (HN : (N <= 30)%nat).
Notation T := (stored (FA pow) dec).
Let ra := B2R a. Let rb := B2R b. Let Am := block_at M 0 0. Let Bm := block_at M 3 0. Let Dm := block_at M 3 3.
Definition entF (pq : triple * triple) : @entries (FA pow) :=
  match ent_ABD T (unpack_abd (A := FA pow) M) a b Nxx Nyy Nxy pq with Ok x => x | Err _ => Entries (A := FA pow) fzero fzero fzero fzero fzero fzero fzero fzero fzero fzero end.
Definition ok_ent (x : f64) (t t' : R) (B : R -> R) : Prop := is_finite x = true /\ Rabs (B2R x - t) <= B (16 * unit) /\ Rabs (B2R x - t') <= B (tolerance N + 16 * unit).
Notation offK := (fun e => abd_off e M ra rb).
Notation offG := (fun e => kG_off e (B2R Nxx) (B2R Nyy) (B2R Nxy) ra rb).
Lemma sums i j : let s := lower_sum M i j in 0 <= s.
Proof. cbv zeta. unfold lower_sum. repeat apply Rplus_le_le_0_compat; apply Rabs_pos. Qed.
Lemma CAB : 0 <= CA a b /\ 0 <= CB a b.
Proof.
  assert (P := parts a b (u6_a _ _ _ _ _ _ _ _ UI) (u6_b _ _ _ _ _ _ _ _ UI)). fold ra rb in P. unfold CA, CB. fold ra rb. lra.
Qed.
Lemma off_parts e : 0 <= e -> 33 / 10 * e * (CA a b * lower_sum M 0 0) <= abd_off e M ra rb /\ 33 / 10 * e * (CB a b * lower_sum M 3 0) <= abd_off e M ra rb /\ k_off e Dm ra rb <= abd_off e M ra rb.
Proof.
  intros He. assert (P := ab_pos a b (u6_a _ _ _ _ _ _ _ _ UI) (u6_b _ _ _ _ _ _ _ _ UI)). assert (C := CAB). assert (SA := sums 0 0). assert (SB := sums 3 0). cbv zeta in SA, SB.
  assert (K : 0 <= k_off e Dm ra rb) by (apply (off_pos e Dm ra rb 0 0 0); [exact He|apply P|apply P]).
  assert (X : 0 <= 33 / 10 * e * (CA a b * lower_sum M 0 0)) by (apply Rmult_le_pos; [lra|apply Rmult_le_pos; lra]).
  assert (Y : 0 <= 33 / 10 * e * (CB a b * lower_sum M 3 0)) by (apply Rmult_le_pos; [lra|apply Rmult_le_pos; lra]).
  unfold abd_off, CA, CB in *. fold ra rb Dm in X, Y |- *. lra.
Qed.
Lemma errs : 0 <= 16 * unit /\ 0 <= tolerance N + 16 * unit /\ 0 <= tolerance N. Proof. assert (U := unit_val). assert (T0 := tol_small N). lra. Qed.
Lemma fine_A x t t' C : fine N x t t' C -> C <= CA a b * lower_sum M 0 0 -> ok_ent x t t' offK.
Proof.
  intros (F & B1 & B2) L. destruct errs as (E1 & E2 & _). split; [exact F|]. split; [apply Rle_trans with (1 := B1)|apply Rle_trans with (1 := B2)]; [apply Rle_trans with (2 := proj1 (off_parts _ E1))|apply Rle_trans with (2 := proj1 (off_parts _ E2))]; apply Rmult_le_compat_l; lra.
Qed.
Lemma fine_B x t t' C : fine N x t t' C -> C <= CB a b * lower_sum M 3 0 -> ok_ent x t t' offK.
Proof.
  intros (F & B1 & B2) L. destruct errs as (E1 & E2 & _). split; [exact F|]. split; [apply Rle_trans with (1 := B1)|apply Rle_trans with (1 := B2)]; [apply Rle_trans with (2 := proj1 (proj2 (off_parts _ E1)))|apply Rle_trans with (2 := proj1 (proj2 (off_parts _ E2)))]; apply Rmult_le_compat_l; lra.
Qed.
Lemma usual_D : usual_inputs pow dec (fun r s => M (r + 3) (s + 3))%nat a b Nxx Nyy Nxy.
Proof. destruct UI as [HP HD UM Ua Ub U1 U2 U3]. constructor; try assumption. intros i j Hi Hj. apply UM; lia. Qed.
Lemma loop_ok p q : in3 (fun i => (i < N)%nat) p -> in3 (fun i => (i < N)%nat) q ->
  let s := ent_f stored_e Am Bm Dm ra rb (B2R Nxx) (B2R Nyy) (B2R Nxy) (p, q) in let x := ent_f exact_e Am Bm Dm ra rb (B2R Nxx) (B2R Nyy) (B2R Nxy) (p, q) in
  ent_ABD T (unpack_abd (A := FA pow) M) a b Nxx Nyy Nxy (p, q) = Ok (entF (p, q)) /\
  (forall d e, (d < 3)%nat -> (e < 3)%nat -> ok_ent (pK (entF (p, q)) d e) (pK s d e) (pK x d e) offK) /\
  (forall d e, (d < 3)%nat -> (e < 3)%nat -> ok_ent (pG (entF (p, q)) d e) (pG s d e) (pG x d e) offG).
Proof.
  intros I J. assert (UD := usual_D). assert (Pab := ab_pos a b (u6_a _ _ _ _ _ _ _ _ UI) (u6_b _ _ _ _ _ _ _ _ UI)). fold ra rb in Pab. assert (SC := CAB). assert (EE := errs).
  destruct UI as [HP HD UM Ua Ub U1 U2 U3].
  destruct p as [[pui puj] [[pvi pvj] [pwi pwj]]], q as [[qui quj] [[qvi qvj] [qwi qwj]]]. unfold in3, tu, tv, tw in I, J. cbn [fst snd] in I, J.
  destruct I as (I1 & I2 & I3 & I4 & I5 & I6), J as (J1 & J2 & J3 & J4 & J5 & J6).
  destruct (k11_round N HN pow dec HD a b Ua Ub pui puj qui quj (M 0 0)%nat (M 2 0)%nat (M 2 2)%nat) as (x11 & E11 & F11); try assumption; try (apply UM; lia).
  destruct (k12_round N HN pow dec HD a b Ua Ub pui puj qvi qvj (M 1 0)%nat (M 2 0)%nat (M 2 1)%nat (M 2 2)%nat) as (x12 & E12 & F12); try assumption; try (apply UM; lia).
  destruct (k13_round N HN pow dec HP HD a b Ua Ub pui puj qwi qwj (M 3 0)%nat (M 4 0)%nat (M 5 0)%nat (M 5 1)%nat (M 5 2)%nat) as (x13 & E13 & F13); try assumption; try (apply UM; lia).
  destruct (k21_round N HN pow dec HD a b Ua Ub pvi pvj qui quj (M 1 0)%nat (M 2 0)%nat (M 2 1)%nat (M 2 2)%nat) as (x21 & E21 & F21); try assumption; try (apply UM; lia).
  destruct (k22_round N HN pow dec HD a b Ua Ub pvi pvj qvi qvj (M 1 1)%nat (M 2 1)%nat (M 2 2)%nat) as (x22 & E22 & F22); try assumption; try (apply UM; lia).
  destruct (k23_round N HN pow dec HP HD a b Ua Ub pvi pvj qwi qwj (M 4 0)%nat (M 5 0)%nat (M 4 1)%nat (M 5 1)%nat (M 5 2)%nat) as (x23 & E23 & F23); try assumption; try (apply UM; lia).
  destruct (k31_round N HN pow dec HP HD a b Ua Ub pwi pwj qui quj (M 3 0)%nat (M 4 0)%nat (M 5 0)%nat (M 5 1)%nat (M 5 2)%nat) as (x31 & E31 & F31); try assumption; try (apply UM; lia).
  destruct (k32_round N HN pow dec HP HD a b Ua Ub pwi pwj qvi qvj (M 4 0)%nat (M 5 0)%nat (M 4 1)%nat (M 5 1)%nat (M 5 2)%nat) as (x32 & E32 & F32); try assumption; try (apply UM; lia).
  destruct (kf_ok pow dec _ a b Nxx Nyy Nxy UD pwi pwj qwi qwj) as (E33 & F33 & B33); try lia.
  destruct (gf_ok pow dec _ a b Nxx Nyy Nxy UD pwi pwj qwi qwj) as (EG & FG & BG); try lia.
  assert (T33 := k33_off N HN Dm ra rb pwi pwj qwi qwj (proj1 Pab) (proj2 Pab) I5 I6 J5 J6). assert (TG := kG_offs N HN ra rb (B2R Nxx) (B2R Nyy) (B2R Nxy) pwi pwj qwi qwj (proj1 Pab) (proj2 Pab) I5 I6 J5 J6).
  cbn [Nat.add] in E33.
  assert (EQ : ent_ABD T (unpack_abd (A := FA pow) M) a b Nxx Nyy Nxy ((pui, puj, ((pvi, pvj), (pwi, pwj))), (qui, quj, ((qvi, qvj), (qwi, qwj)))) =
    Ok (Entries (A := FA pow) x11 x12 x13 x21 x22 x23 x31 x32 (kf pow dec (fun r s => M (r + 3) (s + 3))%nat a b ((pwi, pwj), (qwi, qwj))) (gf pow dec a b Nxx Nyy Nxy ((pwi, pwj), (qwi, qwj))))).
  { unfold ent_ABD, loop_ABD, tu, tv, tw. cbn [fst snd unpack_abd cA11 cA12 cA16 cA22 cA26 cA66 cB11 cB12 cB16 cB22 cB26 cB66 cD11 cD12 cD16 cD22 cD26 cD66].
    rewrite E11. cbn [bind]. rewrite E12. cbn [bind]. rewrite E13. cbn [bind]. rewrite E21. cbn [bind]. rewrite E22. cbn [bind]. rewrite E23. cbn [bind]. rewrite E31. cbn [bind]. rewrite E32. cbn [bind].
    change (plus 3 0) with 3%nat in E33. rewrite E33. cbn [bind]. rewrite EG. reflexivity. }
  cbv zeta. unfold entF. rewrite EQ. split; [reflexivity|].
    assert (PA : forall i j, 0 <= CA a b * Rabs (B2R (M i j))) by (intros; apply Rmult_le_pos; [apply SC|apply Rabs_pos]).
  assert (PB : forall i j, 0 <= CB a b * Rabs (B2R (M i j))) by (intros; apply Rmult_le_pos; [apply SC|apply Rabs_pos]).
  assert (DA : CA a b * lower_sum M 0 0 = CA a b * Rabs (B2R (M 0 0)%nat) + CA a b * Rabs (B2R (M 1 0)%nat) + CA a b * Rabs (B2R (M 2 0)%nat) + CA a b * Rabs (B2R (M 1 1)%nat) + CA a b * Rabs (B2R (M 2 1)%nat) + CA a b * Rabs (B2R (M 2 2)%nat)) by (unfold lower_sum; cbn [Nat.add]; ring).
  assert (DB : CB a b * lower_sum M 3 0 = CB a b * Rabs (B2R (M 3 0)%nat) + CB a b * Rabs (B2R (M 4 0)%nat) + CB a b * Rabs (B2R (M 5 0)%nat) + CB a b * Rabs (B2R (M 4 1)%nat) + CB a b * Rabs (B2R (M 5 1)%nat) + CB a b * Rabs (B2R (M 5 2)%nat)) by (unfold lower_sum; cbn [Nat.add]; ring).
  assert (Q0 := PA 0%nat 0%nat). assert (Q1 := PA 1%nat 0%nat). assert (Q2 := PA 2%nat 0%nat). assert (Q3 := PA 1%nat 1%nat). assert (Q4 := PA 2%nat 1%nat). assert (Q5 := PA 2%nat 2%nat).
  assert (R0 := PB 3%nat 0%nat). assert (R1 := PB 4%nat 0%nat). assert (R2 := PB 5%nat 0%nat). assert (R3 := PB 4%nat 1%nat). assert (R4 := PB 5%nat 1%nat). assert (R5 := PB 5%nat 2%nat).
  assert (O11 := fine_A _ _ _ _ F11 ltac:(lra)). assert (O12 := fine_A _ _ _ _ F12 ltac:(lra)). assert (O21 := fine_A _ _ _ _ F21 ltac:(lra)). assert (O22 := fine_A _ _ _ _ F22 ltac:(lra)).
  assert (O13 := fine_B _ _ _ _ F13 ltac:(lra)). assert (O31 := fine_B _ _ _ _ F31 ltac:(lra)). assert (O32 := fine_B _ _ _ _ F32 ltac:(lra)).
  assert (O33 : ok_ent (kf pow dec (fun r s => M (r + 3) (s + 3))%nat a b ((pwi, pwj), (qwi, qwj))) (kx Dm ra rb stored_e ((pwi, pwj), (qwi, qwj))) (kx Dm ra rb exact_e ((pwi, pwj), (qwi, qwj))) offK).
  { change (numbers (fun r s => M (r + 3) (s + 3))%nat) with Dm in B33. split; [exact F33|]. fold ra rb in B33. split; [apply Rle_trans with (1 := B33); apply (proj2 (proj2 (off_parts _ (proj1 EE))))|]. apply Rle_trans with (2 := proj2 (proj2 (off_parts _ (proj1 (proj2 EE))))). rewrite k_off_add, Rplus_comm.
    eapply Rle_trans; [|apply Rplus_le_compat; [exact B33|exact T33]]. eapply Rle_trans; [|apply Rabs_triang]. apply Req_le. f_equal. ring. }
  assert (OG : ok_ent (gf pow dec a b Nxx Nyy Nxy ((pwi, pwj), (qwi, qwj))) (kGf stored_e ra rb ((pwi, pwj), (qwi, qwj)) (B2R Nxx) (B2R Nyy) (B2R Nxy)) (kGf exact_e ra rb ((pwi, pwj), (qwi, qwj)) (B2R Nxx) (B2R Nyy) (B2R Nxy)) offG).
  { split; [exact FG|]. fold ra rb in BG. split; [exact BG|]. rewrite kG_off_add, Rplus_comm.
    eapply Rle_trans; [|apply Rplus_le_compat; [exact BG|exact TG]]. eapply Rle_trans; [|apply Rabs_triang]. apply Req_le. f_equal. ring. }
  assert (OZ : ok_ent (f_of_Z 0) 0 0 offG).
  { assert (Z := f_small 0 eq_refl). split; [apply Z|]. rewrite (proj2 Z), Rminus_0_r, Rabs_R0.
    split; apply (off_pos _ Dm ra rb (B2R Nxx) (B2R Nyy) (B2R Nxy)); first [apply EE|apply Pab]. }
  split; intros d e Hd He.
  - destruct d as [|[|[|d]]]; [| | |lia]; (destruct e as [|[|[|e]]]; [| | |lia]); first [exact O11|exact O12|exact O13|exact O21|exact O22|exact O31|exact O32|exact O33].
  - destruct d as [|[|[|d]]]; [| | |lia]; (destruct e as [|[|[|e]]]; [| | |lia]); first [exact OZ|exact OG].
Qed.
End Loop.

Lemma pos_ab x : usual x -> 0 < B2R x. Proof. intros U. apply (usual_numk x U). Qed.
Lemma names6 M : unpack_abd (A := RA) (numbers6 M) = unpack_abd (arr6 (block_at M 0 0) (block_at M 3 0) (block_at M 3 3)). Proof. reflexivity. Qed.
Lemma good_below N : (N <= 30)%nat -> good (fun i => (i < N)%nat) stored_R stored_e.
Proof. intros H i k Hi Hk. apply stored_good; lia. Qed.

(*@ C100: for lengths, stiffnesses and loads of usual size the coupled assembly in binary64 succeeds for every accepted form of the edges with at most
    26 functions a side; every entry is finite, both matrices are square with three blocks a side, and each entry is within 16 units of the same entry
    computed without rounding from the stored integrals, and within tolerance plus 16 units of the one with exact integrals, counted in the weights of
    abd_off and kG_off. @*)
Lemma t_C100_rounding : forall pow dec M a b Nxx Nyy Nxy c m n N idx, usual_inputs6 pow dec M a b Nxx Nyy Nxy -> compute_constraints c m n = Ok idx ->
  (N <= 30)%nat -> (m + 4 <= N)%nat -> (n + 4 <= N)%nat ->
  let ra := B2R a in let rb := B2R b in let lx := B2R Nxx in let ly := B2R Nyy in let lxy := B2R Nxy in let e := 16 * unit in let e' := tolerance N + 16 * unit in
  exists (K KG : list (list f64)) (Ks KGs Kx KGx : list (list R)),
    calc_K_KG_ABD (stored (FA pow) dec) M a b Nxx Nyy Nxy c m n = Ok (K, KG) /\ all_finite K /\ all_finite KG /\ square (3 * (m * n)) K /\ square (3 * (m * n)) KG /\
    calc_K_KG_ABD stored_R (numbers6 M) ra rb lx ly lxy c m n = Ok (Ks, KGs) /\ square (3 * (m * n)) Ks /\ square (3 * (m * n)) KGs /\
    entries_within (abd_off e M ra rb) K Ks /\ entries_within (kG_off e lx ly lxy ra rb) KG KGs /\
    calc_K_KG_ABD exact_tables (numbers6 M) ra rb lx ly lxy c m n = Ok (Kx, KGx) /\ square (3 * (m * n)) Kx /\ square (3 * (m * n)) KGx /\
    entries_within (abd_off e' M ra rb) K Kx /\ entries_within (kG_off e' lx ly lxy ra rb) KG KGx.
Proof.
  intros pow dec M a b Nxx Nyy Nxy c m n N idx UI E HN Hm Hn ra rb lx ly lxy e e'.
  assert (Pa : 0 < ra) by apply (pos_ab a (u6_a _ _ _ _ _ _ _ _ UI)). assert (Pb : 0 < rb) by apply (pos_ab b (u6_b _ _ _ _ _ _ _ _ UI)).
  assert (B := triple_below c m n idx N E Hm Hn). destruct (triples_ok _ _ _ _ E) as (L & _).
  set (T := triples idx) in *. set (eF := entF pow dec M a b Nxx Nyy Nxy). set (eS := ent_f stored_e (block_at M 0 0) (block_at M 3 0) (block_at M 3 3) ra rb lx ly lxy). set (eX := ent_f exact_e (block_at M 0 0) (block_at M 3 0) (block_at M 3 3) ra rb lx ly lxy).
  assert (LO := fun p q Ip Iq => loop_ok pow dec M a b Nxx Nyy Nxy UI N HN p q (B p Ip) (B q Iq)). cbv zeta in LO. fold eF in LO.
  exists (stack (A := FA pow) T (fun d e pq => pK (eF pq) d e)), (stack (A := FA pow) T (fun d e pq => pG (eF pq) d e)),
    (stack (A := RA) T (fun d e pq => pK (eS pq) d e)), (stack (A := RA) T (fun d e pq => pG (eS pq) d e)),
    (stack (A := RA) T (fun d e pq => pK (eX pq) d e)), (stack (A := RA) T (fun d e pq => pG (eX pq) d e)).
  rewrite <- L. 
  split. { apply (K_ABD_ok (stored (FA pow) dec) M a b Nxx Nyy Nxy c m n idx eF E). intros p q Ip Iq. apply (LO p q Ip Iq). }
  split. { apply (stack_fin pow). intros i j p q Hi Hj Ip Iq. apply (proj1 (proj2 (LO p q Ip Iq))); assumption. }
  split. { apply (stack_fin pow). intros i j p q Hi Hj Ip Iq. apply (proj2 (proj2 (LO p q Ip Iq))); assumption. }
  split; [apply (stack_square (A := FA pow))|]. split; [apply (stack_square (A := FA pow))|].
  split. { rewrite (same_abd stored_R _ _ (names6 M)). apply (K_ABD_ok stored_R _ ra rb lx ly lxy c m n idx eS E). intros p q Ip Iq. apply (ent_ok _ stored_R stored_e (good_below N HN)); [lra|lra|apply B, Ip|apply B, Iq]. }
  split; [apply (stack_square (A := RA))|]. split; [apply (stack_square (A := RA))|].
  split. { apply (stack_within pow). intros i j p q Hi Hj Ip Iq. apply (proj1 (proj2 (LO p q Ip Iq)) i j Hi Hj). }
  split. { apply (stack_within pow). intros i j p q Hi Hj Ip Iq. apply (proj2 (proj2 (LO p q Ip Iq)) i j Hi Hj). }
  split. { rewrite (same_abd exact_tables _ _ (names6 M)). apply (K_ABD_ok exact_tables _ ra rb lx ly lxy c m n idx eX E). intros p q Ip Iq. apply (ent_ok _ exact_tables exact_e exact_good); [lra|lra|repeat split|repeat split]. }
  split; [apply (stack_square (A := RA))|]. split; [apply (stack_square (A := RA))|].
  split. { apply (stack_within pow). intros i j p q Hi Hj Ip Iq. apply (proj1 (proj2 (LO p q Ip Iq)) i j Hi Hj). }
  apply (stack_within pow). intros i j p q Hi Hj Ip Iq. apply (proj2 (proj2 (LO p q Ip Iq)) i j Hi Hj).
Qed.

(*@ C100: for laminates with symmetric blocks, the blocks uv, vv, wv and ww of the matrix in binary64 are the coupled energies of the two displacements
    up to abd_off, the block ww of the second is the work of the loads up to kG_off, and its other blocks are zero. @*)
Lemma t_C100_energy : forall pow dec M a b Nxx Nyy Nxy c m n N idx, usual_inputs6 pow dec M a b Nxx Nyy Nxy -> compute_constraints c m n = Ok idx ->
  (N <= 30)%nat -> (m + 4 <= N)%nat -> (n + 4 <= N)%nat ->
  let A := block_at M 0 0 in let B := block_at M 3 0 in let D := block_at M 3 3 in symmetric A -> symmetric B -> symmetric D ->
  let ra := B2R a in let rb := B2R b in let lx := B2R Nxx in let ly := B2R Nyy in let lxy := B2R Nxy in let e := tolerance N + 16 * unit in
  exists K KG : list (list f64), calc_K_KG_ABD (stored (FA pow) dec) M a b Nxx Nyy Nxy c m n = Ok (K, KG) /\
  forall r s pu pv pw qu qv qw,
    nth_error (su_idx idx) r = Some pu -> nth_error (sv_idx idx) r = Some pv -> nth_error (sw_idx idx) r = Some pw ->
    nth_error (su_idx idx) s = Some qu -> nth_error (sv_idx idx) s = Some qv -> nth_error (sw_idx idx) s = Some qw ->
    let at_block (P : list (list f64)) d e := entry P (d * (m * n) + r) (e * (m * n) + s) in
    let energy d e p q := coupled A B D ra rb (move d (shape_of ra rb p)) (move e (shape_of ra rb q)) in
    exists x01 x11 x21 x22 g, at_block K 0%nat 1%nat = Some x01 /\ at_block K 1%nat 1%nat = Some x11 /\ at_block K 2%nat 1%nat = Some x21 /\ at_block K 2%nat 2%nat = Some x22 /\
    at_block KG 2%nat 2%nat = Some g /\
    Rabs (B2R x01 - energy 0%nat 1%nat pu qv) <= abd_off e M ra rb /\ Rabs (B2R x11 - energy 1%nat 1%nat pv qv) <= abd_off e M ra rb /\
    Rabs (B2R x21 - energy 2%nat 1%nat pw qv) <= abd_off e M ra rb /\ Rabs (B2R x22 - energy 2%nat 2%nat pw qw) <= abd_off e M ra rb /\
    Rabs (B2R g - load_work lx ly lxy ra rb (shape_of ra rb pw) (shape_of ra rb qw)) <= kG_off e lx ly lxy ra rb /\
    (forall d e, (d < 3)%nat -> (e < 3)%nat -> (d, e) <> (2, 2)%nat -> exists z, at_block KG d e = Some z /\ is_zero z).
Proof.
  intros pow dec M a b Nxx Nyy Nxy c m n N idx UI E HN Hm Hn A B D SA SB SD ra rb lx ly lxy e.
  assert (Pa : 0 < ra) by apply (pos_ab a (u6_a _ _ _ _ _ _ _ _ UI)). assert (Pb : 0 < rb) by apply (pos_ab b (u6_b _ _ _ _ _ _ _ _ UI)).
  destruct (t_C100_rounding pow dec M a b Nxx Nyy Nxy c m n N idx UI E HN Hm Hn) as (K & KG & Ks & KGs & Kx & KGx & EK & _ & _ & S1 & S2 & _ & _ & _ & _ & _ & EX & Q1 & Q2 & W1 & W2).
  destruct (t_C40_right_blocks A B D ra rb lx ly lxy c m n idx ltac:(lra) ltac:(lra) SA SB SD E) as (K' & KG' & EX' & _ & _ & H).
  rewrite <- (same_abd exact_tables _ _ (names6 M)) in EX'. fold lx ly lxy ra rb in EX. rewrite EX in EX'. apply Ok_inj, pair_equal_spec in EX'. destruct EX' as [<- <-].
  exists K, KG. split; [exact EK|]. intros r s pu pv pw qu qv qw R1 R2 R3 R4 R5 R6 at_block energy.
  destruct (H r s pu pv pw qu qv qw R1 R2 R3 R4 R5 R6) as (H01 & H11 & H21 & H22 & HG & _). clear H. cbv zeta in H01, H11, H21, H22, HG.
  assert (Lr : (r < m * n)%nat). { rewrite <- (proj1 (compute_struct _ _ _ _ E)). apply nth_error_Some. congruence. }
  assert (Ls : (s < m * n)%nat). { rewrite <- (proj1 (compute_struct _ _ _ _ E)). apply nth_error_Some. congruence. }
  assert (X : forall (P : list (list f64)) d e, square (3 * (m * n)) P -> (d < 3)%nat -> (e < 3)%nat -> exists x, at_block P d e = Some x).
  { intros P d e0 SP Hd He. unfold at_block. apply (entry_some _ _ _ _ SP); destruct d as [|[|[|d]]], e0 as [|[|[|e0]]]; lia. }
  destruct (X K 0%nat 1%nat S1 ltac:(lia) ltac:(lia)) as (x01 & X01). destruct (X K 1%nat 1%nat S1 ltac:(lia) ltac:(lia)) as (x11 & X11).
  destruct (X K 2%nat 1%nat S1 ltac:(lia) ltac:(lia)) as (x21 & X21). destruct (X K 2%nat 2%nat S1 ltac:(lia) ltac:(lia)) as (x22 & X22). destruct (X KG 2%nat 2%nat S2 ltac:(lia) ltac:(lia)) as (g & XG).
  exists x01, x11, x21, x22, g. repeat (split; [assumption|]).
  split; [apply (W1 _ _ _ _ X01 H01)|]. split; [apply (W1 _ _ _ _ X11 H11)|]. split; [apply (W1 _ _ _ _ X21 H21)|]. split; [apply (W1 _ _ _ _ X22 H22)|]. split; [apply (W2 _ _ _ _ XG HG)|].
  intros d e0 Hd He ND. assert (Bl := triple_below c m n idx N E Hm Hn).
  assert (EK' := K_ABD_ok (stored (FA pow) dec) M a b Nxx Nyy Nxy c m n idx (entF pow dec M a b Nxx Nyy Nxy) E (fun p q Ip Iq => proj1 (loop_ok pow dec M a b Nxx Nyy Nxy UI N HN p q (Bl p Ip) (Bl q Iq)))).
  cbv zeta in EK'. assert (EK2 := eq_trans (eq_sym EK) EK'). apply Ok_inj, pair_equal_spec in EK2. destruct EK2 as [_ EG].
  assert (Tr := triple_at _ _ _ _ _ R1 R2 R3). assert (Ts := triple_at _ _ _ _ _ R4 R5 R6). destruct (triples_ok _ _ _ _ E) as (L & _).
  exists (f_of_Z 0). split; [|destruct (f_small 0 eq_refl) as [F0 E0]; split; assumption].
  unfold at_block. rewrite EG.
  assert (Z := entry_blocks (A := FA pow) (triples idx) (m * n) (fun d e pq => pG (entF pow dec M a b Nxx Nyy Nxy pq) d e) d e0 r s _ _ L Hd He Tr Ts).
  etransitivity; [exact Z|]. destruct d as [|[|[|d]]], e0 as [|[|[|e0]]]; try lia; try reflexivity. contradiction ND. reflexivity.
Qed.

(** ** an example: unit blocks, with coupling *)
(*@ C100: the hypotheses are met, with accurate powers and literals that exist: a 2 by 2 plate pinned on all edges, all three blocks the identity. @*)
Example t_C100_ex : exists pow dec, usual_inputs6 pow dec (fun i j => fid (i mod 3) (j mod 3)) (f_of_Z 2) (f_of_Z 2) (f_of_Z (-8)) fzero fzero /\
  (exists idx, compute_constraints (CStr "PINNED") 2 2 = Ok idx) /\ (2 + 4 <= 10)%nat /\
  block_at (fun i j => fid (i mod 3) (j mod 3)) 0 0 = mid /\ block_at (fun i j => fid (i mod 3) (j mod 3)) 3 0 = mid /\ block_at (fun i j => fid (i mod 3) (j mod 3)) 3 3 = mid /\ symmetric mid /\
  abd_off (tolerance 10 + 16 * unit) (fun i j => fid (i mod 3) (j mod 3)) 2 2 <= 7 / 10000000000000.
Proof.
  destruct t_C77_ex as (pow & dec & HP & HD & UI & _). exists pow, dec.
  split.
  { destruct UI as [_ _ UD Ua Ub U1 U2 U3]. constructor; try assumption. intros i j Hi Hj. apply UD; apply Nat.mod_upper_bound; lia. }
  split; [eexists; reflexivity|]. split; [lia|].
  assert (Z : forall i j, (i = 0 \/ i = 3)%nat -> (j = 0 \/ j = 3)%nat -> block_at (fun i j => fid (i mod 3) (j mod 3)) i j = mid).
  { intros i j [-> | ->] [-> | ->]; exact fid_numbers. }
  split; [apply Z; lia|]. split; [apply Z; lia|]. split; [apply Z; lia|]. split; [reflexivity|].
  unfold abd_off. rewrite (Z 3%nat 3%nat) by lia.
  assert (LS : forall i, (i = 0 \/ i = 3)%nat -> lower_sum (fun i j => fid (i mod 3) (j mod 3)) i 0 = 3).
  { intros i [-> | ->]; unfold lower_sum; cbn -[f_of_Z]; rewrite (proj2 (f_small 1 eq_refl)), Rabs_R1, Rabs_R0; lra. }
  rewrite !LS by lia. unfold k_off, mid. cbn [a11 a21 a22 a31 a32 a33]. rewrite Rabs_R0, Rabs_R1. assert (T : tolerance 10 = 1 / 1000000000000000) by reflexivity. rewrite T. unfold unit. lra.
Qed.
