(** Error of evaluating the stored polynomials in binary64. *)
From Coq Require Import Reals ZArith QArith Qreals Lra Lia Bool String.
From Flocq Require Import Core.Core IEEE754.BinarySingleNaN.
From Coq Require Import List.
From Verif Require Import M_Py M_K M_Tables M_Shape M_Expr M_Float M_FloatArith M_RealArith S_Mat S_Validate S_Round S_Bardell S_PlotFloat L_Poly L_Parse L_Shape L_Float L_Round L_RoundTab.
Import ListNotations.
Open Scope R_scope.

(** a double and a number: the number is at most M in magnitude and the double within k units of M *)
Definition near (M k : R) (f : f64) (v : R) : Prop := fin f /\ Rabs v <= M /\ Rabs (B2R f - v) <= k * unit * M.
Definition rangeM (M : R) : Prop := bp (-200) <= M <= bp 200.
Lemma tiny_unit M : bp (-200) <= M -> bp (-1000) <= / 1000 * unit * M.
Proof.
  intros H. apply Rle_trans with (bp (-10) * bp (-53) * bp (-200)).
  - rewrite <- !bpow_plus. apply bpow_le. lia.
  - rewrite unit_bp. apply Rmult_le_compat; [apply Rmult_le_pos; apply bpow_ge_0|apply bpow_ge_0| |exact H].
    apply Rmult_le_compat_r; [apply bpow_ge_0|]. change (bp (-10)) with (/ 1024). lra.
Qed.
Lemma near_val M k f v : near M k f v -> 0 <= k <= 100 -> 0 <= M -> Rabs (B2R f) <= 1001 / 1000 * M.
Proof.
  intros (F & B & E) K P. assert (u := unit_val). replace (B2R f) with (v + (B2R f - v)) by ring. eapply Rle_trans; [apply Rabs_triang|].
  assert (k * unit * M <= / 1000 * M) by (apply Rmult_le_compat_r; nra). lra.
Qed.
Lemma near_weak M k k' f v : near M k f v -> k <= k' -> 0 <= M -> near M k' f v.
Proof.
  intros (F & B & E) K P. assert (u := unit_val). split; [exact F|]. split; [exact B|]. eapply Rle_trans; [exact E|]. apply Rmult_le_compat_r; [exact P|]. apply Rmult_le_compat_r; lra.
Qed.
Lemma near_opp M k f v : near M k f v -> near M k (fopp f) (- v).
Proof.
  intros (F & B & E). split; [unfold fopp; rewrite is_finite_Bopp; exact F|]. unfold fopp. rewrite B2R_Bopp, Rabs_Ropp. split; [exact B|].
  replace (- B2R f - - v) with (- (B2R f - v)) by ring. rewrite Rabs_Ropp. exact E.
Qed.
(** one rounding of a number close to v *)
Lemma near_round M k f z v : 0 <= k <= 300 -> rangeM M -> fin f -> B2R f = rnd64 z -> Rabs v <= M -> Rabs (z - v) <= k * unit * M -> near M (k + 101 / 100) f v.
Proof.
  intros K [Ml Mh] F E B D. assert (u := unit_val). assert (M0 : 0 < M) by (apply Rlt_le_trans with (2 := Ml); apply bpow_gt_0). split; [exact F|]. split; [exact B|].
  destruct (rnd_err z) as (d & h & Hd & Hh & R0). rewrite E, R0. replace (z * (1 + d) + h - v) with ((z - v) + z * d + h) by ring.
  eapply Rle_trans; [apply Rabs_triang|]. eapply Rle_trans; [apply Rplus_le_compat_r, Rabs_triang|]. rewrite Rabs_mult.
  assert (Z : Rabs z <= M * (1 + k * unit)). { replace z with (v + (z - v)) by ring. eapply Rle_trans; [apply Rabs_triang|]. lra. }
  assert (T := tiny_unit M Ml). assert (bp (-1075) <= bp (-1000)) by (apply bpow_le; lia).
  assert (Zd : Rabs z * Rabs d <= M * (1 + k * unit) * unit) by (apply Rmult_le_compat; [apply Rabs_pos|apply Rabs_pos|exact Z|exact Hd]).
  assert (ku : k * unit <= / 1000) by nra.
  assert (M * (1 + k * unit) * unit <= (1 + / 1000) * unit * M). { replace (M * (1 + k * unit) * unit) with ((1 + k * unit) * (unit * M)) by ring. replace ((1 + / 1000) * unit * M) with ((1 + / 1000) * (unit * M)) by ring. apply Rmult_le_compat_r; [apply Rmult_le_pos; lra|lra]. }
  assert (0 <= unit * M) by (apply Rmult_le_pos; lra). nra.
Qed.
Lemma big_enough M c : rangeM M -> 0 <= c <= 1000 -> c * M <= bp 1023.
Proof.
  intros [_ H] C. apply Rle_trans with (bp 10 * bp 200); [|rewrite <- bpow_plus; apply bpow_le; lia].
  apply Rle_trans with (c * bp 200); [apply Rmult_le_compat_l; lra|]. apply Rmult_le_compat_r; [apply bpow_ge_0|change (bp 10) with 1024; lra].
Qed.
Lemma rangeM_pos M : rangeM M -> 0 < M. Proof. intros [H _]. apply Rlt_le_trans with (2 := H). apply bpow_gt_0. Qed.
Lemma prod_diff M N p q x y v w : 0 <= p <= 100 -> 0 <= q <= 100 -> 0 <= M -> 0 <= N -> Rabs v <= M -> Rabs w <= N -> Rabs (x - v) <= p * unit * M -> Rabs (y - w) <= q * unit * N ->
  Rabs (x * y - v * w) <= (p + q + / 1000) * unit * (M * N).
Proof.
  intros P Q M0 N0 V W X Y. assert (u := unit_val). replace (x * y - v * w) with ((x - v) * w + v * (y - w) + (x - v) * (y - w)) by ring.
  eapply Rle_trans; [apply Rabs_triang|]. eapply Rle_trans; [apply Rplus_le_compat_r, Rabs_triang|]. rewrite !Rabs_mult.
  assert (A1 : Rabs (x - v) * Rabs w <= p * unit * M * N) by (apply Rmult_le_compat; try apply Rabs_pos; assumption).
  assert (A2 : Rabs v * Rabs (y - w) <= M * (q * unit * N)) by (apply Rmult_le_compat; try apply Rabs_pos; assumption).
  assert (A3 : Rabs (x - v) * Rabs (y - w) <= p * unit * M * (q * unit * N)) by (apply Rmult_le_compat; try apply Rabs_pos; assumption).
  assert (MN : 0 <= unit * (M * N)) by (repeat apply Rmult_le_pos; lra).
  assert (pq : p * q <= 10000) by nra. assert (pqu : p * q * unit <= / 1000). { apply Rle_trans with (10000 * unit); [apply Rmult_le_compat_r; lra|lra]. }
  assert (p * q * unit * (unit * (M * N)) <= / 1000 * (unit * (M * N))) by (apply Rmult_le_compat_r; assumption). nra.
Qed.
Lemma near_mul M N p q f g v w : near M p f v -> near N q g w -> 0 <= p <= 100 -> 0 <= q <= 100 -> 0 <= M -> 0 <= N -> rangeM (M * N) -> near (M * N) (p + q + 102 / 100) (fmul f g) (v * w).
Proof.
  intros A B P Q M0 N0 R0. assert (u := unit_val). assert (VA := near_val _ _ _ _ A P M0). assert (VB := near_val _ _ _ _ B Q N0). destruct A as (FA & BA & EA), B as (FB & BB & EB).
  assert (MN := rangeM_pos _ R0).
  destruct (mul_rnd f g FA FB) as [F E].
  { rewrite Rabs_mult. apply Rle_trans with (1001 / 1000 * M * (1001 / 1000 * N)); [apply Rmult_le_compat; try apply Rabs_pos; assumption|].
    replace (1001 / 1000 * M * (1001 / 1000 * N)) with (1001 / 1000 * (1001 / 1000) * (M * N)) by ring. apply big_enough; [exact R0|lra]. }
  eapply near_weak; [apply (near_round (M * N) (p + q + / 1000) (fmul f g) (B2R f * B2R g) (v * w)); [lra|exact R0|exact F|exact E| |]|lra|lra].
  - rewrite Rabs_mult. apply Rmult_le_compat; try apply Rabs_pos; assumption.
  - apply prod_diff; assumption.
Qed.
Lemma near_div M p f v d : near M p f v -> 0 <= p <= 100 -> small d = true -> (0 < d)%Z -> rangeM (M / IZR d) -> near (M / IZR d) (p + 102 / 100) (fdiv f (f_of_Z d)) (v / IZR d) /\ feq (f_of_Z d) fzero = false.
Proof.
  intros A P Sd Pd R0. assert (u := unit_val). destruct (small_exact d Sd) as [Fd Ed]. assert (D1 : 1 <= IZR d) by (apply IZR_le; lia).
  assert (Mp := rangeM_pos _ R0). assert (I : 0 < / IZR d) by (apply Rinv_0_lt_compat; lra).
  assert (M0 : 0 < M). { unfold Rdiv in Mp. apply (Rmult_lt_reg_r (/ IZR d)); [exact I|]. rewrite Rmult_0_l. exact Mp. }
  assert (VA := near_val _ _ _ _ A P ltac:(lra)). destruct A as (FA & BA & EA).
  assert (N0 : B2R (f_of_Z d) <> 0) by (rewrite Ed; lra). split; [|apply feq_zero; assumption].
  assert (AD : forall r, Rabs (r / IZR d) = Rabs r * / IZR d). { intros r. unfold Rdiv. rewrite Rabs_mult, (Rabs_right (/ IZR d)) by lra. reflexivity. }
  destruct (div_rnd f (f_of_Z d) FA N0) as [F E].
  { rewrite Ed, AD. apply Rle_trans with (1001 / 1000 * (M / IZR d)); [|apply big_enough; [exact R0|lra]].
    unfold Rdiv at 2. rewrite <- Rmult_assoc. apply Rmult_le_compat_r; lra. }
  rewrite Ed in E. eapply near_weak; [apply (near_round (M / IZR d) p (fdiv f (f_of_Z d)) (B2R f / IZR d) (v / IZR d)); [lra|exact R0|exact F|exact E| |]|lra|lra].
  - rewrite AD. unfold Rdiv. apply Rmult_le_compat_r; lra.
  - replace (B2R f / IZR d - v / IZR d) with ((B2R f - v) / IZR d) by (field; lra). rewrite AD. unfold Rdiv. rewrite <- Rmult_assoc. apply Rmult_le_compat_r; lra.
Qed.
Lemma near_add M N p q f g v w : near M p f v -> near N q g w -> 0 <= p <= 100 -> 0 <= q <= 100 -> 0 <= M -> 0 <= N -> rangeM (M + N) -> near (M + N) (Rmax p q + 102 / 100) (fadd f g) (v + w).
Proof.
  intros A B P Q M0 N0 R0. assert (u := unit_val). assert (VA := near_val _ _ _ _ A P M0). assert (VB := near_val _ _ _ _ B Q N0).
  assert (X1 := Rmax_l p q). assert (X2 := Rmax_r p q). assert (X3 : Rmax p q <= 100) by (apply Rmax_lub; lra). set (m := Rmax p q) in *. clearbody m.
  assert (A' := near_weak _ _ m _ _ A X1 M0). assert (B' := near_weak _ _ m _ _ B X2 N0). destruct A' as (FA & BA & EA), B' as (FB & BB & EB).
  assert (MN := rangeM_pos _ R0). assert (Tr := Rabs_triang (B2R f) (B2R g)).
  destruct (add_rnd f g FA FB) as [F E]. { apply Rle_trans with (1001 / 1000 * (M + N)); [lra|]. apply big_enough; [exact R0|lra]. }
  eapply near_weak; [apply (near_round (M + N) m (fadd f g) (B2R f + B2R g) (v + w)); [lra|exact R0|exact F|exact E| |]|lra|lra].
  - eapply Rle_trans; [apply Rabs_triang|]. lra.
  - replace (B2R f + B2R g - (v + w)) with ((B2R f - v) + (B2R g - w)) by ring. eapply Rle_trans; [apply Rabs_triang|]. lra.
Qed.
Lemma fsub_fadd x y : fsub x y = fadd x (fopp y). Proof. destruct x, y; reflexivity. Qed.
Lemma near_sub M N p q f g v w : near M p f v -> near N q g w -> 0 <= p <= 100 -> 0 <= q <= 100 -> 0 <= M -> 0 <= N -> rangeM (M + N) -> near (M + N) (Rmax p q + 102 / 100) (fsub f g) (v - w).
Proof. intros A B. rewrite fsub_fadd. apply (near_add M N p q f (fopp g) v (- w)); [exact A|apply near_opp, B]. Qed.
(** integers of any size, to nearest *)
Lemma near_int z : (0 <= z)%Z -> rangeM (IZR z) -> near (IZR z) (101 / 100) (f_of_Z z) (IZR z).
Proof.
  intros P R0. assert (u := unit_val). assert (Pz := rangeM_pos _ R0).
  generalize (binary_normalize_correct 53 1024 f64_prec f64_emax mode_NE z 0 false). cbv zeta.
  replace (F2R (Float radix2 z 0)) with (IZR z) by (unfold F2R; cbn; lra). rewrite Rlt_bool_true.
  - intros (E & F & _). assert (W : near (IZR z) (0 + 101 / 100) (f_of_Z z) (IZR z)); [|eapply near_weak; [exact W|lra|lra]].
    apply (near_round (IZR z) 0 (f_of_Z z) (IZR z) (IZR z)); [lra|exact R0|exact F|exact E|rewrite Rabs_right; lra|]. rewrite Rminus_diag_eq, Rabs_R0 by reflexivity. lra.
  - apply rnd_small. rewrite Rabs_right by lra. rewrite <- (Rmult_1_l (IZR z)). apply big_enough; [exact R0|lra].
Qed.

(** ** a bound for the magnitude and the error of every expression *)
Definition two200 : positive := Eval vm_compute in Z.to_pos (2 ^ 200).
Definition okMk (p : Q * Q) : option (Q * Q) :=
  let (M, k) := p in if (Qle_bool (1 # two200) M && Qle_bool M (Zpos two200 # 1) && Qle_bool 0 k && Qle_bool k 100)%bool then Some (Qred M, Qred k) else None.
Definition qmax (p q : Q) : Q := if Qle_bool p q then q else p.
Fixpoint an (x : expr) : option (Q * Q) :=
  match x with
  | EInt z => if Z.leb 0 z then okMk (z # 1, 101 # 100) else None
  | EDec m e => if dec_in m e then okMk (m # Z.to_pos (10 ^ (- e)), 101 # 100) else None
  | EXi => Some (1, 0)
  | EEta => Some (1, 0)
  | ENeg x => an x
  | EAdd x y => match an x, an y with Some (M, p), Some (N, q) => okMk (M + N, qmax p q + (102 # 100)) | _, _ => None end
  | ESub x y => match an x, an y with Some (M, p), Some (N, q) => okMk (M + N, qmax p q + (102 # 100)) | _, _ => None end
  | EMul x y => match an x, an y with Some (M, p), Some (N, q) => okMk (M * N, p + q + (102 # 100)) | _, _ => None end
  | EDiv x (EInt d) => match an x with
                       | Some (M, p) => if (small d && Z.ltb 0 d)%bool then okMk (M / (d # 1), p + (102 # 100)) else None
                       | None => None end
  | EPow EXi n => if Nat.leb n 49 then Some (1, 201 # 100) else None
  | EPow EEta n => if Nat.leb n 49 then Some (1, 201 # 100) else None
  | _ => None
  end%Q.
Definition inMk (M k : Q) : Prop := rangeM (Q2R M) /\ 0 <= Q2R k <= 100.
Lemma okMk_in M k M' k' : okMk (M, k) = Some (M', k') -> inMk M' k' /\ Q2R M' = Q2R M /\ Q2R k' = Q2R k.
Proof.
  unfold okMk. destruct (Qle_bool (1 # two200) M) eqn:A; [|discriminate]. destruct (Qle_bool M _) eqn:B; [|discriminate].
  destruct (Qle_bool 0 k) eqn:C; [|discriminate]. destruct (Qle_bool k 100) eqn:D; [|discriminate]. cbn [andb]. intros H. injection H as <- <-. rewrite !Q2R_red.
  unfold inMk. rewrite !Q2R_red. split; [|split; reflexivity].
  apply Qle_bool_imp_le, Qle_Rle in A, B, C, D. rewrite Q2R_0 in C. rewrite Q2R_Z in B, D.
  assert (T : IZR (Zpos two200) = bp 200) by (cbn; reflexivity).
  split; [split|split; lra].
  - change (bp (-200)) with (/ bp 200). rewrite <- T. replace (/ IZR (Zpos two200)) with (Q2R (1 # two200)); [exact A|]. unfold Q2R. cbn [Qnum Qden]. ring.
  - rewrite <- T. exact B.
Qed.
Lemma one_in : rangeM 1.
Proof. split; [change 1 with (bp 0); apply bpow_le; lia|change 1 with (bp 0); apply bpow_le; lia]. Qed.
Lemma qmax_R p q : Q2R (qmax p q) = Rmax (Q2R p) (Q2R q).
Proof.
  unfold qmax. destruct (Qle_bool p q) eqn:E.
  - apply Qle_bool_imp_le, Qle_Rle in E. rewrite Rmax_right; [reflexivity|exact E].
  - destruct (Qlt_le_dec q p) as [L|L]; [|apply Qle_bool_iff in L; congruence]. apply Qlt_Rlt in L. rewrite Rmax_left; [reflexivity|lra].
Qed.
Lemma Q102 : Q2R (102 # 100) = 102 / 100. Proof. unfold Q2R. cbn. lra. Qed.
Lemma Q101 : Q2R (101 # 100) = 101 / 100. Proof. unfold Q2R. cbn. lra. Qed.
Lemma Q201 : Q2R (201 # 100) = 201 / 100. Proof. unfold Q2R. cbn. lra. Qed.

Section An.
Context (pow : f64 -> nat -> res f64) (dec : Z -> Z -> f64) (HP : pow_near pow) (HD : dec_close dec).
Lemma pow_ok x n : fin x -> Rabs (B2R x) <= 1 -> (n <= 49)%nat -> exists y, pow x n = Ok y /\ near 1 (201 / 100) y (B2R x ^ n).
Proof.
  intros F B N. assert (u := unit_val). destruct (HP x n F B N) as (y & E & Fy & D). exists y. split; [exact E|]. split; [exact Fy|].
  assert (P : Rabs (B2R x ^ n) <= 1). { rewrite <- RPow_abs. rewrite <- (pow1 n). apply pow_incr. split; [apply Rabs_pos|exact B]. }
  split; [exact P|]. eapply Rle_trans; [exact D|]. assert (T := tiny_unit 1 (proj1 one_in)).
  assert (powerRZ 2 (-1000) = bp (-1000)) as -> by (rewrite bpow_powerRZ; reflexivity).
  assert (2 * unit * Rabs (B2R x ^ n) <= 2 * unit * 1) by (apply Rmult_le_compat_l; lra). lra.
Qed.
Lemma an_ok e : forall M k x y, an e = Some (M, k) -> fin x -> fin y -> Rabs (B2R x) <= 1 -> Rabs (B2R y) <= 1 ->
  exists f v, eval_expr (A := FA pow) dec x y e = Ok f /\ eval_expr (A := RA) Rdec (B2R x) (B2R y) e = Ok v /\ near (Q2R M) (Q2R k) f v /\ inMk M k.
Proof.
  assert (u := unit_val).
  assert (V : forall x : f64, fin x -> Rabs (B2R x) <= 1 -> near (Q2R 1) (Q2R 0) x (B2R x) /\ inMk 1 0).
  { intros x F B. rewrite Q2R_1, Q2R_0. split; [split; [exact F|split; [exact B|]]|].
    - rewrite Rminus_diag_eq, Rabs_R0 by reflexivity. lra.
    - unfold inMk. rewrite Q2R_1, Q2R_0. split; [exact one_in|lra]. }
  assert (W : forall (x : f64) n, fin x -> Rabs (B2R x) <= 1 -> (n <= 49)%nat -> exists f, pow x n = Ok f /\ near (Q2R 1) (Q2R (201 # 100)) f (B2R x ^ n) /\ inMk 1 (201 # 100)).
  { intros x n F B N. destruct (pow_ok x n F B N) as (f & E & H). exists f. rewrite Q2R_1, Q201. split; [exact E|]. split; [exact H|]. unfold inMk. rewrite Q2R_1, Q201. split; [exact one_in|lra]. }
  induction e as [z|m e| | |a IHa|a IHa b IHb|a IHa b IHb|a IHa b IHb|a IHa b IHb|a IHa n]; intros M k x y H Fx Fy Bx By; cbn [an] in H.
  - destruct (Z.leb_spec 0 z) as [P|]; [|discriminate H]. destruct (okMk_in _ _ _ _ H) as (I & EM & Ek). exists (f_of_Z z), (IZR z). split; [reflexivity|]. split; [reflexivity|].
    split; [|exact I]. rewrite EM, Ek, Q101, Q2R_Z. apply near_int; [exact P|]. rewrite <- (Q2R_Z z), <- EM. apply I.
  - destruct (dec_in m e) eqn:Di; [|discriminate H]. destruct (okMk_in _ _ _ _ H) as (I & EM & Ek). exists (dec m e), (Rdec m e). split; [reflexivity|]. split; [reflexivity|].
    split; [|exact I]. assert (Rp : Q2R M = IZR m * powerRZ 10 e).
    { rewrite EM. unfold dec_in in Di. apply orb_prop in Di. destruct Di as [Di|Di].
      - apply Z.eqb_eq in Di. subst m. unfold Q2R. cbn [Qnum]. ring.
      - apply andb_prop in Di. destruct Di as [Di _]. apply andb_prop in Di. destruct Di as [Di _]. apply andb_prop in Di. destruct Di as [_ Di]. apply Z.leb_le in Di.
        destruct (ten_neg e Di) as [-> T]. apply lt_IZR in T. unfold Q2R. cbn [Qnum Qden]. rewrite Z2Pos.id by exact T. reflexivity. }
    destruct (dec_relk dec HD m e Di) as [F E]. assert (Pm := rangeM_pos _ (proj1 I)). rewrite Rp in *. rewrite Ek, Q101.
    unfold Rdec. set (r := IZR m * powerRZ 10 e) in *. rewrite (Rabs_right r) in E by lra. split; [exact F|]. split; [rewrite Rabs_right; lra|].
    eapply Rle_trans; [exact E|]. apply Rmult_le_compat_r; [lra|]. lra.
  - injection H as <- <-. exists x, (B2R x). split; [reflexivity|]. split; [reflexivity|]. apply V; assumption.
  - injection H as <- <-. exists y, (B2R y). split; [reflexivity|]. split; [reflexivity|]. apply V; assumption.
  - destruct (IHa M k x y H Fx Fy Bx By) as (f & v & E1 & E2 & N & I). exists (fopp f), (- v). cbn [eval_expr]. rewrite E1, E2. split; [reflexivity|]. split; [reflexivity|]. split; [apply near_opp, N|exact I].
  - destruct (an a) as [[M1 k1]|]; [|discriminate H]. destruct (an b) as [[M2 k2]|]; [|discriminate H]. destruct (okMk_in _ _ _ _ H) as (I & EM & Ek).
    destruct (IHa M1 k1 x y eq_refl Fx Fy Bx By) as (f & v & E1 & E2 & N1 & I1). destruct (IHb M2 k2 x y eq_refl Fx Fy Bx By) as (g & w & G1 & G2 & N2 & I2).
    exists (fadd f g), (v + w). cbn [eval_expr]. rewrite E1, E2, G1, G2. split; [reflexivity|]. split; [reflexivity|]. split; [|exact I].
    destruct I as [IM _]. rewrite EM, Q2R_plus in IM. rewrite EM, Ek, !Q2R_plus, qmax_R, Q102. destruct I1 as [J1 L1], I2 as [J2 L2].
    apply near_add; try assumption; apply Rlt_le, rangeM_pos; assumption.
  - destruct (an a) as [[M1 k1]|]; [|discriminate H]. destruct (an b) as [[M2 k2]|]; [|discriminate H]. destruct (okMk_in _ _ _ _ H) as (I & EM & Ek).
    destruct (IHa M1 k1 x y eq_refl Fx Fy Bx By) as (f & v & E1 & E2 & N1 & I1). destruct (IHb M2 k2 x y eq_refl Fx Fy Bx By) as (g & w & G1 & G2 & N2 & I2).
    exists (fsub f g), (v - w). cbn [eval_expr]. rewrite E1, E2, G1, G2. split; [reflexivity|]. split; [reflexivity|]. split; [|exact I].
    destruct I as [IM _]. rewrite EM, Q2R_plus in IM. rewrite EM, Ek, !Q2R_plus, qmax_R, Q102. destruct I1 as [J1 L1], I2 as [J2 L2].
    apply near_sub; try assumption; apply Rlt_le, rangeM_pos; assumption.
  - destruct (an a) as [[M1 k1]|]; [|discriminate H]. destruct (an b) as [[M2 k2]|]; [|discriminate H]. destruct (okMk_in _ _ _ _ H) as (I & EM & Ek).
    destruct (IHa M1 k1 x y eq_refl Fx Fy Bx By) as (f & v & E1 & E2 & N1 & I1). destruct (IHb M2 k2 x y eq_refl Fx Fy Bx By) as (g & w & G1 & G2 & N2 & I2).
    exists (fmul f g), (v * w). cbn [eval_expr]. rewrite E1, E2, G1, G2. split; [reflexivity|]. split; [reflexivity|]. split; [|exact I].
    destruct I as [IM _]. rewrite EM, Q2R_mult in IM. rewrite EM, Ek, Q2R_mult, !Q2R_plus, Q102. destruct I1 as [J1 L1], I2 as [J2 L2].
    apply near_mul; try assumption; apply Rlt_le, rangeM_pos; assumption.
  - destruct b as [d| | | | | | | | |]; try discriminate H. destruct (an a) as [[M1 k1]|]; [|discriminate H]. destruct (small d) eqn:Sd; [|discriminate H].
    destruct (Z.ltb_spec 0 d) as [Pd|]; [|discriminate H]. cbn [andb] in H. destruct (okMk_in _ _ _ _ H) as (I & EM & Ek).
    destruct (IHa M1 k1 x y eq_refl Fx Fy Bx By) as (f & v & E1 & E2 & N1 & I1).
    assert (D1 : 1 <= IZR d) by (apply IZR_le; lia).
    assert (EQ : Q2R (M1 / (d # 1)) = Q2R M1 / IZR d). { rewrite Q2R_div, Q2R_Z; [reflexivity|]. intros Z. apply Qeq_eqR in Z. rewrite Q2R_Z, Q2R_0 in Z. lra. }
    destruct I as [IM Ik]. assert (IM' := IM). rewrite EM, EQ in IM'. destruct (near_div _ _ f v d N1 (proj2 I1) Sd Pd IM') as [N0 Z0].
    exists (fdiv f (f_of_Z d)), (v / IZR d). cbn [eval_expr]. rewrite E1, E2. cbn [bind FA RA ndiv nint]. rewrite Z0. split; [reflexivity|].
    destruct (Req_EM_T (IZR d) 0) as [Q|Q]; [lra|]. split; [reflexivity|]. split; [|split; assumption]. rewrite EM, EQ, Ek, Q2R_plus, Q102. exact N0.
  - destruct a; try discriminate H; destruct (Nat.leb_spec n 49) as [L|]; try discriminate H; injection H as <- <-.
    + destruct (W x n Fx Bx L) as (f & E & N0 & I). exists f, (B2R x ^ n). split; [exact E|]. split; [reflexivity|]. split; assumption.
    + destruct (W y n Fy By L) as (f & E & N0 & I). exists f, (B2R y ^ n). split; [exact E|]. split; [reflexivity|]. split; assumption.
Qed.
End An.

(** ** the 50 texts *)
Definition zsize (i n : nat) : Q := zdfact (2 * i - 2 * n - 5) # Z.to_pos (2 ^ Z.of_nat n * zfact n * zfact (i - 2 * n)).
Definition qsize (i : nat) : Q :=
  match i with 0%nat => 3 # 2 | 1%nat => 1 # 2 | 2%nat => 3 # 2 | 3%nat => 1 # 2 | _ => fold_right (fun x y => Qred (x + y)) 0 (map (zsize i) (seq 0 (S (i / 2)))) end%Q.
Lemma qsize_R i : Q2R (qsize i) = bardell_size i.
Proof.
  destruct i as [|[|[|[|i]]]]; [unfold Q2R; cbn; lra..|]. unfold qsize, bardell_size. set (j := S (S (S (S i)))). generalize (seq 0 (S (j / 2))). intros l.
  induction l as [|n l IH]; cbn [map fold_right rsum]; [apply Q2R_0|]. rewrite Q2R_red, Q2R_plus, IH. f_equal. unfold zsize, Q2R. cbn [Qnum Qden].
  assert (P := zfact_pos n). assert (P' := zfact_pos (j - 2 * n)). assert (E : (0 < 2 ^ Z.of_nat n)%Z) by (apply Z.pow_pos_nonneg; lia).
  rewrite Z2Pos.id by lia. rewrite !mult_IZR, <- !pow_IZR. reflexivity.
Qed.
Definition units (i : nat) : Q := (Z.of_nat i # 2) + 8.
Definition text_ok (i : nat) : bool :=
  match nth_error FXI i with
  | Some s => match parse s with
              | Some e => match an e with Some (M, k) => (Qeq_bool M (qsize i) && Qle_bool k (units i))%bool | None => false end
              | None => false end
  | None => false
  end.
Lemma texts_ok : forallb text_ok (seq 0 50) = true.
Proof. vm_cast_no_check (eq_refl true). Qed.
Lemma units_R i : Q2R (units i) = INR i / 2 + 8.
Proof. unfold units. rewrite Q2R_plus. unfold Q2R. cbn [Qnum Qden]. rewrite INR_IZR_INZ. lra. Qed.
Lemma text_an i s e : (i < 50)%nat -> nth_error FXI i = Some s -> parse s = Some e -> exists M k, an e = Some (M, k) /\ Q2R M = bardell_size i /\ Q2R k <= INR i / 2 + 8.
Proof.
  intros Hi Hs He. assert (H := texts_ok). rewrite forallb_forall in H. specialize (H i (proj2 (in_seq 50 0 i) ltac:(lia))). unfold text_ok in H. rewrite Hs, He in H.
  destruct (an e) as [[M k]|]; [|discriminate H]. apply andb_prop in H. destruct H as [H1 H2]. exists M, k. split; [reflexivity|].
  apply Qeq_bool_eq, Qeq_eqR in H1. apply Qle_bool_imp_le, Qle_Rle in H2. rewrite qsize_R in H1. rewrite units_R in H2. split; assumption.
Qed.
