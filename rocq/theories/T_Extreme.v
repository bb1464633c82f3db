(** Proofs of the theorems on plates of extreme size *)
From Coq Require Import Reals ZArith Lra Lia Bool String.
From Coquelicot Require Import Coquelicot.
From Flocq Require Import Core.Core IEEE754.BinarySingleNaN.
From Coq Require Import List.
From Verif Require Import M_Py M_Validate M_Plate M_K M_Tables M_Expr M_Float M_FloatArith S_Validate S_Plate S_Mat S_K S_Round S_Extreme L_Plate L_FirstK L_K L_ABD L_Float L_Round L_RoundTab T_Validate T_Plate T_Round.
Import ListNotations.
Open Scope R_scope.
Notation length := List.length (only parsing).

Definition ordinary (x : f64) : Prop := moderate x \/ endless x.
Lemma p2 k : powerRZ 2 k = bp k. Proof. apply pow2_bp. Qed.
Lemma bp_cube k : bp k ^ 3 = bp (3 * k).
Proof. replace (3 * k)%Z with (k + (k + k))%Z by lia. rewrite !bpow_plus. ring. Qed.
Lemma bp_sq k : bp k ^ 2 = bp (2 * k).
Proof. replace (2 * k)%Z with (k + k)%Z by lia. rewrite !bpow_plus. ring. Qed.
Lemma feq_endless x : endless x -> feq x fzero = false.
Proof. intros [-> | ->]; reflexivity. Qed.
Lemma feq_pos x : is_finite x = true -> 0 < B2R x -> feq x fzero = false.
Proof. intros F P. apply feq_zero; [exact F|lra]. Qed.
Lemma mod_pos x : moderate x -> is_finite x = true /\ 0 < B2R x.
Proof. intros (F & L & _). split; [exact F|]. rewrite p2 in L. assert (Q := bpow_gt_0 radix2 (-340)). lra. Qed.
Lemma feq_ord x : ordinary x -> feq x fzero = false.
Proof. intros [M|E]; [apply feq_pos; apply mod_pos, M|apply feq_endless, E]. Qed.
Lemma finite_cases (x : f64) : is_finite x = false -> x = fnan \/ x = finf \/ x = fninf.
Proof. destruct x as [?|[|]| |]; intros H; try discriminate H; auto. Qed.
Lemma feq_nonfin x : is_finite x = false -> feq x fzero = false.
Proof. intros H. destruct (finite_cases x H) as [-> | [-> | ->]]; reflexivity. Qed.
Lemma mul_over x y : is_finite x = true -> is_finite y = true -> bp 1024 <= Rabs (B2R x * B2R y) -> is_finite (fmul x y) = false.
Proof.
  intros Fx Fy H. assert (C := @Bmult_correct 53 1024 f64_prec f64_emax mode_NE x y).
  assert (O : ~ Rabs (round radix2 (SpecFloat.fexp 53 1024) (round_mode mode_NE) (B2R x * B2R y)) < bp 1024).
  { apply Rle_not_lt. apply abs_round_ge_generic; [apply (fexp_correct 53 1024 eq_refl)|apply valid_rnd_round_mode|apply generic_format_bpow; cbn; lia|exact H]. }
  rewrite Rlt_bool_false in C by (apply Rnot_lt_le, O).
  unfold fmul. destruct (@Bmult 53 1024 f64_prec f64_emax mode_NE x y); cbn in C |- *; try reflexivity; exfalso; revert C; destruct (xorb _ _); discriminate.
Qed.
Lemma mul_pos x y : is_finite x = true -> is_finite y = true -> 0 < B2R x -> 0 < B2R y -> bp (-1022) <= B2R x * B2R y -> feq (fmul x y) fzero = false.
Proof.
  intros Fx Fy Px Py L. destruct (Rle_or_lt (bp 1023) (B2R x * B2R y)) as [H|H].
  - destruct (is_finite (fmul x y)) eqn:F; [|apply feq_nonfin, F]. apply feq_zero; [exact F|].
    assert (C := @Bmult_correct 53 1024 f64_prec f64_emax mode_NE x y). destruct (Rlt_bool _ _) eqn:B in C.
    + destruct C as (C & _). unfold fmul. rewrite C. apply Rgt_not_eq. apply Rlt_le_trans with (bp 1023); [apply bpow_gt_0|].
      apply round_ge_generic; [apply (fexp_correct 53 1024 eq_refl)|apply valid_rnd_round_mode|apply generic_format_bpow; cbn; lia|exact H].
    + exfalso. unfold fmul in F. destruct (@Bmult 53 1024 f64_prec f64_emax mode_NE x y); try discriminate F; cbn in C; revert C; destruct (xorb _ _); discriminate.
  - assert (P0 := Rmult_lt_0_compat _ _ Px Py). destruct (mul_rnd x y Fx Fy) as [F E]. { rewrite Rabs_right by lra. lra. }
    apply feq_zero; [exact F|]. rewrite E. apply Rgt_not_eq. apply Rlt_le_trans with (bp (-1022)); [apply bpow_gt_0|].
    apply round_ge_generic; [apply (fexp_correct 53 1024 eq_refl)|apply valid_rnd_round_mode|apply generic_format_bpow; cbn; lia|exact L].
Qed.
Lemma fin_pos (x : f64) : is_finite x = true -> 0 < B2R x -> exists m e H, x = B754_finite false m e H.
Proof.
  destruct x as [?|?| |s m e H]; intros F P; try discriminate F; [cbn in P; lra|].
  destruct s; [|exists m, e, H; reflexivity]. exfalso. cbn in P. assert (Q := F2R_lt_0 radix2 (Defs.Float radix2 (Z.neg m) e) eq_refl). lra.
Qed.
(** products with infinity and NaN *)
Lemma mul_endless x y : endless x -> y = fnan \/ y = finf \/ (is_finite y = true /\ 0 < B2R y) -> endless (fmul x y) /\ endless (fmul y x).
Proof.
  intros Hx [-> | [-> | [F P]]].
  - destruct Hx as [-> | ->]; split; right; reflexivity.
  - destruct Hx as [-> | ->]; split; (left; reflexivity) || (right; reflexivity).
  - destruct (fin_pos y F P) as (m & e & H & ->). destruct Hx as [-> | ->]; split; (left; reflexivity) || (right; reflexivity).
Qed.
(** a length that is not vanishing in the sense that it is at least 2^-340, or endless *)
Definition sizable (x : f64) : Prop := (is_finite x = true /\ bp (-340) <= B2R x) \/ endless x.
Lemma ord_size x : ordinary x -> sizable x.
Proof. intros [(F & L & _)|E]; [left; split; [exact F|rewrite <- p2; exact L]|right; exact E]. Qed.
Lemma huge_size x : huge x -> sizable x.
Proof. intros (F & L). left. split; [exact F|]. rewrite p2 in L. eapply Rle_trans; [|exact L]. apply bpow_le. lia. Qed.
Lemma area_size x y : sizable x -> sizable y -> feq (fmul x y) fzero = false.
Proof.
  assert (Q := bpow_gt_0 radix2 (-340)).
  intros [[Fx Lx]|Ex] [[Fy Ly]|Ey].
  - apply mul_pos; try assumption; try lra. apply Rle_trans with (bp (-340) * bp (-340)); [rewrite <- bpow_plus; apply bpow_le; lia|].
    apply Rmult_le_compat; lra.
  - apply feq_endless. apply (mul_endless y x Ey). right. right. split; [exact Fx|lra].
  - apply feq_endless. apply (mul_endless x y Ex). right. right. split; [exact Fy|lra].
  - apply feq_endless. apply (mul_endless x y Ex). destruct Ey as [-> | ->]; auto.
Qed.

Section Pow.
Context (pow : f64 -> nat -> res f64) (PR : pow_range pow).
Lemma pow_ord x n : ordinary x -> n = 2%nat \/ n = 3%nat -> exists y, pow x n = Ok y /\ feq y fzero = false /\ (is_finite y = true /\ 0 < B2R y \/ endless x /\ y = x).
Proof.
  intros [M|[-> | ->]] N.
  - destruct (mod_pos x M) as [F P]. destruct M as (_ & L & U). rewrite p2 in L, U.
    destruct (pr_mid pow PR x n N F P) as (y & E & Fy & Py).
    { rewrite !p2. assert (Q := bpow_gt_0 radix2 (-340)). destruct N as [-> | ->].
      - split; [apply Rle_trans with (bp (-340) ^ 2); [rewrite bp_sq; apply bpow_le; lia|apply pow_incr; lra]|].
        apply Rle_trans with (bp 340 ^ 2); [apply pow_incr; lra|rewrite bp_sq; apply bpow_le; lia].
      - split; [apply Rle_trans with (bp (-340) ^ 3); [rewrite bp_cube; apply bpow_le; lia|apply pow_incr; lra]|].
        apply Rle_trans with (bp 340 ^ 3); [apply pow_incr; lra|rewrite bp_cube; apply bpow_le; lia]. }
    exists y. split; [exact E|]. split; [apply feq_pos; assumption|left; split; assumption].
  - exists finf. split; [apply (pr_inf pow PR), N|]. split; [reflexivity|]. right. split; [left|]; reflexivity.
  - exists fnan. split; [apply (pr_nan pow PR), N|]. split; [reflexivity|]. right. split; [right|]; reflexivity.
Qed.
Lemma pow_huge x : huge x -> pow x 3 = Err OverflowError.
Proof.
  intros (F & L). apply (pr_over pow PR); [right; reflexivity|exact F|]. rewrite p2 in L |- *. assert (Q := bpow_gt_0 radix2 342).
  apply Rle_trans with (bp 342 ^ 3); [rewrite bp_cube; apply bpow_le; lia|apply pow_incr; lra].
Qed.
Lemma pow_vanish x : vanishing x -> exists z, pow x 3 = Ok z /\ feq z fzero = true.
Proof.
  intros (F & P & U). destruct (pr_under pow PR x 3 (or_intror eq_refl) F P) as (z & E & Z).
  { rewrite p2 in U |- *. apply Rle_trans with (bp (-359) ^ 3); [apply pow_incr; lra|rewrite bp_cube; apply bpow_le; lia]. }
  exists z. split; [exact E|]. apply is_zero_spec, Z.
Qed.
End Pow.

Lemma idx_all c m n idx : compute_constraints c m n = Ok idx -> forall p, In p (su_idx idx) \/ In p (sv_idx idx) \/ In p (sw_idx idx) -> (fst p < m + 4)%nat /\ (snd p < n + 4)%nat.
Proof.
  intros H. destruct (compute_inv _ _ _ _ H) as (e & _ & _ & ->). unfold idx_of. cbn [su_idx sv_idx sw_idx]. unfold product2.
  assert (B := fun t r e0 e1 m => proj1 (Forall_forall _ _) (xs_lt t r e0 e1 m)).
  intros [i j] I. cbn [fst snd].
  destruct I as [I|[I|I]]; apply in_prod_iff in I; destruct I as [I J]; split; first [apply (B _ _ _ _ _ _ I)|apply (B _ _ _ _ _ _ J)].
Qed.

Section Ent.
Context (pow : f64 -> nat -> res f64) (dec : Z -> Z -> f64) (PR : pow_range pow) (HD : dec_close dec).
Notation T := (stored (FA pow) dec).
Context (a b : f64).
Definition low (p : nat * nat) : Prop := (fst p < 30)%nat /\ (snd p < 30)%nat.
Lemma lookups i k : (i < 30)%nat -> (k < 30)%nat ->
  (exists x, ii_ff T (i, k) = Ok x) /\ (exists x, ii_fxi_f T (i, k) = Ok x) /\ (exists x, ii_f_fxi T (i, k) = Ok x) /\ (exists x, ii_fxi_fxi T (i, k) = Ok x) /\
  (exists x, ii_fxixi_f T (i, k) = Ok x) /\ (exists x, ii_f_fxixi T (i, k) = Ok x) /\ (exists x, ii_fxixi_fxi T (i, k) = Ok x) /\ (exists x, ii_fxi_fxixi T (i, k) = Ok x) /\
  (exists x, ii_fxixi_fxixi T (i, k) = Ok x).
Proof.
  intros Hi Hk. destruct (read6 pow dec HD i k Hi Hk) as (x1 & x2 & x3 & x4 & x5 & x6 & [E1 _] & [E2 _] & [E3 _] & [E4 _] & [E5 _] & [E6 _]).
  destruct (read6 pow dec HD k i Hk Hi) as (y1 & y2 & y3 & y4 & y5 & y6 & [F1 _] & [F2 _] & [F3 _] & [F4 _] & [F5 _] & [F6 _]).
  repeat split; eexists; first [exact E1|exact E2|exact E3|exact E4|exact E5|exact E6|exact F1|exact F2|exact F3|exact F4|exact F5|exact F6].
Qed.
Ltac looks p q Hp Hq := let i := fresh "i" in let j := fresh "j" in let k := fresh "k" in let l := fresh "l" in
  destruct p as [i j], q as [k l], Hp as [? ?], Hq as [? ?]; cbn [fst snd] in *;
  destruct (lookups i k) as ([? ?] & [? ?] & [? ?] & [? ?] & [? ?] & [? ?] & [? ?] & [? ?] & [? ?]); [assumption|assumption|];
  destruct (lookups j l) as ([? ?] & [? ?] & [? ?] & [? ?] & [? ?] & [? ?] & [? ?] & [? ?] & [? ?]); [assumption|assumption|].
Ltac useall := unfold mul2; cbv zeta; cbn [fst snd];
  repeat match goal with H : ?f T (?i, ?k) = Ok _ |- context [?f T (?i, ?k)] => rewrite H; cbn [bind] end.
Definition pd (x y : f64) : res f64 := if feq y fzero then Err ZeroDivisionError else Ok (fdiv x y).
Lemma ndiv_pd x y : ndiv (FA pow) x y = pd x y. Proof. reflexivity. Qed.
Lemma npow_pow x n : npow (FA pow) x n = pow x n. Proof. reflexivity. Qed.
Lemma pd_ok x y : feq y fzero = false -> pd x y = Ok (fdiv x y). Proof. unfold pd. intros ->. reflexivity. Qed.
Lemma pd_zero x y : feq y fzero = true -> pd x y = Err ZeroDivisionError. Proof. unfold pd. intros ->. reflexivity. Qed.
Notation F4 := (f_of_Z 4).
Lemma k33_eq p q D11 D12 D22 D16 D26 D66 : low p -> low q -> exists s1 s2 s3 s4 s5 s6 s7 s8 s9,
  calc_k33 T a b (p, q) D11 D12 D22 D16 D26 D66 =
  (c11 <- (a3 <- pow a 3%nat ;; pd b a3) ;; c12 <- pd F4 (fmul a b) ;; c22 <- (b3 <- pow b 3%nat ;; pd a b3) ;;
   c16 <- (a2 <- pow a 2%nat ;; pd (f_of_Z 8) a2) ;; c26 <- (b2 <- pow b 2%nat ;; pd (f_of_Z 8) b2) ;; c66 <- pd (f_of_Z 16) (fmul a b) ;;
   Ok (fadd (fadd (fadd (fadd (fadd (fmul (fmul (fmul F4 c11) D11) s1) (fmul (fmul c12 D12) (fadd s2 s3))) (fmul (fmul (fmul F4 c22) D22) s4))
        (fmul (fmul c16 D16) (fadd s5 s6))) (fmul (fmul c26 D26) (fadd s7 s8))) (fmul (fmul c66 D66) s9))).
Proof.
  intros Hp Hq. looks p q Hp Hq. do 9 eexists. unfold calc_k33. useall. reflexivity.
Qed.
Lemma kG_eq p q Nxx Nyy Nxy : low p -> low q -> exists s1 s2 s3 s4,
  calc_kG33 T a b (p, q) Nxx Nyy Nxy =
  (ba <- pd b a ;; ab <- pd a b ;; Ok (fadd (fadd (fmul (fmul Nxx ba) s1) (fmul (fmul Nyy ab) s2)) (fmul Nxy (fadd s3 s4)))).
Proof.
  intros Hp Hq. looks p q Hp Hq. do 4 eexists. unfold calc_kG33. useall. reflexivity.
Qed.
(** the six outcomes of one entry *)
Lemma k33_vanish_a p q D11 D12 D22 D16 D26 D66 : low p -> low q -> vanishing a -> calc_k33 T a b (p, q) D11 D12 D22 D16 D26 D66 = Err ZeroDivisionError.
Proof.
  intros Hp Hq V. destruct (k33_eq p q D11 D12 D22 D16 D26 D66 Hp Hq) as (s1 & s2 & s3 & s4 & s5 & s6 & s7 & s8 & s9 & ->).
  destruct (pow_vanish pow PR a V) as (z & -> & Z). cbn [bind]. rewrite (pd_zero _ _ Z). reflexivity.
Qed.
Lemma k33_huge_a p q D11 D12 D22 D16 D26 D66 : low p -> low q -> huge a -> calc_k33 T a b (p, q) D11 D12 D22 D16 D26 D66 = Err OverflowError.
Proof.
  intros Hp Hq V. destruct (k33_eq p q D11 D12 D22 D16 D26 D66 Hp Hq) as (s1 & s2 & s3 & s4 & s5 & s6 & s7 & s8 & s9 & ->).
  rewrite (pow_huge pow PR a V). reflexivity.
Qed.
Lemma k33_vanish_b p q D11 D12 D22 D16 D26 D66 : low p -> low q -> ordinary a -> vanishing b -> calc_k33 T a b (p, q) D11 D12 D22 D16 D26 D66 = Err ZeroDivisionError.
Proof.
  intros Hp Hq O V. destruct (k33_eq p q D11 D12 D22 D16 D26 D66 Hp Hq) as (s1 & s2 & s3 & s4 & s5 & s6 & s7 & s8 & s9 & ->).
  destruct (pow_ord pow PR a 3 O (or_intror eq_refl)) as (y & -> & Y & _). cbn [bind]. rewrite (pd_ok _ _ Y). cbn [bind].
  unfold pd at 1. destruct (feq (fmul a b) fzero); [reflexivity|]. cbn [bind].
  destruct (pow_vanish pow PR b V) as (z & -> & Z). cbn [bind]. rewrite (pd_zero _ _ Z). reflexivity.
Qed.
Lemma k33_huge_b p q D11 D12 D22 D16 D26 D66 : low p -> low q -> ordinary a -> huge b -> calc_k33 T a b (p, q) D11 D12 D22 D16 D26 D66 = Err OverflowError.
Proof.
  intros Hp Hq O V. destruct (k33_eq p q D11 D12 D22 D16 D26 D66 Hp Hq) as (s1 & s2 & s3 & s4 & s5 & s6 & s7 & s8 & s9 & ->).
  destruct (pow_ord pow PR a 3 O (or_intror eq_refl)) as (y & -> & Y & _). cbn [bind]. rewrite (pd_ok _ _ Y). cbn [bind].
  rewrite (pd_ok _ _ (area_size a b (ord_size a O) (huge_size b V))). cbn [bind].
  rewrite (pow_huge pow PR b V). reflexivity.
Qed.
Lemma inf_l x y : is_finite x = false -> is_finite (fmul x y) = false.
Proof. intros H. destruct (finite_cases x H) as [-> | [-> | ->]]; destruct y as [[|]|[|]| |[|] ? ? ?]; reflexivity. Qed.
Lemma inf_r x y : is_finite x = false -> is_finite (fmul y x) = false.
Proof. intros H. destruct (finite_cases x H) as [-> | [-> | ->]]; destruct y as [[|]|[|]| |[|] ? ? ?]; reflexivity. Qed.
Lemma inf_al x y : is_finite x = false -> is_finite (fadd x y) = false.
Proof. intros H. destruct (finite_cases x H) as [-> | [-> | ->]]; destruct y as [[|]|[|]| |[|] ? ? ?]; reflexivity. Qed.
Lemma inf_ar x y : is_finite x = false -> is_finite (fadd y x) = false.
Proof. intros H. destruct (finite_cases x H) as [-> | [-> | ->]]; destruct y as [[|]|[|]| |[|] ? ? ?]; reflexivity. Qed.
Lemma div_end x y : endless x -> (is_finite y = true /\ 0 < B2R y \/ endless y) -> is_finite (fdiv x y) = false.
Proof.
  intros Hx [[F P]|Hy]; [destruct (fin_pos y F P) as (m & e & H & ->); destruct Hx as [-> | ->]; reflexivity|].
  destruct Hx as [-> | ->], Hy as [-> | ->]; reflexivity.
Qed.
Lemma div_nan x : is_finite (fdiv x fnan) = false.
Proof. destruct x as [[|]|[|]| |[|] ? ? ?]; reflexivity. Qed.
Lemma k33_ord p q D11 D12 D22 D16 D26 D66 : low p -> low q -> ordinary a -> ordinary b -> exists k, calc_k33 T a b (p, q) D11 D12 D22 D16 D26 D66 = Ok k /\
  (endless a \/ endless b -> is_finite k = false).
Proof.
  intros Hp Hq O V. destruct (k33_eq p q D11 D12 D22 D16 D26 D66 Hp Hq) as (s1 & s2 & s3 & s4 & s5 & s6 & s7 & s8 & s9 & ->).
  destruct (pow_ord pow PR a 3 O (or_intror eq_refl)) as (y & -> & Y & Ya). cbn [bind]. rewrite (pd_ok _ _ Y). cbn [bind].
  assert (Z := area_size a b (ord_size a O) (ord_size b V)). rewrite (pd_ok _ _ Z). cbn [bind].
  destruct (pow_ord pow PR b 3 V (or_intror eq_refl)) as (z & -> & Zb & Za). cbn [bind]. rewrite (pd_ok _ _ Zb). cbn [bind].
  destruct (pow_ord pow PR a 2 O (or_introl eq_refl)) as (u & -> & U & _). cbn [bind]. rewrite (pd_ok _ _ U). cbn [bind].
  destruct (pow_ord pow PR b 2 V (or_introl eq_refl)) as (w & -> & W & _). cbn [bind]. rewrite (pd_ok _ _ W). cbn [bind].
  rewrite (pd_ok _ _ Z). cbn [bind]. eexists. split; [reflexivity|].
  assert (Ya' : is_finite y = true /\ 0 < B2R y \/ endless y) by (destruct Ya as [Q|[E ->]]; [left; exact Q|right; exact E]).
  assert (Za' : is_finite z = true /\ 0 < B2R z \/ endless z) by (destruct Za as [Q|[E ->]]; [left; exact Q|right; exact E]).
  intros [E|E].
  - do 3 apply inf_al. apply inf_ar, inf_l, inf_l, inf_r, div_end; assumption.
  - do 4 apply inf_al. apply inf_al, inf_l, inf_l, inf_r, div_end; assumption.
Qed.
Lemma kG_ord p q Nxx Nyy Nxy : low p -> low q -> ordinary a -> ordinary b -> exists g, calc_kG33 T a b (p, q) Nxx Nyy Nxy = Ok g /\
  (endless a \/ endless b -> is_finite g = false).
Proof.
  intros Hp Hq O V. destruct (kG_eq p q Nxx Nyy Nxy Hp Hq) as (s1 & s2 & s3 & s4 & ->).
  rewrite (pd_ok _ _ (feq_ord a O)). cbn [bind]. rewrite (pd_ok _ _ (feq_ord b V)). cbn [bind]. eexists. split; [reflexivity|].
  assert (S : forall x, ordinary x -> is_finite x = true /\ 0 < B2R x \/ endless x) by (intros x [M|E]; [left; apply mod_pos, M|right; exact E]).
  intros [E|E].
  - apply inf_al, inf_ar, inf_l, inf_r, div_end; [exact E|apply S, V].
  - apply inf_al, inf_al, inf_l, inf_r, div_end; [exact E|apply S, O].
Qed.
(** the other entries of the full matrix *)
Ltac done_ord O V := 
  destruct (pow_ord pow PR a 2 O (or_introl eq_refl)) as (? & Pa & Ua & _); destruct (pow_ord pow PR b 2 V (or_introl eq_refl)) as (? & Pb & Ub & _);
  assert (Ea := feq_ord a O); assert (Eb := feq_ord b V);
  rewrite ?npow_pow, ?ndiv_pd, ?Pa, ?Pb; cbn [bind];
  repeat first [rewrite (pd_ok _ a Ea)|rewrite (pd_ok _ b Eb)|rewrite (pd_ok _ _ Ua)|rewrite (pd_ok _ _ Ub)|progress cbn [bind]|rewrite npow_pow|rewrite ndiv_pd|rewrite Pa|rewrite Pb]; eexists; reflexivity.
Lemma loop_ord M Nxx Nyy Nxy u1 u2 v1 v2 w1 w2 : low u1 -> low u2 -> low v1 -> low v2 -> low w1 -> low w2 -> ordinary a -> ordinary b ->
  exists e, loop_ABD T M a b Nxx Nyy Nxy (u1, u2) (v1, v2) (w1, w2) = Ok e.
Proof.
  intros U1 U2 V1 V2 W1 W2 O V. unfold loop_ABD. cbn [fst snd].
  assert (Q11 : exists k, calc_k11 T a b (u1, u2) (cA11 M) (cA16 M) (cA66 M) = Ok k) by (unfold calc_k11; looks u1 u2 U1 U2; useall; done_ord O V).
  assert (Q12 : exists k, calc_k12 T a b (u1, v2) (cA12 M) (cA16 M) (cA26 M) (cA66 M) = Ok k) by (unfold calc_k12; looks u1 v2 U1 V2; useall; done_ord O V).
  assert (Q13 : exists k, calc_k13 T a b (u1, w2) (cB11 M) (cB12 M) (cB16 M) (cB26 M) (cB66 M) = Ok k) by (unfold calc_k13; looks u1 w2 U1 W2; useall; done_ord O V).
  assert (Q21 : exists k, calc_k21 T a b (v1, u2) (cA12 M) (cA16 M) (cA26 M) (cA66 M) = Ok k) by (unfold calc_k21; looks v1 u2 V1 U2; useall; done_ord O V).
  assert (Q22 : exists k, calc_k22 T a b (v1, v2) (cA22 M) (cA26 M) (cA66 M) = Ok k) by (unfold calc_k22; looks v1 v2 V1 V2; useall; done_ord O V).
  assert (Q23 : exists k, calc_k23 T a b (v1, w2) (cB12 M) (cB16 M) (cB22 M) (cB26 M) (cB66 M) = Ok k) by (unfold calc_k23; looks v1 w2 V1 W2; useall; done_ord O V).
  assert (Q31 : exists k, calc_k31 T a b (w1, u2) (cB11 M) (cB12 M) (cB16 M) (cB26 M) (cB66 M) = Ok k) by (unfold calc_k31; looks w1 u2 W1 U2; useall; done_ord O V).
  assert (Q32 : exists k, calc_k32 T a b (w1, v2) (cB12 M) (cB16 M) (cB22 M) (cB26 M) (cB66 M) = Ok k) by (unfold calc_k32; looks w1 v2 W1 V2; useall; done_ord O V).
  destruct Q11 as [? ->], Q12 as [? ->], Q13 as [? ->], Q21 as [? ->], Q22 as [? ->], Q23 as [? ->], Q31 as [? ->], Q32 as [? ->]. cbn [bind].
  destruct (k33_ord w1 w2 (cD11 M) (cD12 M) (cD22 M) (cD16 M) (cD26 M) (cD66 M) W1 W2 O V) as (? & -> & _).
  destruct (kG_ord w1 w2 Nxx Nyy Nxy W1 W2 O V) as (? & -> & _). eexists. reflexivity.
Qed.
Definition extreme (x : f64) : Prop := vanishing x \/ huge x.
Lemma k33_extreme p q D11 D12 D22 D16 D26 D66 : low p -> low q -> (extreme a \/ extreme b) -> (extreme a \/ ordinary a) -> forall k, calc_k33 T a b (p, q) D11 D12 D22 D16 D26 D66 <> Ok k.
Proof.
  intros Hp Hq X O k. assert (C : extreme a \/ ordinary a /\ extreme b) by tauto.
  destruct C as [[V|V]|[O' [V|V]]].
  - rewrite k33_vanish_a by assumption. discriminate.
  - rewrite k33_huge_a by assumption. discriminate.
  - rewrite k33_vanish_b by assumption. discriminate.
  - rewrite k33_huge_b by assumption. discriminate.
Qed.
End Ent.

Lemma mapM_first {X Y} (f : X -> res Y) x l e : f x = Err e -> mapM f (x :: l) = Err e.
Proof. intros H. cbn [mapM]. rewrite H. reflexivity. Qed.
Lemma first_entry c m n idx : compute_constraints c m n = Ok idx -> (1 <= m <= 26)%nat -> (1 <= n <= 26)%nat ->
  (exists p l, sw_idx idx = p :: l) /\ forall p, In p (su_idx idx) \/ In p (sv_idx idx) \/ In p (sw_idx idx) -> low p.
Proof.
  intros E Hm Hn. split.
  - destruct (compute_struct _ _ _ _ E) as (_ & _ & L & _). destruct (sw_idx idx) as [|p l]; [|exists p, l; reflexivity].
    exfalso. cbn in L. nia.
  - intros p I. destruct (idx_all _ _ _ _ E p I). split; lia.
Qed.
Lemma D_err (pow : f64 -> nat -> res f64) dec (D : @arr (FA pow)) a b Nxx Nyy Nxy c m n idx e : compute_constraints c m n = Ok idx -> (1 <= m <= 26)%nat -> (1 <= n <= 26)%nat ->
  (forall p q D11 D12 D22 D16 D26 D66, low p -> low q -> calc_k33 (stored (FA pow) dec) a b (p, q) D11 D12 D22 D16 D26 D66 = Err e) ->
  calc_K_KG_D (stored (FA pow) dec) D a b Nxx Nyy Nxy c m n = Err e.
Proof.
  intros E Hm Hn H. destruct (first_entry _ _ _ _ E Hm Hn) as [(p & l & Sw) Lo]. rewrite (K_D_loop _ _ _ _ _ _ _ _ _ _ _ E), Sw.
  assert (Lp : low p) by (apply Lo; right; right; rewrite Sw; left; reflexivity).
  cbn [list_prod map List.app]. rewrite (mapM_first _ _ _ e); [reflexivity|]. unfold ent_D. rewrite H by exact Lp. reflexivity.
Qed.

(*@ C82. Which plate lengths the assembly can work with in binary64. Whatever the stiffness and the loads, whatever boundary conditions are
    understood and for all m and n from 1 to 26: a length a of at most 2^-359, zero included, raises ZeroDivisionError; one of at least 2^342
    raises OverflowError; otherwise b decides in the same way; and with both lengths in between, or infinite, or NaN, nothing is raised. @*)
Lemma t_C82_table : forall pow dec (D : nat -> nat -> f64) a b Nxx Nyy Nxy c m n idx, pow_range pow -> dec_close dec ->
  compute_constraints c m n = Ok idx -> (1 <= m <= 26)%nat -> (1 <= n <= 26)%nat ->
  let run := calc_K_KG_D (stored (FA pow) dec) D a b Nxx Nyy Nxy c m n in
  (vanishing a -> run = Err ZeroDivisionError) /\ (huge a -> run = Err OverflowError) /\
  (moderate a \/ endless a -> vanishing b -> run = Err ZeroDivisionError) /\ (moderate a \/ endless a -> huge b -> run = Err OverflowError) /\
  (moderate a \/ endless a -> moderate b \/ endless b -> exists K KG, run = Ok (K, KG) /\ square (m * n) K /\ square (m * n) KG /\
     (endless a \/ endless b -> none_finite K /\ none_finite KG)).
Proof.
  intros pow dec D a b Nxx Nyy Nxy c m n idx PR HD E Hm Hn run. unfold run.
  split. { intros V. apply (D_err _ _ _ _ _ _ _ _ _ _ _ idx); try assumption. intros. apply (k33_vanish_a pow dec PR HD); assumption. }
  split. { intros V. apply (D_err _ _ _ _ _ _ _ _ _ _ _ idx); try assumption. intros. apply (k33_huge_a pow dec PR HD); assumption. }
  split. { intros O V. apply (D_err _ _ _ _ _ _ _ _ _ _ _ idx); try assumption. intros. apply (k33_vanish_b pow dec PR HD); assumption. }
  split. { intros O V. apply (D_err _ _ _ _ _ _ _ _ _ _ _ idx); try assumption. intros. apply (k33_huge_b pow dec PR HD); assumption. }
  intros O V. destruct (first_entry _ _ _ _ E Hm Hn) as [_ Lo]. destruct (compute_struct _ _ _ _ E) as (_ & _ & L & _).
  set (T := stored (FA pow) dec).
  set (k := fun pq => val fzero (calc_k33 T a b pq (D 0 0)%nat (D 1 0)%nat (D 1 1)%nat (D 2 0)%nat (D 2 1)%nat (D 2 2)%nat)).
  set (g := fun pq => val fzero (calc_kG33 T a b pq Nxx Nyy Nxy)).
  assert (Q : forall p q, In p (sw_idx idx) -> In q (sw_idx idx) -> ent_D T D a b Nxx Nyy Nxy (p, q) = Ok (k (p, q), g (p, q)) /\ (endless a \/ endless b -> is_finite (k (p, q)) = false /\ is_finite (g (p, q)) = false)).
  { intros p q Ip Iq. assert (Lp := Lo p (or_intror (or_intror Ip))). assert (Lq := Lo q (or_intror (or_intror Iq))).
    destruct (k33_ord pow dec PR HD a b p q (D 0 0)%nat (D 1 0)%nat (D 1 1)%nat (D 2 0)%nat (D 2 1)%nat (D 2 2)%nat Lp Lq O V) as (k0 & Ek & Fk).
    destruct (kG_ord pow dec HD a b p q Nxx Nyy Nxy Lp Lq O V) as (g0 & Eg & Fg).
    unfold ent_D, k, g. fold T in Ek, Eg. rewrite Ek, Eg. cbn [bind val]. split; [reflexivity|]. intros X. split; [apply Fk, X|apply Fg, X]. }
  exists (map (fun p => map (fun q => k (p, q)) (sw_idx idx)) (sw_idx idx)), (map (fun p => map (fun q => g (p, q)) (sw_idx idx)) (sw_idx idx)).
  split; [apply (K_D_ok T D a b Nxx Nyy Nxy c m n idx k g E); intros p q Ip Iq; apply Q; assumption|].
  split; [apply (square_map (fun p q => k (p, q))), L|]. split; [apply (square_map (fun p q => g (p, q))), L|].
  intros X. split; apply Forall_forall; intros row Ir; apply in_map_iff in Ir; destruct Ir as (p & <- & Ip); apply Forall_forall; intros x Ix;
    apply in_map_iff in Ix; destruct Ix as (q & <- & Iq); apply Q; assumption.
Qed.
(*@ C82: the same lengths decide whether the assembly from the full ABD matrix returns or raises. @*)
Lemma t_C82_ABD : forall pow dec (ABD : nat -> nat -> f64) a b Nxx Nyy Nxy c m n idx, pow_range pow -> dec_close dec ->
  compute_constraints c m n = Ok idx -> (1 <= m <= 26)%nat -> (1 <= n <= 26)%nat ->
  let run := calc_K_KG_ABD (stored (FA pow) dec) ABD a b Nxx Nyy Nxy c m n in
  (vanishing a \/ huge a -> exists e, run = Err e) /\ (moderate a \/ endless a -> vanishing b \/ huge b -> exists e, run = Err e) /\
  (moderate a \/ endless a -> moderate b \/ endless b -> exists K KG, run = Ok (K, KG)).
Proof.
  intros pow dec ABD a b Nxx Nyy Nxy c m n idx PR HD E Hm Hn run.
  destruct (first_entry _ _ _ _ E Hm Hn) as [(p0 & l0 & Sw) Lo]. destruct (triples_ok _ _ _ _ E) as (L & Lu & Lv & Lw).
  destruct (compute_struct _ _ _ _ E) as (_ & _ & _ & U & V & W).
  assert (In3 : forall p, In p (triples idx) -> low (tu p) /\ low (tv p) /\ low (tw p)).
  { intros p I. repeat split; apply Lo; [left|left|right; left|right; left|right; right|right; right]; rewrite ?Lu, ?Lv, ?Lw; apply in_map, I. }
  assert (Er : (extreme a \/ extreme b) -> (extreme a \/ ordinary a) -> exists e, run = Err e).
  { intros X O. destruct run as [r|e] eqn:R; [|exists e; reflexivity]. exfalso. unfold run, calc_K_KG_ABD in R. cbv zeta in R. rewrite E in R. cbn [bind] in R.
    rewrite U, V, W, Lu, Lv, Lw, !prod_map in R. rewrite pow_sq, <- L in R. rewrite <- (prod_length (triples idx) (triples idx)) in R.
    rewrite mapM_get3 in R.
    match type of R with bind (mapM ?f ?l) _ = _ => destruct (mapM f l) as [es|] eqn:Q; [|discriminate R]; assert (Bad := fun x I N => mapM_bad f l x I N es Q) end.
    destruct (triples idx) as [|t0 tl] eqn:Tr; [rewrite Lw in Sw; discriminate Sw|].
    destruct (In3 t0 (or_introl eq_refl)) as (_ & _ & L0).
    apply (Bad (t0, t0)); [apply in_prod; left; reflexivity|]. intros y. cbn [fst snd]. unfold loop_ABD. cbn [fst snd].
    repeat match goal with |- bind ?k _ <> _ => match k with calc_k33 _ _ _ _ _ _ _ _ _ _ => fail 1 | _ => destruct k; cbn [bind]; [|discriminate] end end.
    assert (N := k33_extreme pow dec PR HD a b (tw t0) (tw t0) (cD11 (unpack_abd (A := FA pow) ABD)) (cD12 (unpack_abd (A := FA pow) ABD)) (cD22 (unpack_abd (A := FA pow) ABD)) (cD16 (unpack_abd (A := FA pow) ABD)) (cD26 (unpack_abd (A := FA pow) ABD)) (cD66 (unpack_abd (A := FA pow) ABD)) L0 L0 X O).
    destruct (calc_k33 _ _ _ _ _ _ _ _ _ _) as [k0|]; [exfalso; exact (N k0 eq_refl)|discriminate]. }
  split; [intros X; apply Er; left; exact X|]. split; [intros O X; apply Er; [right; exact X|right; exact O]|].
  intros O O'. unfold run.
  set (T := stored (FA pow) dec).
  set (d := Entries (A := FA pow) fzero fzero fzero fzero fzero fzero fzero fzero fzero fzero).
  eexists _, _. apply (K_ABD_ok T ABD a b Nxx Nyy Nxy c m n idx (fun pq => val d (ent_ABD T (unpack_abd (A := FA pow) ABD) a b Nxx Nyy Nxy pq)) E).
  intros p q Ip Iq. destruct (In3 p Ip) as (P1 & P2 & P3). destruct (In3 q Iq) as (Q1 & Q2 & Q3). unfold ent_ABD. cbn [fst snd].
  destruct (loop_ord pow dec PR HD a b (unpack_abd (A := FA pow) ABD) Nxx Nyy Nxy (tu p) (tu q) (tv p) (tv q) (tw p) (tw q) P1 Q1 P2 Q2 P3 Q3 O O') as (e & Ee).
  fold T in Ee. rewrite Ee. reflexivity.
Qed.
(*@ C82: the constructor takes every one of these lengths as it is. @*)
Lemma t_C82_accepted : forall parse a b Nxx Nyy Nxy (m n : nat), (vanishing a \/ huge a \/ moderate a \/ endless a) -> (vanishing b \/ huge b \/ moderate b \/ endless b) ->
  (1 <= m <= 26)%nat -> (1 <= n <= 26)%nat ->
  plate_init parse true (PFloat a) (PFloat b) (PFloat Nxx) (PFloat Nyy) (PFloat Nxy) (PInt (Z.of_nat m)) (PInt (Z.of_nat n)) =
  Ok (FPlate a b Nxx Nyy Nxy (Z.of_nat m) (Z.of_nat n)).
Proof.
  intros parse a b Nxx Nyy Nxy m n Ha Hb Hm Hn. 
  assert (X : forall x, vanishing x \/ huge x \/ moderate x \/ endless x -> flt x fzero = false).
  { intros x [(F & P & _)|[(F & P)|[(F & P & _)|E]]].
    - apply nbz_spec. right. right. exists (B2R x). split; [apply denotes_fin, F|exact P].
    - apply nbz_spec. right. right. exists (B2R x). split; [apply denotes_fin, F|]. rewrite p2 in P. assert (Q := bpow_gt_0 radix2 342). lra.
    - apply nbz_spec. right. right. exists (B2R x). split; [apply denotes_fin, F|]. rewrite p2 in P. assert (Q := bpow_gt_0 radix2 (-340)). lra.
    - destruct E as [-> | ->]; reflexivity. }
  assert (Y : forall k, (1 <= k <= 26)%nat -> int_number parse (PInt (Z.of_nat k)) (Some fone) None = Ok (Z.of_nat k)).
  { intros k Hk. do 27 (destruct k as [|k]; [first [lia|vm_compute; reflexivity]|]). lia. }
  unfold plate_init, is_instance, float_number, to_float, below, above. cbn [bind]. rewrite (X a Ha), (X b Hb). cbn [bind]. rewrite (Y m Hm), (Y n Hn). reflexivity.
Qed.

(** ** such powers exist *)
Lemma mul_fin x y : is_finite x = true -> is_finite y = true -> is_finite (fmul x y) = true -> B2R (fmul x y) = rnd64 (B2R x * B2R y).
Proof.
  intros Fx Fy F. assert (C := @Bmult_correct 53 1024 f64_prec f64_emax mode_NE x y). destruct (Rlt_bool _ _) eqn:B in C; [apply C|].
  exfalso. unfold fmul in F. destruct (@Bmult 53 1024 f64_prec f64_emax mode_NE x y); try discriminate F; cbn in C; revert C; destruct (xorb _ _); discriminate.
Qed.
Lemma cube_lt x y : 0 <= x -> x < y -> x ^ 3 < y ^ 3.
Proof.
  intros P H. assert (H1 : x * x <= y * y) by (apply Rmult_le_compat; lra). assert (H2 : x * x * x <= y * y * x) by (apply Rmult_le_compat_r; lra).
  assert (H3 : y * y * x < y * y * y) by (apply Rmult_lt_compat_l; [apply Rmult_lt_0_compat; lra|exact H]). cbn. lra.
Qed.
Lemma cube_le k x : 0 <= x -> x ^ 3 <= bp (3 * k) -> x <= bp k.
Proof. intros P H. rewrite <- bp_cube in H. destruct (Rle_or_lt x (bp k)) as [Q|Q]; [exact Q|]. assert (L := cube_lt _ _ (bpow_ge_0 radix2 k) Q). lra. Qed.
Lemma cube_ge k x : 0 <= x -> bp (3 * k) <= x ^ 3 -> bp k <= x.
Proof. intros P H. rewrite <- bp_cube in H. destruct (Rle_or_lt (bp k) x) as [Q|Q]; [exact Q|]. assert (L := cube_lt _ _ P Q). lra. Qed.
Lemma rnd_le k z : (-1074 <= k)%Z -> z <= bp k -> rnd64 z <= bp k.
Proof. intros K H. apply round_le_generic; [apply (fexp_correct 53 1024 eq_refl)|apply valid_rnd_round_mode|apply generic_format_bpow; unfold SpecFloat.fexp, SpecFloat.emin; lia|exact H]. Qed.
Lemma rnd_ge k z : (-1074 <= k)%Z -> bp k <= z -> bp k <= rnd64 z.
Proof. intros K H. apply round_ge_generic; [apply (fexp_correct 53 1024 eq_refl)|apply valid_rnd_round_mode|apply generic_format_bpow; unfold SpecFloat.fexp, SpecFloat.emin; lia|exact H]. Qed.
Lemma rnd_ge0 z : 0 <= z -> 0 <= rnd64 z.
Proof. intros H. apply round_ge_generic; [apply (fexp_correct 53 1024 eq_refl)|apply valid_rnd_round_mode|apply generic_format_0|exact H]. Qed.
Lemma rnd_none z : 0 <= z <= bp (-1077) -> rnd64 z = 0.
Proof.
  intros [P U]. destruct (Rle_lt_or_eq_dec _ _ P) as [Q|<-]; [|apply round_0, valid_rnd_round_mode].
  destruct (mag radix2 z) as [ex Hx]. assert (Z0 : z <> 0) by lra. specialize (Hx Z0). rewrite Rabs_right in Hx by lra.
  apply (round_N_small_pos radix2 _ _ _ ex Hx). assert (ex - 1 <= -1077)%Z. { apply (le_bpow radix2). lra. }
  unfold SpecFloat.fexp, SpecFloat.emin. lia.
Qed.
Lemma mul_pow_range : pow_range mul_pow.
Proof.
  constructor.
  - intros n [-> | ->]; reflexivity.
  - intros n [-> | ->]; reflexivity.
  - intros x n N F H. rewrite p2 in H. unfold mul_pow. cbv zeta. rewrite F. cbn [andb]. destruct N as [-> | ->].
    + rewrite mul_over; [reflexivity|exact F|exact F|]. replace (B2R x * B2R x) with (B2R x ^ 2) by ring. rewrite Rabs_right.
      * eapply Rle_trans; [|exact H]. apply bpow_le. lia.
      * apply Rle_ge, pow2_ge_0.
    + destruct (is_finite (fmul x x)) eqn:F2; [|rewrite (inf_l _ x F2); reflexivity].
      assert (P : 0 < B2R x). { destruct (Rle_or_lt (B2R x) 0) as [Q|Q]; [|exact Q]. exfalso. assert (G := bpow_gt_0 radix2 1025). assert (0 <= B2R x ^ 2) by apply pow2_ge_0. cbn in H. nra. }
      assert (L : bp 341 <= B2R x). { apply cube_ge; [lra|]. eapply Rle_trans; [|exact H]. apply bpow_le. lia. }
      assert (V := mul_fin x x F F F2). set (z := B2R x * B2R x) in *.
      assert (Q : bp 682 <= z). { unfold z. replace 682%Z with (341 + 341)%Z by lia. rewrite bpow_plus. assert (G := bpow_gt_0 radix2 341). apply Rmult_le_compat; lra. }
      assert (G6 := bpow_gt_0 radix2 682).
      assert (Rl := rnd_rel z). rewrite (Rabs_right z) in Rl by lra. specialize (Rl (or_intror (Rle_trans _ _ _ (bpow_le radix2 (-1022) 682 ltac:(lia)) Q))).
      rewrite mul_over; [reflexivity|exact F2|exact F|]. rewrite V. assert (u := unit_val).
      apply Rcomplements.Rabs_le_between in Rl. assert (Z2 : z / 2 <= rnd64 z) by nra.
      rewrite Rabs_right by (apply Rle_ge, Rmult_le_pos; lra). apply Rle_trans with (z / 2 * B2R x); [|apply Rmult_le_compat_r; lra].
      replace (z / 2 * B2R x) with (B2R x ^ 3 / 2) by (unfold z; field). replace 1025%Z with (1024 + 1)%Z in H by lia. rewrite bpow_plus in H. change (bp 1) with 2 in H. lra.
  - intros x n N F P H. rewrite p2 in H. unfold mul_pow. cbv zeta. rewrite F. cbn [andb].
    assert (G := bpow_gt_0 radix2 (-1077)). assert (B1 := bpow_le radix2 (-1077) 1023 ltac:(lia)).
    destruct N as [-> | ->].
    + replace (B2R x ^ 2) with (B2R x * B2R x) in H by ring. assert (P2 := Rmult_le_pos _ _ P P).
      destruct (mul_rnd x x F F) as [Fm Em]. { rewrite Rabs_right; lra. }
      exists (fmul x x). rewrite Fm. split; [reflexivity|]. split; [exact Fm|]. etransitivity; [exact Em|]. apply rnd_none. lra.
    + assert (L : B2R x <= bp (-359)) by (apply cube_le; [exact P|exact H]). assert (P2 := Rmult_le_pos _ _ P P).
      assert (U : B2R x * B2R x <= bp (-718)). { replace (-718)%Z with (-359 + -359)%Z by lia. rewrite bpow_plus. apply Rmult_le_compat; lra. }
      destruct (mul_rnd x x F F) as [Fm Em]. { rewrite Rabs_right by lra. eapply Rle_trans; [exact U|]. apply bpow_le. lia. }
      assert (R1 := rnd_le (-718) _ ltac:(lia) U). assert (R2 := rnd_ge0 _ P2). rewrite <- Em in R1, R2.
      assert (W : B2R (fmul x x) * B2R x <= bp (-1077)). { replace (-1077)%Z with (-718 + -359)%Z by lia. rewrite bpow_plus. apply Rmult_le_compat; lra. }
      assert (W0 := Rmult_le_pos _ _ R2 P).
      destruct (mul_rnd (fmul x x) x Fm F) as [Fn En]. { rewrite Rabs_right; lra. }
      exists (fmul (fmul x x) x). rewrite Fn. split; [reflexivity|]. split; [exact Fn|]. etransitivity; [exact En|]. apply rnd_none. lra.
  - intros x n N F P [H1 H2]. rewrite p2 in H1, H2. unfold mul_pow. cbv zeta. rewrite F. cbn [andb].
    assert (P2 := Rmult_lt_0_compat _ _ P P). assert (G := bpow_gt_0 radix2 (-1020)).
    destruct N as [-> | ->].
    + replace (B2R x ^ 2) with (B2R x * B2R x) in H1, H2 by ring.
      destruct (mul_rnd x x F F) as [Fm Em]. { rewrite Rabs_right by lra. eapply Rle_trans; [exact H2|]. apply bpow_le. lia. }
      exists (fmul x x). rewrite Fm. split; [reflexivity|]. split; [reflexivity|]. rewrite Em. assert (Q := rnd_ge (-1020) _ ltac:(lia) H1). lra.
    + assert (L : bp (-340) <= B2R x) by (apply cube_ge; [lra|exact H1]). assert (U : B2R x <= bp 340) by (apply cube_le; [lra|exact H2]).
      assert (G3 := bpow_gt_0 radix2 (-340)).
      assert (L2 : bp (-680) <= B2R x * B2R x). { replace (-680)%Z with (-340 + -340)%Z by lia. rewrite bpow_plus. apply Rmult_le_compat; lra. }
      assert (U2 : B2R x * B2R x <= bp 680). { replace 680%Z with (340 + 340)%Z by lia. rewrite bpow_plus. apply Rmult_le_compat; lra. }
      destruct (mul_rnd x x F F) as [Fm Em]. { rewrite Rabs_right by lra. eapply Rle_trans; [exact U2|]. apply bpow_le. lia. }
      assert (R1 := rnd_le 680 _ ltac:(lia) U2). assert (R2 := rnd_ge (-680) _ ltac:(lia) L2). rewrite <- Em in R1, R2. assert (G6 := bpow_gt_0 radix2 (-680)).
      assert (W1 : B2R (fmul x x) * B2R x <= bp 1020). { replace 1020%Z with (680 + 340)%Z by lia. rewrite bpow_plus. apply Rmult_le_compat; lra. }
      assert (W2 : bp (-1020) <= B2R (fmul x x) * B2R x). { replace (-1020)%Z with (-680 + -340)%Z by lia. rewrite bpow_plus. apply Rmult_le_compat; lra. }
      destruct (mul_rnd (fmul x x) x Fm F) as [Fn En]. { rewrite Rabs_right by lra. eapply Rle_trans; [exact W1|]. apply bpow_le. lia. }
      exists (fmul (fmul x x) x). rewrite Fn. split; [reflexivity|]. split; [reflexivity|]. rewrite En. assert (Q := rnd_ge (-1020) _ ltac:(lia) W2). lra.
Qed.
Lemma pow2_is k : (-1074 <= k <= 971)%Z -> is_finite (f_of_Z_exp 1 k) = true /\ B2R (f_of_Z_exp 1 k) = bp k.
Proof. intros K. destruct (f_of_Z_exp_denotes 1 k) as [F E]; [cbn; lia|exact K|]. split; [exact F|]. rewrite E. rewrite Rmult_1_l. reflexivity. Qed.
(*@ C82: powers by repeated multiplication keep to the contract and literals can be read to nearest; 0.0, -0.0 and 2^-400 are vanishing lengths, 2^400 is
    a huge one, 1 a moderate one; a pinned plate of 0 by 1 raises ZeroDivisionError, one of 1 by 2^400 OverflowError, and one of infinite length
    gives matrices without a finite entry. @*)
Example t_C82_ex : exists dec, pow_range mul_pow /\ dec_close dec /\ vanishing fzero /\ vanishing fnzero /\ vanishing (f_of_Z_exp 1 (-400)) /\ huge (f_of_Z_exp 1 400) /\ moderate fone /\
  let run a b := calc_K_KG_D (stored (FA mul_pow) dec) fid a b (f_of_Z (-1)) fzero fzero (CStr "PINNED") 3 3 in
  run fzero fone = Err ZeroDivisionError /\ run fone (f_of_Z_exp 1 400) = Err OverflowError /\ (exists K KG, run finf fone = Ok (K, KG) /\ none_finite K /\ none_finite KG).
Proof.
  exists dec_near. assert (PR := mul_pow_range). assert (HD := dec_near_close). split; [exact PR|]. split; [exact HD|].
  assert (G := bpow_gt_0 radix2 (-359)).
  assert (V0 : vanishing fzero) by (split; [reflexivity|]; rewrite p2; change (B2R fzero) with 0; lra).
  assert (V1 : vanishing fnzero) by (split; [reflexivity|]; rewrite p2; change (B2R fnzero) with 0; lra).
  assert (V2 : vanishing (f_of_Z_exp 1 (-400))).
  { destruct (pow2_is (-400) ltac:(lia)) as [F E]. split; [exact F|]. rewrite p2, E. split; [apply bpow_ge_0|apply bpow_le; lia]. }
  assert (H1 : huge (f_of_Z_exp 1 400)). { destruct (pow2_is 400 ltac:(lia)) as [F E]. split; [exact F|]. rewrite p2, E. apply bpow_le; lia. }
  assert (M1 : moderate fone). { destruct (pow2_is 0 ltac:(lia)) as [F E]. split; [exact F|]. rewrite !p2. change fone with (f_of_Z_exp 1 0). rewrite E. split; apply bpow_le; lia. }
  do 5 (split; [assumption|]). cbv zeta.
  destruct (idx_below (CStr "PINNED") Pinned Pinned Pinned Pinned 3 3 26) as (idx & E & _); [constructor|cbn; lia|cbn; lia|].
  assert (X := fun a b => t_C82_table mul_pow dec_near fid a b (f_of_Z (-1)) fzero fzero (CStr "PINNED") 3 3 idx PR HD E ltac:(lia) ltac:(lia)). cbv zeta in X.
  split; [exact (proj1 (X fzero fone) V0)|]. split; [exact (proj1 (proj2 (proj2 (proj2 (X fone (f_of_Z_exp 1 400))))) (or_introl M1) H1)|].
  destruct (X finf fone) as (_ & _ & _ & _ & Y). destruct Y as (K & KG & Ek & _ & _ & Fk); [right; left; reflexivity|left; exact M1|].
  exists K, KG. split; [exact Ek|]. apply Fk. left. left. reflexivity.
Qed.
