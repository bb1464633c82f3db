(** The stored integrals read in binary64. *)
From Coq Require Import Reals ZArith QArith Qreals Lra Lia Bool String.
From Flocq Require Import Core.Core IEEE754.BinarySingleNaN.
From Coq Require Import List.
From Verif Require Import M_Py M_K M_Tables M_Shape M_Expr M_Float M_FloatArith M_RealArith S_Validate S_Round L_Poly L_Shape L_TabV L_KR L_Float L_Round T_K.
Import ListNotations.
Open Scope R_scope.

Definition small (z : Z) : bool := (Z.leb 0 z && Z.ltb z 9007199254740992)%Z.
(** 0, or between 10^-30 and 10 *)
Definition dec_in (m e : Z) : bool :=
  (Z.eqb m 0 || (Z.leb 0 m && Z.leb e 0 && Z.leb (10 ^ (- e)) (m * 10 ^ 30) && Z.leb m (10 * 10 ^ (- e))))%Z%bool.
Definition shape (x : expr) : bool :=
  match x with
  | EInt z => small z
  | EDiv (EInt n) (EInt d) => small n && small d && Z.ltb 0 d
  | EDiv (ENeg (EInt n)) (EInt d) => small n && small d && Z.ltb 0 d
  | EDec m e => dec_in m e
  | ENeg (EDec m e) => dec_in m e
  | _ => false
  end.
(** zero, or at least 2^-60 *)
Definition not_tiny (q : Q) : bool := (Z.eqb (Qnum q) 0 || Z.leb (Zpos (Qden q)) (Z.abs (Qnum q) * 1152921504606846976))%Z%bool.
Definition text_good (s : string) : bool :=
  match parse s with
  | Some x => shape x && match to_poly x with Some [q] => not_tiny q | _ => false end
  | None => false
  end.
Definition tab_good (t : list (list string)) : bool := Nat.eqb (List.length t) 30 && forallb (fun r => Nat.eqb (List.length r) 30 && forallb text_good r) t.
Lemma good_00 : tab_good ii_FF = true. Proof. vm_cast_no_check (eq_refl true). Qed.
Lemma good_10 : tab_good ii_FXI_F = true. Proof. vm_cast_no_check (eq_refl true). Qed.
Lemma good_11 : tab_good ii_FXI_FXI = true. Proof. vm_cast_no_check (eq_refl true). Qed.
Lemma good_20 : tab_good ii_FXIXI_F = true. Proof. vm_cast_no_check (eq_refl true). Qed.
Lemma good_21 : tab_good ii_FXIXI_FXI = true. Proof. vm_cast_no_check (eq_refl true). Qed.
Lemma good_22 : tab_good ii_FXIXI_FXIXI = true. Proof. vm_cast_no_check (eq_refl true). Qed.

Lemma ten_neg e : (e <= 0)%Z -> powerRZ 10 e = / IZR (10 ^ (- e)) /\ 0 < IZR (10 ^ (- e)).
Proof.
  intros H. assert (P : (0 < 10 ^ (- e))%Z) by (apply Z.pow_pos_nonneg; lia). split; [|apply IZR_lt, P].
  destruct e as [|p|p]; [cbn; lra|lia|]. cbn [powerRZ Z.opp]. f_equal. rewrite pow_IZR. f_equal. rewrite positive_nat_Z. reflexivity.
Qed.
Lemma dec_in_ok m e : dec_in m e = true -> (0 <= m)%Z /\ (m = 0%Z \/ powerRZ 10 (-30) <= IZR m * powerRZ 10 e <= 10).
Proof.
  unfold dec_in. intros H. apply orb_prop in H. destruct H as [H|H]; [apply Z.eqb_eq in H; subst; split; [lia|left; reflexivity]|].
  apply andb_prop in H. destruct H as [H H4]. apply andb_prop in H. destruct H as [H H3]. apply andb_prop in H. destruct H as [H1 H2].
  apply Z.leb_le in H1, H2, H3, H4. split; [exact H1|right]. destruct (ten_neg e H2) as [-> P].
  apply IZR_le in H3, H4. rewrite mult_IZR in H3, H4. change (powerRZ 10 (-30)) with (/ 10 ^ 30).
  replace (IZR (10 ^ 30)) with (10 ^ 30) in H3 by (symmetry; change (10 ^ 30)%Z with (10 ^ (Z.of_nat 30))%Z; rewrite <- pow_IZR; reflexivity). set (T := IZR (10 ^ (- e))) in *. set (X := IZR m) in *.
  assert (Q : 0 < 10 ^ 30) by (apply pow_lt; lra). set (B := 10 ^ 30) in *. clearbody B. split.
  - apply (Rmult_le_reg_r (B * T)); [apply Rmult_lt_0_compat; assumption|].
    replace (/ B * (B * T)) with T by (field; lra). replace (X * / T * (B * T)) with (X * B) by (field; lra). exact H3.
  - apply (Rmult_le_reg_r T); [exact P|]. rewrite Rmult_assoc, Rinv_l by lra. lra.
Qed.
Lemma small_exact z : small z = true -> is_finite (f_of_Z z) = true /\ B2R (f_of_Z z) = IZR z.
Proof.
  intros H. apply andb_prop in H. destruct H as [H1 H2]. apply Z.leb_le in H1. apply Z.ltb_lt in H2.
  destruct (f_of_Z_exp_denotes z 0) as [F E]; [lia|lia|]. split; [exact F|]. etransitivity; [exact E|]. cbn. lra.
Qed.
Section Read.
Context (pow : f64 -> nat -> res f64) (dec : Z -> Z -> f64) (HD : dec_close dec).
Lemma ratio n d x : small d = true -> (0 < d)%Z -> is_finite x = true -> Rabs (B2R x) = IZR n -> small n = true ->
  feq (f_of_Z d) fzero = false /\ relk 1 (fdiv x (f_of_Z d)) (B2R x / IZR d).
Proof.
  intros Sd Pd Fx Ex Sn. destruct (small_exact d Sd) as [Fd Ed]. apply andb_prop in Sd, Sn. destruct Sd as [_ Sd], Sn as [Sn0 Sn]. apply Z.ltb_lt in Sd, Sn. apply Z.leb_le in Sn0.
  apply IZR_lt in Sd, Sn. assert (Pr : 1 <= IZR d) by (apply IZR_le; lia). assert (N : IZR d <> 0) by lra.
  assert (NE : B2R (f_of_Z d) <> 0) by (rewrite Ed; exact N). split; [apply feq_zero; assumption|].
  assert (Up : Rabs (B2R x / B2R (f_of_Z d)) <= bp 1023).
  { rewrite Ed. unfold Rdiv. rewrite Rabs_mult, Ex, Rabs_inv, (Rabs_right (IZR d)) by lra. apply Rle_trans with (IZR n * 1).
    - apply Rmult_le_compat_l; [apply IZR_le; exact Sn0|]. rewrite <- Rinv_1. apply Rinv_le; lra.
    - rewrite Rmult_1_r. apply Rlt_le, (Rlt_le_trans _ _ _ Sn). change 9007199254740992 with (bp 53). apply bpow_le. lia. }
  destruct (div_rnd x (f_of_Z d) Fx NE Up) as [F E]. split; [exact F|]. rewrite E, Ed, Rmult_1_l. apply rnd_rel.
  destruct (Z.eq_dec n 0) as [-> |Nn].
  - left. replace (B2R x) with 0; [unfold Rdiv; ring|]. destruct (Req_dec (B2R x) 0) as [Z|Z]; [symmetry; exact Z|]. apply Rabs_no_R0 in Z. rewrite Ex in Z. lra.
  - right. unfold Rdiv. rewrite Rabs_mult, Ex, Rabs_inv, (Rabs_right (IZR d)) by lra. apply Rle_trans with (1 * bp (-53)).
    + rewrite Rmult_1_l. apply bpow_le. lia.
    + apply Rmult_le_compat; [lra|apply bpow_ge_0|apply IZR_le; lia|]. change (bp (-53)) with (/ 9007199254740992). apply Rinv_le; lra.
Qed.
Lemma relk_opp k x r : relk k x r -> relk k (fopp x) (- r).
Proof.
  intros [F E]. split; [unfold fopp; rewrite is_finite_Bopp; exact F|]. unfold fopp. rewrite B2R_Bopp, Rabs_Ropp.
  replace (- B2R x - - r) with (- (B2R x - r)) by ring. rewrite Rabs_Ropp. exact E.
Qed.
Lemma dec_relk m e : dec_in m e = true -> relk 1 (dec m e) (IZR m * powerRZ 10 e).
Proof.
  intros H. destruct (dec_in_ok m e H) as [Hm R0]. destruct (HD m e Hm R0) as [F E]. split; [exact F|]. rewrite Rmult_1_l.
  rewrite (Rabs_right (IZR m * powerRZ 10 e)); [exact E|]. apply Rle_ge, Rmult_le_pos; [apply IZR_le; exact Hm|]. apply Rlt_le, powerRZ_lt. lra.
Qed.
Lemma read_shape x z w : shape x = true -> exists f v, eval_expr (A := FA pow) dec z z x = Ok f /\ eval_expr (A := RA) Rdec w w x = Ok v /\ relk 1 f v.
Proof.
  assert (U := unit_val).
  destruct x as [n|m e| | |x|x y|x y|x y|x y|x n]; intros H; try discriminate H; cbn [shape] in H.
  - destruct (small_exact n H) as [F E]. exists (f_of_Z n), (IZR n). split; [reflexivity|]. split; [reflexivity|]. split; [exact F|].
    rewrite E, Rminus_diag_eq, Rabs_R0 by reflexivity. apply Rmult_le_pos; [lra|apply Rabs_pos].
  - exists (dec m e), (Rdec m e). split; [reflexivity|]. split; [reflexivity|]. apply dec_relk, H.
  - destruct x; try discriminate H. eexists _, _. split; [reflexivity|]. split; [reflexivity|]. apply relk_opp, dec_relk, H.
  - destruct x as [n| | | |x| | | | |]; try discriminate H.
    + destruct y as [d| | | | | | | | |]; try discriminate H. apply andb_prop in H. destruct H as [H H3]. apply andb_prop in H. destruct H as [H1 H2].
      apply Z.ltb_lt in H3. destruct (small_exact n H1) as [Fn En]. assert (Pn := H1). apply andb_prop in Pn. destruct Pn as [Pn _]. apply Z.leb_le, IZR_le in Pn.
      destruct (ratio n d (f_of_Z n) H2 H3 Fn) as [Z0 R0]; [rewrite En; apply Rabs_right, Rle_ge, Pn|exact H1|].
      exists (fdiv (f_of_Z n) (f_of_Z d)), (IZR n / IZR d). cbn [eval_expr bind FA RA ndiv nint]. rewrite Z0. split; [reflexivity|].
      apply IZR_lt in H3. destruct (Req_EM_T (IZR d) 0) as [Q|Q]; [lra|]. split; [reflexivity|]. rewrite En in R0. exact R0.
    + destruct x as [n| | | | | | | | |]; try discriminate H.
      destruct y as [d| | | | | | | | |]; try discriminate H. apply andb_prop in H. destruct H as [H H3]. apply andb_prop in H. destruct H as [H1 H2].
      apply Z.ltb_lt in H3. destruct (small_exact n H1) as [Fn En]. assert (Pn := H1). apply andb_prop in Pn. destruct Pn as [Pn _]. apply Z.leb_le, IZR_le in Pn.
      assert (Eo : B2R (fopp (f_of_Z n)) = - IZR n) by (unfold fopp; rewrite B2R_Bopp, En; reflexivity).
      destruct (ratio n d (fopp (f_of_Z n)) H2 H3) as [Z0 R0]; [unfold fopp; rewrite is_finite_Bopp; exact Fn|rewrite Eo, Rabs_Ropp; apply Rabs_right, Rle_ge, Pn|exact H1|].
      exists (fdiv (fopp (f_of_Z n)) (f_of_Z d)), (- IZR n / IZR d). cbn [eval_expr bind FA RA ndiv nint nneg]. rewrite Z0. split; [reflexivity|].
      apply IZR_lt in H3. destruct (Req_EM_T (IZR d) 0) as [Q|Q]; [lra|]. split; [reflexivity|]. rewrite Eo in R0. exact R0.
Qed.
Definition fl_at (t : list (list string)) (i k : nat) : res f64 := s <- lookup t i k ;; eval (A := FA pow) dec (f_of_Z 0) (f_of_Z 0) s.
Lemma read_table t i k : tab_good t = true -> (i < 30)%nat -> (k < 30)%nat ->
  exists x v, fl_at t i k = Ok x /\ tab_at t i k = Ok v /\ relk 1 x v /\ (v = 0 \/ bp (-60) <= Rabs v).
Proof.
  intros H Hi Hk. apply andb_prop in H. destruct H as [H1 H2]. apply Nat.eqb_eq in H1. rewrite forallb_forall in H2.
  destruct (nth_error t i) as [r|] eqn:R0; [|apply nth_error_None in R0; lia].
  assert (H3 := H2 r (nth_error_In _ _ R0)). cbn beta in H3. apply andb_prop in H3. destruct H3 as [H3 H4]. apply Nat.eqb_eq in H3. rewrite forallb_forall in H4.
  destruct (nth_error r k) as [s|] eqn:S0; [|apply nth_error_None in S0; lia].
  assert (H5 := H4 s (nth_error_In _ _ S0)). unfold text_good in H5. destruct (parse s) as [x|] eqn:P; [|discriminate H5].
  apply andb_prop in H5. destruct H5 as [H5 H6]. destruct (to_poly x) as [[|q [|? ?]]|] eqn:T; try discriminate H6.
  destruct (read_shape x (f_of_Z 0) 0 H5) as (f & v & E1 & E2 & E3). exists f, v.
  unfold fl_at, tab_at, lookup. rewrite R0, S0. cbn [bind]. unfold eval. rewrite P. split; [exact E1|]. split; [exact E2|]. split; [exact E3|].
  assert (V := to_poly_eval _ _ 0 0 T). cbn [qeval] in V. rewrite E2 in V. apply (f_equal (fun r => match r with Ok z => z | Err _ => 0 end)) in V. rewrite V.
  replace (Q2R q + 0 * 0) with (Q2R q) by ring. unfold Q2R. apply orb_prop in H6. destruct H6 as [H6|H6].
  - left. apply Z.eqb_eq in H6. rewrite H6. ring.
  - right. apply Z.leb_le, IZR_le in H6. rewrite mult_IZR, abs_IZR in H6. assert (Pd : 0 < IZR (Zpos (Qden q))) by (apply IZR_lt; reflexivity).
    rewrite Rabs_mult, Rabs_inv, (Rabs_right (IZR (Zpos _))) by lra. change (bp (-60)) with (/ 1152921504606846976).
    apply (Rmult_le_reg_r (1152921504606846976 * IZR (Zpos (Qden q)))); [apply Rmult_lt_0_compat; lra|].
    rewrite <- Rmult_assoc, Rinv_l by lra. replace (Rabs (IZR (Qnum q)) * / IZR (Zpos (Qden q)) * (1152921504606846976 * IZR (Zpos (Qden q)))) with (Rabs (IZR (Qnum q)) * 1152921504606846976) by (field; lra). lra.
Qed.
End Read.
