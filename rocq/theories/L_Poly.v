(** Polynomials with rational coefficients (constant term first), evaluated over the reals. *)
From Coq Require Import Reals ZArith QArith Qreals Lra Lia.
From Coquelicot Require Import Coquelicot.
From Coq Require Import List.
From Verif Require Import M_Py M_K M_Expr M_RealArith.
Import ListNotations.
Open Scope R_scope.

Fixpoint qeval (p : list Q) (x : R) : R := match p with [] => 0 | c :: p' => Q2R c + x * qeval p' x end.

Fixpoint qadd (p q : list Q) : list Q :=
  match p, q with
  | [], _ => q
  | _, [] => p
  | c :: p', d :: q' => Qred (c + d) :: qadd p' q'
  end.
Definition qscal (c : Q) (p : list Q) : list Q := map (fun d => Qred (c * d)) p.
Fixpoint qmul (p q : list Q) : list Q :=
  match p with [] => [] | c :: p' => if Qeq_bool c 0 then 0%Q :: qmul p' q else qadd (qscal c q) (0%Q :: qmul p' q) end.
Fixpoint qpow (p : list Q) (n : nat) : list Q := match n with O => [1%Q] | S k => qmul p (qpow p k) end.
Fixpoint qderiv (p : list Q) : list Q := match p with [] => [] | c :: p' => qadd p' (0%Q :: qderiv p') end.

Lemma Q2R_red c : Q2R (Qred c) = Q2R c.
Proof. apply Qeq_eqR, Qred_correct. Qed.
Lemma Q2R_0 : Q2R 0 = 0. Proof. unfold Q2R; cbn; lra. Qed.
Lemma Q2R_1 : Q2R 1 = 1. Proof. unfold Q2R; cbn; lra. Qed.
Lemma Q2R_Z z : Q2R (z # 1) = IZR z. Proof. unfold Q2R; cbn; lra. Qed.

Lemma qeval_add p : forall q x, qeval (qadd p q) x = qeval p x + qeval q x.
Proof.
  induction p as [|c p IH]; intros [|d q] x; cbn [qadd qeval]; try lra.
  rewrite IH, Q2R_red, Q2R_plus. lra.
Qed.
Lemma qeval_scal c p x : qeval (qscal c p) x = Q2R c * qeval p x.
Proof. unfold qscal. induction p as [|d p IH]; cbn [map qeval]; [lra|]. rewrite IH, Q2R_red, Q2R_mult. lra. Qed.
Lemma qeval_mul p : forall q x, qeval (qmul p q) x = qeval p x * qeval q x.
Proof.
  induction p as [|c p IH]; intros q x; cbn [qmul qeval]; [lra|].
  destruct (Qeq_bool c 0) eqn:E.
  - apply Qeq_bool_eq, Qeq_eqR in E. cbn [qeval]. rewrite IH, E, Q2R_0. lra.
  - rewrite qeval_add, qeval_scal. cbn [qeval]. rewrite IH, Q2R_0. lra.
Qed.
Lemma qeval_pow p n x : qeval (qpow p n) x = qeval p x ^ n.
Proof.
  induction n as [|n IH]; cbn [qpow pow].
  - cbn [qeval]. rewrite Q2R_1. lra.
  - rewrite qeval_mul, IH. reflexivity.
Qed.

Lemma qeval_derive p : forall x, is_derive (qeval p) x (qeval (qderiv p) x).
Proof.
  induction p as [|c p IH]; intros x; cbn [qeval qderiv].
  - apply (is_derive_ext (fun _ => 0)); [reflexivity|]. apply @is_derive_const.
  - rewrite qeval_add. cbn [qeval]. rewrite Q2R_0.
    specialize (IH x).
    apply (is_derive_ext (fun t => Q2R c + t * qeval p t)); [reflexivity|].
    evar_last.
    { apply @is_derive_plus; [apply @is_derive_const|].
      apply (is_derive_mult (fun t => t) (qeval p) x 1 (qeval (qderiv p) x)); [apply @is_derive_id|exact IH|].
      intros; apply Rmult_comm. }
    unfold plus, mult, zero; cbn. ring.
Qed.
Lemma qeval_ex_derive p x : ex_derive (qeval p) x.
Proof. eexists. apply qeval_derive. Qed.
Lemma qeval_Derive p x : Derive (qeval p) x = qeval (qderiv p) x.
Proof. apply is_derive_unique, qeval_derive. Qed.
Lemma qeval_continuous p x : continuous (qeval p) x.
Proof. apply (@ex_derive_continuous R_AbsRing R_NormedModule). apply qeval_ex_derive. Qed.

(** integral over [-1,1] of x^k times the polynomial *)
Fixpoint qint_k (k : nat) (p : list Q) : Q :=
  match p with
  | [] => 0%Q
  | c :: p' => if Nat.even k then Qred (c * (2 # Pos.of_nat (S k)) + qint_k (S k) p') else qint_k (S k) p'
  end.
Definition qint (p : list Q) : Q := qint_k 0 p.

Lemma pow_RInt k : is_RInt (fun x => x ^ k) (-1) 1 (if Nat.even k then 2 / INR (S k) else 0).
Proof.
  assert (Hn : INR (S k) <> 0) by (apply not_0_INR; lia).
  assert (H : is_RInt (fun x => x ^ k) (-1) 1 (minus (1 ^ S k / INR (S k)) ((-1) ^ S k / INR (S k)))).
  { apply (is_RInt_derive (fun x => x ^ S k / INR (S k))).
    - intros x _. auto_derive; [trivial|]. change (match k with 0%nat => 1 | S _ => INR k + 1 end) with (INR (S k)).
      rewrite ?Nat.sub_0_r. cbn [Init.Nat.pred]. field. exact Hn.
    - intros x _. apply (@ex_derive_continuous R_AbsRing R_NormedModule). auto_derive. trivial. }
  evar_last; [exact H|].
  unfold minus, plus, opp; cbn -[pow INR Nat.even].
  rewrite pow1. destruct (Nat.even k) eqn:E.
  - apply Nat.even_spec in E. destruct E as [j ->]. replace (S (2 * j)) with (S (2 * j)) by lia. rewrite pow_1_odd. field. exact Hn.
  - assert (O : Nat.odd k = true) by (unfold Nat.odd; rewrite E; reflexivity).
    apply Nat.odd_spec in O. destruct O as [j ->]. replace (S (2 * j + 1)) with (2 * (j + 1))%nat by lia. rewrite pow_1_even. field.
    apply not_0_INR; lia.
Qed.

Lemma Q2R_moment k : Q2R (2 # Pos.of_nat (S k)) = 2 / INR (S k).
Proof.
  unfold Q2R. cbn [Qnum Qden]. rewrite INR_IZR_INZ. unfold Rdiv. do 3 f_equal.
  rewrite <- Pos.of_nat_succ, Zpos_P_of_succ_nat. lia.
Qed.

Lemma qint_k_RInt p : forall k, is_RInt (fun x => x ^ k * qeval p x) (-1) 1 (Q2R (qint_k k p)).
Proof.
  induction p as [|c p IH]; intros k; cbn [qint_k].
  - cbn [qeval]. apply (is_RInt_ext (fun _ => 0)); [intros; lra|].
    rewrite Q2R_0. evar_last; [apply @is_RInt_const|]. unfold scal; cbn; unfold mult; cbn; lra.
  - apply (is_RInt_ext (fun x => plus (scal (Q2R c) (x ^ k)) (x ^ S k * qeval p x))).
    { intros x _. cbn [qeval]. unfold plus, scal; cbn -[pow]; unfold mult; cbn -[pow]. cbn [pow]. ring. }
    evar_last.
    + apply @is_RInt_plus; [apply @is_RInt_scal, pow_RInt|apply IH].
    + change (Q2R c * (if Nat.even k then 2 / INR (S k) else 0) + Q2R (qint_k (S k) p)
              = Q2R (if Nat.even k then Qred (c * (2 # Pos.of_nat (S k)) + qint_k (S k) p) else qint_k (S k) p)).
      destruct (Nat.even k); [|ring].
      rewrite Q2R_red, Q2R_plus, Q2R_mult, Q2R_moment. ring.
Qed.
Lemma qint_RInt p : is_RInt (qeval p) (-1) 1 (Q2R (qint p)).
Proof. apply (is_RInt_ext (fun x => x ^ 0 * qeval p x)); [intros; cbn; lra|]. apply qint_k_RInt. Qed.

(** ** The polynomial of a syntax tree in xi *)
Fixpoint qten (e : nat) : Z := match e with O => 1%Z | S k => (10 * qten k)%Z end.
Definition qdec (m e : Z) : Q :=
  match e with
  | Z0 => m # 1
  | Zpos k => (m * qten (Pos.to_nat k)) # 1
  | Zneg k => Qred (m # Z.to_pos (qten (Pos.to_nat k)))
  end.
Lemma qten_pos k : (0 < qten k)%Z.
Proof. induction k; cbn [qten]; lia. Qed.
Lemma IZR_qten k : IZR (qten k) = 10 ^ k.
Proof. induction k as [|k IH]; [reflexivity|]. cbn [qten]. rewrite mult_IZR, IH. reflexivity. Qed.
Lemma Q2R_dec m e : Q2R (qdec m e) = Rdec m e.
Proof.
  unfold Rdec, qdec. destruct e as [|k|k]; cbn [powerRZ].
  - rewrite Q2R_Z. lra.
  - rewrite Q2R_Z, mult_IZR, IZR_qten. reflexivity.
  - rewrite Q2R_red. unfold Q2R. cbn [Qnum Qden]. rewrite Z2Pos.id by apply qten_pos. rewrite IZR_qten. reflexivity.
Qed.

Fixpoint to_poly (x : expr) : option (list Q) :=
  match x with
  | EInt z => Some [z # 1]
  | EDec m e => Some [qdec m e]
  | EXi => Some [0%Q; 1%Q]
  | EEta => None
  | ENeg x => match to_poly x with Some p => Some (qscal (-1) p) | None => None end
  | EAdd x y => match to_poly x, to_poly y with Some p, Some q => Some (qadd p q) | _, _ => None end
  | ESub x y => match to_poly x, to_poly y with Some p, Some q => Some (qadd p (qscal (-1) q)) | _, _ => None end
  | EMul x y => match to_poly x, to_poly y with Some p, Some q => Some (qmul p q) | _, _ => None end
  | EDiv x y => match to_poly x, to_poly y with
                | Some p, Some [c] => if Qeq_bool c 0 then None else Some (qscal (Qinv c) p)
                | _, _ => None
                end
  | EPow x n => match to_poly x with Some p => Some (qpow p n) | None => None end
  end.

Lemma to_poly_eval e : forall p xi eta, to_poly e = Some p -> eval_expr (A := RA) Rdec xi eta e = Ok (qeval p xi).
Proof.
  induction e; intros p xi eta H; cbn [to_poly] in H; cbn [eval_expr].
  - injection H as <-. cbn [qeval RA nint]. rewrite Q2R_Z. f_equal. lra.
  - injection H as <-. cbn [qeval]. rewrite Q2R_dec. f_equal. lra.
  - injection H as <-. cbn [qeval]. rewrite Q2R_0, Q2R_1. f_equal. lra.
  - discriminate H.
  - destruct (to_poly e) as [q|]; [|discriminate H]. injection H as <-.
    rewrite (IHe q) by reflexivity. cbn [bind RA nneg]. rewrite qeval_scal. f_equal.
    unfold Q2R; cbn; lra.
  - destruct (to_poly e1) as [q|]; [|discriminate H]. destruct (to_poly e2) as [r|]; [|discriminate H]. injection H as <-.
    rewrite (IHe1 q), (IHe2 r) by reflexivity. cbn [bind RA nadd]. rewrite qeval_add. reflexivity.
  - destruct (to_poly e1) as [q|]; [|discriminate H]. destruct (to_poly e2) as [r|]; [|discriminate H]. injection H as <-.
    rewrite (IHe1 q), (IHe2 r) by reflexivity. cbn [bind RA nsub]. rewrite qeval_add, qeval_scal. f_equal.
    unfold Q2R; cbn; lra.
  - destruct (to_poly e1) as [q|]; [|discriminate H]. destruct (to_poly e2) as [r|]; [|discriminate H]. injection H as <-.
    rewrite (IHe1 q), (IHe2 r) by reflexivity. cbn [bind RA nmul]. rewrite qeval_mul. reflexivity.
  - destruct (to_poly e1) as [q|]; [|discriminate H]. destruct (to_poly e2) as [[|c [|? ?]]|]; try discriminate H.
    destruct (Qeq_bool c 0) eqn:E; [discriminate H|]. injection H as <-.
    rewrite (IHe1 q), (IHe2 [c]) by reflexivity. cbn [bind RA ndiv qeval].
    assert (Hc : ~ (c == 0)%Q) by (intros F; apply Qeq_bool_iff in F; congruence).
    assert (Hr : Q2R c <> 0). { intros F. apply Hc. apply eqR_Qeq. rewrite F, Q2R_0. reflexivity. }
    destruct (Req_EM_T (Q2R c + xi * 0) 0) as [F|F]; [exfalso; lra|].
    rewrite qeval_scal, Q2R_inv by exact Hc. f_equal. field. exact Hr.
  - destruct (to_poly e) as [q|]; [|discriminate H]. injection H as <-.
    rewrite (IHe q) by reflexivity. cbn [bind RA npow]. rewrite qeval_pow. reflexivity.
Qed.
