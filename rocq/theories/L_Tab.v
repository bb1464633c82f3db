(** The stored integrals against the exact ones, in integer arithmetic. *)
From Coq Require Import Reals ZArith QArith Qreals Lra Lia Bool String.
From Coquelicot Require Import Coquelicot.
From Coq Require Import List.
From Verif Require Import M_Py M_K M_Tables M_Shape M_Expr M_RealArith S_Bardell L_Poly L_Shape.
Import ListNotations.
Open Scope R_scope.

Definition p0 : list (list Q) := Eval vm_compute in firstn 30 polys.
Definition p1 : list (list Q) := Eval vm_compute in map qderiv p0.
Definition p2 : list (list Q) := Eval vm_compute in map qderiv p1.

(** integer polynomials *)
Fixpoint zeval (p : list Z) (x : R) : R := match p with [] => 0 | c :: p' => IZR c + x * zeval p' x end.
(** a common denominator, and the numerators over it *)
Definition den (p : list Q) : Z := fold_right (fun c d => Z.lcm (Zpos (Qden c)) d) 1%Z p.
Definition over_den (d : Z) (p : list Q) : list Z := map (fun c => (Qnum c * (d / Zpos (Qden c)))%Z) p.
Definition divides_all (d : Z) (p : list Q) : bool := forallb (fun c => Z.eqb (d mod Zpos (Qden c)) 0) p.
Lemma over_den_eval d p x : (0 < d)%Z -> divides_all d p = true -> zeval (over_den d p) x = IZR d * qeval p x.
Proof.
  intros Hd. induction p as [|c p IH]; cbn [divides_all forallb over_den map zeval qeval]; [intros; lra|].
  intros H. apply andb_prop in H. destruct H as [H1 H2]. fold (over_den d p). rewrite IH by exact H2.
  apply Z.eqb_eq in H1. assert (E : (d = Zpos (Qden c) * (d / Zpos (Qden c)))%Z).
  { rewrite (Z.div_mod d (Zpos (Qden c))) at 1 by discriminate. lia. }
  assert (Hq : IZR (Zpos (Qden c)) <> 0) by (apply not_0_IZR; discriminate).
  assert (E' : IZR d = IZR (Zpos (Qden c)) * IZR (d / Zpos (Qden c))) by (rewrite <- mult_IZR; f_equal; exact E).
  rewrite mult_IZR. unfold Q2R. rewrite E'. field. exact Hq.
Qed.

(** 2 lcm(1..61) / (n+1) for even n, else 0 *)
Definition scale : Z := Eval vm_compute in fold_right (fun n d => Z.lcm (Z.of_nat n) d) 1%Z (seq 1 61).
Definition moms : list Z := Eval vm_compute in map (fun n => if Nat.even n then (2 * scale / Z.of_nat (S n))%Z else 0%Z) (seq 0 61).
Definition mom_ok (n : nat) : bool := Z.eqb (nth n moms 0 * Z.of_nat (S n))%Z (if Nat.even n then 2 * scale else 0)%Z.
Lemma moms_ok : forallb mom_ok (seq 0 61) = true. Proof. vm_compute. reflexivity. Qed.
Lemma mom_RInt n : (n < 61)%nat -> is_RInt (fun x => x ^ n) (-1) 1 (IZR (nth n moms 0%Z) / IZR scale).
Proof.
  intros Hn. assert (H := moms_ok). rewrite forallb_forall in H. specialize (H n (proj2 (in_seq 61 0 n) ltac:(lia))).
  unfold mom_ok in H. apply Z.eqb_eq, (f_equal IZR) in H. rewrite mult_IZR, <- INR_IZR_INZ in H.
  assert (Hi : INR (S n) <> 0) by (apply not_0_INR; lia). assert (Hs : IZR scale <> 0) by (apply not_0_IZR; discriminate).
  evar_last; [apply pow_RInt|]. destruct (Nat.even n).
  - rewrite mult_IZR in H. apply (Rmult_eq_reg_r (INR (S n) * IZR scale)); [|apply Rmult_integral_contrapositive_currified; assumption].
    transitivity (IZR 2 * IZR scale); [field; exact Hi|]. rewrite <- H. field. exact Hs.
  - apply Rmult_integral in H. destruct H as [H|H]; [rewrite H; field; exact Hs|contradiction].
Qed.

Fixpoint zdot (p m : list Z) : Z := match p, m with c :: p', w :: m' => (c * w + zdot p' m')%Z | _, _ => 0%Z end.
Lemma skipn_nth {X} (d : X) l : forall k, (k < List.length l)%nat -> skipn k l = nth k l d :: skipn (S k) l.
Proof. induction l as [|x l IH]; intros k H; [cbn in H; lia|]. destruct k as [|k]; [reflexivity|]. cbn [skipn nth]. cbn in H. rewrite IH by lia. reflexivity. Qed.
Lemma zdot_RInt q : forall k, (k + List.length q <= 61)%nat -> is_RInt (fun x => x ^ k * zeval q x) (-1) 1 (IZR (zdot q (skipn k moms)) / IZR scale).
Proof.
  induction q as [|c q IH]; intros k Hk.
  - cbn [zdot zeval]. apply (is_RInt_ext (fun _ => 0)); [intros; lra|].
    evar_last; [apply @is_RInt_const|]. unfold scal; cbn; unfold mult; cbn. lra.
  - cbn [List.length] in Hk. rewrite (skipn_nth 0%Z) by (change (List.length moms) with 61%nat; lia). cbn [zdot].
    apply (is_RInt_ext (fun x => plus (scal (IZR c) (x ^ k)) (x ^ S k * zeval q x))).
    { intros x _. change (IZR c * x ^ k + x ^ S k * zeval q x = x ^ k * zeval (c :: q) x). cbn [zeval pow]. ring. }
    evar_last; [apply @is_RInt_plus; [apply @is_RInt_scal, mom_RInt; lia|apply IH; lia]|].
    change (IZR c * (IZR (nth k moms 0%Z) / IZR scale) + IZR (zdot q (skipn (S k) moms)) / IZR scale = IZR (c * nth k moms 0 + zdot q (skipn (S k) moms))%Z / IZR scale).
    rewrite plus_IZR, mult_IZR. field. apply not_0_IZR. discriminate.
Qed.
(** the moments of [q] times the scale, and the integral of a product *)
Definition moments (q : list Z) : list Z := map (fun k => zdot q (skipn k moms)) (seq 0 30).
Lemma zdot2_RInt p q : forall k, (k + List.length p <= 30)%nat -> (List.length q <= 30)%nat ->
  is_RInt (fun x => x ^ k * zeval p x * zeval q x) (-1) 1 (IZR (zdot p (skipn k (moments q))) / IZR scale).
Proof.
  induction p as [|c p IH]; intros k Hk Hq.
  - cbn [zdot zeval]. apply (is_RInt_ext (fun _ => 0)); [intros; lra|].
    evar_last; [apply @is_RInt_const|]. unfold scal; cbn; unfold mult; cbn. lra.
  - cbn [List.length] in Hk. assert (L : List.length (moments q) = 30%nat) by (unfold moments; rewrite map_length, seq_length; reflexivity).
    rewrite (skipn_nth 0%Z) by lia. cbn [zdot].
    assert (N : nth k (moments q) 0%Z = zdot q (skipn k moms)).
    { apply nth_error_nth. unfold moments. rewrite nth_error_map, (nth_error_nth' _ 0%nat) by (rewrite seq_length; lia).
      rewrite seq_nth by lia. reflexivity. }
    rewrite N.
    apply (is_RInt_ext (fun x => plus (scal (IZR c) (x ^ k * zeval q x)) (x ^ S k * zeval p x * zeval q x))).
    { intros x _. change (IZR c * (x ^ k * zeval q x) + x ^ S k * zeval p x * zeval q x = x ^ k * zeval (c :: p) x * zeval q x).
      cbn [zeval pow]. ring. }
    evar_last; [apply @is_RInt_plus; [apply @is_RInt_scal, zdot_RInt; lia|apply IH; lia]|].
    change (IZR c * (IZR (zdot q (skipn k moms)) / IZR scale) + IZR (zdot p (skipn (S k) (moments q))) / IZR scale = IZR (c * zdot q (skipn k moms) + zdot p (skipn (S k) (moments q)))%Z / IZR scale).
    rewrite plus_IZR, mult_IZR. field. apply not_0_IZR. discriminate.
Qed.

(** the polynomials with their denominators *)
Definition zform (p : list Q) : Z * list Z := (den p, over_den (den p) p).
Definition z0 : list (Z * list Z) := Eval vm_compute in map zform p0.
Definition z1 : list (Z * list Z) := Eval vm_compute in map zform p1.
Definition z2 : list (Z * list Z) := Eval vm_compute in map zform p2.
(** [z] is an integer form of [p] *)
Definition form_ok (p : list Q) (z : Z * list Z) : bool :=
  Z.ltb 0 (fst z) && divides_all (fst z) p && Nat.leb (List.length (snd z)) 30
  && (if list_eq_dec Z.eq_dec (over_den (fst z) p) (snd z) then true else false).
Fixpoint forms_ok (ps : list (list Q)) (zs : list (Z * list Z)) : bool :=
  match ps, zs with [], [] => true | p :: ps', z :: zs' => form_ok p z && forms_ok ps' zs' | _, _ => false end.
Lemma z0_ok : forms_ok p0 z0 = true. Proof. vm_compute. reflexivity. Qed.
Lemma z1_ok : forms_ok p1 z1 = true. Proof. vm_compute. reflexivity. Qed.
Lemma z2_ok : forms_ok p2 z2 = true. Proof. vm_compute. reflexivity. Qed.
Lemma form_eval p z x : form_ok p z = true -> qeval p x = zeval (snd z) x / IZR (fst z) /\ 0 < IZR (fst z) /\ (List.length (snd z) <= 30)%nat.
Proof.
  unfold form_ok. intros H. apply andb_prop in H. destruct H as [H H4]. apply andb_prop in H. destruct H as [H H3].
  apply andb_prop in H. destruct H as [H1 H2]. apply Z.ltb_lt in H1. apply Nat.leb_le in H3.
  destruct (list_eq_dec Z.eq_dec (over_den (fst z) p) (snd z)) as [E|]; [|discriminate H4].
  rewrite <- E at 1. rewrite over_den_eval by assumption. apply IZR_lt in H1. split; [field; lra|]. split; assumption.
Qed.

(** the moments of all of them *)
Definition mform (z : Z * list Z) : Z * list Z := (fst z, moments (snd z)).
Definition m0 : list (Z * list Z) := Eval vm_compute in map mform z0.
Definition m1 : list (Z * list Z) := Eval vm_compute in map mform z1.
Definition m2 : list (Z * list Z) := Eval vm_compute in map mform z2.
Lemma m0_ok : m0 = map mform z0. Proof. vm_compute. reflexivity. Qed.
Lemma m1_ok : m1 = map mform z1. Proof. vm_compute. reflexivity. Qed.
Lemma m2_ok : m2 = map mform z2. Proof. vm_compute. reflexivity. Qed.

(** the text is a constant within 1e-8 of the integral, at most 8/5 in absolute value *)
Definition entry_ok (s : string) (p q : Z * list Z) : bool :=
  match text_poly s with
  | Some [v] =>
      let d := (fst p * fst q * scale)%Z in
      Z.leb (100000000 * Z.abs (Qnum v * d - Zpos (Qden v) * zdot (snd p) (snd q))) (Zpos (Qden v) * d)
      && Z.leb (5 * Z.abs (Qnum v)) (8 * Zpos (Qden v))
  | _ => false
  end.
Fixpoint row_ok (r : list string) (p : Z * list Z) (qs : list (Z * list Z)) : bool :=
  match r, qs with
  | [], [] => true
  | s :: r', q :: qs' => entry_ok s p q && row_ok r' p qs'
  | _, _ => false
  end.
Fixpoint tab_ok (t : list (list string)) (ps qs : list (Z * list Z)) : bool :=
  match t, ps with
  | [], [] => true
  | r :: t', p :: ps' => row_ok r p qs && tab_ok t' ps' qs
  | _, _ => false
  end.
Lemma ok_FF : tab_ok ii_FF z0 m0 = true. Proof. vm_cast_no_check (eq_refl true). Qed.
Lemma ok_FXI_F : tab_ok ii_FXI_F z1 m0 = true. Proof. vm_cast_no_check (eq_refl true). Qed.
Lemma ok_FXI_FXI : tab_ok ii_FXI_FXI z1 m1 = true. Proof. vm_cast_no_check (eq_refl true). Qed.
Lemma ok_FXIXI_F : tab_ok ii_FXIXI_F z2 m0 = true. Proof. vm_cast_no_check (eq_refl true). Qed.
Lemma ok_FXIXI_FXI : tab_ok ii_FXIXI_FXI z2 m1 = true. Proof. vm_cast_no_check (eq_refl true). Qed.
Lemma ok_FXIXI_FXIXI : tab_ok ii_FXIXI_FXIXI z2 m2 = true. Proof. vm_cast_no_check (eq_refl true). Qed.
