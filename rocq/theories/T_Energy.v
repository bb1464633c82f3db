(** Proofs of the theorems relating the assembled matrices to the energy of the plate. *)
From Coq Require Import Reals ZArith Lra Lia Bool String FinFun.
From Coquelicot Require Import Coquelicot.
From Coq Require Import List.
From Verif Require Import M_Py M_Plate M_K M_Tables M_Expr M_RealArith S_Plate S_Mat S_Bardell S_Energy S_K S_Ritz L_Plate L_FirstK L_K L_KR L_Poly L_Shape L_TabV L_Energy L_Indep L_Ritz L_Ends T_Plate T_Shape T_K.
Import ListNotations.
Open Scope R_scope.

Definition kx (D : mat3) (a b : R) (e : etab) (pq : idx4) : R := k33f e a b pq (a11 D) (a21 D) (a22 D) (a31 D) (a32 D) (a33 D).
(** the matrices with exact integrals *)
Lemma exact_fwd D a b Nxx Nyy Nxy c m n idx : a <> 0 -> b <> 0 -> compute_constraints c m n = Ok idx ->
  calc_K_KG_D exact_tables (as_arr D) a b Nxx Nyy Nxy c m n = Ok (
   map (fun p => map (fun q => kx D a b exact_e (p, q)) (sw_idx idx)) (sw_idx idx),
   map (fun p => map (fun q => kGf exact_e a b (p, q) Nxx Nyy Nxy) (sw_idx idx)) (sw_idx idx)).
Proof.
  intros Ha Hb E.
  apply (K_D_ok exact_tables (as_arr D) a b Nxx Nyy Nxy c m n idx (kx D a b exact_e) (fun pq => kGf exact_e a b pq Nxx Nyy Nxy) E).
  intros p q Ip Iq. unfold ent_D.
  rewrite (k33_ok _ _ _ exact_good a b Ha Hb (p, q)) by (repeat split; exact I). cbn [bind].
  rewrite (kG_ok _ _ _ exact_good a b Ha Hb (p, q)) by (repeat split; exact I). reflexivity.
Qed.
Lemma exact_bending D a b Nxx Nyy Nxy c m n idx : a <> 0 -> b <> 0 -> symmetric D -> compute_constraints c m n = Ok idx ->
  calc_K_KG_D exact_tables (as_arr D) a b Nxx Nyy Nxy c m n = Ok (
   map (fun p => map (fun q => bending D a b (sh a b p) (sh a b q)) (sw_idx idx)) (sw_idx idx),
   map (fun p => map (fun q => load_work Nxx Nyy Nxy a b (sh a b p) (sh a b q)) (sw_idx idx)) (sw_idx idx)).
Proof.
  intros Ha Hb Sy E. rewrite (exact_fwd D a b Nxx Nyy Nxy c m n idx Ha Hb E). apply Ok_pair; apply map_ext; intros [i j]; apply map_ext; intros [k l].
  - symmetry. unfold sh. cbn [fst snd]. apply bending_shape; assumption.
  - symmetry. unfold sh. cbn [fst snd]. apply load_shape; assumption.
Qed.

(*@ C38: if the six tables held the exact integrals, every entry of K would be the bending energy of the two shape functions
    and every entry of KG the work of the loads on them, for all edge conditions, sizes, lengths and symmetric D. @*)
Lemma t_C38_exact : forall (D : mat3) a b Nxx Nyy Nxy c m n idx, a <> 0 -> b <> 0 -> symmetric D -> compute_constraints c m n = Ok idx ->
  exists K KG, calc_K_KG_D exact_tables (as_arr D) a b Nxx Nyy Nxy c m n = Ok (K, KG) /\
  forall r s i j k l, nth_error (sw_idx idx) r = Some (i, j) -> nth_error (sw_idx idx) s = Some (k, l) ->
    entry K r s = Some (bending D a b (shape a b i j) (shape a b k l)) /\
    entry KG r s = Some (load_work Nxx Nyy Nxy a b (shape a b i j) (shape a b k l)).
Proof.
  intros D a b Nxx Nyy Nxy c m n idx Ha Hb Sy E. do 2 eexists. split; [apply exact_bending; eassumption|].
  intros r s i j k l Hr Hs. rewrite !(entry_map (fun p q => _) (sw_idx idx)), Hr, Hs. split; reflexivity.
Qed.

(** ** accuracy with the stored tables *)
Lemma stored_e_close i k : (i < 30)%nat -> (k < 30)%nat ->
  let ok s x := Rabs (s - x) <= epsR /\ Rabs s <= 8/5 in
  ok (e00 stored_e i k) (e00 exact_e i k) /\ ok (e10 stored_e i k) (e10 exact_e i k) /\ ok (e11 stored_e i k) (e11 exact_e i k) /\
  ok (e20 stored_e i k) (e20 exact_e i k) /\ ok (e21 stored_e i k) (e21 exact_e i k) /\ ok (e22 stored_e i k) (e22 exact_e i k).
Proof.
  intros Hi Hk ok. destruct (stored_close i k Hi Hk) as ((v1 & E1 & B1) & (v2 & E2 & B2) & (v3 & E3 & B3) & (v4 & E4 & B4) & (v5 & E5 & B5) & (v6 & E6 & B6)).
  unfold stored_e, exact_e. cbn [e00 e10 e11 e20 e21 e22]. rewrite E1, E2, E3, E4, E5, E6. unfold ok. tauto.
Qed.
Definition pe : R := 33 / 1000000000.
Lemma prod_close p p' q q' : Rabs (p - p') <= epsR /\ Rabs p <= 8/5 -> Rabs (q - q') <= epsR /\ Rabs q <= 8/5 -> Rabs (p * q - p' * q') <= pe.
Proof.
  intros [P1 P2] [Q1 Q2]. replace (p * q - p' * q') with (p * (q - q') + (q - (q - q')) * (p - p')) by ring.
  eapply Rle_trans; [apply Rabs_triang|]. rewrite !Rabs_mult.
  assert (Q3 : Rabs (q - (q - q')) <= 8/5 + epsR).
  { eapply Rle_trans; [apply Rabs_triang|]. rewrite Rabs_Ropp. lra. }
  assert (A := Rmult_le_compat _ _ _ _ (Rabs_pos p) (Rabs_pos (q - q')) P2 Q1).
  assert (B := Rmult_le_compat _ _ _ _ (Rabs_pos (q - (q - q'))) (Rabs_pos (p - p')) Q3 P1).
  unfold pe. unfold epsR in *. lra.
Qed.
Lemma term_close c d p q e : 0 <= c -> Rabs (p - q) <= e -> Rabs (c * d * (p - q)) <= e * (c * Rabs d).
Proof.
  intros Hc H. rewrite !Rabs_mult, (Rabs_right c) by lra. rewrite (Rmult_comm e). apply Rmult_le_compat_l; [|exact H].
  apply Rmult_le_pos; [exact Hc|apply Rabs_pos].
Qed.
Lemma two_close p p' q q' : Rabs (p - p') <= pe -> Rabs (q - q') <= pe -> Rabs (p + q - (p' + q')) <= 2 * pe.
Proof. intros H1 H2. replace (p + q - (p' + q')) with ((p - p') + (q - q')) by ring. eapply Rle_trans; [apply Rabs_triang|]. lra. Qed.
Lemma abs_add x y u v : Rabs x <= u -> Rabs y <= v -> Rabs (x + y) <= u + v.
Proof. intros. eapply Rle_trans; [apply Rabs_triang|]. lra. Qed.
Lemma inv_pos x : 0 < x -> 0 <= / x. Proof. intros H. left. apply Rinv_0_lt_compat, H. Qed.
Lemma k33_close D a b i j k l : 0 < a -> 0 < b -> (i < 30)%nat -> (j < 30)%nat -> (k < 30)%nat -> (l < 30)%nat ->
  Rabs (kx D a b stored_e ((i, j), (k, l)) - kx D a b exact_e ((i, j), (k, l))) <= k_err D a b.
Proof.
  intros Ha Hb Hi Hj Hk Hl.
  destruct (stored_e_close i k Hi Hk) as (A1 & A2 & A3 & A4 & A5 & A6). destruct (stored_e_close k i Hk Hi) as (B1 & B2 & B3 & B4 & B5 & B6).
  destruct (stored_e_close j l Hj Hl) as (C1 & C2 & C3 & C4 & C5 & C6). destruct (stored_e_close l j Hl Hj) as (E1 & E2 & E3 & E4 & E5 & E6).
  unfold kx, k33f. cbn [fst snd].
  assert (P1 := prod_close _ _ _ _ A6 C1).
  assert (P2 := two_close _ _ _ _ (prod_close _ _ _ _ A4 E4) (prod_close _ _ _ _ B4 C4)).
  assert (P3 := prod_close _ _ _ _ A1 C6).
  assert (P4 := two_close _ _ _ _ (prod_close _ _ _ _ A5 E2) (prod_close _ _ _ _ B5 C2)).
  assert (P5 := two_close _ _ _ _ (prod_close _ _ _ _ A2 E5) (prod_close _ _ _ _ B2 C5)).
  assert (P6 := prod_close _ _ _ _ A3 C3).
  assert (Ia : 0 < / a) by (apply Rinv_0_lt_compat; lra). assert (Ib : 0 < / b) by (apply Rinv_0_lt_compat; lra).
  assert (Hab : 0 < a * b) by (apply Rmult_lt_0_compat; assumption).
  assert (H1 : 0 <= 4 * (b / a ^ 3)) by (apply Rmult_le_pos; [lra|]; apply Rmult_le_pos; [lra|apply inv_pos, pow_lt, Ha]).
  assert (H2 : 0 <= 4 / (a * b)) by (apply Rmult_le_pos; [lra|apply inv_pos, Hab]).
  assert (H3 : 0 <= 4 * (a / b ^ 3)) by (apply Rmult_le_pos; [lra|]; apply Rmult_le_pos; [lra|apply inv_pos, pow_lt, Hb]).
  assert (H4 : 0 <= 8 / a ^ 2) by (apply Rmult_le_pos; [lra|apply inv_pos, pow_lt, Ha]).
  assert (H5 : 0 <= 8 / b ^ 2) by (apply Rmult_le_pos; [lra|apply inv_pos, pow_lt, Hb]).
  assert (H6 : 0 <= 16 / (a * b)) by (apply Rmult_le_pos; [lra|apply inv_pos, Hab]).
  assert (T1 := term_close _ (a11 D) _ _ _ H1 P1). assert (T2 := term_close _ (a21 D) _ _ _ H2 P2). assert (T3 := term_close _ (a22 D) _ _ _ H3 P3).
  assert (T4 := term_close _ (a31 D) _ _ _ H4 P4). assert (T5 := term_close _ (a32 D) _ _ _ H5 P5). assert (T6 := term_close _ (a33 D) _ _ _ H6 P6).
  match type of T1 with Rabs ?t1 <= _ => match type of T2 with Rabs ?t2 <= _ => match type of T3 with Rabs ?t3 <= _ =>
  match type of T4 with Rabs ?t4 <= _ => match type of T5 with Rabs ?t5 <= _ => match type of T6 with Rabs ?t6 <= _ =>
    match goal with |- Rabs ?g <= _ => replace g with (t1 + t2 + t3 + t4 + t5 + t6) by ring end end end end end end end.
  replace (k_err D a b) with (pe * (4 * (b / a ^ 3) * Rabs (a11 D)) + 2 * pe * (4 / (a * b) * Rabs (a21 D)) + pe * (4 * (a / b ^ 3) * Rabs (a22 D))
    + 2 * pe * (8 / a ^ 2 * Rabs (a31 D)) + 2 * pe * (8 / b ^ 2 * Rabs (a32 D)) + pe * (16 / (a * b) * Rabs (a33 D))).
  2:{ unfold k_err, pe, Rdiv. ring. }
  repeat apply abs_add; assumption.
Qed.
Lemma kG_close a b Nxx Nyy Nxy i j k l : 0 < a -> 0 < b -> (i < 30)%nat -> (j < 30)%nat -> (k < 30)%nat -> (l < 30)%nat ->
  Rabs (kGf stored_e a b ((i, j), (k, l)) Nxx Nyy Nxy - kGf exact_e a b ((i, j), (k, l)) Nxx Nyy Nxy) <= kG_err Nxx Nyy Nxy a b.
Proof.
  intros Ha Hb Hi Hj Hk Hl.
  destruct (stored_e_close i k Hi Hk) as (A1 & A2 & A3 & _). destruct (stored_e_close k i Hk Hi) as (B1 & B2 & B3 & _).
  destruct (stored_e_close j l Hj Hl) as (C1 & C2 & C3 & _). destruct (stored_e_close l j Hl Hj) as (E1 & E2 & E3 & _).
  unfold kGf. cbn [fst snd].
  assert (P1 := prod_close _ _ _ _ A3 C1). assert (P2 := prod_close _ _ _ _ A1 C3).
  assert (P3 := two_close _ _ _ _ (prod_close _ _ _ _ B2 C2) (prod_close _ _ _ _ A2 E2)).
  assert (H1 : 0 <= b / a) by (apply Rmult_le_pos; [lra|apply inv_pos, Ha]).
  assert (H2 : 0 <= a / b) by (apply Rmult_le_pos; [lra|apply inv_pos, Hb]).
  assert (T1 := term_close _ Nxx _ _ _ H1 P1). assert (T2 := term_close _ Nyy _ _ _ H2 P2). assert (T3 := term_close 1 Nxy _ _ _ Rle_0_1 P3).
  match type of T1 with Rabs ?t1 <= _ => match type of T2 with Rabs ?t2 <= _ => match type of T3 with Rabs ?t3 <= _ =>
    match goal with |- Rabs ?g <= _ => replace g with (t1 + t2 + t3) by ring end end end end.
  replace (kG_err Nxx Nyy Nxy a b) with (pe * (b / a * Rabs Nxx) + pe * (a / b * Rabs Nyy) + 2 * pe * (1 * Rabs Nxy)).
  2:{ unfold kG_err, pe, Rdiv. ring. }
  repeat apply abs_add; assumption.
Qed.

Lemma stored_as D a b Nxx Nyy Nxy c m n K KG : a <> 0 -> b <> 0 -> calc_K_KG_D stored_R (as_arr D) a b Nxx Nyy Nxy c m n = Ok (K, KG) ->
  exists idx, compute_constraints c m n = Ok idx /\ (forall p, In p (sw_idx idx) -> (fst p < 30)%nat /\ (snd p < 30)%nat) /\
   K = map (fun p => map (fun q => kx D a b stored_e (p, q)) (sw_idx idx)) (sw_idx idx) /\
   KG = map (fun p => map (fun q => kGf stored_e a b (p, q) Nxx Nyy Nxy) (sw_idx idx)) (sw_idx idx).
Proof. intros Ha Hb H. exact (stored_inv _ _ _ _ _ _ _ _ _ _ _ Ha Hb H). Qed.

(*@ C38: with the tables as stored, every entry of K that the code returns is within k_err of the bending energy and every
    entry of KG within kG_err of the work of the loads; the bounds do not depend on the entry. @*)
Lemma t_C38_stored : forall (D : mat3) a b Nxx Nyy Nxy c m n K KG, 0 < a -> 0 < b -> symmetric D ->
  calc_K_KG_D stored_R (as_arr D) a b Nxx Nyy Nxy c m n = Ok (K, KG) ->
  exists idx, compute_constraints c m n = Ok idx /\
  forall r s i j k l, nth_error (sw_idx idx) r = Some (i, j) -> nth_error (sw_idx idx) s = Some (k, l) ->
    exists x y, entry K r s = Some x /\ entry KG r s = Some y /\
      Rabs (x - bending D a b (shape a b i j) (shape a b k l)) <= k_err D a b /\
      Rabs (y - load_work Nxx Nyy Nxy a b (shape a b i j) (shape a b k l)) <= kG_err Nxx Nyy Nxy a b.
Proof.
  intros D a b Nxx Nyy Nxy c m n K KG Ha Hb Sy H.
  assert (Ha' : a <> 0) by lra. assert (Hb' : b <> 0) by lra.
  destruct (stored_as _ _ _ _ _ _ _ _ _ _ _ Ha' Hb' H) as (idx & E & B & -> & ->). exists idx. split; [exact E|].
  intros r s i j k l Hr Hs. rewrite !(entry_map (fun p q => _) (sw_idx idx)), Hr, Hs. do 2 eexists. split; [reflexivity|]. split; [reflexivity|].
  apply nth_error_In in Hr. apply nth_error_In in Hs. destruct (B _ Hr) as [Hi Hj]. destruct (B _ Hs) as [Hk Hl]. cbn [fst snd] in *.
  rewrite (bending_shape D a b i j k l Ha' Hb' Sy), load_shape by assumption. split; [apply k33_close|apply kG_close]; assumption.
Qed.

(*@ C38: a 2 by 1 clamped plate of an orthotropic laminate meets the hypotheses. @*)
Example t_C38_ex : symmetric (M3 10 2 1 2 5 0 1 0 3) /\
  exists K KG, calc_K_KG_D stored_R (as_arr (M3 10 2 1 2 5 0 1 0 3)) 1 2 1 0 0 (CStr "CLAMPED") 2 1 = Ok (K, KG) /\ square 2 K.
Proof.
  split; [reflexivity|].
  destruct (t_C37_sizes (CStr "CLAMPED") Clamped Clamped Clamped Clamped 2 1 (as_arr (M3 10 2 1 2 5 0 1 0 3)) 1 2 1 0 0
    Sp_clamped ltac:(lia) ltac:(lia) ltac:(lra) ltac:(lra)) as [H _].
  destruct H as (K & KG & E & S & _); [cbn; lia|]. exists K, KG. split; [exact E|exact S].
Qed.

(** ** definiteness *)
(*@ C39: with exact integrals c^T K c is the bending energy of the deflection with coefficients c, for all edge conditions. @*)
Lemma t_C39_energy : forall (D : mat3) a b Nxx Nyy Nxy c m n idx, a <> 0 -> b <> 0 -> symmetric D -> compute_constraints c m n = Ok idx ->
  exists K KG, calc_K_KG_D exact_tables (as_arr D) a b Nxx Nyy Nxy c m n = Ok (K, KG) /\
  forall cw, quad_rows K cw = bending D a b (combine_shapes a b (sw_idx idx) cw) (combine_shapes a b (sw_idx idx) cw).
Proof.
  intros D a b Nxx Nyy Nxy c m n idx Ha Hb Sy E. do 2 eexists. split; [apply exact_bending; eassumption|].
  intros cw. apply quad_bending; assumption.
Qed.

Lemma bending_nonneg D a b w : 0 < a -> 0 < b -> pos_semidef D -> nice a b w -> 0 <= bending D a b w w.
Proof.
  intros Ha Hb P N. unfold bending. apply over_nonneg; [exact Ha|exact Hb|apply nice_bend; exact N|]. intros x y. apply P.
Qed.
Lemma exact_ok D a b Nxx Nyy Nxy c m n K KG : a <> 0 -> b <> 0 -> symmetric D ->
  calc_K_KG_D exact_tables (as_arr D) a b Nxx Nyy Nxy c m n = Ok (K, KG) ->
  exists idx, compute_constraints c m n = Ok idx /\
   forall cw, quad_rows K cw = bending D a b (combine_shapes a b (sw_idx idx) cw) (combine_shapes a b (sw_idx idx) cw).
Proof.
  intros Ha Hb Sy H. destruct (compute_constraints c m n) as [idx|e] eqn:E.
  2:{ unfold calc_K_KG_D in H. rewrite E in H. discriminate H. }
  exists idx. split; [reflexivity|]. destruct (t_C39_energy D a b Nxx Nyy Nxy c m n idx Ha Hb Sy E) as (K' & KG' & H' & Q).
  rewrite H in H'. injection H' as <- <-. exact Q.
Qed.

(*@ C39: with exact integrals K is positive semi-definite for every positive semi-definite D. @*)
Lemma t_C39_semidefinite : forall (D : mat3) a b Nxx Nyy Nxy c m n K KG cw, 0 < a -> 0 < b -> symmetric D -> pos_semidef D ->
  calc_K_KG_D exact_tables (as_arr D) a b Nxx Nyy Nxy c m n = Ok (K, KG) -> 0 <= quad_rows K cw.
Proof.
  intros D a b Nxx Nyy Nxy c m n K KG cw Ha Hb Sy P H.
  destruct (exact_ok D a b Nxx Nyy Nxy c m n K KG ltac:(lra) ltac:(lra) Sy H) as (idx & E & ->).
  apply bending_nonneg; [exact Ha|exact Hb|exact P|apply nice_combine].
Qed.

(** a sum with zero factors *)
Lemma combine_value0 a b l c x y : (forall p, In p l -> shape a b (fst p) (snd p) x y = 0) -> combine_shapes a b l c x y = 0.
Proof.
  unfold combine_shapes. revert c. induction l as [|p l IH]; intros [|z c] H; try reflexivity.
  cbn [combine map rsum fst snd]. rewrite IH, H; [ring|left; reflexivity|]. intros. apply H. right. assumption.
Qed.
Lemma dx_combine0 a b l : forall c x y, (forall p, In p l -> dx (shape a b (fst p) (snd p)) x y = 0) -> dx (combine_shapes a b l c) x y = 0.
Proof.
  induction l as [|p l IH]; intros c x y H; [unfold dx, combine_shapes; cbn [combine map rsum]; apply Derive_const|].
  destruct c as [|z c]; [unfold dx, combine_shapes; cbn [combine map rsum]; apply Derive_const|].
  rewrite combine_cons, (dx_add a b) by (try apply nice_scal; try apply nice_shape; apply nice_combine).
  rewrite dx_scal, IH, H; [ring|left; reflexivity|]. intros. apply H. right. assumption.
Qed.
Lemma dy_combine0 a b l : forall c x y, (forall p, In p l -> dy (shape a b (fst p) (snd p)) x y = 0) -> dy (combine_shapes a b l c) x y = 0.
Proof.
  induction l as [|p l IH]; intros c x y H; [unfold dy, combine_shapes; cbn [combine map rsum]; apply Derive_const|].
  destruct c as [|z c]; [unfold dy, combine_shapes; cbn [combine map rsum]; apply Derive_const|].
  rewrite combine_cons, (dy_add a b) by (try apply nice_scal; try apply nice_shape; apply nice_combine).
  rewrite dy_scal, IH, H; [ring|left; reflexivity|]. intros. apply H. right. assumption.
Qed.
Lemma dx_shape a b i j x y : dx (shape a b i j) x y = 2 / a * Derive (bardell i) (2 * x / a - 1) * bardell j (2 * y / b - 1).
Proof.
  rewrite shape_dsh, dx_dsh. unfold dsh, at_. cbn [qD pow].
  rewrite (Derive_ext (bardell i) (qeval (bpoly i))) by (intros; apply bardell_poly). rewrite qeval_Derive, bardell_poly. ring.
Qed.
Lemma dy_shape a b i j x y : dy (shape a b i j) x y = 2 / b * bardell i (2 * x / a - 1) * Derive (bardell j) (2 * y / b - 1).
Proof.
  rewrite shape_dsh, dy_dsh. unfold dsh, at_. cbn [qD pow].
  rewrite (Derive_ext (bardell j) (qeval (bpoly j))) by (intros; apply bardell_poly). rewrite qeval_Derive, bardell_poly. ring.
Qed.
Lemma quad_vzero D v : pos_def D -> quad D v = 0 -> v = vzero.
Proof.
  intros P Q. destruct v as [x y z]. destruct (Req_dec x 0) as [X|X]; [destruct (Req_dec y 0) as [Y|Y]; [destruct (Req_dec z 0) as [Z|Z]|]|];
    [subst; reflexivity|exfalso..]; specialize (P (V3 x y z)); (assert (N : V3 x y z <> vzero) by (intros EE; injection EE; intros; contradiction));
    specialize (P N); lra.
Qed.
Lemma nth_error_ext' {X} (l l' : list X) : (forall k, nth_error l k = nth_error l' k) -> l = l'.
Proof.
  revert l'. induction l as [|x l IH]; intros [|y l'] H; [reflexivity|discriminate (H 0%nat)..|].
  assert (E := H 0%nat). injection E as <-. f_equal. apply IH. intros k. exact (H (S k)).
Qed.
Lemma row_major_eq {X Y} (l : list X) (r : list Y) p : row_major l r p -> p = list_prod l r.
Proof.
  intros [L H]. destruct (product_row_major l r) as [L' H']. unfold product2 in *. apply nth_error_ext'. intros k.
  destruct (Nat.lt_ge_cases k (List.length l * List.length r)) as [Hk|Hk].
  - assert (Hr : (0 < List.length r)%nat) by nia.
    assert (Ek := Nat.div_mod_eq k (List.length r)). assert (Mk := Nat.mod_upper_bound k (List.length r) ltac:(lia)).
    assert (Dk : (k / List.length r < List.length l)%nat) by (apply Nat.div_lt_upper_bound; lia).
    rewrite Ek, Nat.mul_comm. rewrite H, H' by assumption. reflexivity.
  - rewrite (proj2 (nth_error_None p k)), (proj2 (nth_error_None (list_prod l r) k)) by lia. reflexivity.
Qed.
Lemma nodup_app {X} (l r : list X) : NoDup l -> NoDup r -> (forall x, In x l -> ~ In x r) -> NoDup (l ++ r).
Proof.
  intros L Rr H. induction L as [|x l N L IH]; [exact Rr|]. cbn [app]. constructor.
  - intros I. apply in_app_or in I. destruct I as [I|I]; [contradiction|]. apply (H x (or_introl eq_refl) I).
  - apply IH. intros y Iy. apply H. right. exact Iy.
Qed.
Lemma nodup_list_prod {X Y} (l : list X) (r : list Y) : NoDup l -> NoDup r -> NoDup (list_prod l r).
Proof.
  intros L Rr. induction L as [|x l N L IH]; [constructor|]. cbn [list_prod]. apply nodup_app; [|exact IH|].
  - apply FinFun.Injective_map_NoDup; [intros u v E; injection E as E; exact E|exact Rr].
  - intros [u v] I J. apply in_map_iff in I. destruct I as (w & E & _). injection E as <- <-. apply in_prod_iff in J. apply N, J.
Qed.

Section Edges.
Variables (a b : R) (Ha : 0 < a) (Hb : 0 < b) (c0 ca d0 db : condition) (l : list (nat * nat)) (cw : list R).
Hypothesis P : forall p, In p l -> admissible c0 ca (fst p) /\ admissible d0 db (snd p).
Let w := combine_shapes a b l cw.
Lemma at0 (u : R) : 0 < u -> 2 * 0 / u - 1 = -1 /\ (2 * u / u - 1 = 1). Proof. intros H. split; field; lra. Qed.
Lemma edge_x0 y : holds_value c0 = true -> w 0 y = 0.
Proof.
  intros H. apply combine_value0. intros p I. destruct (P p I) as [(N & _) _].
  unfold shape. rewrite (proj1 (at0 a Ha)), value0; [ring|]. intros Z. rewrite (N Z) in H. discriminate H.
Qed.
Lemma edge_xa y : holds_value ca = true -> w a y = 0.
Proof.
  intros H. apply combine_value0. intros p I. destruct (P p I) as [(_ & _ & N & _) _].
  unfold shape. rewrite (proj2 (at0 a Ha)), value1; [ring|]. intros Z. rewrite (N Z) in H. discriminate H.
Qed.
Lemma edge_y0 x : holds_value d0 = true -> w x 0 = 0.
Proof.
  intros H. apply combine_value0. intros p I. destruct (P p I) as [_ (N & _)].
  unfold shape. rewrite (proj1 (at0 b Hb)), (value0 (snd p)); [ring|]. intros Z. rewrite (N Z) in H. discriminate H.
Qed.
Lemma edge_yb x : holds_value db = true -> w x b = 0.
Proof.
  intros H. apply combine_value0. intros p I. destruct (P p I) as [_ (_ & _ & N & _)].
  unfold shape. rewrite (proj2 (at0 b Hb)), (value1 (snd p)); [ring|]. intros Z. rewrite (N Z) in H. discriminate H.
Qed.
Lemma slope_x0 y : holds_slope c0 = true -> dx w 0 y = 0.
Proof.
  intros H. apply dx_combine0. intros p I. destruct (P p I) as [(_ & N & _) _].
  rewrite dx_shape, (proj1 (at0 a Ha)), slope0; [ring|]. intros Z. rewrite (N Z) in H. discriminate H.
Qed.
Lemma slope_xa y : holds_slope ca = true -> dx w a y = 0.
Proof.
  intros H. apply dx_combine0. intros p I. destruct (P p I) as [(_ & _ & _ & N) _].
  rewrite dx_shape, (proj2 (at0 a Ha)), slope1; [ring|]. intros Z. rewrite (N Z) in H. discriminate H.
Qed.
Lemma slope_y0 x : holds_slope d0 = true -> dy w x 0 = 0.
Proof.
  intros H. apply dy_combine0. intros p I. destruct (P p I) as [_ (_ & N & _)].
  rewrite dy_shape, (proj1 (at0 b Hb)), slope0; [ring|]. intros Z. rewrite (N Z) in H. discriminate H.
Qed.
Lemma slope_yb x : holds_slope db = true -> dy w x b = 0.
Proof.
  intros H. apply dy_combine0. intros p I. destruct (P p I) as [_ (_ & _ & _ & N)].
  rewrite dy_shape, (proj2 (at0 b Hb)), slope1; [ring|]. intros Z. rewrite (N Z) in H. discriminate H.
Qed.
(** a restrained plate has no affine deflection *)
Lemma no_rigid : restrained c0 ca d0 db ->
  (forall x y, 0 < x < a -> 0 < y < b -> dx (dx w) x y = 0 /\ dy (dy w) x y = 0 /\ dx (dy w) x y = 0) ->
  forall x y, 0 <= x <= a -> 0 <= y <= b -> w x y = 0.
Proof.
  intros Rs Z. assert (N : nice a b w) by apply nice_combine.
  destruct (affine a b w Ha Hb N Z) as (w0 & bx & by_ & W & DX & DY).
  assert (V1 : holds_value c0 = true -> w0 = 0 /\ by_ = 0).
  { intros H. assert (E1 := edge_x0 0 H). assert (E2 := edge_x0 b H). rewrite W in E1, E2 by lra.
    assert (E3 : by_ * b = 0) by lra. apply Rmult_integral in E3. split; [lra|]. destruct E3; lra. }
  assert (V2 : holds_value ca = true -> w0 + bx * a = 0 /\ by_ = 0).
  { intros H. assert (E1 := edge_xa 0 H). assert (E2 := edge_xa b H). rewrite W in E1, E2 by lra.
    assert (E3 : by_ * b = 0) by lra. apply Rmult_integral in E3. split; [lra|]. destruct E3; lra. }
  assert (V3 : holds_value d0 = true -> w0 = 0 /\ bx = 0).
  { intros H. assert (E1 := edge_y0 0 H). assert (E2 := edge_y0 a H). rewrite W in E1, E2 by lra.
    assert (E3 : bx * a = 0) by lra. apply Rmult_integral in E3. split; [lra|]. destruct E3; lra. }
  assert (V4 : holds_value db = true -> w0 + by_ * b = 0 /\ bx = 0).
  { intros H. assert (E1 := edge_yb 0 H). assert (E2 := edge_yb a H). rewrite W in E1, E2 by lra.
    assert (E3 : bx * a = 0) by lra. apply Rmult_integral in E3. split; [lra|]. destruct E3; lra. }
  assert (S1 : holds_slope c0 = true -> bx = 0) by (intros H; rewrite <- (DX 0 (b / 2)) by lra; apply slope_x0, H).
  assert (S2 : holds_slope ca = true -> bx = 0) by (intros H; rewrite <- (DX a (b / 2)) by lra; apply slope_xa, H).
  assert (S3 : holds_slope d0 = true -> by_ = 0) by (intros H; rewrite <- (DY (a / 2) 0) by lra; apply slope_y0, H).
  assert (S4 : holds_slope db = true -> by_ = 0) by (intros H; rewrite <- (DY (a / 2) b) by lra; apply slope_yb, H).
  assert (Fx : w0 = 0 -> w0 + bx * a = 0 -> bx = 0).
  { intros E1 E2. assert (E3 : bx * a = 0) by lra. apply Rmult_integral in E3. destruct E3; lra. }
  assert (Fy : w0 = 0 -> w0 + by_ * b = 0 -> by_ = 0).
  { intros E1 E2. assert (E3 : by_ * b = 0) by lra. apply Rmult_integral in E3. destruct E3; lra. }
  assert (Gx : bx = 0 -> w0 + bx * a = 0 -> w0 = 0) by (intros E1 E2; rewrite E1 in E2; lra).
  assert (Gy : by_ = 0 -> w0 + by_ * b = 0 -> w0 = 0) by (intros E1 E2; rewrite E1 in E2; lra).
  assert (A : w0 = 0 /\ bx = 0 /\ by_ = 0).
  { clear - Rs V1 V2 V3 V4 S1 S2 S3 S4 Fx Fy Gx Gy. unfold restrained in Rs.
    destruct c0, ca, d0, db; cbn in *; try (destruct Rs as [Rs|[Rs|[Rs|[Rs|Rs]]]]; first [discriminate Rs|exfalso; lia|idtac]);
      try specialize (V1 eq_refl); try specialize (V2 eq_refl); try specialize (V3 eq_refl); try specialize (V4 eq_refl);
      try specialize (S1 eq_refl); try specialize (S2 eq_refl); try specialize (S3 eq_refl); try specialize (S4 eq_refl); tauto. }
  destruct A as (-> & -> & ->). intros x y Hx Hy. rewrite W by assumption. ring.
Qed.
End Edges.

Lemma zero_coeffs (l : list (nat * nat)) cw : List.length cw = List.length l -> Forall (fun p : (nat * nat) * R => snd p = 0) (combine l cw) -> ~ nonzero cw.
Proof.
  unfold nonzero. revert cw. induction l as [|p l IH]; intros [|x cw] L H N; try discriminate L; [inversion N|].
  cbn [combine] in H. inversion H; subst. cbn [snd] in *. inversion N; subst; [contradiction|]. apply (IH cw ltac:(cbn in L; lia)); assumption.
Qed.

(*@ C39: with exact integrals K is positive definite for every positive definite D and every named plate with one clamped or
    two held edges, whatever the numbers of functions. @*)
Lemma t_C39_definite : forall (D : mat3) a b Nxx Nyy Nxy c c0 ca d0 db m n K KG cw, 0 < a -> 0 < b -> symmetric D -> pos_def D ->
  specifies c c0 ca d0 db -> restrained c0 ca d0 db ->
  calc_K_KG_D exact_tables (as_arr D) a b Nxx Nyy Nxy c m n = Ok (K, KG) ->
  List.length cw = (m * n)%nat -> nonzero cw -> 0 < quad_rows K cw.
Proof.
  intros D a b Nxx Nyy Nxy c c0 ca d0 db m n K KG cw Ha Hb Sy PD Sp Rs H L NZ.
  destruct (exact_ok D a b Nxx Nyy Nxy c m n K KG ltac:(lra) ltac:(lra) Sy H) as (idx & E & ->).
  destruct (named_struct c c0 ca d0 db m n Sp) as (idx' & fx & fy & E' & Fx & Fy & RM). rewrite E in E'. injection E' as <-.
  assert (P : forall p, In p (sw_idx idx) -> admissible c0 ca (fst p) /\ admissible d0 db (snd p)).
  { intros [i j] I. destruct (row_major_in _ _ _ _ _ RM I) as [Ix Iy]. destruct Fx as (_ & _ & Px & _). destruct Fy as (_ & _ & Py & _).
    rewrite Forall_forall in Px, Py. split; [apply Px, Ix|apply Py, Iy]. }
  assert (PS : pos_semidef D).
  { intros v. destruct (Req_dec (quad D v) 0) as [Q|Q]; [lra|]. left. apply PD. intros ->. apply Q. unfold quad, dot, mvec, vzero. cbn. ring. }
  set (w := combine_shapes a b (sw_idx idx) cw).
  assert (N : nice a b w) by apply nice_combine.
  destruct (Rle_lt_or_eq_dec _ _ (bending_nonneg D a b w Ha Hb PS N)) as [Q|Q]; [exact Q|exfalso].
  assert (Z := over_zero a b (bend_i D w w) Ha Hb (nice_bend a b D w w N N) (fun x y => PS _) (eq_sym Q)).
  assert (Z' : forall x y, 0 < x < a -> 0 < y < b -> dx (dx w) x y = 0 /\ dy (dy w) x y = 0 /\ dx (dy w) x y = 0).
  { intros x y Hx Hy. assert (V := quad_vzero D _ PD (Z x y Hx Hy)). unfold curvature, vzero in V. injection V as V1 V2 V3. lra. }
  assert (W := no_rigid a b Ha Hb c0 ca d0 db (sw_idx idx) cw P Rs Z').
  destruct (compute_struct _ _ _ _ E) as (_ & _ & Lw & _).
  apply (zero_coeffs (sw_idx idx) cw ltac:(lia)); [|exact NZ].
  apply indep2.
  - rewrite (row_major_eq _ _ _ RM).
    assert (G : forall (X Y : Type) (l : list X) (r : list Y), List.length r = List.length l -> map fst (combine l r) = l).
    { clear. intros X Y l. induction l as [|x l IH]; intros [|y r] Hl; try discriminate Hl; [reflexivity|]. cbn. f_equal. apply IH. cbn in Hl. lia. }
    rewrite G by (rewrite <- (row_major_eq _ _ _ RM); lia). apply nodup_list_prod; apply sorted_nodup; [apply Fx|apply Fy].
  - intros x y Hx Hy. specialize (W (a * (x + 1) / 2) (b * (y + 1) / 2)). unfold combine_shapes, shape in W.
    replace (2 * (a * (x + 1) / 2) / a - 1) with x in W by (field; lra). replace (2 * (b * (y + 1) / 2) / b - 1) with y in W by (field; lra).
    apply W; split.
    + apply Rmult_le_pos; [apply Rmult_le_pos; lra|lra].
    + apply Rmult_le_reg_l with (2 / a); [apply Rdiv_lt_0_compat; lra|]. field_simplify; [lra|lra|lra].
    + apply Rmult_le_pos; [apply Rmult_le_pos; lra|lra].
    + apply Rmult_le_reg_l with (2 / b); [apply Rdiv_lt_0_compat; lra|]. field_simplify; [lra|lra|lra].
Qed.

(** ** the stored tables *)
Lemma dot_close {X} (F G : X -> R) (l : list X) E : (forall q, In q l -> Rabs (F q - G q) <= E) -> 0 <= E ->
  forall c, Rabs (dot_list (map F l) c - dot_list (map G l) c) <= E * rsum (map Rabs c).
Proof.
  intros H HE. unfold dot_list. induction l as [|q l IH]; intros [|x c]; cbn [map map2 rsum].
  1-3: rewrite Rminus_diag_eq, Rabs_R0 by reflexivity.
  - lra.
  - apply Rmult_le_pos; [exact HE|]. assert (Q : forall l, 0 <= rsum (map Rabs l)).
    { intros l. induction l as [|y l IH]; cbn; [lra|]. assert (T := Rabs_pos y). lra. }
    assert (T := Rabs_pos x). specialize (Q c). lra.
  - lra.
  - replace (F q * x + rsum (map2 Rmult (map F l) c) - (G q * x + rsum (map2 Rmult (map G l) c)))
      with ((F q - G q) * x + (rsum (map2 Rmult (map F l) c) - rsum (map2 Rmult (map G l) c))) by ring.
    rewrite Rmult_plus_distr_l. apply abs_add; [|apply IH; intros; apply H; right; assumption].
    rewrite Rabs_mult. apply Rmult_le_compat_r; [apply Rabs_pos|apply H; left; reflexivity].
Qed.
Lemma dot_comm u : forall v, dot_list u v = dot_list v u.
Proof. unfold dot_list. induction u as [|x u IH]; intros [|y v]; cbn [map2 rsum]; [reflexivity..|]. rewrite IH. ring. Qed.
Lemma rsum_abs_pos c : 0 <= rsum (map Rabs c).
Proof. induction c as [|y l IH]; cbn [map rsum]; [lra|]. assert (T := Rabs_pos y). lra. Qed.
Lemma k_err_pos D a b : 0 < a -> 0 < b -> 0 <= k_err D a b.
Proof.
  intros Ha Hb. unfold k_err. assert (Hab : 0 < a * b) by (apply Rmult_lt_0_compat; assumption).
  assert (H1 : 0 <= 4 * b / a ^ 3 * Rabs (a11 D)) by (apply Rmult_le_pos; [apply Rmult_le_pos; [lra|apply inv_pos, pow_lt, Ha]|apply Rabs_pos]).
  assert (H2 : 0 <= 8 / (a * b) * Rabs (a21 D)) by (apply Rmult_le_pos; [apply Rmult_le_pos; [lra|apply inv_pos, Hab]|apply Rabs_pos]).
  assert (H3 : 0 <= 4 * a / b ^ 3 * Rabs (a22 D)) by (apply Rmult_le_pos; [apply Rmult_le_pos; [lra|apply inv_pos, pow_lt, Hb]|apply Rabs_pos]).
  assert (H4 : 0 <= 16 / a ^ 2 * Rabs (a31 D)) by (apply Rmult_le_pos; [apply Rmult_le_pos; [lra|apply inv_pos, pow_lt, Ha]|apply Rabs_pos]).
  assert (H5 : 0 <= 16 / b ^ 2 * Rabs (a32 D)) by (apply Rmult_le_pos; [apply Rmult_le_pos; [lra|apply inv_pos, pow_lt, Hb]|apply Rabs_pos]).
  assert (H6 : 0 <= 16 / (a * b) * Rabs (a33 D)) by (apply Rmult_le_pos; [apply Rmult_le_pos; [lra|apply inv_pos, Hab]|apply Rabs_pos]).
  lra.
Qed.

(*@ C39: with the stored tables c^T K c differs from the bending energy of the deflection by at most k_err times the square of
    the sum of |c|; with D positive semi-definite it is therefore no less than minus that amount. @*)
Lemma t_C39_stored : forall (D : mat3) a b Nxx Nyy Nxy c m n K KG, 0 < a -> 0 < b -> symmetric D ->
  calc_K_KG_D stored_R (as_arr D) a b Nxx Nyy Nxy c m n = Ok (K, KG) ->
  exists idx, compute_constraints c m n = Ok idx /\ forall cw,
    let w := combine_shapes a b (sw_idx idx) cw in
    Rabs (quad_rows K cw - bending D a b w w) <= k_err D a b * rsum (map Rabs cw) ^ 2 /\
    (pos_semidef D -> - (k_err D a b * rsum (map Rabs cw) ^ 2) <= quad_rows K cw).
Proof.
  intros D a b Nxx Nyy Nxy c m n K KG Ha Hb Sy H.
  destruct (stored_as _ _ _ _ _ _ _ _ _ _ _ (Rgt_not_eq _ _ Ha) (Rgt_not_eq _ _ Hb) H) as (idx & E & B & -> & ->). exists idx. split; [exact E|].
  intros cw w. assert (C : Rabs (quad_rows (map (fun p => map (fun q => kx D a b stored_e (p, q)) (sw_idx idx)) (sw_idx idx)) cw - bending D a b w w)
    <= k_err D a b * rsum (map Rabs cw) ^ 2).
  { assert (Ha' : a <> 0) by lra. assert (Hb' : b <> 0) by lra. unfold w. rewrite <- quad_bending by assumption. unfold quad_rows. rewrite !map_map. rewrite !(dot_comm cw).
    replace (k_err D a b * rsum (map Rabs cw) ^ 2) with (k_err D a b * rsum (map Rabs cw) * rsum (map Rabs cw)) by ring.
    apply (dot_close (fun p => dot_list (map (fun q => kx D a b stored_e (p, q)) (sw_idx idx)) cw)
      (fun p => dot_list (map (fun q => bending D a b (sh a b p) (sh a b q)) (sw_idx idx)) cw)).
    - intros p Ip. apply dot_close; [|apply k_err_pos; assumption]. intros q Iq. destruct p as [i j], q as [k l].
      destruct (B _ Ip) as [Hi Hj]. destruct (B _ Iq) as [Hk Hl]. cbn [fst snd] in *. unfold sh. cbn [fst snd].
      rewrite bending_shape by assumption. apply k33_close; assumption.
    - apply Rmult_le_pos; [apply k_err_pos; assumption|apply rsum_abs_pos]. }
  split; [exact C|]. intros PS. assert (Q := bending_nonneg D a b w Ha Hb PS (nice_combine a b _ _)). apply Rcomplements.Rabs_le_between in C. lra.
Qed.

(** ** plates that are not restrained *)
Lemma rsum_support (G : nat -> R) : forall s l, NoDup l -> NoDup s ->
  (forall i, In i l -> ~ In i s -> G i = 0) -> (forall i, In i s -> ~ In i l -> G i = 0) -> rsum (map G l) = rsum (map G s).
Proof.
  induction s as [|x s IH]; intros l L S H1 H2.
  - cbn [map rsum]. clear H2. induction l as [|y l IHl]; [reflexivity|]. cbn [map rsum]. inversion L; subst.
    rewrite IHl, H1; [ring|left; reflexivity|intros []|assumption|]. intros. apply H1; [right; assumption|assumption].
  - inversion S as [|? ? Nx Ss]; subst. cbn [map rsum]. destruct (in_dec Nat.eq_dec x l) as [I|I].
    + destruct (in_split x l I) as (l1 & l2 & ->). apply NoDup_remove in L. destruct L as [L Nl].
      rewrite map_app, rsum_app. cbn [map rsum].
      rewrite <- (IH (l1 ++ l2) L Ss).
      * rewrite map_app, rsum_app. ring.
      * intros i Ii Ni. apply H1; [apply in_app_or in Ii; apply in_or_app; cbn; tauto|]. intros [->|Is]; [contradiction|contradiction].
      * intros i Is Ni. apply H2; [right; exact Is|]. intros Ii. apply in_app_or in Ii. destruct Ii as [Ii|[->|Ii]];
          [apply Ni, in_or_app; left; exact Ii|contradiction|apply Ni, in_or_app; right; exact Ii].
    + rewrite (H2 x (or_introl eq_refl) I), Rplus_0_l. apply IH; [exact L|exact Ss| |].
      * intros i Ii Ni. apply H1; [exact Ii|]. intros [->|Is]; contradiction.
      * intros i Is Ni. apply H2; [right; exact Is|exact Ni].
Qed.
Lemma rsum_prod (G H : nat -> R) l r : rsum (map (fun q : nat * nat => G (fst q) * H (snd q)) (list_prod l r)) = rsum (map G l) * rsum (map H r).
Proof.
  induction l as [|x l IH]; cbn [list_prod map rsum]; [ring|]. rewrite map_app, rsum_app, IH, map_map. cbn [fst snd].
  rewrite Rmult_plus_distr_r. f_equal. rewrite rsum_scal, map_map. reflexivity.
Qed.

(** coefficients on the first four functions *)
Definition four (x0 x1 x2 x3 : R) (i : nat) : R := match i with 0 => x0 | 1 => x1 | 2 => x2 | 3 => x3 | _ => 0%R end%nat.
Lemma four_sum (x0 x1 x2 x3 : R) l xi : NoDup l ->
  (~ In 0%nat l -> x0 = 0) -> (~ In 1%nat l -> x1 = 0) -> (~ In 2%nat l -> x2 = 0) -> (~ In 3%nat l -> x3 = 0) ->
  rsum (map (fun i => four x0 x1 x2 x3 i * bardell i xi) l) = x0 * bardell 0 xi + x1 * bardell 1 xi + x2 * bardell 2 xi + x3 * bardell 3 xi.
Proof.
  intros L H0 H1 H2 H3. rewrite (rsum_support _ [0; 1; 2; 3]%nat l L).
  - cbn [map rsum four]. ring.
  - repeat constructor; cbn; lia.
  - intros i _ N. destruct i as [|[|[|[|i]]]]; cbn [In] in N; try (exfalso; apply N; lia). cbn [four]. ring.
  - intros i I N. cbn [In] in I. destruct I as [<-|[<-|[<-|[<-|[]]]]]; cbn [four]; [rewrite (H0 N)|rewrite (H1 N)|rewrite (H2 N)|rewrite (H3 N)]; ring.
Qed.
(** which of the first four are present *)
Lemma first_has P k l i s : first_k P k l -> P i -> (forall j, In j l -> (j < i)%nat -> In j s) -> (List.length s < k)%nat -> In i l.
Proof.
  intros (L & S & F & Dn) Pi Hs Hk. destruct (in_dec Nat.eq_dec i l) as [I|I]; [exact I|exfalso].
  assert (incl l s).
  { intros j J. destruct (lt_eq_lt_dec i j) as [[C|C]|C]; [exfalso; apply I, (Dn i j J C Pi)|subst; contradiction|apply Hs; assumption]. }
  assert (Q := NoDup_incl_length (sorted_nodup _ S) H). lia.
Qed.
Inductive half := One | Rise | Fall.
Definition half_fun (h : half) (xi : R) : R := match h with One => 1 | Rise => xi + 1 | Fall => 1 - xi end.
Definition half_co (h : half) : nat -> R := match h with One => four 1 0 1 0 | Rise => four 0 2 2 2 | Fall => four 2 (-2) 0 (-2) end.
Definition half_for (h : half) (c0 ca : condition) : Prop :=
  match h with One => c0 = Free /\ ca = Free | Rise => c0 = Pinned /\ ca = Free | Fall => c0 = Free /\ ca = Pinned end.
Lemma half_sum h c0 ca m l xi : half_for h c0 ca -> (3 <= m)%nat -> first_k (admissible c0 ca) m l ->
  rsum (map (fun i => half_co h i * bardell i xi) l) = half_fun h xi.
Proof.
  intros Hh Hm F. assert (ND := sorted_nodup _ (proj1 (proj2 F))).
  destruct h; destruct Hh as [-> ->]; cbn [half_co half_fun].
  - rewrite four_sum; [cbn [bardell]; field|exact ND|..]; intros N; try reflexivity; exfalso; apply N.
    + apply (first_has _ _ _ 0%nat [] F); [repeat split; (reflexivity || discriminate)|intros; lia|cbn; lia].
    + apply (first_has _ _ _ 2%nat [0; 1]%nat F); [repeat split; (reflexivity || discriminate)|cbn; intros; lia|cbn; lia].
  - rewrite four_sum; [cbn [bardell]; field|exact ND|..]; intros N; try reflexivity; exfalso; apply N.
    + apply (first_has _ _ _ 1%nat [0]%nat F); [repeat split; (reflexivity || discriminate)|cbn; intros; lia|cbn; lia].
    + apply (first_has _ _ _ 2%nat [0; 1]%nat F); [repeat split; (reflexivity || discriminate)|cbn; intros; lia|cbn; lia].
    + apply (first_has _ _ _ 3%nat [1; 2]%nat F); [repeat split; (reflexivity || discriminate)| |cbn; lia].
      intros j J Hj. destruct j as [|[|[|j]]]; [|cbn; lia..]. destruct F as (_ & _ & A & _). rewrite Forall_forall in A.
      destruct (A _ J) as (C & _). specialize (C eq_refl). discriminate C.
  - rewrite four_sum; [cbn [bardell]; field|exact ND|..]; intros N; try reflexivity; exfalso; apply N.
    + apply (first_has _ _ _ 0%nat [] F); [repeat split; (reflexivity || discriminate)|intros; lia|cbn; lia].
    + apply (first_has _ _ _ 1%nat [0]%nat F); [repeat split; (reflexivity || discriminate)|cbn; intros; lia|cbn; lia].
    + apply (first_has _ _ _ 3%nat [0; 1]%nat F); [repeat split; (reflexivity || discriminate)| |cbn; lia].
      intros j J Hj. destruct j as [|[|[|j]]]; [cbn; lia..| |lia]. destruct F as (_ & _ & A & _). rewrite Forall_forall in A.
      destruct (A _ J) as (_ & _ & C & _). specialize (C eq_refl). discriminate C.
Qed.
Lemma combine_graph {X} (k : X -> R) (G : X -> R) l : rsum (map (fun p : X * R => snd p * G (fst p)) (combine l (map k l))) = rsum (map (fun q => k q * G q) l).
Proof. induction l as [|x l IH]; [reflexivity|]. cbn [map combine rsum fst snd]. rewrite IH. reflexivity. Qed.
Lemma half_field a b hx hy c0 ca d0 db m n fx fy : half_for hx c0 ca -> half_for hy d0 db -> (3 <= m)%nat -> (3 <= n)%nat ->
  first_k (admissible c0 ca) m fx -> first_k (admissible d0 db) n fy ->
  combine_shapes a b (list_prod fx fy) (map (fun p => half_co hx (fst p) * half_co hy (snd p)) (list_prod fx fy))
  = fun x y => half_fun hx (2 * x / a - 1) * half_fun hy (2 * y / b - 1).
Proof.
  intros Hx Hy Hm Hn Fx Fy. apply field_ext. intros x y. unfold combine_shapes.
  rewrite (combine_graph (fun p => half_co hx (fst p) * half_co hy (snd p)) (fun q => shape a b (fst q) (snd q) x y)).
  rewrite <- (half_sum hx _ _ _ _ (2 * x / a - 1) Hx Hm Fx), <- (half_sum hy _ _ _ _ (2 * y / b - 1) Hy Hn Fy).
  rewrite <- rsum_prod. f_equal. apply map_ext. intros [i j]. cbn [fst snd]. unfold shape. ring.
Qed.
Lemma affine_curv (c0 c1 c2 : R) (w : field) x y : (forall x y, w x y = c0 + c1 * x + c2 * y) -> curvature w x y = vzero.
Proof.
  intros W. assert (X : dx w = fun _ _ => c1).
  { apply field_ext. intros u v. unfold dx. rewrite (Derive_ext _ (fun t => c0 + c1 * t + c2 * v)) by (intros; apply W). apply is_derive_unique. auto_derive; [trivial|ring]. }
  assert (Y : dy w = fun _ _ => c2).
  { apply field_ext. intros u v. unfold dy. rewrite (Derive_ext _ (fun t => c0 + c1 * u + c2 * t)) by (intros; apply W). apply is_derive_unique. auto_derive; [trivial|ring]. }
  unfold curvature, vzero. rewrite X, Y. unfold dx, dy. rewrite !Derive_const. f_equal; ring.
Qed.

(*@ C39: conversely, a named plate that is not restrained (all edges free, or one pinned and three free) has, from three
    functions a side on, a non-zero coefficient vector without energy: K is singular whatever D is. @*)
Lemma t_C39_singular : forall (D : mat3) a b Nxx Nyy Nxy c c0 ca d0 db m n, 0 < a -> 0 < b -> symmetric D ->
  specifies c c0 ca d0 db -> ~ restrained c0 ca d0 db -> (3 <= m)%nat -> (3 <= n)%nat ->
  exists K KG cw, calc_K_KG_D exact_tables (as_arr D) a b Nxx Nyy Nxy c m n = Ok (K, KG) /\
    List.length cw = (m * n)%nat /\ nonzero cw /\ quad_rows K cw = 0.
Proof.
  intros D a b Nxx Nyy Nxy c c0 ca d0 db m n Ha Hb Sy Sp NR Hm Hn.
  destruct (named_struct c c0 ca d0 db m n Sp) as (idx & fx & fy & E & Fx & Fy & RM).
  assert (Ha' : a <> 0) by lra. assert (Hb' : b <> 0) by lra.
  destruct (t_C39_energy D a b Nxx Nyy Nxy c m n idx Ha' Hb' Sy E) as (K & KG & EK & Q).
  assert (HH : exists hx hy, half_for hx c0 ca /\ half_for hy d0 db /\ (hx = One \/ hy = One)).
  { unfold restrained in NR. destruct c0, ca, d0, db; cbn [held] in NR; try (exfalso; apply NR; clear; first [tauto|right; right; right; right; lia]).
    - exists One, One. repeat split; try reflexivity. tauto.
    - exists One, Fall. repeat split; try reflexivity. tauto.
    - exists One, Rise. repeat split; try reflexivity. tauto.
    - exists Fall, One. repeat split; try reflexivity. tauto.
    - exists Rise, One. repeat split; try reflexivity. tauto. }
  destruct HH as (hx & hy & Hx & Hy & H1).
  exists K, KG, (map (fun p => half_co hx (fst p) * half_co hy (snd p)) (list_prod fx fy)).
  assert (W := half_field a b hx hy c0 ca d0 db m n fx fy Hx Hy Hm Hn Fx Fy). rewrite <- (row_major_eq _ _ _ RM) in *.
  destruct (compute_struct _ _ _ _ E) as (_ & _ & Lw & _).
  split; [exact EK|]. split; [rewrite map_length; exact Lw|]. split.
  - destruct (Exists_dec (fun x => x <> 0) (map (fun p => half_co hx (fst p) * half_co hy (snd p)) (sw_idx idx))
      (fun x => match Req_EM_T x 0 with left e => right (fun n => n e) | right n => left n end)) as [Y|N]; [exact Y|exfalso].
    apply Forall_Exists_neg in N.
    assert (Z : combine_shapes a b (sw_idx idx) (map (fun p => half_co hx (fst p) * half_co hy (snd p)) (sw_idx idx)) (a / 2) (b / 2) = 0).
    { unfold combine_shapes. apply rsum_zero. apply Forall_forall. intros z Iz. apply in_map_iff in Iz. destruct Iz as ([q v] & <- & I).
      apply in_combine_r in I. rewrite Forall_forall in N. specialize (N v I). cbn [fst snd]. destruct (Req_dec v 0) as [->|V]; [ring|contradiction]. }
    rewrite W in Z. replace (2 * (a / 2) / a - 1) with 0 in Z by (field; lra). replace (2 * (b / 2) / b - 1) with 0 in Z by (field; lra).
    destruct hx, hy; cbn [half_fun] in Z; lra.
  - rewrite Q, W. unfold bending. rewrite (over_ext a b _ (fun _ _ => 0)).
    + assert (O := over_scal a b Ha' Hb' 0 (fun _ _ => 0) (nice_zero a b)). cbv beta in O. rewrite !Rmult_0_l in O. exact O.
    + intros x y. assert (V : curvature (fun x y => half_fun hx (2 * x / a - 1) * half_fun hy (2 * y / b - 1)) x y = vzero).
      { destruct H1 as [-> | ->]; cbn [half_fun]; [destruct hy|destruct hx]; cbn [half_fun].
        - apply (affine_curv 1 0 0). intros. ring.
        - apply (affine_curv 0 0 (2 / b)). intros. field. assumption.
        - apply (affine_curv 2 0 (- 2 / b)). intros. field. assumption.
        - apply (affine_curv 1 0 0). intros. ring.
        - apply (affine_curv 0 (2 / a) 0). intros. field. assumption.
        - apply (affine_curv 2 (- 2 / a) 0). intros. field. assumption. }
      rewrite V. unfold dot, mvec, vzero. cbn [vx vy vz]. ring.
Qed.

(*@ C39: a plate pinned on two edges is restrained, one pinned on a single edge is not; the identity is positive definite. @*)
Example t_C39_ex2 : restrained Pinned Free Free Pinned /\ ~ restrained Free Pinned Free Free /\ pos_def mid /\ symmetric mid /\
  specifies (CDict (Some (EStr "FREE")) (Some (EStr "Pinned")) (Some (EStr "free")) (Some (EStr "free"))) Free Pinned Free Free.
Proof.
  split; [right; right; right; right; cbn; lia|]. split; [intros [H|[H|[H|[H|H]]]]; try discriminate H; cbn in H; lia|].
  split; [|split; [reflexivity|]].
  - intros [x y z] N. unfold quad, mid, dot, mvec. cbn [vx vy vz a11 a12 a13 a21 a22 a23 a31 a32 a33].
    destruct (Req_dec x 0) as [X|X]; [destruct (Req_dec y 0) as [Y|Y]; [destruct (Req_dec z 0) as [Z|Z]|]|]; [subst; exfalso; apply N; reflexivity|..];
      assert (P := pow2_ge_0 x); assert (P1 := pow2_ge_0 y); assert (P2 := pow2_ge_0 z);
      [assert (0 < z * z) by (apply Rsqr_pos_lt, Z)|assert (0 < y * y) by (apply Rsqr_pos_lt, Y)|assert (0 < x * x) by (apply Rsqr_pos_lt, X)]; lra.
  - constructor; [apply N_free|apply N_pinned|apply N_free|apply N_free]; reflexivity.
Qed.
