(** Proofs of the theorems on the stored tables, the shape functions and the plotted deflection. *)
From Coq Require Import Reals ZArith QArith Qreals Lra Lia Bool String.
From Coquelicot Require Import Coquelicot.
From Coq Require Import List.
From Verif Require Import M_Py M_Plate M_K M_Tables M_Shape M_Expr M_RealArith M_Plot S_Mat S_Plate S_Bardell S_Energy S_Shape L_Poly L_Shape L_Tab L_TabV L_Plate L_FirstK T_Plate.
Import ListNotations.
Open Scope R_scope.

(*@ C63: the 50 stored one-variable texts evaluate to Bardell's functions at every point; a larger index is KeyError. @*)
Lemma t_C63_bardell : forall i x, fxi (A := RA) Rdec i x = if Nat.ltb i 50 then Ok (bardell i x) else Err KeyError.
Proof.
  intros i x. destruct (Nat.ltb_spec i 50) as [H|H].
  - apply fxi_value, H.
  - unfold fxi. rewrite (proj2 (nth_error_None FXI i)) by (rewrite FXI_length; exact H). reflexivity.
Qed.

(*@ C46: the 2500 stored two-variable texts evaluate to the product of Bardell functions at every point; any other key is
    KeyError. @*)
Lemma t_C46_product : forall i j xi eta,
  sxieta_ij (A := RA) Rdec (i, j) xi eta
  = if Nat.ltb i 50 && Nat.ltb j 50 then Ok (bardell i xi * bardell j eta) else Err KeyError.
Proof.
  intros i j xi eta. destruct (Nat.ltb_spec i 50) as [H|H]; [destruct (Nat.ltb_spec j 50) as [G|G]|]; cbn [andb].
  - apply S_value; assumption.
  - unfold sxieta_ij, S_text. cbn [fst snd]. rewrite (proj2 (nth_error_None FXI j)) by (rewrite FXI_length; exact G).
    destruct (nth_error FXI i); reflexivity.
  - unfold sxieta_ij, S_text. cbn [fst snd]. rewrite (proj2 (nth_error_None FXI i)) by (rewrite FXI_length; exact H). reflexivity.
Qed.

(*@ C46: hence the two-variable function is the product of the one-variable ones. @*)
Lemma t_C46_fxi : forall i j xi eta, (i < 50)%nat -> (j < 50)%nat ->
  sxieta_ij (A := RA) Rdec (i, j) xi eta
  = (p <- fxi (A := RA) Rdec i xi ;; q <- fxi (A := RA) Rdec j eta ;; Ok (p * q)).
Proof. intros. rewrite S_value, !fxi_value by assumption. reflexivity. Qed.

(*@ C46: a stored text and what it means. @*)
Example t_C46_ex : S_text 4 1 = Ok "(0.125*eta**3 - 0.125*eta**2 - 0.125*eta + 0.125)*(xi**4/8 - xi**2/4 + 1/8)"%string \/
  S_text 4 1 = Ok "(xi**4/8 - xi**2/4 + 1/8)*(0.125*eta**3 - 0.125*eta**2 - 0.125*eta + 0.125)"%string.
Proof. right. vm_compute. reflexivity. Qed.

(*@ C45: every stored integral is within 1e-8 of the exact integral of the product of the derivatives it names. @*)
Lemma t_C45_accuracy : forall i k, (i < 30)%nat -> (k < 30)%nat ->
  exists v00 v10 v11 v20 v21 v22,
    t_ff stored_R i k = Ok v00 /\ within (1/100000000) v00 (exact_int 0 0 i k) /\
    t_fxi_f stored_R i k = Ok v10 /\ within (1/100000000) v10 (exact_int 1 0 i k) /\
    t_fxi_fxi stored_R i k = Ok v11 /\ within (1/100000000) v11 (exact_int 1 1 i k) /\
    t_fxixi_f stored_R i k = Ok v20 /\ within (1/100000000) v20 (exact_int 2 0 i k) /\
    t_fxixi_fxi stored_R i k = Ok v21 /\ within (1/100000000) v21 (exact_int 2 1 i k) /\
    t_fxixi_fxixi stored_R i k = Ok v22 /\ within (1/100000000) v22 (exact_int 2 2 i k).
Proof.
  intros i k Hi Hk. destruct (stored_close i k Hi Hk) as ((a & A & A') & (b & B & B') & (c & C & C') & (d & D & D') & (e & E & E') & (f & F & F')).
  exists a, b, c, d, e, f. unfold within, epsR in *. tauto.
Qed.

(*@ C45: an index of 30 or more is KeyError in each table, whatever the arithmetic. @*)
Lemma t_C45_keys : forall (A : arith) (dec : Z -> Z -> num A) i k, (30 <= i)%nat \/ (30 <= k)%nat ->
  t_ff (stored A dec) i k = Err KeyError /\ t_fxi_f (stored A dec) i k = Err KeyError /\
  t_fxi_fxi (stored A dec) i k = Err KeyError /\ t_fxixi_f (stored A dec) i k = Err KeyError /\
  t_fxixi_fxi (stored A dec) i k = Err KeyError /\ t_fxixi_fxixi (stored A dec) i k = Err KeyError.
Proof.
  assert (W : forall t, forallb (fun r => Nat.eqb (List.length r) 30) t = true -> List.length t = 30%nat ->
              forall i k, (30 <= i)%nat \/ (30 <= k)%nat -> lookup t i k = Err KeyError).
  { intros t H L i k K. unfold lookup. destruct (nth_error t i) as [r|] eqn:E; [|reflexivity].
    destruct K as [K|K].
    - assert (nth_error t i <> None) as N by congruence. apply nth_error_Some in N. lia.
    - rewrite forallb_forall in H. apply nth_error_In in E. apply H, Nat.eqb_eq in E.
      rewrite (proj2 (nth_error_None r k)) by lia. reflexivity. }
  intros A dec i k K. unfold stored. cbn [t_ff t_fxi_f t_fxi_fxi t_fxixi_f t_fxixi_fxi t_fxixi_fxixi].
  rewrite !W by (reflexivity || exact K). repeat split; reflexivity.
Qed.

Definition sym_tab (t : list (list string)) : bool :=
  forallb (fun i => forallb (fun k => match lookup t i k, lookup t k i with
                                      | Ok s, Ok r => String.eqb s r | _, _ => false end) (seq 0 30)) (seq 0 30).
Lemma sym_tab_spec t : sym_tab t = true -> forall i k, (i < 30)%nat -> (k < 30)%nat -> lookup t i k = lookup t k i.
Proof.
  intros H i k Hi Hk. unfold sym_tab in H. rewrite forallb_forall in H. specialize (H i (proj2 (in_seq 30 0 i) ltac:(lia))).
  rewrite forallb_forall in H. specialize (H k (proj2 (in_seq 30 0 k) ltac:(lia))).
  destruct (lookup t i k), (lookup t k i); try discriminate H. apply String.eqb_eq in H. congruence.
Qed.
(*@ C45: the tables of equal derivative orders are symmetric as texts, so also after evaluation in any arithmetic. @*)
Lemma t_C45_symmetric : forall (A : arith) (dec : Z -> Z -> num A) i k,
  t_ff (stored A dec) i k = t_ff (stored A dec) k i /\ t_fxi_fxi (stored A dec) i k = t_fxi_fxi (stored A dec) k i /\
  t_fxixi_fxixi (stored A dec) i k = t_fxixi_fxixi (stored A dec) k i.
Proof.
  intros A dec i k. destruct (le_lt_dec 30 i) as [H|H]; [|destruct (le_lt_dec 30 k) as [G|G]].
  - destruct (t_C45_keys A dec i k (or_introl H)) as (E1 & _ & E2 & _ & _ & E3).
    destruct (t_C45_keys A dec k i (or_intror H)) as (F1 & _ & F2 & _ & _ & F3). rewrite E1, E2, E3, F1, F2, F3. tauto.
  - destruct (t_C45_keys A dec i k (or_intror G)) as (E1 & _ & E2 & _ & _ & E3).
    destruct (t_C45_keys A dec k i (or_introl G)) as (F1 & _ & F2 & _ & _ & F3). rewrite E1, E2, E3, F1, F2, F3. tauto.
  - unfold stored. cbn [t_ff t_fxi_fxi t_fxixi_fxixi].
    rewrite (sym_tab_spec ii_FF ltac:(vm_compute; reflexivity) i k H G), (sym_tab_spec ii_FXI_FXI ltac:(vm_compute; reflexivity) i k H G),
            (sym_tab_spec ii_FXIXI_FXIXI ltac:(vm_compute; reflexivity) i k H G). tauto.
Qed.

(** ** End conditions *)
Fixpoint qevalQ (p : list Q) (x : Q) : Q := match p with [] => 0%Q | c :: p' => Qred (c + x * qevalQ p' x) end.
Lemma qevalQ_R p x : qeval p (Q2R x) = Q2R (qevalQ p x).
Proof. induction p as [|c p IH]; cbn [qeval qevalQ]; [rewrite Q2R_0; reflexivity|]. rewrite Q2R_red, Q2R_plus, Q2R_mult, IH. reflexivity. Qed.

Definition qends (p : list Q) : Q * Q * Q * Q :=
  (qevalQ p (-1), qevalQ (qderiv p) (-1), qevalQ p 1, qevalQ (qderiv p) 1).
Definition expected_q (i : nat) : Q * Q * Q * Q :=
  match i with
  | 0%nat => (1, 0, 0, 0) | 1%nat => (0, 1#2, 0, 0) | 2%nat => (0, 0, 1, 0) | 3%nat => (0, 0, 0, 1#2) | _ => (0, 0, 0, 0)
  end%Q.
Definition q4eqb (a b : Q * Q * Q * Q) : bool :=
  let '(a1, a2, a3, a4) := a in let '(b1, b2, b3, b4) := b in
  Qeq_bool a1 b1 && Qeq_bool a2 b2 && Qeq_bool a3 b3 && Qeq_bool a4 b4.
Lemma ends_checked : forallb (fun i => q4eqb (qends (fpoly i)) (expected_q i)) (seq 0 50) = true.
Proof. vm_compute. reflexivity. Qed.
Definition q4R (a : Q * Q * Q * Q) : R * R * R * R := let '(a1, a2, a3, a4) := a in (Q2R a1, Q2R a2, Q2R a3, Q2R a4).
Lemma q4eqb_R a b : q4eqb a b = true -> q4R a = q4R b.
Proof.
  destruct a as [[[a1 a2] a3] a4], b as [[[b1 b2] b3] b4]. cbn [q4eqb q4R]. intros H.
  repeat (apply andb_prop in H; destruct H as [H ?]).
  repeat match goal with H : Qeq_bool _ _ = true |- _ => apply Qeq_bool_eq, Qeq_eqR in H end. congruence.
Qed.
Lemma expected_q_R i : q4R (expected_q i) = expected_ends i.
Proof. destruct i as [|[|[|[|i]]]]; cbn -[Q2R]; repeat f_equal; unfold Q2R; cbn; lra. Qed.
Lemma bardell_ends i : (i < 50)%nat -> ends (bardell i) = expected_ends i.
Proof.
  intros Hi. assert (H := ends_checked). rewrite forallb_forall in H. specialize (H i (proj2 (in_seq 50 0 i) ltac:(lia))).
  apply q4eqb_R in H. rewrite expected_q_R in H. rewrite <- H. unfold ends, qends. cbn [q4R].
  assert (E : forall x, Derive (bardell i) x = qeval (qderiv (fpoly i)) x).
  { intros x. rewrite <- qeval_Derive. apply Derive_ext. intros t. symmetry. apply fpoly_bardell, Hi. }
  rewrite !E, <- !fpoly_bardell by exact Hi.
  replace (-1) with (Q2R (-1)) by (unfold Q2R; cbn; lra). replace 1 with (Q2R 1) by (unfold Q2R; cbn; lra).
  rewrite !qevalQ_R. reflexivity.
Qed.

(*@ C43: end values and slopes of the stored functions: 0 and 2 carry a unit end value, 1 and 3 an end slope of one half,
    all others vanish with their slope at both ends. @*)
Lemma t_C43_ends : forall i, (i < 50)%nat -> exists f,
  (forall x, fxi (A := RA) Rdec i x = Ok (f x)) /\ (forall x, ex_derive f x) /\ ends f = expected_ends i.
Proof.
  intros i Hi. exists (bardell i). split; [intros x; apply fxi_value, Hi|]. split; [|apply bardell_ends, Hi].
  intros x. apply (ex_derive_ext (qeval (fpoly i))); [intros t; apply fpoly_bardell, Hi|apply qeval_ex_derive].
Qed.

(** ** The plotted deflection *)
Definition defl (idx : list (nat * nat)) (c : list R) (xi eta : R) : R :=
  fold_right Rplus 0 (map (fun p => bardell (fst (fst p)) xi * bardell (snd (fst p)) eta * snd p) (combine idx c)).
Definition idx_below (B : nat) (idx : list (nat * nat)) : Prop := Forall (fun ij => (fst ij < B)%nat /\ (snd ij < B)%nat) idx.

Lemma sxieta_ok idx xi eta : idx_below 50 idx ->
  sxieta (A := RA) Rdec idx xi eta = Ok (map (fun ij => bardell (fst ij) xi * bardell (snd ij) eta) idx).
Proof.
  unfold sxieta. induction 1 as [|[i j] l [Hi Hj] _ IH]; [reflexivity|]. cbn [mapM map fst snd].
  rewrite S_value by assumption. cbn [bind]. rewrite IH. reflexivity.
Qed.
Lemma plot_point_ok idx c xi eta : idx_below 50 idx -> List.length c = List.length idx ->
  plot_point idx c xi eta = Ok (defl idx c xi eta).
Proof.
  intros H L. unfold plot_point. rewrite sxieta_ok by exact H. cbn [bind]. unfold matmul.
  rewrite map_length, L, Nat.eqb_refl. f_equal. unfold defl. clear H. revert c L.
  induction idx as [|ij l IH]; intros [|x c] L; try discriminate L; [reflexivity|].
  cbn [map combine fold_right fst snd]. rewrite IH by (cbn in L; lia). reflexivity.
Qed.

Lemma bardell_value0 i : (i < 50)%nat -> i <> 0%nat -> bardell i (-1) = 0.
Proof.
  intros H N. assert (E := f_equal (fun t : R * R * R * R => fst (fst (fst t))) (bardell_ends i H)). cbn [ends fst snd] in E. rewrite E.
  destruct i as [|[|[|[|i]]]]; [..|reflexivity]; first [reflexivity|congruence].
Qed.
Lemma bardell_value1 i : (i < 50)%nat -> i <> 2%nat -> bardell i 1 = 0.
Proof.
  intros H N. assert (E := f_equal (fun t : R * R * R * R => snd (fst t)) (bardell_ends i H)). cbn [ends fst snd] in E. rewrite E.
  destruct i as [|[|[|[|i]]]]; [..|reflexivity]; first [reflexivity|congruence].
Qed.
Lemma bardell_slope0 i : (i < 50)%nat -> i <> 1%nat -> Derive (bardell i) (-1) = 0.
Proof.
  intros H N. assert (E := f_equal (fun t : R * R * R * R => snd (fst (fst t))) (bardell_ends i H)). cbn [ends fst snd] in E. rewrite E.
  destruct i as [|[|[|[|i]]]]; [..|reflexivity]; first [reflexivity|congruence].
Qed.
Lemma bardell_slope1 i : (i < 50)%nat -> i <> 3%nat -> Derive (bardell i) 1 = 0.
Proof.
  intros H N. assert (E := f_equal (fun t : R * R * R * R => snd t) (bardell_ends i H)). cbn [ends fst snd] in E. rewrite E.
  destruct i as [|[|[|[|i]]]]; [..|reflexivity]; first [reflexivity|congruence].
Qed.
Lemma bardell_ex_derive i x : (i < 50)%nat -> ex_derive (bardell i) x.
Proof. intros Hi. apply (ex_derive_ext (qeval (fpoly i))); [intros t; apply fpoly_bardell, Hi|apply qeval_ex_derive]. Qed.

Definition flip (idx : list (nat * nat)) := map (fun ij : nat * nat => (snd ij, fst ij)) idx.
Lemma defl_flip idx c xi eta : defl (flip idx) c eta xi = defl idx c xi eta.
Proof.
  unfold defl, flip. revert c. induction idx as [|ij l IH]; intros [|x c]; try reflexivity.
  cbn [map combine fold_right fst snd]. rewrite IH. ring.
Qed.
Lemma flip_below B idx : idx_below B idx -> idx_below B (flip idx).
Proof. unfold idx_below, flip. intros H. apply Forall_forall. intros x I. apply in_map_iff in I. destruct I as (y & <- & I).
  rewrite Forall_forall in H. destruct (H y I). cbn. tauto. Qed.

Lemma defl_zero idx c t s : (forall ij, In ij idx -> bardell (fst ij) t = 0) -> defl idx c t s = 0.
Proof.
  unfold defl. revert c. induction idx as [|ij l IH]; intros [|x c] H; try reflexivity.
  cbn [map combine fold_right fst snd]. rewrite IH, H; [ring|left; reflexivity|]. intros. apply H. right. assumption.
Qed.
Lemma defl_derive idx c t s : idx_below 50 idx ->
  is_derive (fun u => defl idx c u s) t
    (fold_right Rplus 0 (map (fun p => Derive (bardell (fst (fst p))) t * bardell (snd (fst p)) s * snd p) (combine idx c))).
Proof.
  intros H. unfold defl. revert c. induction H as [|ij l [Hi Hj] _ IH]; intros [|x c];
    [apply (is_derive_const (K := R_AbsRing) (V := R_NormedModule) 0)..|].
  cbn [map combine fold_right fst snd]. apply @is_derive_plus; [|apply IH].
  apply (is_derive_ext (fun u => scal (bardell (snd ij) s * x) (bardell (fst ij) u))).
  { intros u. unfold scal. cbn. unfold mult. cbn. ring. }
  evar_last; [apply @is_derive_scal, Derive_correct, bardell_ex_derive, Hi|]. unfold scal. cbn. unfold mult. cbn. ring.
Qed.
Lemma defl_slope_zero idx c t s : idx_below 50 idx -> (forall ij, In ij idx -> Derive (bardell (fst ij)) t = 0) ->
  Derive (fun u => defl idx c u s) t = 0.
Proof.
  intros B H. etransitivity; [exact (is_derive_unique _ _ _ (defl_derive idx c t s B))|]. clear B.
  revert c. induction idx as [|ij l IH]; intros [|x c]; try reflexivity.
  cbn [map combine fold_right fst snd]. rewrite IH, H; [ring|left; reflexivity|]. intros. apply H. right. assumption.
Qed.

Lemma defl_respects idx c c0 ca : idx_below 50 idx -> (forall ij, In ij idx -> admissible c0 ca (fst ij)) ->
  respects c0 (defl idx c) (-1) /\ respects ca (defl idx c) 1.
Proof.
  intros B H. assert (B' := B). unfold idx_below in B'. rewrite Forall_forall in B'.
  unfold respects. repeat split; intros E s.
  - apply defl_zero. intros ij I. destruct (H ij I) as (N & _). apply bardell_value0; [apply B', I|]. intros Z. rewrite (N Z) in E. discriminate E.
  - apply defl_slope_zero; [exact B|]. intros ij I. destruct (H ij I) as (_ & N & _). apply bardell_slope0; [apply B', I|].
    intros Z. rewrite (N Z) in E. discriminate E.
  - apply defl_zero. intros ij I. destruct (H ij I) as (_ & _ & N & _). apply bardell_value1; [apply B', I|]. intros Z. rewrite (N Z) in E. discriminate E.
  - apply defl_slope_zero; [exact B|]. intros ij I. destruct (H ij I) as (_ & _ & _ & N). apply bardell_slope1; [apply B', I|].
    intros Z. rewrite (N Z) in E. discriminate E.
Qed.

(*@ C43: the deflection plotted for any coefficient vector is zero on pinned and clamped edges and has zero normal slope
    on clamped edges, for all named edge conditions and all sizes for which the functions are stored. @*)
Lemma t_C43_deflection : forall c c0 ca d0 db m n idx cw,
  specifies c c0 ca d0 db -> compute_constraints c m n = Ok idx -> List.length cw = (m * n)%nat ->
  (m + taken c0 + taken ca <= 50)%nat -> (n + taken d0 + taken db <= 50)%nat ->
  exists w, (forall xi eta, plot_point (sw_idx idx) cw xi eta = Ok (w xi eta)) /\
    respects c0 w (-1) /\ respects ca w 1 /\ respects d0 (fun eta xi => w xi eta) (-1) /\ respects db (fun eta xi => w xi eta) 1.
Proof.
  intros c c0 ca d0 db m n idx cw Sp E L Hm Hn.
  destruct (t_C34_index_sets c c0 ca d0 db m n Sp) as (idx' & fx & fy & E' & Fx & Fy & _ & _ & RM & _).
  rewrite E in E'. injection E' as <-.
  assert (Lx : List.length fx = m) by apply Fx. assert (Ly : List.length fy = n) by apply Fy.
  assert (Bx := admissible_below _ _ _ _ Fx). assert (By := admissible_below _ _ _ _ Fy). rewrite Forall_forall in Bx, By.
  assert (B : idx_below 50 (sw_idx idx)).
  { apply Forall_forall. intros [i j] I. destruct (row_major_in _ _ _ _ _ RM I) as [Ix Iy]. specialize (Bx i Ix). specialize (By j Iy). cbn. lia. }
  exists (defl (sw_idx idx) cw). split.
  - intros xi eta. apply plot_point_ok; [exact B|]. rewrite L, (proj1 RM), Lx, Ly. reflexivity.
  - destruct Fx as (_ & _ & Px & _). destruct Fy as (_ & _ & Py & _). rewrite Forall_forall in Px, Py.
    destruct (defl_respects (sw_idx idx) cw c0 ca B) as [R1 R2].
    { intros [i j] I. destruct (row_major_in _ _ _ _ _ RM I) as [Ix Iy]. apply Px, Ix. }
    destruct (defl_respects (flip (sw_idx idx)) cw d0 db (flip_below _ _ B)) as [R3 R4].
    { intros ij I. apply in_map_iff in I. destruct I as ([i j] & <- & I). destruct (row_major_in _ _ _ _ _ RM I) as [Ix Iy]. apply Py, Iy. }
    split; [exact R1|]. split; [exact R2|].
    assert (X : forall eta xi, defl (flip (sw_idx idx)) cw eta xi = defl (sw_idx idx) cw xi eta) by (intros; apply defl_flip).
    split; (split; [intros V s; rewrite <- X; first [apply R3, V|apply R4, V]|
      intros V s; rewrite <- (Derive_ext _ _ _ (fun t => X t s)); first [apply R3, V|apply R4, V]]).
Qed.

(*@ C43: a plate clamped on x0, simply supported on xa and yb, free on y0 meets the hypotheses. @*)
Example t_C43_ex : specifies (CDict (Some (EStr "Clamped")) (Some (EStr "pinned")) (Some (EStr "FREE")) (Some (EStr "simply_supported")))
  Clamped Pinned Free Pinned /\ (7 + taken Clamped + taken Pinned <= 50)%nat.
Proof. split; [|cbn; lia]. constructor; [apply N_clamped|apply N_pinned|apply N_free|apply N_ss]; reflexivity. Qed.

(** ** Grids *)
Lemma get2_mesh_x xs ys i j : get2 (mesh_x xs ys) i j = if Nat.ltb i (List.length ys) then get xs j else Err IndexError.
Proof.
  unfold get2, mesh_x, get. rewrite nth_error_map. destruct (Nat.ltb_spec i (List.length ys)) as [H|H].
  - destruct (nth_error ys i) eqn:E; [reflexivity|]. apply nth_error_None in E. lia.
  - rewrite (proj2 (nth_error_None ys i)) by lia. reflexivity.
Qed.
Lemma get2_mesh_y xs ys i j : get2 (mesh_y xs ys) i j = if Nat.ltb j (List.length xs) then get ys i else (_ <- get ys i ;; Err IndexError).
Proof.
  unfold get2, mesh_y, get. rewrite nth_error_map. destruct (nth_error ys i) as [y|] eqn:E; cbn [option_map bind].
  - rewrite nth_error_map. destruct (Nat.ltb_spec j (List.length xs)) as [H|H].
    + destruct (nth_error xs j) eqn:F; [reflexivity|]. apply nth_error_None in F. lia.
    + rewrite (proj2 (nth_error_None xs j)) by lia. reflexivity.
  - destruct (Nat.ltb j (List.length xs)); reflexivity.
Qed.
Lemma linspace_length n : List.length (linspace n) = n.
Proof. unfold linspace. rewrite map_length, seq_length. reflexivity. Qed.
Lemma mapM_all {X Y} (f : X -> res Y) (g : X -> Y) l : (forall x, In x l -> f x = Ok (g x)) -> mapM f l = Ok (map g l).
Proof. induction l as [|x l IH]; intros H; [reflexivity|]. cbn [mapM map]. rewrite H by (left; reflexivity). cbn [bind].
  rewrite IH; [reflexivity|]. intros. apply H. right. assumption. Qed.
Lemma mapM_first_err {X Y} (f : X -> res Y) e l : Forall (fun x => (exists y, f x = Ok y) \/ f x = Err e) l ->
  Exists (fun x => f x = Err e) l -> mapM f l = Err e.
Proof. induction 1 as [|x l H _ IH]; intros E; [inversion E|]. cbn [mapM]. destruct H as [[y H]|H]; rewrite H; cbn [bind]; [|reflexivity].
  rewrite IH; [reflexivity|]. inversion E; subst; [congruence|assumption]. Qed.

Definition grid_at (n i : nat) : R := nth i (linspace n) 0.
Lemma get_linspace n i : get (linspace n) i = if Nat.ltb i n then Ok (grid_at n i) else Err IndexError.
Proof.
  unfold get, grid_at. destruct (Nat.ltb_spec i n) as [H|H].
  - rewrite (nth_error_nth' (linspace n) 0) by (rewrite linspace_length; exact H). reflexivity.
  - rewrite (proj2 (nth_error_None (linspace n) i)) by (rewrite linspace_length; exact H). reflexivity.
Qed.
Lemma grid_at_value n i : (i < n)%nat -> grid_at n i = -1 + INR i * (2 / (INR n - 1)).
Proof. intros H. unfold grid_at, linspace. rewrite (nth_indep _ 0 (-1 + INR 0 * (2 / (INR n - 1)))) by (rewrite map_length, seq_length; exact H).
  rewrite (map_nth (fun i => -1 + INR i * (2 / (INR n - 1)))), seq_nth by exact H. reflexivity. Qed.

Lemma plot_values_eq ev idx nth c gx gy : column ev nth = Ok c -> List.length c = List.length idx -> idx_below 50 idx ->
  plot_values ev idx nth gx gy =
  mapM (fun i => mapM (fun j => if Nat.ltb i gy && Nat.ltb j gx then Ok (defl idx c (grid_at gx j) (grid_at gy i)) else Err IndexError)
                      (seq 0 gy)) (seq 0 gx).
Proof.
  intros C L B. unfold plot_values. rewrite C. cbn [bind]. rewrite L, Nat.sub_diag. cbn [skipn].
  assert (E : forall i j, (x <- get2 (mesh_x (linspace gx) (linspace gy)) i j ;; y <- get2 (mesh_y (linspace gx) (linspace gy)) i j ;; plot_point idx c x y)
              = if Nat.ltb i gy && Nat.ltb j gx then Ok (defl idx c (grid_at gx j) (grid_at gy i)) else Err IndexError).
  { intros i j. rewrite get2_mesh_x, get2_mesh_y, !linspace_length, !get_linspace.
    destruct (Nat.ltb i gy), (Nat.ltb j gx); cbn [andb bind]; try reflexivity. apply plot_point_ok; assumption. }
  assert (M : forall {X Y} (f g : X -> res Y) l, (forall x, f x = g x) -> mapM f l = mapM g l).
  { intros X Y f g l H. induction l as [|x l IH]; [reflexivity|]. cbn [mapM]. rewrite H, IH. reflexivity. }
  apply M. intros i. apply M. intros j. apply E.
Qed.
Lemma seq_map_nth {X} (f : nat -> X) n i : (i < n)%nat -> nth_error (map f (seq 0 n)) i = Some (f i).
Proof. intros H. rewrite nth_error_map, (nth_error_nth' (seq 0 n) 0%nat) by (rewrite seq_length; exact H). rewrite seq_nth by exact H. reflexivity. Qed.

(*@ C44: with as many stored coefficients as shape functions, the plotted array is computed on every square grid, its
    entry (i, j) being the deflection at the j-th grid point in xi and the i-th in eta; on every other non-empty grid
    the call ends in IndexError. @*)
Lemma t_C44_grid : forall ev idx nth c gx gy, column ev nth = Ok c -> List.length c = List.length idx ->
  Forall (fun ij => (fst ij < 50)%nat /\ (snd ij < 50)%nat) idx -> (0 < gx)%nat -> (0 < gy)%nat ->
  (gx <> gy -> plot_values ev idx nth gx gy = Err IndexError) /\
  (gx = gy -> exists z, plot_values ev idx nth gx gy = Ok z /\ List.length z = gx /\
     forall i j, (i < gx)%nat -> (j < gy)%nat -> exists row v, nth_error z i = Some row /\ List.length row = gy /\ nth_error row j = Some v /\
       plot_point idx c (-1 + INR j * (2 / (INR gx - 1))) (-1 + INR i * (2 / (INR gy - 1))) = Ok v).
Proof.
  intros ev idx nth c gx gy C L B Hx Hy. rewrite (plot_values_eq ev idx nth c gx gy C L B). split.
  - intros N. destruct (Nat.lt_ge_cases gx gy) as [H|H].
    + (* more columns than available: row 0 fails at column gx *)
      destruct gx as [|gx]; [lia|]. cbn [seq mapM].
      rewrite (mapM_first_err _ IndexError); [reflexivity|..].
      * apply Forall_forall. intros j _. destruct (Nat.ltb 0 gy && Nat.ltb j (S gx)); [left; eexists; reflexivity|right; reflexivity].
      * apply Exists_exists. exists (S gx). split; [apply in_seq; lia|]. rewrite Nat.ltb_irrefl, andb_false_r. reflexivity.
    + assert (G : (gy < gx)%nat) by lia. clear H N.
      apply (mapM_first_err _ IndexError).
      * apply Forall_forall. intros i _. destruct (Nat.ltb_spec i gy) as [K|K].
        -- left. eexists. apply mapM_all with (g := fun j => defl idx c (grid_at gx j) (grid_at gy i)). intros j J. apply in_seq in J.
           cbn [andb]. rewrite (proj2 (Nat.ltb_lt j gx)) by lia. reflexivity.
        -- right. destruct gy as [|gy]; [lia|]. reflexivity.
      * apply Exists_exists. exists gy. split; [apply in_seq; lia|]. rewrite Nat.ltb_irrefl. destruct gy as [|gy]; [lia|]. reflexivity.
  - intros <-. exists (map (fun i => map (fun j => defl idx c (grid_at gx j) (grid_at gx i)) (seq 0 gx)) (seq 0 gx)). split.
    + apply mapM_all. intros i I. apply in_seq in I. apply mapM_all. intros j J. apply in_seq in J.
      rewrite (proj2 (Nat.ltb_lt i gx)), (proj2 (Nat.ltb_lt j gx)) by lia. reflexivity.
    + split; [rewrite map_length, seq_length; reflexivity|]. intros i j Hi Hj.
      exists (map (fun j => defl idx c (grid_at gx j) (grid_at gx i)) (seq 0 gx)), (defl idx c (grid_at gx j) (grid_at gx i)).
      split; [apply (seq_map_nth (fun i => map (fun j => defl idx c (grid_at gx j) (grid_at gx i)) (seq 0 gx))), Hi|].
      split; [rewrite map_length, seq_length; reflexivity|].
      split; [apply (seq_map_nth (fun j => defl idx c (grid_at gx j) (grid_at gx i))), Hj|].
      rewrite <- !grid_at_value by assumption. apply plot_point_ok; assumption.
Qed.

(*@ C44: an eigenvector array of four rows and two columns and the index list of a 2 by 2 plate meet the hypotheses. @*)
Example t_C44_ex : exists idx, compute_constraints (CStr "PINNED") 2 2 = Ok idx /\
  column [[1; 0]; [0; 1]; [1; 1]; [1; -1]] 1 = Ok [0; 1; 1; -1] /\ List.length [0; 1; 1; -1] = List.length (sw_idx idx) /\
  Forall (fun ij => (fst ij < 50)%nat /\ (snd ij < 50)%nat) (sw_idx idx).
Proof. eexists. split; [vm_compute; reflexivity|]. split; [reflexivity|]. split; [reflexivity|]. cbn. repeat constructor. Qed.

(*@ C44: a column number that the eigenvector array does not have is IndexError. @*)
Lemma t_C44_column : forall ev idx nth gx gy, Exists (fun r => (List.length r <= nth)%nat) ev -> plot_values ev idx nth gx gy = Err IndexError.
Proof.
  intros ev idx nth gx gy H. unfold plot_values.
  replace (column ev nth) with (@Err (list R) IndexError); [reflexivity|]. symmetry. unfold column. apply mapM_first_err.
  - apply Forall_forall. intros r _. unfold get. destruct (nth_error r nth); [left; eexists; reflexivity|right; reflexivity].
  - apply Exists_exists in H. destruct H as (r & I & H). apply Exists_exists. exists r. split; [exact I|]. unfold get.
    rewrite (proj2 (nth_error_None r nth)) by exact H. reflexivity.
Qed.
