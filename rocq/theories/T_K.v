(** Proofs of the theorems on the assembled stiffness matrices: sizes, symmetry and scaling. *)
From Coq Require Import Reals ZArith Lra Lia Bool String.
From Flocq Require Import IEEE754.BinarySingleNaN.
From Coq Require Import List.
From Verif Require Import M_Py M_Plate M_K M_Tables M_Expr M_RealArith M_Float M_FloatArith S_Plate S_K S_Mat S_Bardell S_Energy L_Plate L_FirstK L_K L_KR L_TabV T_Plate T_Shape.
Import ListNotations.
Open Scope R_scope.

(** ** the stored tables over the reals *)
Definition stored_e : etab :=
  let g f i k := match f stored_R i k with Ok v => v | Err _ => 0 end in
  Etab (g t_ff) (g t_fxi_f) (g t_fxi_fxi) (g t_fxixi_f) (g t_fxixi_fxi) (g t_fxixi_fxixi).
Lemma stored_good : good (fun i => (i < 30)%nat) stored_R stored_e.
Proof.
  intros i k Hi Hk. destruct (stored_close i k Hi Hk) as ((a & A & _) & (b & B & _) & (c & C & _) & (d & D & _) & (e & E & _) & (f & F & _)).
  unfold stored_e. cbn [e00 e10 e11 e20 e21 e22]. rewrite A, B, C, D, E, F. repeat split; reflexivity.
Qed.

(** every stored lookup is a value or KeyError *)
Definition ok_or {X} (e : exn) (r : res X) : Prop := (exists v, r = Ok v) \/ r = Err e.
Lemma ok_or_mul2 x y : ok_or KeyError x -> ok_or KeyError y -> ok_or KeyError (mul2 (A := RA) x y).
Proof. intros [[u ->]| ->] [[v ->]| ->]; cbn; [left; eexists; reflexivity|right; reflexivity..]. Qed.
Lemma ok_or_bind {X Y} (x : res X) (f : X -> res Y) e : ok_or e x -> (forall v, x = Ok v -> ok_or e (f v)) -> ok_or e (bind x f).
Proof. intros [[u ->]| ->] H; cbn; [apply H; reflexivity|right; reflexivity]. Qed.
Lemma stored_ok_or i k :
  ok_or KeyError (t_ff stored_R i k) /\ ok_or KeyError (t_fxi_f stored_R i k) /\ ok_or KeyError (t_fxi_fxi stored_R i k) /\
  ok_or KeyError (t_fxixi_f stored_R i k) /\ ok_or KeyError (t_fxixi_fxi stored_R i k) /\ ok_or KeyError (t_fxixi_fxixi stored_R i k).
Proof.
  destruct (le_lt_dec 30 i) as [H|H]; [|destruct (le_lt_dec 30 k) as [K|K]].
  - destruct (t_C45_keys RA Rdec i k (or_introl H)) as (A & B & C & D & E & F). unfold ok_or, stored_R. rewrite A, B, C, D, E, F. repeat split; right; reflexivity.
  - destruct (t_C45_keys RA Rdec i k (or_intror K)) as (A & B & C & D & E & F). unfold ok_or, stored_R. rewrite A, B, C, D, E, F. repeat split; right; reflexivity.
  - destruct (stored_good i k H K) as (A & B & C & D & E & F). unfold ok_or. rewrite A, B, C, D, E, F. repeat split; left; eexists; reflexivity.
Qed.
Ltac lk := first [apply (proj1 (stored_ok_or _ _))|apply (proj1 (proj2 (stored_ok_or _ _)))
  |apply (proj1 (proj2 (proj2 (stored_ok_or _ _))))|apply (proj1 (proj2 (proj2 (proj2 (stored_ok_or _ _)))))
  |apply (proj1 (proj2 (proj2 (proj2 (proj2 (stored_ok_or _ _))))))|apply (proj2 (proj2 (proj2 (proj2 (proj2 (stored_ok_or _ _))))))].
Ltac dv := rewrite div_ok by (first [assumption|apply Rmult_integral_contrapositive_currified; assumption|apply pow_nonzero; assumption]).
Lemma k33_ok_or a b q D11 D12 D22 D16 D26 D66 : a <> 0 -> b <> 0 -> ok_or KeyError (calc_k33 stored_R a b q D11 D12 D22 D16 D26 D66).
Proof.
  intros Ha Hb. unfold calc_k33.
  do 9 (apply ok_or_bind; [apply ok_or_mul2; lk|intros ? _]).
  repeat (cbn [bind npow RA]; dv). left. eexists. reflexivity.
Qed.
Lemma kG_ok_or a b q Nxx Nyy Nxy : a <> 0 -> b <> 0 -> ok_or KeyError (calc_kG33 stored_R a b q Nxx Nyy Nxy).
Proof.
  intros Ha Hb. unfold calc_kG33.
  do 4 (apply ok_or_bind; [apply ok_or_mul2; lk|intros ? _]).
  repeat (cbn [bind npow RA]; dv). left. eexists. reflexivity.
Qed.
Lemma ent_ok_or D a b Nxx Nyy Nxy q : a <> 0 -> b <> 0 -> ok_or KeyError (ent_D stored_R D a b Nxx Nyy Nxy q).
Proof. intros Ha Hb. unfold ent_D. apply ok_or_bind; [apply k33_ok_or; assumption|intros ? _]. apply ok_or_bind; [apply kG_ok_or; assumption|intros ? _].
  left. eexists. reflexivity. Qed.

Lemma ent_bad (A : arith) (dec : Z -> Z -> num A) D a b Nxx Nyy Nxy i j : (30 <= i)%nat \/ (30 <= j)%nat ->
  forall y, ent_D (stored A dec) D a b Nxx Nyy Nxy ((i, j), (i, j)) <> Ok y.
Proof.
  intros H y. unfold ent_D, calc_k33, mul2, ii_fxixi_fxixi, ii_ff. cbn [fst snd].
  destruct H as [H|H].
  - destruct (t_C45_keys A dec i i (or_introl H)) as (_ & _ & _ & _ & _ & E). rewrite E. discriminate.
  - destruct (t_C45_keys A dec j j (or_introl H)) as (E & _). rewrite E.
    destruct (t_fxixi_fxixi (stored A dec) i i); discriminate.
Qed.

(** the w index list of a named plate *)
Lemma named_struct c c0 ca d0 db m n : specifies c c0 ca d0 db -> exists idx fx fy,
  compute_constraints c m n = Ok idx /\ first_k (admissible c0 ca) m fx /\ first_k (admissible d0 db) n fy /\ row_major fx fy (sw_idx idx).
Proof. intros H. destruct (t_C34_index_sets c c0 ca d0 db m n H) as (idx & fx & fy & E & F & G & _ & _ & RM & _). exists idx, fx, fy. tauto. Qed.

Lemma named_big c c0 ca d0 db m n idx fx fy : (1 <= m)%nat -> (1 <= n)%nat -> specifies c c0 ca d0 db ->
  compute_constraints c m n = Ok idx -> first_k (admissible c0 ca) m fx -> first_k (admissible d0 db) n fy -> row_major fx fy (sw_idx idx) ->
  (30 < m + taken c0 + taken ca)%nat \/ (30 < n + taken d0 + taken db)%nat ->
  exists i j, In (i, j) (sw_idx idx) /\ ((30 <= i)%nat \/ (30 <= j)%nat).
Proof.
  intros Hm Hn _ _ Fx Fy RM H.
  assert (Lx : List.length fx = m) by apply Fx. assert (Ly : List.length fy = n) by apply Fy.
  destruct H as [H|H].
  - destruct (admissible_reaches _ _ _ _ 30 Fx ltac:(lia) H) as (i & I & B). destruct fy as [|j fy]; [cbn in Ly; lia|].
    exists i, j. split; [apply (row_major_in_conv _ _ _ _ _ RM); [exact I|left; reflexivity]|left; exact B].
  - destruct (admissible_reaches _ _ _ _ 30 Fy ltac:(lia) H) as (j & J & B). destruct fx as [|i fx]; [cbn in Lx; lia|].
    exists i, j. split; [apply (row_major_in_conv _ _ _ _ _ RM); [left; reflexivity|exact J]|right; exact B].
Qed.

(*@ C37: with named edges and non-zero lengths, calc_K_KG_D returns two square matrices of m*n rows if m plus the functions
    taken by the x edges is at most 30 and the same for n; otherwise it raises KeyError. @*)
Lemma t_C37_sizes : forall c c0 ca d0 db m n (D : @arr RA) a b Nxx Nyy Nxy, specifies c c0 ca d0 db ->
  (1 <= m)%nat -> (1 <= n)%nat -> a <> 0 -> b <> 0 ->
  ((m + taken c0 + taken ca <= 30)%nat /\ (n + taken d0 + taken db <= 30)%nat ->
     exists K KG, calc_K_KG_D stored_R D a b Nxx Nyy Nxy c m n = Ok (K, KG) /\ square (m * n) K /\ square (m * n) KG) /\
  ((30 < m + taken c0 + taken ca)%nat \/ (30 < n + taken d0 + taken db)%nat ->
     calc_K_KG_D stored_R D a b Nxx Nyy Nxy c m n = Err KeyError).
Proof.
  intros c c0 ca d0 db m n D a b Nxx Nyy Nxy Sp Hm Hn Ha Hb.
  destruct (named_struct c c0 ca d0 db m n Sp) as (idx & fx & fy & E & Fx & Fy & RM).
  split.
  - intros [Bm Bn]. assert (Bx := admissible_below _ _ _ _ Fx). assert (By := admissible_below _ _ _ _ Fy). rewrite Forall_forall in Bx, By.
    assert (B : forall p, In p (sw_idx idx) -> (fst p < 30)%nat /\ (snd p < 30)%nat).
    { intros [i j] I. destruct (row_major_in _ _ _ _ _ RM I) as [Ix Iy]. specialize (Bx i Ix). specialize (By j Iy). cbn. lia. }
    rewrite (K_D_ok stored_R D a b Nxx Nyy Nxy c m n idx
      (fun pq => k33f stored_e a b pq (D 0%nat 0%nat) (D 1%nat 0%nat) (D 1%nat 1%nat) (D 2%nat 0%nat) (D 2%nat 1%nat) (D 2%nat 2%nat))
      (fun pq => kGf stored_e a b pq Nxx Nyy Nxy) E).
    + do 2 eexists. split; [reflexivity|]. destruct (compute_struct _ _ _ _ E) as (_ & _ & L & _).
      split; apply (square_map (fun p q => _) (sw_idx idx)), L.
    + intros p q Ip Iq. unfold ent_D. destruct (B p Ip) as [P1 P2]. destruct (B q Iq) as [Q1 Q2].
      assert (I4 : in4 (fun i => (i < 30)%nat) (p, q)) by (repeat split; assumption).
      rewrite (k33_ok _ _ _ stored_good a b Ha Hb _ I4). cbn [bind]. rewrite (kG_ok _ _ _ stored_good a b Ha Hb _ I4). reflexivity.
  - intros H. destruct (named_big c c0 ca d0 db m n idx fx fy Hm Hn Sp E Fx Fy RM H) as (i & j & I & B).
    rewrite (K_D_loop stored_R _ _ _ _ _ _ _ _ _ idx E).
    rewrite (mapM_err _ KeyError); [reflexivity|..].
    + apply Forall_forall. intros q _. apply ent_ok_or; assumption.
    + apply Exists_exists. exists ((i, j), (i, j)). split; [apply in_prod; exact I|].
      destruct (ent_ok_or D a b Nxx Nyy Nxy ((i, j), (i, j)) Ha Hb) as [[y Y]|Y]; [|exact Y].
      exfalso. exact (ent_bad RA Rdec D a b Nxx Nyy Nxy i j B y Y).
Qed.

(*@ C37: free plates work up to 30 functions in each direction, pinned ones up to 28, clamped ones up to 26. @*)
Lemma t_C37_limits : forall (D : @arr RA) a b Nxx Nyy Nxy m n s, (1 <= m)%nat -> (1 <= n)%nat -> a <> 0 -> b <> 0 -> lower s = "free"%string ->
  let works c := exists KK, calc_K_KG_D stored_R D a b Nxx Nyy Nxy c m n = Ok KK in
  (works (CDict (Some (EStr s)) (Some (EStr s)) (Some (EStr s)) (Some (EStr s))) <-> (m <= 30)%nat /\ (n <= 30)%nat) /\
  (works (CStr "PINNED") <-> (m <= 28)%nat /\ (n <= 28)%nat) /\ (works (CStr "CLAMPED") <-> (m <= 26)%nat /\ (n <= 26)%nat).
Proof.
  intros D a b Nxx Nyy Nxy m n s Hm Hn Ha Hb Hs works.
  assert (W : forall c c0 ca d0 db, specifies c c0 ca d0 db ->
    (works c <-> (m + taken c0 + taken ca <= 30)%nat /\ (n + taken d0 + taken db <= 30)%nat)).
  { intros c c0 ca d0 db Sp. destruct (t_C37_sizes c c0 ca d0 db m n D a b Nxx Nyy Nxy Sp Hm Hn Ha Hb) as [H1 H2]. split.
    - intros [KK E]. destruct (le_lt_dec (m + taken c0 + taken ca) 30) as [L|L]; [|rewrite H2 in E by (left; exact L); discriminate E].
      destruct (le_lt_dec (n + taken d0 + taken db) 30) as [L'|L']; [|rewrite H2 in E by (right; exact L'); discriminate E]. tauto.
    - intros H. destruct (H1 H) as (K & KG & E & _). exists (K, KG). exact E. }
  split; [rewrite (W _ Free Free Free Free) by (constructor; apply N_free; exact Hs); cbn [taken]; lia|].
  split; [rewrite (W _ _ _ _ _ Sp_pinned)|rewrite (W _ _ _ _ _ Sp_clamped)]; cbn [taken]; lia.
Qed.

(*@ C37: in any arithmetic (binary64 included) no larger size returns matrices. @*)
Lemma t_C37_never : forall (A : arith) (dec : Z -> Z -> num A) c c0 ca d0 db m n (D : @arr A) a b Nxx Nyy Nxy KK,
  specifies c c0 ca d0 db -> (1 <= m)%nat -> (1 <= n)%nat ->
  (30 < m + taken c0 + taken ca)%nat \/ (30 < n + taken d0 + taken db)%nat ->
  calc_K_KG_D (stored A dec) D a b Nxx Nyy Nxy c m n <> Ok KK.
Proof.
  intros A dec c c0 ca d0 db m n D a b Nxx Nyy Nxy KK Sp Hm Hn H E'.
  destruct (named_struct c c0 ca d0 db m n Sp) as (idx & fx & fy & E & Fx & Fy & RM).
  destruct (named_big c c0 ca d0 db m n idx fx fy Hm Hn Sp E Fx Fy RM H) as (i & j & I & B).
  rewrite (K_D_loop (stored A dec) _ _ _ _ _ _ _ _ _ idx E) in E'.
  destruct (mapM (ent_D (stored A dec) D a b Nxx Nyy Nxy) (list_prod (sw_idx idx) (sw_idx idx))) as [r|] eqn:M; [|discriminate E'].
  revert M. apply mapM_bad with (x := ((i, j), (i, j))); [apply in_prod; exact I|]. apply ent_bad, B.
Qed.

Lemma first_small c0 ca m fx : first_k (admissible c0 ca) m fx -> (1 <= m)%nat -> exists i r, fx = i :: r /\ (i < 30)%nat.
Proof.
  intros F Hm. assert (L : List.length fx = m) by apply F. destruct fx as [|i r]; [cbn in L; lia|]. exists i, r. split; [reflexivity|].
  destruct F as (_ & S & P & Dn). apply Nat.nle_gt. intros C.
  assert (A4 : admissible c0 ca 4) by (unfold admissible, allowed; repeat split; discriminate).
  assert (I := Dn 4%nat i (or_introl eq_refl) ltac:(lia) A4). inversion S; subst. rewrite Forall_forall in H2.
  destruct I as [I|I]; [lia|]. specialize (H2 _ I). lia.
Qed.

Lemma div_zero x y : y = 0 -> ndiv RA x y = Err ZeroDivisionError.
Proof. intros ->. cbn. destruct (Req_EM_T 0 0); [reflexivity|lra]. Qed.

(*@ C37: a plate with a zero length, which the constructor accepts, raises ZeroDivisionError. @*)
Lemma t_C37_zero : forall c c0 ca d0 db m n (D : @arr RA) a b Nxx Nyy Nxy, specifies c c0 ca d0 db ->
  (1 <= m)%nat -> (1 <= n)%nat -> a = 0 \/ b = 0 -> calc_K_KG_D stored_R D a b Nxx Nyy Nxy c m n = Err ZeroDivisionError.
Proof.
  intros c c0 ca d0 db m n D a b Nxx Nyy Nxy Sp Hm Hn H.
  destruct (named_struct c c0 ca d0 db m n Sp) as (idx & fx & fy & E & Fx & Fy & RM).
  rewrite (K_D_loop stored_R _ _ _ _ _ _ _ _ _ idx E).
  destruct (first_small _ _ _ _ Fx Hm) as (i & rx & -> & Bi). destruct (first_small _ _ _ _ Fy Hn) as (j & ry & -> & Bj).
  assert (N0 : nth_error (sw_idx idx) 0 = Some (i, j)) by (apply (proj2 RM 0%nat 0%nat); cbn; lia).
  destruct (sw_idx idx) as [|p r]; [discriminate N0|]. injection N0 as ->.
  cbn [list_prod map app mapM].
  replace (ent_D stored_R D a b Nxx Nyy Nxy (i, j, (i, j))) with (@Err (R * R) ZeroDivisionError); [reflexivity|]. symmetry.
  unfold ent_D, calc_k33, mul2, ii_ff, ii_fxi_f, ii_f_fxi, ii_fxi_fxi, ii_fxixi_f, ii_f_fxixi, ii_fxixi_fxi, ii_fxi_fxixi, ii_fxixi_fxixi.
  cbn [fst snd]. destruct (stored_good i i Bi Bi) as (I1 & I2 & I3 & I4 & I5 & I6). destruct (stored_good j j Bj Bj) as (J1 & J2 & J3 & J4 & J5 & J6).
  rewrite !I1, !I2, !I3, !I4, !I5, !I6, !J1, !J2, !J3, !J4, !J5, !J6. cbn [bind npow RA].
  destruct (Req_dec a 0) as [Ha|Ha].
  - rewrite div_zero by (rewrite Ha; ring). reflexivity.
  - assert (Hb : b = 0) by tauto. rewrite div_ok by (apply pow_nonzero; exact Ha). cbn [bind].
    rewrite div_zero by (cbn [nmul RA]; rewrite Hb; ring). reflexivity.
Qed.

(*@ C37: sizes on both sides of the limit. @*)
Example t_C37_ex : specifies (CStr "PINNED") Pinned Pinned Pinned Pinned /\ (28 + taken Pinned + taken Pinned <= 30)%nat /\
  (30 < 29 + taken Pinned + taken Pinned)%nat.
Proof. split; [constructor|]. cbn. lia. Qed.

(** ** symmetry *)
Lemma mul2_inv {A : arith} (x y : res (num A)) v : mul2 x y = Ok v -> exists p q, x = Ok p /\ y = Ok q /\ v = nmul A p q.
Proof. unfold mul2. destruct x as [p|]; [|discriminate]. destruct y as [q|]; [|discriminate]. cbn. intros H. injection H as <-. exists p, q. tauto. Qed.

Section Sym.
Variables (A : arith) (dec : Z -> Z -> num A) (AC : add_comm A).
Let t := stored A dec.
Lemma sym_ff i k : t_ff t i k = t_ff t k i. Proof. apply (t_C45_symmetric A dec i k). Qed.
Lemma sym_11 i k : t_fxi_fxi t i k = t_fxi_fxi t k i. Proof. apply (t_C45_symmetric A dec i k). Qed.
Lemma sym_22 i k : t_fxixi_fxixi t i k = t_fxixi_fxixi t k i. Proof. apply (t_C45_symmetric A dec i k). Qed.

Lemma k33_sym a b p q D11 D12 D22 D16 D26 D66 v w :
  calc_k33 t a b (p, q) D11 D12 D22 D16 D26 D66 = Ok v -> calc_k33 t a b (q, p) D11 D12 D22 D16 D26 D66 = Ok w -> v = w.
Proof.
  unfold calc_k33, ii_ff, ii_fxi_f, ii_f_fxi, ii_fxi_fxi, ii_fxixi_f, ii_f_fxixi, ii_fxixi_fxi, ii_fxi_fxixi, ii_fxixi_fxixi.
  destruct p as [i j], q as [k l]. cbn [fst snd]. rewrite (sym_22 k i), (sym_ff l j), (sym_ff k i), (sym_22 l j), (sym_11 k i), (sym_11 l j).
  intros H G.
  repeat match type of H with bind ?x ?f = Ok _ => apply bind_inv in H; destruct H as (? & ? & H) end.
  repeat match type of G with bind ?x ?f = Ok _ => apply bind_inv in G; destruct G as (? & ? & G) end.
  repeat match goal with H : ?x = Ok ?u, G : ?x = Ok ?v |- _ => assert (u = v) by congruence; subst v; clear G end.
  apply (f_equal (val (nint A 0))) in H. apply (f_equal (val (nint A 0))) in G. cbn [val] in H, G. subst v w.
  rewrite (AC x1 x0), (AC x4 x3), (AC x6 x5). reflexivity.
Qed.
Lemma kG_sym a b p q Nxx Nyy Nxy v w :
  calc_kG33 t a b (p, q) Nxx Nyy Nxy = Ok v -> calc_kG33 t a b (q, p) Nxx Nyy Nxy = Ok w -> v = w.
Proof.
  unfold calc_kG33, ii_ff, ii_fxi_f, ii_f_fxi, ii_fxi_fxi.
  destruct p as [i j], q as [k l]. cbn [fst snd]. rewrite (sym_ff l j), (sym_ff k i), (sym_11 k i), (sym_11 l j).
  intros H G.
  repeat match type of H with bind ?x ?f = Ok _ => apply bind_inv in H; destruct H as (? & ? & H) end.
  repeat match type of G with bind ?x ?f = Ok _ => apply bind_inv in G; destruct G as (? & ? & G) end.
  repeat match goal with H : ?x = Ok ?u, G : ?x = Ok ?v |- _ => assert (u = v) by congruence; subst v; clear G end.
  apply (f_equal (val (nint A 0))) in H. apply (f_equal (val (nint A 0))) in G. cbn [val] in H, G. subst v w.
  rewrite (AC x2 x1). reflexivity.
Qed.
End Sym.

(*@ C39: in every arithmetic with commutative addition the matrices returned by calc_K_KG_D are exactly symmetric, for all
    constraints, sizes and property matrices (even unsymmetric ones). @*)
Lemma t_C39_symmetric : forall (A : arith) (dec : Z -> Z -> num A), add_comm A ->
  forall (D : @arr A) a b Nxx Nyy Nxy c m n K KG, calc_K_KG_D (stored A dec) D a b Nxx Nyy Nxy c m n = Ok (K, KG) ->
  sym_rows K /\ sym_rows KG.
Proof.
  intros A dec AC D a b Nxx Nyy Nxy c m n K KG H. destruct (K_D_inv _ _ _ _ _ _ _ _ _ _ _ _ H) as (idx & E & G & -> & ->).
  split; intros r s; rewrite !(entry_map (fun p q => _) (sw_idx idx)).
  - destruct (nth_error (sw_idx idx) r) as [p|] eqn:P; destruct (nth_error (sw_idx idx) s) as [q|] eqn:Q; try reflexivity.
    apply nth_error_In in P. apply nth_error_In in Q. f_equal.
    exact (k33_sym A dec AC a b p q _ _ _ _ _ _ _ _ (proj1 (G p q P Q)) (proj1 (G q p Q P))).
  - destruct (nth_error (sw_idx idx) r) as [p|] eqn:P; destruct (nth_error (sw_idx idx) s) as [q|] eqn:Q; try reflexivity.
    apply nth_error_In in P. apply nth_error_In in Q. f_equal.
    exact (kG_sym A dec AC a b p q _ _ _ _ _ (proj2 (G p q P Q)) (proj2 (G q p Q P))).
Qed.

Lemma fadd_comm x y : fadd x y = fadd y x.
Proof.
  unfold fadd. destruct x as [sx|sx| |sx mx ex hx], y as [sy|sy| |sy my ey hy]; try reflexivity.
  - destruct sx, sy; reflexivity.
  - destruct sx, sy; reflexivity.
  - unfold Bplus. cbv zeta. rewrite (Z.min_comm ex ey). unfold Fplus_naive. rewrite Z.add_comm. reflexivity.
Qed.

(*@ C39: binary64 addition and real addition are commutative, so the symmetry is bit-exact in the code's arithmetic, whatever
    the C library's power function and the decimal conversion return. @*)
Lemma t_C39_arithmetics : (forall pow, add_comm (FA pow)) /\ add_comm RA.
Proof. split; [intros pow x y; apply fadd_comm|intros x y; apply Rplus_comm]. Qed.

(*@ C39: a 2 by 1 clamped plate with exact reals meets the hypotheses. @*)
Example t_C39_ex : exists K KG, calc_K_KG_D stored_R (fun i j => if Nat.eqb i j then 1 else 0) 1 2 1 0 0 (CStr "CLAMPED") 2 1 = Ok (K, KG) /\ square 2 K.
Proof.
  destruct (t_C37_sizes (CStr "CLAMPED") Clamped Clamped Clamped Clamped 2 1 (fun i j => if Nat.eqb i j then 1 else 0) 1 2 1 0 0
    Sp_clamped ltac:(lia) ltac:(lia) ltac:(lra) ltac:(lra)) as [H _].
  destruct H as (K & KG & E & S & _); [cbn; lia|]. exists K, KG. split; [exact E|exact S].
Qed.

(** ** scaling *)
(** a successful call, in closed form *)
Lemma stored_inv D a b Nxx Nyy Nxy c m n K KG : a <> 0 -> b <> 0 -> calc_K_KG_D stored_R D a b Nxx Nyy Nxy c m n = Ok (K, KG) ->
  exists idx, compute_constraints c m n = Ok idx /\ (forall p, In p (sw_idx idx) -> (fst p < 30)%nat /\ (snd p < 30)%nat) /\
   K = map (fun p => map (fun q => k33f stored_e a b (p, q) (D 0%nat 0%nat) (D 1%nat 0%nat) (D 1%nat 1%nat) (D 2%nat 0%nat) (D 2%nat 1%nat) (D 2%nat 2%nat)) (sw_idx idx)) (sw_idx idx) /\
   KG = map (fun p => map (fun q => kGf stored_e a b (p, q) Nxx Nyy Nxy) (sw_idx idx)) (sw_idx idx).
Proof.
  intros Ha Hb H. destruct (K_D_inv _ _ _ _ _ _ _ _ _ _ _ _ H) as (idx & E & G & -> & ->). exists idx. split; [exact E|].
  assert (B : forall p, In p (sw_idx idx) -> (fst p < 30)%nat /\ (snd p < 30)%nat).
  { intros [i j] I. cbn [fst snd]. destruct (le_lt_dec 30 i) as [L|L]; [|destruct (le_lt_dec 30 j) as [L'|L']]; [exfalso..|lia];
    [destruct (G _ _ I I) as [G1 G2]; apply (ent_bad RA Rdec D a b Nxx Nyy Nxy i j (or_introl L) (val (nint RA 0) (calc_k33 stored_R a b (i, j, (i, j)) (D 0%nat 0%nat) (D 1%nat 0%nat) (D 1%nat 1%nat) (D 2%nat 0%nat) (D 2%nat 1%nat) (D 2%nat 2%nat)), val (nint RA 0) (calc_kG33 stored_R a b (i, j, (i, j)) Nxx Nyy Nxy)))
    |destruct (G _ _ I I) as [G1 G2]; apply (ent_bad RA Rdec D a b Nxx Nyy Nxy i j (or_intror L') (val (nint RA 0) (calc_k33 stored_R a b (i, j, (i, j)) (D 0%nat 0%nat) (D 1%nat 0%nat) (D 1%nat 1%nat) (D 2%nat 0%nat) (D 2%nat 1%nat) (D 2%nat 2%nat)), val (nint RA 0) (calc_kG33 stored_R a b (i, j, (i, j)) Nxx Nyy Nxy)))];
    fold stored_R; unfold ent_D; rewrite G1; cbn [bind]; rewrite G2; reflexivity. }
  split; [exact B|]. split; apply map_ext_in; intros p Ip; apply map_ext_in; intros q Iq; destruct (B p Ip), (B q Iq).
  - rewrite (k33_ok _ _ _ stored_good a b Ha Hb (p, q)) by (repeat split; assumption). reflexivity.
  - rewrite (kG_ok _ _ _ stored_good a b Ha Hb (p, q)) by (repeat split; assumption). reflexivity.
Qed.
Lemma stored_fwd D a b Nxx Nyy Nxy c m n idx : a <> 0 -> b <> 0 -> compute_constraints c m n = Ok idx ->
  (forall p, In p (sw_idx idx) -> (fst p < 30)%nat /\ (snd p < 30)%nat) ->
  calc_K_KG_D stored_R D a b Nxx Nyy Nxy c m n = Ok (
   map (fun p => map (fun q => k33f stored_e a b (p, q) (D 0%nat 0%nat) (D 1%nat 0%nat) (D 1%nat 1%nat) (D 2%nat 0%nat) (D 2%nat 1%nat) (D 2%nat 2%nat)) (sw_idx idx)) (sw_idx idx),
   map (fun p => map (fun q => kGf stored_e a b (p, q) Nxx Nyy Nxy) (sw_idx idx)) (sw_idx idx)).
Proof.
  intros Ha Hb E B.
  apply (K_D_ok stored_R D a b Nxx Nyy Nxy c m n idx
    (fun pq => k33f stored_e a b pq (D 0%nat 0%nat) (D 1%nat 0%nat) (D 1%nat 1%nat) (D 2%nat 0%nat) (D 2%nat 1%nat) (D 2%nat 2%nat))
    (fun pq => kGf stored_e a b pq Nxx Nyy Nxy) E).
  intros p q Ip Iq. destruct (B p Ip), (B q Iq). unfold ent_D.
  rewrite (k33_ok _ _ _ stored_good a b Ha Hb (p, q)) by (repeat split; assumption). cbn [bind].
  rewrite (kG_ok _ _ _ stored_good a b Ha Hb (p, q)) by (repeat split; assumption). reflexivity.
Qed.
Lemma Ok_pair {X Y} (a a' : X) (b b' : Y) : a = a' -> b = b' -> @Ok (X * Y) (a, b) = Ok (a', b').
Proof. intros -> ->. reflexivity. Qed.
Lemma map2_map {X Y Z W} (h : Y -> Z -> W) (f : X -> Y) (g : X -> Z) l : map2 h (map f l) (map g l) = map (fun x => h (f x) (g x)) l.
Proof. induction l as [|x l IH]; [reflexivity|]. cbn [map map2]. rewrite IH. reflexivity. Qed.

(*@ C41: K is linear in D, for all constraints and sizes; KG does not depend on it. @*)
Lemma t_C41_linear_D : forall c m n (D D' : @arr RA) a b Nxx Nyy Nxy K K' KG KG' s, a <> 0 -> b <> 0 ->
  calc_K_KG_D stored_R D a b Nxx Nyy Nxy c m n = Ok (K, KG) -> calc_K_KG_D stored_R D' a b Nxx Nyy Nxy c m n = Ok (K', KG') ->
  KG' = KG /\ calc_K_KG_D stored_R (fun i j => s * D i j + D' i j) a b Nxx Nyy Nxy c m n = Ok (add_rows (scale_rows s K) K', KG).
Proof.
  intros c m n D D' a b Nxx Nyy Nxy K K' KG KG' s Ha Hb H H'.
  destruct (stored_inv _ _ _ _ _ _ _ _ _ _ _ Ha Hb H) as (idx & E & B & -> & ->).
  destruct (stored_inv _ _ _ _ _ _ _ _ _ _ _ Ha Hb H') as (idx' & E' & _ & -> & ->). rewrite E in E'. injection E' as <-.
  split; [reflexivity|]. rewrite (stored_fwd _ _ _ _ _ _ _ _ _ _ Ha Hb E B). apply Ok_pair; [|reflexivity].
  unfold add_rows, scale_rows. rewrite map_map, map2_map. apply map_ext. intros p. rewrite map_map, map2_map. apply map_ext. intros q.
  unfold k33f. ring.
Qed.

(*@ C41: KG is linear in the loads; K does not depend on them. @*)
Lemma t_C41_linear_N : forall c m n (D : @arr RA) a b Nxx Nyy Nxy Nxx' Nyy' Nxy' K K' KG KG' s, a <> 0 -> b <> 0 ->
  calc_K_KG_D stored_R D a b Nxx Nyy Nxy c m n = Ok (K, KG) -> calc_K_KG_D stored_R D a b Nxx' Nyy' Nxy' c m n = Ok (K', KG') ->
  K' = K /\ calc_K_KG_D stored_R D a b (s * Nxx + Nxx') (s * Nyy + Nyy') (s * Nxy + Nxy') c m n = Ok (K, add_rows (scale_rows s KG) KG').
Proof.
  intros c m n D a b Nxx Nyy Nxy Nxx' Nyy' Nxy' K K' KG KG' s Ha Hb H H'.
  destruct (stored_inv _ _ _ _ _ _ _ _ _ _ _ Ha Hb H) as (idx & E & B & -> & ->).
  destruct (stored_inv _ _ _ _ _ _ _ _ _ _ _ Ha Hb H') as (idx' & E' & _ & -> & ->). rewrite E in E'. injection E' as <-.
  split; [reflexivity|]. rewrite (stored_fwd _ _ _ _ _ _ _ _ _ _ Ha Hb E B). apply Ok_pair; [reflexivity|].
  unfold add_rows, scale_rows. rewrite map_map, map2_map. apply map_ext. intros p. rewrite map_map, map2_map. apply map_ext. intros q.
  unfold kGf. ring.
Qed.

(*@ C41: multiplying both lengths by s divides K by s^2 and leaves KG unchanged. @*)
Lemma t_C41_lengths : forall c m n (D : @arr RA) a b Nxx Nyy Nxy K KG s, a <> 0 -> b <> 0 -> s <> 0 ->
  calc_K_KG_D stored_R D a b Nxx Nyy Nxy c m n = Ok (K, KG) ->
  calc_K_KG_D stored_R D (s * a) (s * b) Nxx Nyy Nxy c m n = Ok (scale_rows (/ s ^ 2) K, KG).
Proof.
  intros c m n D a b Nxx Nyy Nxy K KG s Ha Hb Hs H.
  destruct (stored_inv _ _ _ _ _ _ _ _ _ _ _ Ha Hb H) as (idx & E & B & -> & ->).
  assert (Hsa : s * a <> 0) by (apply Rmult_integral_contrapositive_currified; assumption).
  assert (Hsb : s * b <> 0) by (apply Rmult_integral_contrapositive_currified; assumption).
  rewrite (stored_fwd _ _ _ _ _ _ _ _ _ _ Hsa Hsb E B). apply Ok_pair.
  - unfold scale_rows. rewrite map_map. apply map_ext. intros p. rewrite map_map. apply map_ext. intros q.
    unfold k33f. field. repeat split; assumption.
  - apply map_ext. intros p. apply map_ext. intros q. unfold kGf. field. repeat split; assumption.
Qed.

Lemma first_k_unique P k l r : first_k P k l -> first_k P k r -> l = r.
Proof.
  intros (L1 & S1 & P1 & D1) (L2 & S2 & P2 & D2). rewrite <- L2 in L1. clear k L2. revert r L1 S2 P2 D2.
  assert (W : forall l r, Sorted.StronglySorted lt l -> Sorted.StronglySorted lt r -> List.length l = List.length r -> incl l r -> l = r).
  { clear. intros l. induction l as [|x l IH]; intros [|y r] S1 S2 L I; try discriminate L; [reflexivity|].
    inversion S1 as [|? ? S1' F1]; inversion S2 as [|? ? S2' F2]; subst. rewrite Forall_forall in F1, F2.
    assert (NDl : NoDup (x :: l)) by (apply sorted_nodup; exact S1).
    assert (J : incl (y :: r) (x :: l)) by (apply NoDup_length_incl; [exact NDl|rewrite L; lia|exact I]).
    assert (x = y).
    { destruct (I x (or_introl eq_refl)) as [->|Ix]; [reflexivity|]. destruct (J y (or_introl eq_refl)) as [->|Jy]; [reflexivity|].
      specialize (F2 _ Ix). specialize (F1 _ Jy). lia. }
    subst y. f_equal. apply IH; [exact S1'|exact S2'|cbn in L; lia|].
    intros z Iz. destruct (I z (or_intror Iz)) as [<-|K]; [|exact K]. specialize (F1 _ Iz). lia. }
  intros r L S2 P2 D2.
  (* either every element of l is in r, or every element of r is in l *)
  assert (C : incl l r \/ incl r l).
  { destruct (Forall_dec (fun x => In x r) (fun x => in_dec Nat.eq_dec x r) l) as [F|F]; [left; rewrite Forall_forall in F; exact F|right].
    intros y Iy. destruct (in_dec Nat.eq_dec y l) as [I|N]; [exact I|]. exfalso. apply F, Forall_forall. intros x Ix.
    destruct (Nat.lt_trichotomy x y) as [Q|[->|Q]]; [|exact Iy|].
    - apply (D2 x y Iy Q). rewrite Forall_forall in P1. apply P1, Ix.
    - exfalso. apply N. apply (D1 y x Ix Q). rewrite Forall_forall in P2. apply P2, Iy. }
  destruct C as [C|C]; [apply W; assumption|symmetry; apply W; try assumption; symmetry; assumption].
Qed.

Lemma swap_k33 e a b p q D11 D12 D22 D16 D26 D66 : k33f e b a ((snd p, fst p), (snd q, fst q)) D22 D12 D11 D26 D16 D66 = k33f e a b (p, q) D11 D12 D22 D16 D26 D66.
Proof. destruct p as [i j], q as [k l]. unfold k33f. cbn [fst snd]. unfold Rdiv. rewrite (Rmult_comm b a). ring. Qed.
Lemma swap_kG e a b p q Nxx Nyy Nxy : kGf e b a ((snd p, fst p), (snd q, fst q)) Nyy Nxx Nxy = kGf e a b (p, q) Nxx Nyy Nxy.
Proof. destruct p as [i j], q as [k l]. unfold kGf. cbn [fst snd]. ring. Qed.
(*@ C41: exchanging the two directions (lengths, D11 with D22, D16 with D26, Nxx with Nyy, edges, m with n) permutes rows and
    columns: row j*m+i of the new matrices is row i*n+j of the old ones, and the same for columns. @*)
Lemma t_C41_swap : forall c c' c0 ca d0 db m n (D D' : @arr RA) a b Nxx Nyy Nxy K KG, a <> 0 -> b <> 0 ->
  specifies c c0 ca d0 db -> specifies c' d0 db c0 ca ->
  D' 0%nat 0%nat = D 1%nat 1%nat -> D' 1%nat 0%nat = D 1%nat 0%nat -> D' 1%nat 1%nat = D 0%nat 0%nat ->
  D' 2%nat 0%nat = D 2%nat 1%nat -> D' 2%nat 1%nat = D 2%nat 0%nat -> D' 2%nat 2%nat = D 2%nat 2%nat ->
  calc_K_KG_D stored_R D a b Nxx Nyy Nxy c m n = Ok (K, KG) ->
  exists K' KG', calc_K_KG_D stored_R D' b a Nyy Nxx Nxy c' n m = Ok (K', KG') /\
    forall i j k l, (i < m)%nat -> (j < n)%nat -> (k < m)%nat -> (l < n)%nat ->
      entry K' (j * m + i) (l * m + k) = entry K (i * n + j) (k * n + l) /\
      entry KG' (j * m + i) (l * m + k) = entry KG (i * n + j) (k * n + l).
Proof.
  intros c c' c0 ca d0 db m n D D' a b Nxx Nyy Nxy K KG Ha Hb Sp Sp' D1 D2 D3 D4 D5 D6 H.
  destruct (named_struct c c0 ca d0 db m n Sp) as (idx & fx & fy & E & Fx & Fy & RM).
  destruct (named_struct c' d0 db c0 ca n m Sp') as (idx' & gy & gx & E' & Gy & Gx & RM').
  pose proof (first_k_unique _ _ _ _ Fx Gx) as <-. pose proof (first_k_unique _ _ _ _ Fy Gy) as <-.
  assert (Lx : List.length fx = m) by apply Fx. assert (Ly : List.length fy = n) by apply Fy.
  destruct (stored_inv _ _ _ _ _ _ _ _ _ _ _ Ha Hb H) as (idx2 & E2 & B & -> & ->). rewrite E in E2. injection E2 as <-.
  assert (B' : forall p, In p (sw_idx idx') -> (fst p < 30)%nat /\ (snd p < 30)%nat).
  { intros [j i] I. destruct (row_major_in _ _ _ _ _ RM' I) as [J1 J2]. apply and_comm.
    apply (B (i, j)). apply (row_major_in_conv _ _ _ _ _ RM); assumption. }
  eexists _, _. split; [apply (stored_fwd _ _ _ _ _ _ _ _ _ _ Hb Ha E' B')|].
  intros i j k l Hi Hj Hk Hl. rewrite D1, D2, D3, D4, D5, D6.
  destruct RM as [_ RM]. destruct RM' as [_ RM']. rewrite Lx, Ly in *.
  assert (X : forall i, (i < m)%nat -> exists x, nth_error fx i = Some x).
  { intros z Hz. destruct (nth_error fx z) eqn:Q; [eexists; reflexivity|]. apply nth_error_None in Q. lia. }
  assert (Y : forall i, (i < n)%nat -> exists x, nth_error fy i = Some x).
  { intros z Hz. destruct (nth_error fy z) eqn:Q; [eexists; reflexivity|]. apply nth_error_None in Q. lia. }
  destruct (X i Hi) as [xi Xi], (X k Hk) as [xk Xk], (Y j Hj) as [yj Yj], (Y l Hl) as [yl Yl].
  rewrite !entry_map, !RM, !RM' by assumption. rewrite Xi, Xk, Yj, Yl.
  split; f_equal; [apply (swap_k33 stored_e a b (xi, yj) (xk, yl))|apply (swap_kG stored_e a b (xi, yj) (xk, yl))].
Qed.

(*@ Example: C41's premises hold for pinned plates with m = n = 5 (all its calls succeed). @*)
Example t_C41_ex : exists K KG, calc_K_KG_D stored_R (fun i j => INR (i + j + 1)) 2 3 1 (-1) 1 (CStr "PINNED") 5 5 = Ok (K, KG)
  /\ specifies (CStr "PINNED") Pinned Pinned Pinned Pinned.
Proof.
  destruct (t_C37_sizes (CStr "PINNED") Pinned Pinned Pinned Pinned 5 5 (fun i j => INR (i + j + 1)) 2 3 1 (-1) 1 Sp_pinned) as [S _]; try lia; try lra.
  destruct S as (K & KG & E & _); [cbn; lia|]. exists K, KG. split; [exact E|constructor].
Qed.
