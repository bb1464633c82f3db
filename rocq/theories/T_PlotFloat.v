(** Proofs of the theorems on the plotted deflection in double precision *)
From Coq Require Import Reals ZArith QArith Qreals Lra Lia Bool String.
From Flocq Require Import Core.Core IEEE754.BinarySingleNaN.
From Coq Require Import List.
From Verif Require Import M_Py M_K M_Tables M_Shape M_Expr M_Float M_FloatArith M_RealArith M_Plot M_PlotFloat S_Mat S_Validate S_Round S_StrengthFloat S_Bardell S_PlotFloat L_Poly L_Parse L_Shape L_Float L_Round L_RoundTab L_LayupFloat L_PlotFloat T_Shape T_Round T_StrengthFloat.
Import ListNotations.
Open Scope R_scope.

Definition size_ok (i : nat) : bool :=
  (Qle_bool (1 # 1024) (qsize i) && Qle_bool (qsize i) (if Nat.ltb i 10 then 3 else if Nat.ltb i 20 then 2500 else if Nat.ltb i 30 then 5500000 else 64000000000000))%bool.
Lemma sizes_ok : forallb size_ok (seq 0 50) = true.
Proof. vm_compute. reflexivity. Qed.
Lemma size_bounds i : (i < 50)%nat -> / 1024 <= bardell_size i <= (if Nat.ltb i 10 then 3 else if Nat.ltb i 20 then 2500 else if Nat.ltb i 30 then 5500000 else 64000000000000).
Proof.
  intros Hi. assert (H := sizes_ok). rewrite forallb_forall in H. specialize (H i (proj2 (in_seq 50 0 i) ltac:(lia))). unfold size_ok in H. apply andb_prop in H. destruct H as [H1 H2].
  apply Qle_bool_imp_le, Qle_Rle in H1, H2. rewrite qsize_R in H1, H2. split; [unfold Q2R in H1; cbn in H1; lra|].
  destruct (Nat.ltb i 10); [|destruct (Nat.ltb i 20); [|destruct (Nat.ltb i 30)]]; rewrite Q2R_Z in H2; exact H2.
Qed.
Lemma size_range i j : (i < 50)%nat -> (j < 50)%nat -> rangeM (bardell_size i * bardell_size j) /\ 0 <= bardell_size i.
Proof.
  assert (B : forall i, (i < 50)%nat -> bp (-60) <= bardell_size i <= bp 60).
  { intros k Hk. destruct (size_bounds k Hk) as [L U]. split; [apply Rle_trans with (/ 1024); [change (/ 1024) with (bp (-10)); apply bpow_le; lia|exact L]|].
    eapply Rle_trans; [exact U|]. change (bp 60) with 1152921504606846976. destruct (Nat.ltb k 10); [lra|]. destruct (Nat.ltb k 20); [lra|]. destruct (Nat.ltb k 30); lra. }
  intros Hi Hj. destruct (B i Hi) as [A1 A2], (B j Hj) as [B1 B2]. assert (P := bpow_gt_0 radix2 (-60)). split; [split|lra].
  - apply Rle_trans with (bp (-60) * bp (-60)); [rewrite <- bpow_plus; apply bpow_le; lia|]. apply Rmult_le_compat; lra.
  - apply Rle_trans with (bp 60 * bp 60); [|rewrite <- bpow_plus; apply bpow_le; lia]. apply Rmult_le_compat; lra.
Qed.
Lemma inr50 i : (i < 50)%nat -> 0 <= INR i <= 49.
Proof. intros H. split; [apply pos_INR|]. replace 49 with (INR 49) by (rewrite INR_IZR_INZ; reflexivity). apply le_INR. lia. Qed.

Section Shape.
Context (pow : f64 -> nat -> res f64) (dec : Z -> Z -> f64) (HP : pow_near pow) (HD : dec_close dec).
Lemma read_text i x y z : (i < 50)%nat -> (exists s, nth_error FXI i = Some s /\ parse s = Some x) -> fin y -> fin z -> Rabs (B2R y) <= 1 -> Rabs (B2R z) <= 1 -> exists f v,
  eval_expr (A := FA pow) dec y z x = Ok f /\ eval_expr (A := RA) Rdec (B2R y) (B2R z) x = Ok v /\ near (bardell_size i) (INR i / 2 + 8) f v.
Proof.
  intros Hi (s & Hs & Hx) Fy Fz By Bz. destruct (text_an i s x Hi Hs Hx) as (M & k & A & EM & Ek).
  destruct (an_ok pow dec HP HD x M k y z A Fy Fz By Bz) as (f & v & E1 & E2 & N & I & _). exists f, v. split; [exact E1|]. split; [exact E2|].
  rewrite EM in *. eapply near_weak; [exact N|exact Ek|]. apply Rlt_le, rangeM_pos, I.
Qed.
Lemma text_value i x y z v : (i < 50)%nat -> (exists s, nth_error FXI i = Some s /\ parse s = Some x) -> eval_expr (A := RA) Rdec y z x = Ok v -> v = bardell i y.
Proof.
  intros Hi (s & Hs & Hx) E. destruct (FXI_text i Hi) as (s' & x' & Hs' & Hx' & P). rewrite Hs in Hs'. injection Hs' as <-. rewrite Hx in Hx'. injection Hx' as <-.
  rewrite (to_poly_eval _ _ y z P), fpoly_bardell in E by exact Hi. congruence.
Qed.
Lemma fxi_near i x : (i < 50)%nat -> fin x -> Rabs (B2R x) <= 1 -> exists y, fxi (A := FA pow) dec i x = Ok y /\ near (bardell_size i) (INR i / 2 + 8) y (bardell i (B2R x)).
Proof.
  intros Hi F B. destruct (FXI_text i Hi) as (s & e & Hs & He & _). destruct (read_text i e x x Hi (ex_intro _ s (conj Hs He)) F F B B) as (f & v & E1 & E2 & N).
  rewrite (text_value i e _ _ v Hi (ex_intro _ s (conj Hs He)) E2) in N. exists f. split; [|exact N]. unfold fxi. rewrite Hs. cbn [bind]. unfold eval. rewrite He. exact E1.
Qed.
Lemma S_parsed i j : (i < 50)%nat -> (j < 50)%nat -> exists f x g y s, nth_error FXI i = Some f /\ parse f = Some x /\ nth_error FXI j = Some g /\ parse g = Some y /\
  S_text i j = Ok s /\ (parse s = Some (EMul x (swap y)) \/ parse s = Some (EMul (swap y) x)).
Proof.
  intros Hi Hj.
  destruct (FXI_text i Hi) as (f & x & Hf & Hx & Px). destruct (FXI_text j Hj) as (g & y & Hg & Hy & Py).
  assert (Hy' := eta_text g y (nth_error_In _ _ Hg) Hy).
  assert (Hr : exists row c, nth_error xi_first i = Some row /\ String.get j row = Some c).
  { assert (H := f_equal (fun l => nth_error l i) xi_first_ok). cbn beta in H. rewrite nth_error_map, (nth_error_repeat _ Hi) in H.
    destruct (nth_error xi_first i) as [row|]; [|discriminate H]. exists row. injection H as H.
    destruct (get_some row j ltac:(lia)) as [c Hc]. exists c. split; [reflexivity|exact Hc]. }
  destruct Hr as (row & c & Hr & Hc).
  assert (T : exists s, S_text i j = Ok s /\ (parse s = Some (EMul x (swap y)) \/ parse s = Some (EMul (swap y) x))).
  { unfold S_text. rewrite Hf, Hg, Hr, Hc. cbv zeta.
    destruct c as [[] [] [] [] [] [] [] []]; (eexists; split; [reflexivity|]);
      first [right; apply (parse_product _ _ _ _ Hy' Hx)|left; apply (parse_product _ _ _ _ Hx Hy')]. }
  destruct T as (s & Es & Ps). exists f, x, g, y, s. tauto.
Qed.
Lemma sxieta_near i j x y : (i < 50)%nat -> (j < 50)%nat -> fin x -> fin y -> Rabs (B2R x) <= 1 -> Rabs (B2R y) <= 1 -> exists z, sxieta_ij (A := FA pow) dec (i, j) x y = Ok z /\
  near (bardell_size i * bardell_size j) (INR i / 2 + INR j / 2 + 18) z (bardell i (B2R x) * bardell j (B2R y)).
Proof.
  intros Hi Hj Fx Fy Bx By. destruct (S_parsed i j Hi Hj) as (f & e & g & h & s & Hf & He & Hg & Hh & Es & Ps).
  destruct (read_text i e x y Hi (ex_intro _ f (conj Hf He)) Fx Fy Bx By) as (p & v & E1 & E2 & N1). rewrite (text_value i e _ _ v Hi (ex_intro _ f (conj Hf He)) E2) in N1.
  destruct (read_text j h y y Hj (ex_intro _ g (conj Hg Hh)) Fy Fy By By) as (q & w & G1 & G2 & N2). rewrite (text_value j h _ _ w Hj (ex_intro _ g (conj Hg Hh)) G2) in N2.
  rewrite <- (eval_swap (A := FA pow) dec h x y) in G1. assert (I1 := inr50 i Hi). assert (I2 := inr50 j Hj).
  destruct (size_range i j Hi Hj) as [R1 P1]. destruct (size_range j i Hj Hi) as [R2 P2].
  unfold sxieta_ij. cbn [fst snd]. rewrite Es. cbn [bind]. unfold eval.
  destruct Ps as [-> | ->]; cbn [eval_expr]; rewrite E1, G1; cbn [bind]; eexists; (split; [reflexivity|]).
  - eapply near_weak; [apply near_mul; [exact N1|exact N2|lra|lra|exact P1|exact P2|exact R1]|lra|apply Rmult_le_pos; assumption].
  - rewrite (Rmult_comm (bardell_size i)), (Rmult_comm (bardell i (B2R x))).
    eapply near_weak; [apply near_mul; [exact N2|exact N1|lra|lra|exact P2|exact P1|exact R2]|lra|apply Rmult_le_pos; assumption].
Qed.
Lemma shapes_near idx x y : stored_pairs idx -> fin x -> fin y -> Rabs (B2R x) <= 1 -> Rabs (B2R y) <= 1 -> exists s : list f64, sxieta (A := FA pow) dec idx x y = Ok s /\ List.length s = List.length idx /\
  Forall (fun z => fin z) s /\ forall c, List.length c = List.length idx ->
    Rabs (products s c - shape_sum idx c (B2R x) (B2R y)) <= 67 * unit * shape_size idx c /\ 0 <= magnitudes s c <= 1001 / 1000 * shape_size idx c /\ magnitudes s c <= (1 + 67 * unit) * shape_size idx c.
Proof.
  intros H Fx Fy Bx By. assert (u := unit_val). unfold sxieta. induction H as [|[i j] l [Hi Hj] _ IH].
  - exists []. split; [reflexivity|]. split; [reflexivity|]. split; [constructor|]. intros c _. unfold products, magnitudes, shape_sum, shape_size. cbn [combine map rsum]. rewrite Rminus_0_r, Rabs_R0, !Rmult_0_r. lra.
  - cbn [fst snd] in Hi, Hj. destruct IH as (s & Es & Ls & Fs & Hs). destruct (sxieta_near i j x y Hi Hj Fx Fy Bx By) as (z & Ez & Fz & Bz & Dz).
    exists (z :: s). cbn [mapM]. rewrite Ez. cbn [bind]. rewrite Es. cbn [bind]. split; [reflexivity|]. split; [cbn [List.length]; exact (f_equal Datatypes.S Ls)|]. split; [constructor; assumption|].
    intros [|c cs] L; [discriminate L|]. cbn [List.length] in L. destruct (Hs cs ltac:(lia)) as (A & B & C). clear Hs.
    change (products (z :: s) (c :: cs)) with (B2R z * B2R c + products s cs). change (magnitudes (z :: s) (c :: cs)) with (Rabs (B2R z * B2R c) + magnitudes s cs).
    change (shape_sum ((i, j) :: l) (c :: cs) (B2R x) (B2R y)) with (bardell i (B2R x) * bardell j (B2R y) * B2R c + shape_sum l cs (B2R x) (B2R y)).
    change (shape_size ((i, j) :: l) (c :: cs)) with (bardell_size i * bardell_size j * Rabs (B2R c) + shape_size l cs).
    set (X1 := products s cs) in *. set (X2 := shape_sum l cs _ _) in *. set (X3 := shape_size l cs) in *. set (X4 := magnitudes s cs) in *. clearbody X1 X2 X3 X4.
    assert (I1 := inr50 i Hi). assert (I2 := inr50 j Hj). destruct (size_range i j Hi Hj) as [R1 P1]. apply rangeM_pos in R1. set (G := bardell_size i * bardell_size j) in *.
    set (w := bardell i (B2R x) * bardell j (B2R y)) in *. set (a := Rabs (B2R c)). assert (a0 : 0 <= a) by apply Rabs_pos.
    assert (D' : Rabs (B2R z - w) <= 67 * unit * G). { eapply Rle_trans; [exact Dz|]. apply Rmult_le_compat_r; [lra|]. apply Rmult_le_compat_r; lra. }
    assert (Z : Rabs (B2R z) <= (1 + 67 * unit) * G). { replace (B2R z) with (w + (B2R z - w)) by ring. eapply Rle_trans; [apply Rabs_triang|]. lra. }
    assert (Za : Rabs (B2R z) * a <= (1 + 67 * unit) * G * a) by (apply Rmult_le_compat_r; assumption).
    assert (Da : Rabs (B2R z - w) * a <= 67 * unit * G * a) by (apply Rmult_le_compat_r; assumption).
    assert (Ga : 0 <= G * a) by (apply Rmult_le_pos; lra). rewrite Rabs_mult. fold a.
    split; [|split].
    + match goal with |- Rabs ?t <= _ => replace t with ((B2R z - w) * B2R c + (X1 - X2)) by ring end.
      eapply Rle_trans; [apply Rabs_triang|]. rewrite Rabs_mult. fold a. lra.
    + assert (0 <= Rabs (B2R z) * a) by (apply Rmult_le_pos; [apply Rabs_pos|exact a0]). assert ((1 + 67 * unit) * (G * a) <= 1001 / 1000 * (G * a)) by (apply Rmult_le_compat_r; lra). lra.
    + lra.
Qed.
End Shape.

(*@ C101: the stored one-variable functions in doubles, at every double of [-1, 1]: a finite double within i/2 + 8 units of the sum of the magnitudes of the coefficients. @*)
Lemma t_C101_functions : forall pow dec i x, pow_near pow -> dec_close dec -> (i < 50)%nat -> is_finite x = true -> Rabs (B2R x) <= 1 ->
  exists y, fxi (A := FA pow) dec i x = Ok y /\ is_finite y = true /\ Rabs (B2R y - bardell i (B2R x)) <= (INR i / 2 + 8) * unit * bardell_size i.
Proof.
  intros pow dec i x HP HD Hi F B. destruct (fxi_near pow dec HP HD i x Hi F B) as (y & E & Fy & _ & D). exists y. tauto.
Qed.
(*@ C101: that is 1e-14 for the first ten functions and 1e-11 for the first twenty, but only 2e-8 for the first thirty and a quarter for all fifty. @*)
Lemma t_C101_absolute : forall pow dec i x, pow_near pow -> dec_close dec -> (i < 50)%nat -> is_finite x = true -> Rabs (B2R x) <= 1 ->
  exists y, fxi (A := FA pow) dec i x = Ok y /\ is_finite y = true /\ Rabs (B2R y - bardell i (B2R x)) <=
    (if Nat.ltb i 10 then 1 / 100000000000000 else if Nat.ltb i 20 then 1 / 100000000000 else if Nat.ltb i 30 then 2 / 100000000 else 1 / 4).
Proof.
  intros pow dec i x HP HD Hi F B. destruct (fxi_near pow dec HP HD i x Hi F B) as (y & E & Fy & _ & D). exists y. split; [exact E|]. split; [exact Fy|]. eapply Rle_trans; [exact D|].
  destruct (size_bounds i Hi) as [L U]. assert (J : forall m, (i < S m)%nat -> INR i <= INR m) by (intros m Hm; apply le_INR; lia). assert (I0 := pos_INR i).
  assert (G : forall n k s e, INR i <= n -> bardell_size i <= s -> (n / 2 + 8) * s <= e * 9007199254740992 -> k = n -> (INR i / 2 + 8) * unit * bardell_size i <= e).
  { intros n k s e Hn Hs He _. unfold unit. apply Rle_trans with ((n / 2 + 8) * / 9007199254740992 * s).
    - apply Rmult_le_compat; [apply Rmult_le_pos; lra|lra| |exact Hs]. apply Rmult_le_compat_r; lra.
    - lra. }
  destruct (Nat.ltb_spec i 10) as [H|H]; [|destruct (Nat.ltb_spec i 20) as [H'|H']; [|destruct (Nat.ltb_spec i 30) as [H''|H'']]].
  - apply (G 9 9 3); [replace 9 with (INR 9) by (rewrite INR_IZR_INZ; reflexivity); apply J; lia|exact U|lra|reflexivity].
  - apply (G 19 19 2500); [replace 19 with (INR 19) by (rewrite INR_IZR_INZ; reflexivity); apply J; lia|exact U|lra|reflexivity].
  - apply (G 29 29 5500000); [replace 29 with (INR 29) by (rewrite INR_IZR_INZ; reflexivity); apply J; lia|exact U|lra|reflexivity].
  - apply (G 49 49 64000000000000); [replace 49 with (INR 49) by (rewrite INR_IZR_INZ; reflexivity); apply J; lia|exact U|lra|reflexivity].
Qed.
(*@ C101: the stored two-variable functions in doubles, at every pair of doubles of [-1, 1]. @*)
Lemma t_C101_product : forall pow dec i j x y, pow_near pow -> dec_close dec -> (i < 50)%nat -> (j < 50)%nat -> is_finite x = true -> is_finite y = true -> Rabs (B2R x) <= 1 -> Rabs (B2R y) <= 1 ->
  exists z, sxieta_ij (A := FA pow) dec (i, j) x y = Ok z /\ is_finite z = true /\
    Rabs (B2R z - bardell i (B2R x) * bardell j (B2R y)) <= (INR i / 2 + INR j / 2 + 18) * unit * (bardell_size i * bardell_size j).
Proof.
  intros pow dec i j x y HP HD Hi Hj Fx Fy Bx By. destruct (sxieta_near pow dec HP HD i j x y Hi Hj Fx Fy Bx By) as (z & E & F & _ & D). exists z. tauto.
Qed.
Lemma point_near pow dec dot idx c x y : pow_near pow -> dec_close dec -> dot_near (List.length idx) dot -> stored_pairs idx -> List.length c = List.length idx -> (List.length idx <= 2500)%nat ->
  Forall (fun z => is_finite z = true) c -> shape_size idx c <= powerRZ 2 800 -> is_finite x = true -> is_finite y = true -> Rabs (B2R x) <= 1 -> Rabs (B2R y) <= 1 ->
  exists v, fplot_point pow dec dot idx c x y = Ok v /\ is_finite v = true /\ Rabs (B2R v - shape_sum idx c (B2R x) (B2R y)) <= plot_off idx c.
Proof.
  intros HP HD HM Hi Lc Ln Fc Sz Fx Fy Bx By. assert (u := unit_val). destruct (shapes_near pow dec HP HD idx x y Hi Fx Fy Bx By) as (s & Es & Ls & Fs & H).
  destruct (H c Lc) as (A & B & C). clear H. 
  assert (Em : fmatmul dot s c = Ok (dot s c)). { unfold fmatmul. match goal with |- (if ?b then _ else _) = _ => replace b with true end; [reflexivity|]. symmetry. apply Nat.eqb_eq. exact (eq_trans Ls (eq_sym Lc)). }
  exists (dot s c). split; [unfold fplot_point; rewrite Es; exact Em|].
  destruct (HM s c Ls Lc Fs Fc) as [F D].
  { apply Rle_trans with (1001 / 1000 * shape_size idx c); [apply B|]. rewrite pz in Sz. rewrite pz. apply Rle_trans with (bp 10 * bp 800); [|rewrite <- bpow_plus; apply bpow_le; lia].
    apply Rmult_le_compat; [lra| |change (bp 10) with 1024; lra|exact Sz]. destruct B as [B0 B1]. lra. }
  split; [exact F|]. unfold plot_off. set (G := shape_size idx c) in *. set (P := products s c) in *. set (W := shape_sum _ _ _ _) in *. set (m := magnitudes s c) in *.
  assert (n0 : 0 <= INR (List.length idx) <= 2500). { split; [apply pos_INR|]. replace 2500 with (INR 2500) by (rewrite INR_IZR_INZ; reflexivity). apply le_INR, Ln. } set (n := INR (List.length idx)) in *.
  assert (G0 : 0 <= G) by lra. replace (B2R (dot s c) - W) with ((B2R (dot s c) - P) + (P - W)) by ring. eapply Rle_trans; [apply Rabs_triang|].
  assert (T : (n + 1) * unit * m <= (n + 1) * unit * ((1 + 67 * unit) * G)). { apply Rmult_le_compat_l; [apply Rmult_le_pos; lra|exact C]. }
  assert (Q : (n + 1) * unit * ((1 + 67 * unit) * G) <= (n + 2) * unit * G).
  { replace ((n + 1) * unit * ((1 + 67 * unit) * G)) with ((n + 1 + (n + 1) * (67 * unit)) * (unit * G)) by ring. replace ((n + 2) * unit * G) with ((n + 2) * (unit * G)) by ring.
    apply Rmult_le_compat_r; [apply Rmult_le_pos; lra|]. assert ((n + 1) * (67 * unit) <= 2501 * (67 * unit)) by (apply Rmult_le_compat_r; lra). lra. }
  assert (0 <= unit * G) by (apply Rmult_le_pos; lra). lra.
Qed.
(*@ C101: one plotted value: the deflection with the stored coefficients at that point of [-1, 1]^2, up to plot_off. @*)
Lemma t_C101_point : forall pow dec dot idx c x y, pow_near pow -> dec_close dec -> dot_near (List.length idx) dot -> stored_pairs idx -> List.length c = List.length idx -> (List.length idx <= 2500)%nat ->
  Forall (fun z => is_finite z = true) c -> shape_size idx c <= powerRZ 2 800 -> is_finite x = true -> is_finite y = true -> Rabs (B2R x) <= 1 -> Rabs (B2R y) <= 1 ->
  exists v, fplot_point pow dec dot idx c x y = Ok v /\ is_finite v = true /\ Rabs (B2R v - shape_sum idx c (B2R x) (B2R y)) <= plot_off idx c.
Proof. exact point_near. Qed.

(** ** the grid *)
Lemma near_exact M f v : fin f -> B2R f = v -> Rabs v <= M -> near M 0 f v.
Proof. intros F E B. split; [exact F|]. split; [exact B|]. rewrite E, Rminus_diag_eq, Rabs_R0 by reflexivity. lra. Qed.
Lemma nat_exact i : (Z.of_nat i <= 1000000)%Z -> is_finite (f_of_Z (Z.of_nat i)) = true /\ B2R (f_of_Z (Z.of_nat i)) = INR i.
Proof. intros H. destruct (f_small (Z.of_nat i)) as [F E]. - unfold small. apply andb_true_intro. split; [apply Z.leb_le; lia|apply Z.ltb_lt; lia]. - split; [exact F|]. rewrite E, INR_IZR_INZ. reflexivity. Qed.
Lemma range_by r : / 1048576 <= r <= 1048576 -> rangeM r.
Proof. intros [A B]. change 1048576 with (bp 20) in *. change (/ bp 20) with (bp (-20)) in A. split; [apply Rle_trans with (2 := A)|apply Rle_trans with (1 := B)]; apply bpow_le; lia. Qed.
Lemma grid_inner n i : (2 <= n)%nat -> (Z.of_nat n <= 1000000)%Z -> (S i < n)%nat -> forall t, t = fadd (fmul (f_of_Z (Z.of_nat i)) (fdiv (f_of_Z 2) (f_of_Z (Z.of_nat n - 1)))) (f_of_Z (-1)) ->
  fin t /\ Rabs (B2R t) <= 1 /\ Rabs (B2R t - equal_point n i) <= 6 * unit /\ (i = 0%nat -> B2R t = -1).
Proof.
  intros Hn Hm Hi t Et0. assert (u := unit_val). assert (NN : INR n - 1 = INR (n - 1)) by (rewrite minus_INR by lia; reflexivity). unfold equal_point. rewrite NN.
  replace (Z.of_nat n - 1)%Z with (Z.of_nat (n - 1)) in Et0 by lia. set (N := (n - 1)%nat) in *.
  destruct (nat_exact i ltac:(lia)) as [Fi Ei]. destruct (nat_exact N ltac:(lia)) as [FN EN]. destruct (f_small 2 eq_refl) as [F2 E2]. destruct (f_small (-1) eq_refl) as [F1 E1].
  assert (N1 : INR i + 1 <= INR N <= 1000000). { rewrite <- S_INR. split; [apply le_INR; lia|]. rewrite INR_IZR_INZ. apply IZR_le. lia. }
  assert (i0 := pos_INR i). assert (IN : IZR (Z.of_nat N) = INR N) by (rewrite INR_IZR_INZ; reflexivity).
  assert (Inv : / 1000000 <= / INR N) by (apply Rinv_le; lra). assert (Inv1 : / INR N <= 1) by (rewrite <- Rinv_1; apply Rinv_le; lra).
  assert (R2 : rangeM (2 / IZR (Z.of_nat N))) by (rewrite IN; apply range_by; unfold Rdiv; lra).
  destruct (near_div 2 0 (f_of_Z 2) 2 (Z.of_nat N) (near_exact 2 _ 2 F2 E2 ltac:(rewrite Rabs_right; lra)) ltac:(lra)) as [S0 _]; [unfold small; apply andb_true_intro; split; [apply Z.leb_le|apply Z.ltb_lt]; lia|lia|exact R2|].
  set (step := fdiv (f_of_Z 2) (f_of_Z (Z.of_nat N))) in *. rewrite IN in *.
  assert (Y : fin (fmul (f_of_Z (Z.of_nat i)) step) /\ Rabs (B2R (fmul (f_of_Z (Z.of_nat i)) step) - INR i * (2 / INR N)) <= 21 / 10 * unit * (INR i * (2 / INR N)) /\ (i = 0%nat -> B2R (fmul (f_of_Z (Z.of_nat i)) step) = 0)).
  { destruct (Nat.eq_dec i 0) as [Z|Z].
    - destruct (mul_rnd (f_of_Z (Z.of_nat i)) step Fi (proj1 S0)) as [F E]. { rewrite Ei, Z. cbn [INR]. rewrite Rmult_0_l, Rabs_R0. apply bpow_ge_0. }
      assert (Ei0 : B2R (f_of_Z (Z.of_nat i)) = 0) by (rewrite Ei, Z; reflexivity). rewrite Ei0, Rmult_0_l, round_0 in E by apply valid_rnd_round_mode. split; [exact F|]. split; [|intros _; exact E]. rewrite E. replace (INR i) with 0 by (rewrite Z; reflexivity). rewrite Rmult_0_l, Rminus_0_r, Rabs_R0. lra.
    - assert (i1 : 1 <= INR i) by (apply (le_INR 1); lia). assert (P2 : 0 < 2 / INR N) by (apply rangeM_pos, R2).
      assert (M1 := near_mul (INR i) (2 / INR N) 0 (0 + 102 / 100) _ _ _ _ (near_exact (INR i) _ _ Fi Ei ltac:(rewrite Rabs_right; lra)) S0 ltac:(lra) ltac:(lra) ltac:(lra) ltac:(lra)).
      destruct M1 as (F & _ & E).
      + apply range_by. unfold Rdiv. split; [apply Rle_trans with (1 * (2 * / 1000000)); [lra|apply Rmult_le_compat; lra]|]. apply Rle_trans with (INR N * (2 * / INR N)); [apply Rmult_le_compat_r; lra|]. replace (INR N * (2 * / INR N)) with 2 by (field; lra). lra.
      + split; [exact F|]. split; [|intros Z'; contradiction]. eapply Rle_trans; [exact E|]. apply Rmult_le_compat_r; [apply Rmult_le_pos; lra|]. lra. }
  set (y := fmul (f_of_Z (Z.of_nat i)) step) in *. destruct Y as (Fy & Ey & Ez).
  replace (2 * INR i / INR N) with (INR i * (2 / INR N)) by (field; lra). set (q := INR i * (2 / INR N)) in *.
  assert (q0 : 0 <= q <= 2 - 2 * / 1000000). { unfold q, Rdiv. split; [apply Rmult_le_pos; lra|]. apply Rle_trans with ((INR N - 1) * (2 * / INR N)); [apply Rmult_le_compat_r; lra|]. replace ((INR N - 1) * (2 * / INR N)) with (2 - 2 * / INR N) by (field; lra). lra. }
  assert (uq : 21 / 10 * unit * q <= 42 / 10 * unit) by (assert (21 / 10 * unit * q <= 21 / 10 * unit * 2) by (apply Rmult_le_compat_l; lra); lra).
  apply Rabs_le_inv in Ey. assert (y0 : 0 <= B2R y). { assert (21 / 10 * unit * q <= 1 * q) by (apply Rmult_le_compat_r; lra). lra. }
  assert (y2 : B2R y <= 2) by lra. assert (Bm : Rabs (B2R y + B2R (f_of_Z (-1))) <= 1) by (rewrite E1; apply Rabs_le; lra).
  assert (Bb : Rabs (B2R y + B2R (f_of_Z (-1))) <= bp 1023). { eapply Rle_trans; [exact Bm|]. change 1 with (bp 0). apply bpow_le. lia. }
  destruct (add_rnd y (f_of_Z (-1)) Fy F1 Bb) as [Ft Et]. destruct (add_err y (f_of_Z (-1)) Fy F1 Bb) as [_ Dt]. rewrite <- Et0 in Ft, Et, Dt.
  split; [exact Ft|]. split; [|split].
  - rewrite Et. change 1 with (bp 0). apply abs_round_le_generic; [apply (fexp_correct 53 1024 eq_refl)|apply valid_rnd_round_mode|apply generic_format_bpow; cbn; lia|exact Bm].
  - rewrite E1 in *. replace (B2R t - (-1 + q)) with ((B2R t - (B2R y + -1)) + (B2R y - q)) by ring. eapply Rle_trans; [apply Rabs_triang|].
    assert (Rabs (B2R y - q) <= 21 / 10 * unit * q) by (apply Rabs_le; lra). assert (unit * Rabs (B2R y + -1) <= unit * 1) by (apply Rmult_le_compat_l; lra). lra.
  - intros Z. specialize (Ez Z). rewrite Et, Ez, E1. replace (0 + -1) with (- bp 0) by (cbn; lra). rewrite round_generic; [cbn; lra|apply valid_rnd_round_mode|]. apply generic_format_opp, generic_format_bpow. cbn. lia.
Qed.
Lemma fl_length n : List.length (flinspace n) = n.
Proof. unfold flinspace. rewrite map_length. apply seq_length. Qed.
Lemma grid_point n i : (2 <= n)%nat -> (Z.of_nat n <= 1000000)%Z -> (i < n)%nat -> exists t, nth_error (flinspace n) i = Some t /\
  fin t /\ Rabs (B2R t) <= 1 /\ Rabs (B2R t - equal_point n i) <= 6 * unit /\ (i = 0%nat -> B2R t = -1) /\ (S i = n -> B2R t = 1).
Proof.
  intros Hn Hm Hi. assert (u := unit_val). unfold flinspace. rewrite (proj2 (Nat.eqb_neq n 1)) by lia. rewrite (proj2 (Nat.ltb_lt 1 n)) by lia. cbn [andb].
  eexists. split; [exact (seq_map_nth (fun i0 => if Nat.eqb (S i0) n then f_of_Z 1 else fadd (fmul (f_of_Z (Z.of_nat i0)) (fdiv (f_of_Z 2) (f_of_Z (Z.of_nat n - 1)))) (f_of_Z (-1))) n i Hi)|]. cbn beta.
  destruct (Nat.eqb_spec (S i) n) as [E|E].
  - destruct (f_small 1 eq_refl) as [F V]. rewrite V. split; [exact F|]. split; [rewrite Rabs_R1; lra|]. split; [|split; [intros Z; lia|intros _; reflexivity]].
    unfold equal_point. rewrite <- E, S_INR. replace (INR i + 1 - 1) with (INR i) by ring. assert (1 <= INR i) by (apply (le_INR 1); lia).
    replace (1 - (-1 + 2 * INR i / INR i)) with 0 by (field; lra). rewrite Rabs_R0. lra.
  - destruct (grid_inner n i Hn Hm ltac:(lia) _ eq_refl) as (A & B & C & D). split; [exact A|]. split; [exact B|]. split; [exact C|]. split; [exact D|]. intros Z. contradiction.
Qed.
Lemma place_near a t r : usual a -> fin t -> Rabs (B2R t) <= 1 -> Rabs (B2R t - (-1 + 2 * r)) <= 6 * unit -> 0 <= r <= 1 -> fin (fplace a t) /\ Rabs (B2R (fplace a t) - B2R a * r) <= 7 * unit * B2R a.
Proof.
  intros [Fa Ra] Ft Bt Dt Hr. rewrite !pz in Ra. assert (u := unit_val). destruct (f_small 1 eq_refl) as [F1 E1]. destruct (f_small 2 eq_refl) as [F2 E2].
  assert (P : 0 < B2R a) by (apply Rlt_le_trans with (2 := proj1 Ra); apply bpow_gt_0).
  assert (R2 : rangeM (B2R a / 2)). { unfold rangeM, Rdiv. change (/ 2) with (bp (-1)). split.
    - apply Rle_trans with (bp (-64) * bp (-1)); [rewrite <- bpow_plus; apply bpow_le; lia|]. apply Rmult_le_compat_r; [apply bpow_ge_0|apply Ra].
    - apply Rle_trans with (bp 64 * bp (-1)); [|rewrite <- bpow_plus; apply bpow_le; lia]. apply Rmult_le_compat_r; [apply bpow_ge_0|apply Ra]. }
  destruct (near_div (B2R a) 0 a (B2R a) 2 (near_exact (B2R a) a (B2R a) Fa eq_refl ltac:(rewrite Rabs_right; lra)) ltac:(lra) eq_refl eq_refl R2) as [H _].
  apply Rabs_le_inv in Bt, Dt.
  assert (Bs : Rabs (B2R t + B2R (f_of_Z 1)) <= 2) by (rewrite E1; apply Rabs_le; lra).
  destruct (add_err t (f_of_Z 1) Ft F1) as [Fs Ds]. { eapply Rle_trans; [exact Bs|]. change 2 with (bp 1). apply bpow_le. lia. }
  assert (S : near 2 4 (fadd t (f_of_Z 1)) (2 * r)).
  { split; [exact Fs|]. split; [apply Rabs_le; lra|]. rewrite E1 in *. assert (unit * Rabs (B2R t + 1) <= unit * 2) by (apply Rmult_le_compat_l; lra). apply Rabs_le. apply Rabs_le_inv in Ds. lra. }
  destruct (near_mul _ _ _ _ _ _ _ _ H S) as (F & _ & E); [lra|lra|lra|lra| |].
  - replace (B2R a / 2 * 2) with (B2R a) by field. split; [apply Rle_trans with (2 := proj1 Ra)|apply Rle_trans with (1 := proj2 Ra)]; apply bpow_le; lia.
  - split; [exact F|]. replace (B2R a / 2 * (2 * r)) with (B2R a * r) in E by field. replace (B2R a / 2 * 2) with (B2R a) in E by field. eapply Rle_trans; [exact E|]. apply Rmult_le_compat_r; [lra|]. apply Rmult_le_compat_r; lra.
Qed.
(*@ C101: the grid. Its points are doubles of [-1, 1], -1 and 1 at the ends, within 6 units of equal distances; the coordinates plotted for them are within 7 units of the side of equal
    distances along the side. @*)
Lemma t_C101_grid : forall a n i, usual a -> (2 <= n)%nat -> (Z.of_nat n <= 1000000)%Z -> (i < n)%nat -> exists t, nth_error (flinspace n) i = Some t /\
  is_finite t = true /\ Rabs (B2R t) <= 1 /\ Rabs (B2R t - equal_point n i) <= 6 * unit /\ (i = 0%nat -> B2R t = -1) /\ (S i = n -> B2R t = 1) /\
  is_finite (fplace a t) = true /\ Rabs (B2R (fplace a t) - B2R a * (INR i / (INR n - 1))) <= 7 * unit * B2R a.
Proof.
  intros a n i Ua Hn Hm Hi. destruct (grid_point n i Hn Hm Hi) as (t & E & F & B & D & Z & O). exists t. split; [exact E|]. split; [exact F|]. split; [exact B|]. split; [exact D|]. split; [exact Z|]. split; [exact O|].
  assert (N1 : 1 <= INR n - 1). { assert (INR 2 <= INR n) by (apply le_INR; lia). cbn in H. lra. }
  assert (I1 : INR i <= INR n - 1). { assert (INR (S i) <= INR n) by (apply le_INR; lia). rewrite S_INR in H. lra. } assert (i0 := pos_INR i).
  apply place_near; [exact Ua|exact F|exact B| |].
  - unfold equal_point in D. replace (2 * (INR i / (INR n - 1))) with (2 * INR i / (INR n - 1)) by (unfold Rdiv; ring). exact D.
  - split; [apply Rmult_le_pos; [lra|apply Rlt_le, Rinv_0_lt_compat; lra]|]. apply (Rmult_le_reg_r (INR n - 1)); [lra|]. unfold Rdiv. rewrite Rmult_assoc, Rinv_l by lra. lra.
Qed.

(*@ C101: the coordinate arrays: one row for each point across and one column for each point along; the entry in row i and column j is j/(gx-1) of the side a and i/(gy-1) of the side b
    up to 7 units of the side. @*)
Lemma t_C101_coordinates : forall a b gx gy, usual a -> usual b -> (2 <= gx)%nat -> (2 <= gy)%nat -> (Z.of_nat gx <= 1000000)%Z -> (Z.of_nat gy <= 1000000)%Z ->
  List.length (fplot_x a gx gy) = gy /\ List.length (fplot_y b gx gy) = gy /\ forall i j, (i < gy)%nat -> (j < gx)%nat -> exists rx ry x y,
    nth_error (fplot_x a gx gy) i = Some rx /\ List.length rx = gx /\ nth_error rx j = Some x /\ is_finite x = true /\ Rabs (B2R x - B2R a * (INR j / (INR gx - 1))) <= 7 * unit * B2R a /\
    nth_error (fplot_y b gx gy) i = Some ry /\ List.length ry = gx /\ nth_error ry j = Some y /\ is_finite y = true /\ Rabs (B2R y - B2R b * (INR i / (INR gy - 1))) <= 7 * unit * B2R b.
Proof.
  intros a b gx gy Ua Ub Hx Hy Bx By. unfold fplot_x, fplot_y, fmesh_x, fmesh_y. rewrite !map_length, !fl_length. split; [reflexivity|]. split; [reflexivity|]. intros i j I J.
  destruct (t_C101_grid a gx j Ua Hx Bx J) as (x & Ex & _ & _ & _ & _ & _ & Fx & Dx). destruct (t_C101_grid b gy i Ub Hy By I) as (y & Ey & _ & _ & _ & _ & _ & Fy & Dy).
  rewrite !nth_error_map, Ey. cbn [option_map]. exists (map (fplace a) (flinspace gx)), (map (fplace b) (map (fun _ => y) (flinspace gx))), (fplace a x), (fplace b y).
  rewrite !map_length, fl_length, !nth_error_map, Ex. cbn [option_map]. repeat (split; [reflexivity || assumption|]). assumption.
Qed.

(** ** the plotted array *)
Lemma fget2_x xs ys i j : get2 (fmesh_x xs ys) i j = if Nat.ltb i (List.length ys) then get xs j else Err IndexError.
Proof.
  unfold get2, fmesh_x, get. rewrite nth_error_map. destruct (Nat.ltb_spec i (List.length ys)) as [H|H].
  - destruct (nth_error ys i) eqn:E; [reflexivity|]. apply nth_error_None in E. lia.
  - rewrite (proj2 (nth_error_None ys i)) by lia. reflexivity.
Qed.
Lemma fget2_y xs ys i j : get2 (fmesh_y xs ys) i j = if Nat.ltb j (List.length xs) then get ys i else (_ <- get ys i ;; Err IndexError).
Proof.
  unfold get2, fmesh_y, get. rewrite nth_error_map. destruct (nth_error ys i) as [y|] eqn:E; cbn [option_map bind].
  - rewrite nth_error_map. destruct (Nat.ltb_spec j (List.length xs)) as [H|H].
    + destruct (nth_error xs j) eqn:F; [reflexivity|]. apply nth_error_None in F. lia.
    + rewrite (proj2 (nth_error_None xs j)) by lia. reflexivity.
  - destruct (Nat.ltb j (List.length xs)); reflexivity.
Qed.
Definition fgrid (n i : nat) : f64 := nth i (flinspace n) fzero.
Lemma get_fl n i : get (flinspace n) i = if Nat.ltb i n then Ok (fgrid n i) else Err IndexError.
Proof.
  unfold get, fgrid. destruct (Nat.ltb_spec i n) as [H|H].
  - rewrite (nth_error_nth' (flinspace n) fzero) by (rewrite fl_length; exact H). reflexivity.
  - rewrite (proj2 (nth_error_None (flinspace n) i)) by (rewrite fl_length; exact H). reflexivity.
Qed.
Lemma fgrid_is n i t : nth_error (flinspace n) i = Some t -> fgrid n i = t.
Proof. intros H. unfold fgrid. apply nth_error_nth, H. Qed.
Definition val (r : res f64) : f64 := match r with Ok v => v | Err _ => fzero end.
Lemma fplot_values_eq pow dec dot ev idx nth c cw gx gy : column ev nth = Ok c -> cw = last_part c (List.length idx) ->
  (forall i j, (i < gy)%nat -> (j < gx)%nat -> exists v, fplot_point pow dec dot idx cw (fgrid gx j) (fgrid gy i) = Ok v) ->
  fplot_values pow dec dot ev idx nth gx gy =
  mapM (fun i => mapM (fun j => if Nat.ltb i gy && Nat.ltb j gx then Ok (val (fplot_point pow dec dot idx cw (fgrid gx j) (fgrid gy i))) else Err IndexError)
                      (seq 0 gy)) (seq 0 gx).
Proof.
  intros C Ecw H. unfold fplot_values. rewrite C. cbn [bind]. rewrite <- Ecw.
  assert (E : forall i j, (x <- get2 (fmesh_x (flinspace gx) (flinspace gy)) i j ;; y <- get2 (fmesh_y (flinspace gx) (flinspace gy)) i j ;; fplot_point pow dec dot idx cw x y)
              = if Nat.ltb i gy && Nat.ltb j gx then Ok (val (fplot_point pow dec dot idx cw (fgrid gx j) (fgrid gy i))) else Err IndexError).
  { intros i j. rewrite fget2_x, fget2_y, !fl_length, !get_fl.
    destruct (Nat.ltb_spec i gy), (Nat.ltb_spec j gx); cbn [andb bind]; try reflexivity. destruct (H i j) as [v Ev]; [assumption|assumption|]. rewrite Ev. reflexivity. }
  assert (M : forall {X Y} (f g : X -> res Y) l, (forall x, f x = g x) -> mapM f l = mapM g l).
  { intros X Y f g l H0. induction l as [|x l IH]; [reflexivity|]. cbn [mapM]. rewrite H0, IH. reflexivity. }
  apply M. intros i. apply M. intros j. apply E.
Qed.
(*@ C101: the plotted array: on a square grid of at least two points a side every entry is a finite double within plot_off of the deflection, with the last of the stored coefficients, at the
    double the grid has there; on a grid that is not square the call ends in IndexError. @*)
Lemma t_C101_values : forall pow dec dot ev idx nth c cw gx gy, pow_near pow -> dec_close dec -> dot_near (List.length idx) dot -> stored_pairs idx -> (List.length idx <= 2500)%nat ->
  column ev nth = Ok c -> (List.length idx <= List.length c)%nat -> cw = skipn (List.length c - List.length idx) c -> Forall (fun z => is_finite z = true) cw -> shape_size idx cw <= powerRZ 2 800 ->
  (2 <= gx)%nat -> (2 <= gy)%nat -> (Z.of_nat gx <= 1000000)%Z -> (Z.of_nat gy <= 1000000)%Z ->
  (gx <> gy -> fplot_values pow dec dot ev idx nth gx gy = Err IndexError) /\
  (gx = gy -> exists z, fplot_values pow dec dot ev idx nth gx gy = Ok z /\ List.length z = gx /\
     forall i j, (i < gx)%nat -> (j < gy)%nat -> exists row v x y, nth_error z i = Some row /\ List.length row = gy /\ nth_error row j = Some v /\
       nth_error (flinspace gx) j = Some x /\ nth_error (flinspace gy) i = Some y /\ is_finite v = true /\ Rabs (B2R v - shape_sum idx cw (B2R x) (B2R y)) <= plot_off idx cw).
Proof.
  intros pow dec dot ev idx nth c cw gx gy HP HD HM Hi Ln C Lc Ecw Fc Sz Hx Hy Bx By.
  assert (Ecw' : cw = last_part c (List.length idx)) by (unfold last_part; rewrite (proj2 (Nat.leb_le _ _) Lc); exact Ecw).
  assert (Lw : List.length cw = List.length idx) by (rewrite Ecw, skipn_length; lia).
  assert (P : forall i j, (i < gy)%nat -> (j < gx)%nat -> exists v, fplot_point pow dec dot idx cw (fgrid gx j) (fgrid gy i) = Ok v /\ fin v /\ Rabs (B2R v - shape_sum idx cw (B2R (fgrid gx j)) (B2R (fgrid gy i))) <= plot_off idx cw).
  { intros i j I J. destruct (grid_point gx j Hx Bx J) as (x & Ex & Fx & Rx & _). destruct (grid_point gy i Hy By I) as (y & Ey & Fy & Ry & _). rewrite (fgrid_is _ _ _ Ex), (fgrid_is _ _ _ Ey).
    apply point_near; assumption. }
  rewrite (fplot_values_eq pow dec dot ev idx nth c cw gx gy C Ecw'); [|intros i j I J; destruct (P i j I J) as (v & E & _); exists v; exact E]. split.
  - intros N. destruct (Nat.lt_ge_cases gx gy) as [H|H].
    + destruct gx as [|gx]; [lia|]. cbn [seq mapM].
      rewrite (mapM_first_err _ IndexError); [reflexivity|..].
      * apply Forall_forall. intros j _. destruct (Nat.ltb 0 gy && Nat.ltb j (S gx)); [left; eexists; reflexivity|right; reflexivity].
      * apply Exists_exists. exists (S gx). split; [apply in_seq; lia|]. rewrite Nat.ltb_irrefl, andb_false_r. reflexivity.
    + assert (G : (gy < gx)%nat) by lia. clear H N.
      apply (mapM_first_err _ IndexError).
      * apply Forall_forall. intros i _. destruct (Nat.ltb_spec i gy) as [K|K].
        -- left. eexists. apply mapM_all with (g := fun j => val (fplot_point pow dec dot idx cw (fgrid gx j) (fgrid gy i))). intros j J. apply in_seq in J.
           cbn [andb]. rewrite (proj2 (Nat.ltb_lt j gx)) by lia. reflexivity.
        -- right. destruct gy as [|gy]; [lia|]. reflexivity.
      * apply Exists_exists. exists gy. split; [apply in_seq; lia|]. rewrite Nat.ltb_irrefl. destruct gy as [|gy]; [lia|]. reflexivity.
  - intros <-. set (w := fun i j => val (fplot_point pow dec dot idx cw (fgrid gx j) (fgrid gx i))). exists (map (fun i => map (w i) (seq 0 gx)) (seq 0 gx)). split.
    + apply mapM_all. intros i I. apply in_seq in I. apply mapM_all. intros j J. apply in_seq in J.
      rewrite (proj2 (Nat.ltb_lt i gx)), (proj2 (Nat.ltb_lt j gx)) by lia. reflexivity.
    + split; [rewrite map_length, seq_length; reflexivity|]. intros i j I J. destruct (P i j I J) as (v & E & Fv & D).
      destruct (grid_point gx j Hx Bx J) as (x & Ex & _). destruct (grid_point gx i Hx Bx I) as (y & Ey & _).
      exists (map (w i) (seq 0 gx)), v, x, y. split; [apply (seq_map_nth (fun i => map (w i) (seq 0 gx))), I|].
      split; [rewrite map_length, seq_length; reflexivity|].
      split; [rewrite (seq_map_nth (w i)) by exact J; unfold w; rewrite E; reflexivity|]. split; [exact Ex|]. split; [exact Ey|]. split; [exact Fv|].
      rewrite (fgrid_is _ _ _ Ex), (fgrid_is _ _ _ Ey) in D. exact D.
Qed.

(*@ C101: with fewer coefficients than functions the call ends in ValueError. @*)
Lemma t_C101_lengths : forall pow dec dot ev idx nth c gx gy, pow_near pow -> dec_close dec -> stored_pairs idx -> column ev nth = Ok c -> (List.length c < List.length idx)%nat ->
  (2 <= gx)%nat -> (2 <= gy)%nat -> (Z.of_nat gx <= 1000000)%Z -> (Z.of_nat gy <= 1000000)%Z -> fplot_values pow dec dot ev idx nth gx gy = Err ValueError.
Proof.
  intros pow dec dot ev idx nth c gx gy HP HD Hi C L Hx Hy Bx By. unfold fplot_values. rewrite C. cbn [bind].
  destruct (grid_point gx 0 Hx Bx ltac:(lia)) as (x & Ex & Fx & Rx & _). destruct (grid_point gy 0 Hy By ltac:(lia)) as (y & Ey & Fy & Ry & _).
  destruct (shapes_near pow dec HP HD idx x y Hi Fx Fy Rx Ry) as (s & Es & Ls & _).
  assert (N : List.length (last_part c (List.length idx)) <> List.length idx). { unfold last_part. rewrite (proj2 (Nat.leb_gt _ _) L), skipn_length. lia. }
  assert (Em : fmatmul dot s (last_part c (List.length idx)) = Err ValueError).
  { unfold fmatmul. match goal with |- (if ?b then _ else _) = _ => replace b with false end; [reflexivity|]. symmetry. apply Nat.eqb_neq. intros Q. apply N. exact (eq_trans (eq_sym Q) Ls). }
  assert (E0 : (x0 <- get2 (fmesh_x (flinspace gx) (flinspace gy)) 0 0 ;; y0 <- get2 (fmesh_y (flinspace gx) (flinspace gy)) 0 0 ;; fplot_point pow dec dot idx (last_part c (List.length idx)) x0 y0) = Err ValueError).
  { rewrite fget2_x, fget2_y, !fl_length, !get_fl, (fgrid_is _ _ _ Ex), (fgrid_is _ _ _ Ey). rewrite !(proj2 (Nat.ltb_lt 0 _)) by lia. cbn [bind]. unfold fplot_point. rewrite Es. exact Em. }
  destruct gx as [|gx]; [lia|]. destruct gy as [|gy]; [lia|]. cbn [seq mapM]. rewrite E0. reflexivity.
Qed.
(*@ C101: a column number that the eigenvector array does not have is IndexError. @*)
Lemma t_C101_column : forall pow dec dot ev idx nth gx gy, Exists (fun r => (List.length r <= nth)%nat) ev -> fplot_values pow dec dot ev idx nth gx gy = Err IndexError.
Proof.
  intros pow dec dot ev idx nth gx gy H. unfold fplot_values.
  replace (column ev nth) with (@Err (list f64) IndexError); [reflexivity|]. symmetry. unfold column. apply mapM_first_err.
  - apply Forall_forall. intros r _. unfold get. destruct (nth_error r nth); [left; eexists; reflexivity|right; reflexivity].
  - apply Exists_exists in H. destruct H as (r & I & H). apply Exists_exists. exists r. split; [exact I|]. unfold get.
    rewrite (proj2 (nth_error_None r nth)) by exact H. reflexivity.
Qed.

(** ** at the edge *)
Definition pow_one (x : f64) (n : nat) : res f64 := Ok (f_of_Z 1).
Fixpoint plain (e : expr) : bool :=
  match e with
  | EInt _ | EXi => true
  | ENeg a => plain a
  | EAdd a b | ESub a b | EMul a b | EDiv a b => (plain a && plain b)%bool
  | EPow EXi _ => true
  | _ => false
  end.
Lemma plain_same pow dec e : (forall n, pow (f_of_Z 1) n = Ok (f_of_Z 1)) -> plain e = true ->
  eval_expr (A := FA pow) dec (f_of_Z 1) (f_of_Z 1) e = eval_expr (A := FA pow_one) (fun _ _ => fzero) (f_of_Z 1) (f_of_Z 1) e.
Proof.
  intros HP. induction e as [z|m e| | |a IHa|a IHa b IHb|a IHa b IHb|a IHa b IHb|a IHa b IHb|a IHa n]; intros H; cbn [plain] in H; try discriminate H; try reflexivity;
    try (apply andb_prop in H; destruct H as [H1 H2]); cbn [eval_expr].
  - exact (f_equal (fun r => v <- r ;; Ok (fopp v)) (IHa H)).
  - etransitivity; [exact (f_equal (fun r => v <- r ;; w <- eval_expr (A := FA pow) dec (f_of_Z 1) (f_of_Z 1) b ;; Ok (fadd v w)) (IHa H1))|]. exact (f_equal (fun r => v <- _ ;; w <- r ;; Ok (fadd v w)) (IHb H2)).
  - etransitivity; [exact (f_equal (fun r => v <- r ;; w <- eval_expr (A := FA pow) dec (f_of_Z 1) (f_of_Z 1) b ;; Ok (fsub v w)) (IHa H1))|]. exact (f_equal (fun r => v <- _ ;; w <- r ;; Ok (fsub v w)) (IHb H2)).
  - etransitivity; [exact (f_equal (fun r => v <- r ;; w <- eval_expr (A := FA pow) dec (f_of_Z 1) (f_of_Z 1) b ;; Ok (fmul v w)) (IHa H1))|]. exact (f_equal (fun r => v <- _ ;; w <- r ;; Ok (fmul v w)) (IHb H2)).
  - etransitivity; [exact (f_equal (fun r => v <- r ;; w <- eval_expr (A := FA pow) dec (f_of_Z 1) (f_of_Z 1) b ;; ndiv (FA pow) v w) (IHa H1))|]. exact (f_equal (fun r => v <- _ ;; w <- r ;; ndiv (FA pow_one) v w) (IHb H2)).
  - destruct a; try discriminate H. cbn [eval_expr bind]. apply HP.
Qed.
Definition edge_value : res f64 := fxi (A := FA pow_one) (fun _ _ => fzero) 49 (f_of_Z 1).
Lemma edge_big : match edge_value with Ok y => (is_finite y && flt (f_of_Z_exp 1 (-11)) y)%bool | Err _ => false end = true.
Proof. vm_compute. reflexivity. Qed.
Lemma plain_49 : match nth_error FXI 49 with Some s => match parse s with Some e => plain e | None => false end | None => false end = true.
Proof. vm_compute. reflexivity. Qed.
(*@ C101: that the accuracy is lost is a fact and not an artefact of the bounds. The last function is zero with its slope at the edge xi = 1; with any pow that returns 1 for powers of 1,
    what the code computes there is above 1/2048. So the plotted deflection of a held edge need not be zero. @*)
Lemma t_C101_edge_refuted : forall pow dec, (forall n, pow (f_of_Z 1) n = Ok (f_of_Z 1)) ->
  bardell 49 (B2R (f_of_Z 1)) = 0 /\ exists y, fxi (A := FA pow) dec 49 (f_of_Z 1) = Ok y /\ is_finite y = true /\ 1 / 2048 < B2R y.
Proof.
  intros pow dec HP. split; [rewrite (proj2 (f_small 1 eq_refl)); apply bardell_value1; lia|].
  assert (E : fxi (A := FA pow) dec 49 (f_of_Z 1) = edge_value).
  { unfold edge_value, fxi. assert (Q := plain_49). destruct (nth_error FXI 49) as [s|]; [|discriminate Q]. cbn [bind]. unfold eval. destruct (parse s) as [e|]; [|discriminate Q]. apply plain_same; [exact HP|exact Q]. }
  assert (B := edge_big). destruct edge_value as [y|e] eqn:Ev; [|discriminate B]. exists y. apply andb_prop in B. destruct B as [F L]. split; [exact E|]. split; [exact F|].
  destruct (f_of_Z_exp_denotes 1 (-11)) as [F1 E1]; [cbn; lia|lia|]. apply (flt_fin _ _ F1 F) in L. rewrite E1 in L. replace (1 / 2048) with (IZR 1 * bp (-11)) by (cbn; lra). exact L.
Qed.

(** ** what is assumed can be had *)
Lemma combine_sum (g : f64 -> f64 -> R) (s : list f64) : forall c : list f64, List.length c = List.length s -> rsum (map (fun p => g (fst p) (snd p)) (combine s c)) = row_sum (List.length s) (fun k => g (nth k s fzero) (nth k c fzero)).
Proof.
  unfold row_sum. induction s as [|x s IH]; intros [|y c] L; try discriminate L; [reflexivity|]. cbn [combine map rsum List.length seq fst snd nth]. rewrite IH by (cbn in L; lia). f_equal.
  rewrite <- seq_shift, map_map. reflexivity.
Qed.
(*@ C101: what is assumed of numpy's product of two vectors holds for the plain loop, for vectors of up to a thousand entries. @*)
Lemma t_C101_loop : forall n, (1 <= n <= 1000)%nat -> dot_near n loop_dot.
Proof.
  intros n Hn s c Ls Lc Fs Fc M.
  assert (E1 := combine_sum (fun x y => Rabs (B2R x * B2R y)) s c (eq_trans Lc (eq_sym Ls))). assert (E2 := combine_sum (fun x y => B2R x * B2R y) s c (eq_trans Lc (eq_sym Ls))).
  cbn beta in E1, E2. rewrite Ls in E1, E2. change (magnitudes s c = row_sum n (fun k => Rabs (B2R (nth k s fzero) * B2R (nth k c fzero)))) in E1.
  change (products s c = row_sum n (fun k => B2R (nth k s fzero) * B2R (nth k c fzero))) in E2. rewrite E1, E2. rewrite E1 in M.
  assert (FN : forall l : list f64, List.length l = n -> Forall (fun x => fin x) l -> forall k, (k < n)%nat -> fin (nth k l fzero)).
  { intros l L F k K. rewrite Forall_forall in F. apply F, nth_In. lia. }
  destruct (t_C96_loop n Hn (fun _ k => nth k s fzero) (fun k => nth k c fzero)) with (i := 0%nat) as [A B].
  - intros i j _ J. apply FN; assumption.
  - intros k K. apply FN; assumption.
  - intros i _. exact M.
  - lia.
  - unfold loop_product in A, B. unfold loop_dot. rewrite Ls. split; [exact A|exact B].
Qed.
Definition pow_round (x : f64) (n : nat) : res f64 := Ok (near64 (B2R x ^ n)).
Lemma pow_round_near : pow_near pow_round.
Proof.
  intros x n F B N. assert (u := unit_val). assert (P : Rabs (B2R x ^ n) <= 1). { rewrite <- RPow_abs. rewrite <- (pow1 n). apply pow_incr. split; [apply Rabs_pos|exact B]. }
  destruct (near64_ok (B2R x ^ n) ltac:(lra)) as [G E]. eexists. split; [reflexivity|]. split; [exact G|]. rewrite E.
  destruct (rnd_err (B2R x ^ n)) as (d & h & Hd & Hh & ->). rewrite pz. replace (B2R x ^ n * (1 + d) + h - B2R x ^ n) with (B2R x ^ n * d + h) by ring. eapply Rle_trans; [apply Rabs_triang|]. rewrite Rabs_mult.
  assert (A := Rabs_pos (B2R x ^ n)). assert (Rabs (B2R x ^ n) * Rabs d <= Rabs (B2R x ^ n) * unit) by (apply Rmult_le_compat_l; lra). assert (bp (-1075) <= bp (-1000)) by (apply bpow_le; lia).
  assert (0 <= unit * Rabs (B2R x ^ n)) by (apply Rmult_le_pos; lra). lra.
Qed.
(*@ C101: powers and literals rounded to nearest and the plain loop are such a pow, reading and product; with them the pinned plate of two by two functions with coefficients 1 and any eigenvector
    array having that column is plotted on a 20 x 20 grid with errors below 1e-13. @*)
Example t_C101_ex : exists pow dec dot idx cw, pow_near pow /\ dec_close dec /\ dot_near (List.length idx) dot /\ stored_pairs idx /\ (List.length idx <= 2500)%nat /\
  column (map (fun x => [x]) cw) 0 = Ok cw /\ List.length cw = List.length idx /\ Forall (fun z => is_finite z = true) cw /\ shape_size idx cw <= powerRZ 2 800 /\ 0 < shape_size idx cw /\ plot_off idx cw <= 1 / 10000000000000.
Proof.
  set (idx := [(1, 1); (1, 3); (3, 1); (3, 3)]%nat). set (cw := [f_of_Z 1; f_of_Z 1; f_of_Z 1; f_of_Z 1]). destruct (f_small 1 eq_refl) as [F V].
  assert (S : shape_size idx cw = 1). { unfold shape_size, idx, cw. cbn [combine map rsum fst snd bardell_size]. rewrite V, Rabs_R1. lra. }
  exists pow_round, dec_near, loop_dot, idx, cw. split; [exact pow_round_near|]. split; [exact dec_near_close|]. split; [apply t_C101_loop; cbn; lia|]. split; [repeat constructor|]. split; [cbn; lia|].
  split; [reflexivity|]. split; [reflexivity|]. split; [repeat (constructor; [exact F|]); constructor|]. rewrite S, pz. split; [change 1 with (bp 0); apply bpow_le; lia|]. split; [lra|].
  unfold plot_off. rewrite S, pz. cbn [List.length idx INR]. assert (bp (-900) <= bp (-60)) by (apply bpow_le; lia). change (bp (-60)) with (/ 1152921504606846976) in H. unfold unit. lra.
Qed.
