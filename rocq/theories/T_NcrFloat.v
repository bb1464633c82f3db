(** Proofs of the theorems on the buckling load in binary64, from the plies or from lamination parameters *)
From Coq Require Import Reals ZArith Qreals Lra Lia Bool String Sorting.Sorted.
From Coquelicot Require Import Coquelicot.
From Flocq Require Import Core.Core IEEE754.BinarySingleNaN.
From Coq Require Import List.
From Verif Require Import M_Py M_Plate M_K M_Tables M_Expr M_Float M_FloatArith M_RealArith M_Validate M_Material M_Laminate M_Plot M_MatFloat M_LamArith M_LayupFloat M_LpFloat M_OptFloat M_Buckling M_BucklingFloat M_NcrFloat M_Optimize S_Validate S_Plate S_Mat S_Laminate S_Bardell S_Shape S_Energy S_K S_Ritz S_Eigen S_Compare S_Stored S_Round S_LamRound S_MatFloat S_Sens S_LayupFloat S_LpFloat S_OptFloat S_Higher S_Optimize S_BucklingFloat S_NcrFloat L_Quad L_Plate L_FirstK L_K L_KR L_Energy L_ABD L_Ritz L_Spectral L_Higher L_Inexact L_Eigen L_Float L_Round T_Laminate T_Plate T_K T_Energy T_Buckling T_Compare T_Stored T_Solver T_Perturb T_Higher T_Round T_Validate T_MatFloat T_LamRound T_Sens T_LayupFloat T_LpFloat T_OptFloat T_BucklingFloat.
Import ListNotations.
Open Scope R_scope.

(** ** a plate whose D is not exact *)
Section Core.
Context (pow : f64 -> nat -> res f64) (dec : Z -> Z -> f64) (X : mat3) (M : farr) (a b Nxx Nyy Nxy : f64) (UI : usual_inputs pow dec M a b Nxx Nyy Nxy).
Let ra := B2R a. Let rb := B2R b. Let lx := B2R Nxx. Let ly := B2R Nyy. Let lxy := B2R Nxy. Let D := numbers (lower M).
Variables (c : constraints) (c0 ca d0 db : condition) (m n N : nat) (off nu u : R) (K KG : list (list R)).
Hypotheses (P : plate_ok X ra rb c c0 ca d0 db m n) (B : forall i j, (i < 3)%nat -> (j < 3)%nat -> Rabs (B2R (M i j) - as_arr X i j) <= off)
  (Hn : forall e, nu * dot e e <= quad X e) (Hs : 3 * off < nu) (HN : (N <= 30)%nat) (Hmm : (m + taken c0 + taken ca <= N)%nat) (Hnn : (n + taken d0 + taken db <= N)%nat)
  (H : calc_K_KG_D exact_tables (as_arr X) ra rb lx ly lxy c m n = Ok (K, KG)) (U : at_least u K).
Let d := 3 * off / nu.
Let e := INR (m * n) * k_off (tolerance N + 16 * unit) D ra rb / ((1 - d) * u).
Let g := INR (m * n) * kG_off (tolerance N + 16 * unit) lx ly lxy ra rb / ((1 - d) * u).
Hypothesis Hu : INR (m * n) * k_off (tolerance N + 16 * unit) D ra rb < (1 - d) * u.
Lemma layup_near : pencil K KG /\ 0 <= d < 1 /\ 0 <= e < 1 /\ 0 <= g /\ exists K' KG' : list (list f64), calc_K_KG_D (stored (FA pow) dec) M a b Nxx Nyy Nxy c m n = Ok (K', KG') /\
  all_finite K' /\ all_finite KG' /\ pencil (reals K') (reals KG') /\ near (d + e * (1 + d)) (g * (1 + d)) K KG (reals K') (reals KG') /\ List.length KG' = (m * n)%nat.
Proof.
  destruct (lower_within off M X (ok_sym _ _ _ _ _ _ _ _ _ _ P) B) as [Sy W]. fold D in W, Sy.
  assert (o0 : 0 <= off) by (destruct W as (W & _); eapply Rle_trans; [apply Rabs_pos|exact W]). assert (n0 : 0 < nu) by lra.
  assert (D0 : 0 <= d < 1). { unfold d. split; [apply Rmult_le_pos; [lra|left; apply Rinv_0_lt_compat, n0]|]. apply Rmult_lt_reg_r with nu; [exact n0|]. replace (3 * off / nu * nu) with (3 * off) by (field; lra). lra. }
  assert (Bt := entry_between _ nu X D n0 Hn W). fold d in Bt.
  assert (Pd : pos_def D). { intros v Nv. assert (E := Bt v). assert (Pv := ok_def _ _ _ _ _ _ _ _ _ _ P v Nv). assert (0 < (1 - d) * quad X v) by (apply Rmult_lt_0_compat; lra). lra. }
  assert (P' : plate_ok D ra rb c c0 ca d0 db m n) by (destruct P; constructor; assumption).
  destruct (look_any X ra rb lx ly lxy c c0 ca d0 db m n (ok_any _ _ _ _ _ _ _ _ _ _ P)) as (idx & K1 & KG1 & V). destruct (look_any D ra rb lx ly lxy c c0 ca d0 db m n (ok_any _ _ _ _ _ _ _ _ _ _ P')) as (idx' & K2 & KG2 & V').
  assert (E := same_calc _ _ _ (v_idx _ _ _ _ _ _ _ _ _ _ _ _ V) (v_idx _ _ _ _ _ _ _ _ _ _ _ _ V')). subst idx'.
  assert (E := same_calc _ _ _ H (v_calc _ _ _ _ _ _ _ _ _ _ _ _ V)). apply pair_equal_spec in E. destruct E as (<- & <-).
  assert (Y : forall cw, (1 - d) * quad_rows K cw <= quad_rows K2 cw <= (1 + d) * quad_rows K cw).
  { intros cw. rewrite (v_K _ _ _ _ _ _ _ _ _ _ _ _ V' cw), (v_K _ _ _ _ _ _ _ _ _ _ _ _ V cw). apply between_bending; [apply P|apply P|apply nice_combine|exact Bt]. }
  assert (L2 : List.length K2 = List.length K) by (rewrite (v_len _ _ _ _ _ _ _ _ _ _ _ _ V'), (v_len _ _ _ _ _ _ _ _ _ _ _ _ V); reflexivity).
  assert (U' : at_least ((1 - d) * u) K2).
  { intros cw L. rewrite Rmult_assoc. eapply Rle_trans; [|apply Y]. apply Rmult_le_compat_l; [lra|]. apply U. rewrite <- L2. exact L. }
  assert (N0 : near d 0 K KG K2 KG2).
  { constructor; [exact L2| |]; intros v _.
    - assert (Q := Y v). apply Rabs_le. lra.
    - rewrite (v_G _ _ _ _ _ _ _ _ _ _ _ _ V' v), (v_G _ _ _ _ _ _ _ _ _ _ _ _ V v), Rminus_diag_eq, Rabs_R0 by reflexivity. lra. }
  destruct (fplate_near pow dec (lower M) a b Nxx Nyy Nxy (usual_lower _ _ _ _ _ _ _ _ UI) c c0 ca d0 db m n N ((1 - d) * u) K2 KG2 P' HN Hmm Hnn (v_calc _ _ _ _ _ _ _ _ _ _ _ _ V') U' Hu)
    as (_ & E0 & G0 & K' & KG' & C' & F1 & F2 & Pn & Nr & Lk). fold D ra rb lx ly lxy in E0, G0, Nr. fold e in E0, Nr. fold g in G0, Nr.
  split; [apply (v_pen _ _ _ _ _ _ _ _ _ _ _ _ V)|]. split; [exact D0|]. split; [exact E0|]. split; [exact G0|]. exists K', KG'. split; [exact C'|]. repeat split; try assumption; try apply F1; try apply F2; try apply Pn.
  - apply (nr_len _ _ _ _ _ _ (near_trans d 0 e g K KG K2 KG2 _ _ ltac:(lra) ltac:(lra) G0 N0 Nr)).
  - apply (nr_K _ _ _ _ _ _ (near_trans d 0 e g K KG K2 KG2 _ _ ltac:(lra) ltac:(lra) G0 N0 Nr)).
  - assert (Q := nr_KG _ _ _ _ _ _ (near_trans d 0 e g K KG K2 KG2 _ _ ltac:(lra) ltac:(lra) G0 N0 Nr)). rewrite Rplus_0_l in Q. exact Q.
Qed.
Variables (eigsh : fsolver) (eps gam : R).
Hypotheses (Ac : accurate_to eps gam eigsh) (He : 0 <= eps) (Hg : 0 <= gam).
Let E1 := d + e * (1 + d). Let E := E1 + eps * (1 + E1). Let G := g * (1 + d) + gam * (1 + E1).
Lemma layup_reported fs num out vecs : lowest_factors X ra rb lx ly lxy c m n fs -> Forall (fun l => 1 / l + G <= 1 - E /\ powerRZ 2 (-900) <= 1 / l - G) fs ->
  buckling_float eigsh pow dec M a b Nxx Nyy Nxy c m n num = Ok (out, vecs) ->
  List.length out = Z.to_nat (Z.min num (Z.of_nat (m * n) - 2)) /\
  ((List.length fs <= List.length out)%nat -> forall j l, nth_error fs j = Some l ->
    exists f, nth_error out j = Some f /\ is_finite f = true /\ 0 < B2R f /\ Rabs (1 / l - 1 / B2R f) <= (E * (1 + unit) + unit) * (1 / B2R f) + G).
Proof.
  intros L F R. destruct layup_near as (Pn & D0 & E0 & G0 & K1 & G1 & H1 & F1 & F2 & Pn1 & Nr & Lk). fold E1 in Nr.
  destruct L as (K0 & KG0 & H0 & L). unfold ra, rb, lx, ly, lxy in H0. assert (Q := same_calc _ _ _ H H0). apply pair_equal_spec in Q. destruct Q as (<- & <-).
  unfold buckling_float in R. rewrite H1 in R. cbn [bind fst snd] in R.
  apply bind_ok in R. destruct R as ((vals, vs) & Ev0 & R). assert (Ev : eigsh G1 K1 (Z.min num (Z.of_nat (m * n) - 2)) = Ok (vals, vs)) by (rewrite <- Lk; exact Ev0). clear Ev0. set (k := Z.min num (Z.of_nat (m * n) - 2)) in *. cbn [fst snd] in R. apply Ok_inj in R. apply pair_equal_spec in R. destruct R as (<- & <-).
  destruct (proj2 (Ac G1 K1 k) vals vs F2 F1 Pn1 Ev) as (_ & A2 & M2 & ws & P2 & Nr2 & Er).
  assert (HE1 : 0 <= E1) by (unfold E1; assert (0 <= e * (1 + d)) by (apply Rmult_le_pos; lra); lra).
  assert (Nr' := near_trans E1 (g * (1 + d)) eps gam K KG _ _ M2 A2 HE1 He Hg Nr Nr2). fold E G in Nr'.
  assert (Lv : List.length vals = Z.to_nat k) by (rewrite <- (er_count _ _ _ _ _ Er), map_length; reflexivity). rewrite map_length. split; [exact Lv|]. intros Hk.
  assert (HE : 0 <= E) by (unfold E; assert (0 <= eps * (1 + E1)) by (apply Rmult_le_pos; lra); lra).
  assert (HG : 0 <= G) by (unfold G; assert (0 <= gam * (1 + E1)) by (apply Rmult_le_pos; lra); assert (0 <= g * (1 + d)) by (apply Rmult_le_pos; lra); lra).
  apply (answer_near E G K KG M2 A2 (Z.to_nat k) vals ws fs Pn P2 Nr' HE HG Er L F). lia.
Qed.
End Core.
Lemma critical_lowest X a b Nxx Nyy Nxy c m n l : critical X a b Nxx Nyy Nxy c m n l -> lowest_factors X a b Nxx Nyy Nxy c m n [l].
Proof.
  intros (K & KG & H & Hl & (v & Bv) & Mn). exists K, KG. split; [exact H|]. exists [v]. split; [reflexivity|]. split; [|split; [|split]].
  - intros [|[|i]] l' v' H1 H2; try discriminate. cbn in H1, H2. assert (l' = l) by congruence. assert (v' = v) by congruence. subst. auto.
  - intros [|[|i]] [|[|j]] x y Nij H1 H2; try discriminate. lia.
  - repeat constructor.
  - intros l' w Hl' Bw _ l'' [<-|[]]. apply Mn; [exact Hl'|]. exists w. exact Bw.
Qed.

(*@ C98, from the plies to the list that is returned, in binary64, with an eigen-solver of limited accuracy: the entry in place j is near the factor in place j of the exact
    laminate. The bound adds up the share lost in D (d), in the tables and the assembly (e and g), by the solver (eps and gam) and in the division (one unit). @*)
Lemma t_C98_layup : forall eigsh eps gam np k mu q nu l (X : mat3) (M : farr) pow dec a b Nxx Nyy Nxy c c0 ca d0 db m n N u (K KG : list (list R)) fs num out vecs,
  accurate_to eps gam eigsh -> 0 <= eps -> 0 <= gam ->
  good_layup np k mu q l -> 0 <= k <= 1000000 -> powerRZ 2 (-40) <= mu -> powerRZ 2 (-200) <= q <= powerRZ 2 190 ->
  attribute 3 (exact_layup l) = Ok X -> plate_ok X (B2R a) (B2R b) c c0 ca d0 db m n -> (forall e, nu * dot e e <= quad X e) -> 3 * matrix_off k mu q 3 l < nu ->
  D_f np l = Ok M -> usual_inputs pow dec M a b Nxx Nyy Nxy -> (N <= 30)%nat -> (m + taken c0 + taken ca <= N)%nat -> (n + taken d0 + taken db <= N)%nat ->
  calc_K_KG_D exact_tables (as_arr X) (B2R a) (B2R b) (B2R Nxx) (B2R Nyy) (B2R Nxy) c m n = Ok (K, KG) -> at_least u K ->
  let d := 3 * matrix_off k mu q 3 l / nu in
  let e := INR (m * n) * k_off (tolerance N + 16 * unit) (numbers (lower M)) (B2R a) (B2R b) / ((1 - d) * u) in
  let g := INR (m * n) * kG_off (tolerance N + 16 * unit) (B2R Nxx) (B2R Nyy) (B2R Nxy) (B2R a) (B2R b) / ((1 - d) * u) in
  let E := (d + e * (1 + d)) + eps * (1 + (d + e * (1 + d))) in
  let G := g * (1 + d) + gam * (1 + (d + e * (1 + d))) in
  INR (m * n) * k_off (tolerance N + 16 * unit) (numbers (lower M)) (B2R a) (B2R b) < (1 - d) * u ->
  lowest_factors X (B2R a) (B2R b) (B2R Nxx) (B2R Nyy) (B2R Nxy) c m n fs ->
  Forall (fun f => 1 / f + G <= 1 - E /\ powerRZ 2 (-900) <= 1 / f - G) fs ->
  buckling_layup_f eigsh np pow dec l a b Nxx Nyy Nxy c m n num = Ok (out, vecs) ->
  List.length out = Z.to_nat (Z.min num (Z.of_nat (m * n) - 2)) /\
  ((List.length fs <= List.length out)%nat -> forall j f, nth_error fs j = Some f ->
    exists f', nth_error out j = Some f' /\ is_finite f' = true /\ 0 < B2R f' /\ Rabs (1 / f - 1 / B2R f') <= (E * (1 + unit) + unit) * (1 / B2R f') + G).
Proof.
  intros eigsh eps gam np k mu q nu l X M pow dec a b Nxx Nyy Nxy c c0 ca d0 db m n N u K KG fs num out vecs Ac He Hg Gd Hk Hm Hq EX P Hn Hs EM UI HN Hmm Hnn H U d e g E G Hu L F R.
  destruct (t_C88_matrices np k mu q 3 l ltac:(lia) Gd Hk Hm Hq) as (M' & X' & EM' & EX' & Bd). change (matrix_f np 3 l) with (D_f np l) in EM'. rewrite EX in EX'. apply Ok_inj in EX'. subst X'. rewrite EM in EM'. apply Ok_inj in EM'. subst M'.
  unfold buckling_layup_f in R. rewrite EM in R. cbn [bind] in R.
  apply (layup_reported pow dec X M a b Nxx Nyy Nxy UI c c0 ca d0 db m n N (matrix_off k mu q 3 l) nu u K KG P (fun i j Hi Hj => proj2 (Bd i j Hi Hj)) Hn Hs HN Hmm Hnn H U Hu eigsh eps gam Ac He Hg fs num out vecs L F R).
Qed.

(** ** lamination parameters *)
Lemma int_kept parse k : (k <= 30)%nat -> forall z, int_number parse (PInt (Z.of_nat k)) (Some fone) None = Ok z -> z = Z.of_nat k.
Proof.
  intros Hk z. assert (Y : int_number parse (PInt (Z.of_nat k)) (Some fone) None = Ok (Z.of_nat k) \/ int_number parse (PInt (Z.of_nat k)) (Some fone) None = Err ValueError).
  { do 31 (destruct k as [|k]; [first [left; vm_compute; reflexivity|right; vm_compute; reflexivity]|]). lia. }
  destruct Y as [-> | ->]; [|discriminate]. intros E. apply Ok_inj in E. symmetry. exact E.
Qed.
Lemma float_kept parse x lo hi z : float_number parse (PFloat x) lo hi = Ok z -> z = x.
Proof. unfold float_number, to_float. destruct (below x lo); [discriminate|]. destruct (above x hi); [discriminate|]. intros E. apply Ok_inj in E. symmetry. exact E. Qed.
Lemma plate_kept parse a b Nxx Nyy Nxy m n p : (m <= 30)%nat -> (n <= 30)%nat ->
  plate_init parse true (PFloat a) (PFloat b) (PFloat Nxx) (PFloat Nyy) (PFloat Nxy) (PInt (Z.of_nat m)) (PInt (Z.of_nat n)) = Ok p -> p = FPlate a b Nxx Nyy Nxy (Z.of_nat m) (Z.of_nat n).
Proof.
  intros Hm Hn H. unfold plate_init in H. cbn [is_instance bind] in H.
  apply bind_ok in H. destruct H as (x1 & H1 & H). apply float_kept in H1. subst x1. apply bind_ok in H. destruct H as (x1 & H1 & H). apply float_kept in H1. subst x1.
  apply bind_ok in H. destruct H as (x1 & H1 & H). apply float_kept in H1. subst x1. apply bind_ok in H. destruct H as (x1 & H1 & H). apply float_kept in H1. subst x1.
  apply bind_ok in H. destruct H as (x1 & H1 & H). apply float_kept in H1. subst x1. apply bind_ok in H. destruct H as (x1 & H1 & H). apply (int_kept parse m Hm) in H1. subst x1.
  apply bind_ok in H. destruct H as (x1 & H1 & H). apply (int_kept parse n Hn) in H1. subst x1. apply Ok_inj in H. symmetry. exact H.
Qed.
(*@ C98, from lamination parameters to the buckling load in binary64: what Ncr_from_lp returns is near the exact critical factor. @*)
Lemma t_C98_ncr : forall parse eigsh eps gam mu q nu f T xi1 xi3 E1 E2 v12 G12 (X : mat3) (M : farr) pow dec a b Nxx Nyy Nxy c c0 ca d0 db m n N u (K KG : list (list R)) l x,
  accurate_to eps gam eigsh -> 0 <= eps -> 0 <= gam ->
  ortho_init parse (oargs5 (PFloat E1) (PFloat E2) (PFloat v12) (PFloat G12) (PFloat (dec 1%Z (-1)%Z))) = Ok f ->
  powerRZ 2 (-40) <= mu -> powerRZ 2 (-200) <= q <= powerRZ 2 190 -> lp_ply mu q f -> four_parameters [xi1; fzero; xi3; fzero] -> usual T ->
  exact_D f [xi1; fzero; xi3; fzero] T = Ok X -> plate_ok X (B2R a) (B2R b) c c0 ca d0 db m n -> (forall e, nu * dot e e <= quad X e) -> 3 * lp_off mu q 3 T < nu ->
  D_lp_f pow f [xi1; fzero; xi3; fzero] T = Ok M -> usual_inputs pow dec M a b Nxx Nyy Nxy -> (N <= 30)%nat -> (m + taken c0 + taken ca <= N)%nat -> (n + taken d0 + taken db <= N)%nat ->
  calc_K_KG_D exact_tables (as_arr X) (B2R a) (B2R b) (B2R Nxx) (B2R Nyy) (B2R Nxy) c m n = Ok (K, KG) -> at_least u K ->
  let d := 3 * lp_off mu q 3 T / nu in
  let e := INR (m * n) * k_off (tolerance N + 16 * unit) (numbers M) (B2R a) (B2R b) / ((1 - d) * u) in
  let g := INR (m * n) * kG_off (tolerance N + 16 * unit) (B2R Nxx) (B2R Nyy) (B2R Nxy) (B2R a) (B2R b) / ((1 - d) * u) in
  let E := (d + e * (1 + d)) + eps * (1 + (d + e * (1 + d))) in
  let G := g * (1 + d) + gam * (1 + (d + e * (1 + d))) in
  INR (m * n) * k_off (tolerance N + 16 * unit) (numbers M) (B2R a) (B2R b) < (1 - d) * u ->
  critical X (B2R a) (B2R b) (B2R Nxx) (B2R Nyy) (B2R Nxy) c m n l -> 1 / l + G <= 1 - E -> powerRZ 2 (-900) <= 1 / l - G ->
  Ncr_from_lp_f parse eigsh pow dec a b T m n xi1 xi3 E1 E2 v12 G12 Nxx Nyy Nxy c = Ok x ->
  reports (E * (1 + unit) + unit) G l x.
Proof.
  intros parse eigsh eps gam mu q nu f T xi1 xi3 E1 E2 v12 G12 X M pow dec a b Nxx Nyy Nxy c c0 ca d0 db m n N u K KG l x Ac He Hg Ef Hm Hq Hf Hx HT EX P Hn Hs EM UI HN Hmm Hnn H U d e g E G Hu C W1 W2 R.
  destruct (t_C94_accurate pow mu q f [xi1; fzero; xi3; fzero] T Hm Hq Hf Hx HT (ui_pow _ _ _ _ _ _ _ _ UI)) as (_ & M' & X' & EM' & EX' & Bd). rewrite EX in EX'. apply Ok_inj in EX'. subst X'. rewrite EM in EM'. apply Ok_inj in EM'. subst M'.
  assert (SL : numbers (lower M) = numbers M) by (apply lp_same_lower; apply (proj2 (t_C94_symmetric pow f [xi1; fzero; xi3; fzero] T)); exact EM).
  unfold Ncr_from_lp_f in R. rewrite Ef in R. cbn [bind] in R. apply bind_ok in R. destruct R as (p & Ep & R). apply plate_kept in Ep; [|lia|lia]. subst p.
  cbn [fp_a fp_b fp_Nxx fp_Nyy fp_Nxy fp_m fp_n] in R. rewrite !Nat2Z.id, EM in R. cbn [bind] in R. apply bind_ok in R. destruct R as ((out, vecs) & Er & R). cbn [fst] in R.
  assert (Y := layup_reported pow dec X M a b Nxx Nyy Nxy UI c c0 ca d0 db m n N (lp_off mu q 3 T) nu u K KG P (fun i j Hi Hj => proj2 (Bd i j Hi Hj)) Hn Hs HN Hmm Hnn H U). rewrite SL in Y.
  destruct (Y Hu eigsh eps gam Ac He Hg [l] 5%Z out vecs (critical_lowest _ _ _ _ _ _ _ _ _ _ C) ltac:(constructor; [split; assumption|constructor]) Er) as (_ & Q).
  destruct out as [|y out]; [discriminate R|]. apply Ok_inj in R. subst y. destruct (Q ltac:(cbn; lia) 0%nat l eq_refl) as (z & Ez & Z). cbn in Ez. assert (z = x) by congruence. subst z. exact Z.
Qed.

(*@ C98: what the two optimisers hand to scipy: the loads are normalised first, so all-zero loads raise ZeroDivisionError; a point of the wrong length raises ValueError; the
    objective is minus the buckling load, exactly; an ArpackError of the eigen-solver becomes the load -1, so the objective 1; every other exception is passed on. @*)
Lemma t_C98_handed : forall parse eigsh pow dec (a b T : f64) m n (E1 E2 v12 G12 Nxx Nyy Nxy : f64) c,
  (forall e, normalize_f Nxx Nyy Nxy = Err e -> maximize_objective_f parse eigsh pow dec a b T m n E1 E2 v12 G12 Nxx Nyy Nxy c = Err e /\ weight_constraint_f parse eigsh pow dec a b m n E1 E2 v12 G12 Nxx Nyy Nxy c = Err e) /\
  (forall x y z mx, normalize_f Nxx Nyy Nxy = Ok (x, y, z, mx) -> exists f g,
    maximize_objective_f parse eigsh pow dec a b T m n E1 E2 v12 G12 Nxx Nyy Nxy c = Ok f /\ weight_constraint_f parse eigsh pow dec a b m n E1 E2 v12 G12 Nxx Nyy Nxy c = Ok (g, mx) /\
    (forall y0, List.length y0 <> 2%nat -> f y0 = Err ValueError) /\ (forall y0, List.length y0 <> 3%nat -> g y0 = Err ValueError) /\
    forall t xi1 xi3,
      (forall v, Ncr_from_lp_f parse eigsh pow dec a b T m n xi1 xi3 E1 E2 v12 G12 x y z c = Ok v -> is_finite v = true -> exists r, f [xi1; xi3] = Ok r /\ is_finite r = true /\ B2R r = - B2R v) /\
      (Ncr_from_lp_f parse eigsh pow dec a b T m n xi1 xi3 E1 E2 v12 G12 x y z c = Err ArpackError -> exists r, f [xi1; xi3] = Ok r /\ is_finite r = true /\ B2R r = 1) /\
      (forall e, e <> ArpackError -> Ncr_from_lp_f parse eigsh pow dec a b T m n xi1 xi3 E1 E2 v12 G12 x y z c = Err e -> f [xi1; xi3] = Err e) /\
      (forall v, Ncr_from_lp_f parse eigsh pow dec a b t m n xi1 xi3 E1 E2 v12 G12 x y z c = Ok v -> g [t; xi1; xi3] = Ok v) /\
      (Ncr_from_lp_f parse eigsh pow dec a b t m n xi1 xi3 E1 E2 v12 G12 x y z c = Err ArpackError -> exists r, g [t; xi1; xi3] = Ok r /\ is_finite r = true /\ B2R r = -1) /\
      (forall e, e <> ArpackError -> Ncr_from_lp_f parse eigsh pow dec a b t m n xi1 xi3 E1 E2 v12 G12 x y z c = Err e -> g [t; xi1; xi3] = Err e)).
Proof.
  intros parse eigsh pow dec a b T m n E1 E2 v12 G12 Nxx Nyy Nxy c. split.
  - intros e H. unfold maximize_objective_f, weight_constraint_f. rewrite H. split; reflexivity.
  - intros x y z mx H. unfold maximize_objective_f, weight_constraint_f. rewrite H. cbn [bind]. eexists _, _. split; [reflexivity|]. split; [reflexivity|]. split; [|split].
    + intros [|? [|? [|? ?]]] L; try reflexivity. contradiction L. reflexivity.
    + intros [|? [|? [|? [|? ?]]]] L; try reflexivity. contradiction L. reflexivity.
    + intros t xi1 xi3. assert (V := f_small (-1) eq_refl). repeat split.
      * intros v -> Fv. cbn [eig_or_minus1_f bind]. eexists. split; [reflexivity|]. assert (Mc := @Bmult_correct 53 1024 f64_prec f64_emax mode_NE (f_of_Z (-1)) v). fold (fmul (f_of_Z (-1)) v) in Mc. rewrite (proj2 V) in Mc. replace (-1 * B2R v) with (- B2R v) in Mc by ring.
        rewrite (round_generic radix2 (SpecFloat.fexp 53 1024) (round_mode mode_NE) (- B2R v)) in Mc by (apply generic_format_opp, generic_format_B2R). rewrite Rlt_bool_true in Mc by (rewrite Rabs_Ropp; apply abs_B2R_lt_emax).
        destruct Mc as (A & B & _). split; [|exact A]. etransitivity; [exact B|]. rewrite Fv. reflexivity.
      * intros ->. cbn [eig_or_minus1_f bind]. eexists. split; [reflexivity|]. split; [vm_compute; reflexivity|].
        destruct (mul_rnd (f_of_Z (-1)) (f_of_Z (-1)) (proj1 V) (proj1 V)) as (_ & Rm); [rewrite (proj2 V); replace (-1 * -1) with 1 by ring; rewrite Rabs_R1; apply Rle_trans with (bp 0); [cbn; lra|apply bpow_le; lia]|].
        rewrite Rm, (proj2 V). replace (-1 * -1) with (bp 0) by (cbn; ring). rewrite round_generic; [reflexivity|apply valid_rnd_round_mode|apply generic_format_bpow; cbn; lia].
      * intros e Ne ->. destruct e; try reflexivity. contradiction Ne. reflexivity.
      * intros v ->. reflexivity.
      * intros ->. exists (f_of_Z (-1)). split; [reflexivity|exact V].
      * intros e Ne ->. destruct e; try reflexivity. contradiction Ne. reflexivity.
Qed.
(*@ C98: so a design that satisfies the constraint of the weight problem as computed, for a factor l it reports up to E and G, really has l at least
    max_load / (1 + E + G max_load); a failed solver is never a feasible design. @*)
Lemma t_C98_feasible : forall parse eigsh pow dec (a b : f64) m n (E1 E2 v12 G12 Nxx Nyy Nxy : f64) c g mx t xi1 xi3 x,
  weight_constraint_f parse eigsh pow dec a b m n E1 E2 v12 G12 Nxx Nyy Nxy c = Ok (g, mx) -> is_finite Nxx = true -> is_finite Nyy = true -> is_finite Nxy = true ->
  g [t; xi1; xi3] = Ok x -> is_finite x = true -> B2R mx <= B2R x ->
  exists Nx Ny Nz, normalize_f Nxx Nyy Nxy = Ok (Nx, Ny, Nz, mx) /\ Ncr_from_lp_f parse eigsh pow dec a b t m n xi1 xi3 E1 E2 v12 G12 Nx Ny Nz c = Ok x /\ 0 < B2R mx /\
    forall E G l, 0 <= E -> 0 <= G -> 0 < l -> reports E G l x -> B2R mx / (1 + E + G * B2R mx) <= l.
Proof.
  intros parse eigsh pow dec a b m n E1 E2 v12 G12 Nxx Nyy Nxy c g mx t xi1 xi3 x W F1 F2 F3 Gx Fx Le.
  unfold weight_constraint_f in W. apply bind_ok in W. destruct W as ((((Nx, Ny), Nz), mx') & En & W). apply Ok_inj in W. apply pair_equal_spec in W. destruct W as (Eg & ->).
  assert (Nz0 : ~ (B2R Nxx = 0 /\ B2R Nyy = 0 /\ B2R Nxy = 0)).
  { intros Z. assert (Q := proj2 (t_C93_error Nxx Nyy Nxy ZeroDivisionError F1 F2 F3)). rewrite En in Q. specialize (Q ltac:(split; [reflexivity|exact Z])). discriminate. }
  destruct (t_C93_normalised Nxx Nyy Nxy F1 F2 F3 Nz0) as (x1 & x2 & x3 & mx' & En' & _ & _ & Pm & _). rewrite En in En'. apply Ok_inj in En'. assert (mx' = mx) by congruence. subst mx'. clear En'.
  exists Nx, Ny, Nz. split; [exact En|]. rewrite <- Eg in Gx. unfold eig_or_minus1_f in Gx. destruct (Ncr_from_lp_f _ _ _ _ _ _ _ _ _ _ _ _ _ _ _ _ _ _ _) as [v|e].
  - split; [exact Gx|]. split; [exact Pm|]. intros E G l HE HG Hl (_ & Px & Q). apply Rcomplements.Rabs_le_between in Q.
    assert (I : 1 / B2R x <= 1 / B2R mx) by (apply Rmult_le_compat_l; [lra|]; apply Rinv_le_contravar; lra).
    assert (J : 1 / l <= (1 + E) * (1 / B2R mx) + G) by (assert ((1 + E) * (1 / B2R x) <= (1 + E) * (1 / B2R mx)) by (apply Rmult_le_compat_l; lra); lra).
    apply (Rmult_le_compat_l (l * B2R mx)) in J; [|apply Rmult_le_pos; lra]. replace (l * B2R mx * (1 / l)) with (B2R mx) in J by (field; lra).
    replace (l * B2R mx * ((1 + E) * (1 / B2R mx) + G)) with (l * (1 + E + G * B2R mx)) in J by (field; lra).
    assert (0 <= G * B2R mx) by (apply Rmult_le_pos; lra). apply (Rmult_le_reg_r (1 + E + G * B2R mx)); [lra|]. replace (B2R mx / (1 + E + G * B2R mx) * (1 + E + G * B2R mx)) with (B2R mx) by (field; lra). exact J.
  - exfalso. destruct e; try discriminate. apply Ok_inj in Gx. rewrite <- Gx, (proj2 (f_small (-1) eq_refl)) in Le. lra.
Qed.
(*@ C98: and two designs are ranked rightly up to the bounds: if the computed load of the first is not below that of the second, the exact ones differ by no more. @*)
Lemma t_C98_ranking : forall E G E' G' l l' x x', 0 <= E -> 0 <= G -> 0 <= G' -> 0 <= E' < 1 -> 0 < l -> 0 < l' -> reports E G l x -> reports E' G' l' x' -> B2R x' <= B2R x ->
  1 / l <= (1 + E) / (1 - E') * (1 / l' + G') + G.
Proof.
  intros E G E' G' l l' x x' HE HG HG' HE' Hl Hl' (_ & Px & Q) (_ & Px' & Q') Le. apply Rcomplements.Rabs_le_between in Q. apply Rcomplements.Rabs_le_between in Q'.
  assert (I : 1 / B2R x <= 1 / B2R x') by (apply Rmult_le_compat_l; [lra|]; apply Rinv_le_contravar; lra).
  assert (J : 1 / B2R x' <= (1 / l' + G') / (1 - E')) by (apply (Rmult_le_reg_r (1 - E')); [lra|]; replace ((1 / l' + G') / (1 - E') * (1 - E')) with (1 / l' + G') by (field; lra); lra).
  replace ((1 + E) / (1 - E') * (1 / l' + G')) with ((1 + E) * ((1 / l' + G') / (1 - E'))) by (field; lra).
  assert ((1 + E) * (1 / B2R x) <= (1 + E) * ((1 / l' + G') / (1 - E'))) by (apply Rmult_le_compat_l; lra). lra.
Qed.

(** ** a square pinned plate *)
Definition KX : list (list R) := map (map (fun x => 61 / 248 * x)) [[44/1575; -29/6300; -29/6300; -83/12600]; [-29/6300; 44/1575; -83/12600; -29/6300]; [-29/6300; -83/12600; 44/1575; -29/6300]; [-83/12600; -29/6300; -29/6300; 44/1575]].
Definition GX : list (list R) := [[-4/1575; 2/1575; 2/1575; -1/2100]; [2/1575; -4/1575; -1/2100; 2/1575]; [2/1575; -1/2100; -4/1575; 2/1575]; [-1/2100; 2/1575; 2/1575; -4/1575]].
Definition Xq : mat3 := M3 (183 / 744) (41 / 744) 0 (41 / 744) (183 / 744) 0 0 0 (71 / 744).
Lemma pinnedX : calc_K_KG_D exact_tables (as_arr Xq) 2 2 (-1) (-1) 0 (CStr "PINNED") 2 2 = Ok (KX, GX).
Proof.
  assert (Ec : exists idx, compute_constraints (CStr "PINNED") 2 2 = Ok idx /\ sw_idx idx = [(1, 1); (1, 3); (3, 1); (3, 3)]%nat).
  { eexists. split; [vm_compute; reflexivity|reflexivity]. }
  destruct Ec as (idx & Ec & Es). rewrite (exact_fwd Xq 2 2 (-1) (-1) 0 _ _ _ idx ltac:(lra) ltac:(lra) Ec).
  rewrite Es. cbn [map]. unfold kx, kGf, k33f, exact_e. cbn [fst snd e00 e10 e11 e20 e21 e22].
  destruct ints13_ok as (-> & -> & -> & -> & -> & -> & -> & -> & -> & -> & -> & ->). cbn [Xq a11 a21 a22 a31 a32 a33].
  rewrite (T_ABD.small_int 2 0 1 1 (QArith_base.Qmake (-1)%Z 15%positive)), (T_ABD.small_int 2 0 1 3 (QArith_base.Qmake (1)%Z 60%positive)), (T_ABD.small_int 2 0 3 1 (QArith_base.Qmake (1)%Z 60%positive)), (T_ABD.small_int 2 0 3 3 (QArith_base.Qmake (-1)%Z 15%positive)) by (vm_compute; reflexivity).
  unfold Q2R. cbn [QArith_base.Qnum QArith_base.Qden]. unfold KX, GX. cbn [map]. apply Ok_pair; repeat (apply f_equal2; [try lra; repeat (apply f_equal2; [lra|]); reflexivity|]); reflexivity.
Qed.
Lemma modesX x y z t : let s1 := x + y + z + t in let s2 := x - y + z - t in let s3 := x + y - z - t in let s4 := x - y - z + t in
  quad_rows KX [x; y; z; t] = 61/248 * (153/50400 * s1^2 + 435/50400 * s2^2 + 435/50400 * s3^2 + 11/1440 * s4^2) /\
  quad_rows GX [x; y; z; t] = - (1/8400 * s1^2 + 13/25200 * s2^2 + 13/25200 * s3^2 + 1/720 * s4^2) /\
  sum_sq [x; y; z; t] = 1/4 * s1^2 + 1/4 * s2^2 + 1/4 * s3^2 + 1/4 * s4^2.
Proof. cbv zeta. unfold KX, GX, sum_sq. cbn [map]. rewrite !quad22. cbn [map rsum]. repeat split; field. Qed.
Lemma quadX e : / 20 * dot e e <= quad Xq e.
Proof.
  destruct e as [x y z]. unfold quad, dot, mvec, Xq. cbn [vx vy vz a11 a12 a13 a21 a22 a23 a31 a32 a33]. assert (A := pow2_ge_0 (x + y)). assert (B := pow2_ge_0 x). assert (C := pow2_ge_0 y). assert (D := pow2_ge_0 z). lra.
Qed.
Lemma plateX : plate_ok Xq 2 2 (CStr "PINNED") Pinned Pinned Pinned Pinned 2 2.
Proof.
  constructor; [lra|lra|reflexivity| |exact Sp_pinned|do 4 right; cbn; lia|cbn; lia|cbn; lia].
  intros e Ne. assert (Q := quadX e). destruct e as [x y z]. unfold dot in Q. cbn [vx vy vz] in Q. assert (A := pow2_ge_0 x). assert (B := pow2_ge_0 y). assert (C := pow2_ge_0 z).
  destruct (Req_dec (x * x + y * y + z * z) 0) as [E|E]; [|lra]. exfalso. apply Ne. unfold vzero. f_equal; nra.
Qed.
Lemma pencilX : pencil KX GX.
Proof. apply (t_C42_pencil Xq 2 2 (-1) (-1) 0 (CStr "PINNED") Pinned Pinned Pinned Pinned 2 2); try apply plateX; exact pinnedX. Qed.
Lemma leastX : at_least (1 / 400) KX.
Proof.
  intros v L. destruct (four v L) as (x & y & z & t & ->). destruct (modesX x y z t) as (-> & _ & ->).
  assert (A1 := pow2_ge_0 (x + y + z + t)). assert (A2 := pow2_ge_0 (x - y + z - t)). assert (A3 := pow2_ge_0 (x + y - z - t)). assert (A4 := pow2_ge_0 (x - y - z + t)). lra.
Qed.
Lemma formX v : List.length v = 4%nat -> - (3/4) * quad_rows KX v <= quad_rows GX v <= - (3/20) * quad_rows KX v.
Proof.
  intros L. destruct (four v L) as (x & y & z & t & ->). destruct (modesX x y z t) as (-> & -> & _).
  assert (A1 := pow2_ge_0 (x + y + z + t)). assert (A2 := pow2_ge_0 (x - y + z - t)). assert (A3 := pow2_ge_0 (x + y - z - t)). assert (A4 := pow2_ge_0 (x - y - z + t)). lra.
Qed.
Lemma critX : critical Xq 2 2 (-1) (-1) 0 (CStr "PINNED") 2 2 (671 / 496).
Proof.
  exists KX, GX. split; [exact pinnedX|]. assert (Pn := pencilX). split; [lra|]. split.
  - exists [1; -1; -1; 1]. split; [reflexivity|]. split; [left; lra|].
    unfold KX, GX. cbv [mat_vec dot_list map map2 rsum length repeat]. repeat (apply f_equal2; [field|]). reflexivity.
  - intros l Hl (v & B). assert (Z := buckles_zero KX GX l v Pn B). destruct B as (L & N & _). destruct (four v L) as (x & y & z & t & ->).
    destruct (modesX x y z t) as (EK & EG & ES). rewrite EK, EG in Z. assert (Q := sum_sq_nz _ N). rewrite ES in Q.
    assert (A1 := pow2_ge_0 (x + y + z + t)). assert (A2 := pow2_ge_0 (x - y + z - t)). assert (A3 := pow2_ge_0 (x + y - z - t)). assert (A4 := pow2_ge_0 (x - y - z + t)).
    destruct (Rle_or_lt (671 / 496) l) as [|Lt]; [assumption|exfalso]. nra.
Qed.
Section Ex.
Variables (parse : string -> option f64) (dec : Z -> Z -> f64) (Nz : f64).
Hypotheses (HD : dec_close dec) (Fz : is_finite Nz = true) (Vz : B2R Nz = 0).
Definition ply98 (th : f64) : fomat := made (f_of_Z 4) (f_of_Z 2) (f_of_Z_exp 1 (-2)) (f_of_Z 1) th.
Let f := ply98 (dec 1%Z (-1)%Z).
Let xi := [fzero; fzero; fzero; fzero].
Let T := f_of_Z_exp 1 0.
Lemma tenth : is_finite (dec 1%Z (-1)%Z) = true /\ flt (dec 1%Z (-1)%Z) fzero = false.
Proof.
  assert (P10 : IZR 1 * powerRZ 10 (-1) = / 10) by (change (powerRZ 10 (-1)) with (/ 10 ^ 1); rewrite pow_1; ring). destruct (HD 1%Z (-1)%Z ltac:(lia)) as [F V]; [right; rewrite P10; split; [|lra]|].
  - change (powerRZ 10 (-30)) with (/ 10 ^ 30). apply Rinv_le_contravar; [lra|]. replace 10 with (10 ^ 1) at 1 by ring. apply Rle_pow; [lra|lia].
  - rewrite P10 in V. split; [exact F|]. apply Bool.not_true_is_false. intros C. apply (proj1 (flt_fin (dec 1%Z (-1)%Z) fzero F eq_refl)) in C. change (B2R fzero) with 0 in C. apply Rcomplements.Rabs_le_between in V. unfold unit in V. lra.
Qed.
Lemma made98 : ortho_init parse (oargs5 (PFloat (f_of_Z 4)) (PFloat (f_of_Z 2)) (PFloat (f_of_Z_exp 1 (-2))) (PFloat (f_of_Z 1)) (PFloat (dec 1%Z (-1)%Z))) = Ok f.
Proof. apply make. rewrite (proj2 tenth). vm_compute. reflexivity. Qed.
Lemma lp98 : lp_ply (1 / 2) 8 f.
Proof. destruct ex_lp as [(_ & G2 & G3) G4]. split; [split; [exists parse; eexists; exact made98|split; [destruct G2; constructor; assumption|exact G3]]|exact G4]. Qed.
Lemma xi98 : four_parameters xi.
Proof. split; [reflexivity|]. unfold xi. repeat (apply Forall_cons; [split; [reflexivity|change (B2R fzero) with 0; rewrite Rabs_R0; lra]|]). apply Forall_nil. Qed.
Lemma D98 : exact_D f xi T = Ok Xq.
Proof.
  assert (E : Invariants (Ortho (exact_ply f)) = Ok (183 / 62, 32 / 31, 9 / 62, 41 / 62, 71 / 62)).
  { assert (Q0 : o_Q0 (exact_ply f) = Ok (M3 (128 / 31) (16 / 31) 0 (16 / 31) (64 / 31) 0 0 0 1)) by exact ex_Q0. unfold Invariants. rewrite Q0. cbn [bind]. unfold invariants_of_Q. cbn [a11 a12 a22 a33]. cbv zeta. apply f_equal. apply f_equal2; [apply f_equal2; [apply f_equal2; [apply f_equal2|]|]|]; field. }
  unfold exact_D, construct, xi, T. cbn [map]. rewrite one_val. change (B2R fzero) with 0. cbn -[Invariants]. rewrite E. cbn. f_equal. unfold Xq. f_equal; field.
Qed.
Lemma off98 : lp_off (1 / 2) 8 3 T = 80 * unit.
Proof. unfold lp_off, T. rewrite one_val. field. Qed.
Lemma M98 : exists M, D_lp_f pow_mul f xi T = Ok M /\ usual_inputs pow_mul dec M (f_of_Z 2) (f_of_Z 2) (f_of_Z (-1)) (f_of_Z (-1)) Nz /\
  (forall i j, (i < 3)%nat -> (j < 3)%nat -> Rabs (B2R (M i j) - as_arr Xq i j) <= 80 * unit) /\ numbers (lower M) = numbers M.
Proof.
  destruct (t_C94_accurate pow_mul (1 / 2) 8 f xi T) as (_ & M & X & EM & EX & Bd); [rewrite pz; cbn; lra|rewrite !pz; split; [apply Rle_trans with (bp 0); [apply bpow_le; lia|cbn; lra]|apply Rle_trans with (bp 3); [cbn; lra|apply bpow_le; lia]]|exact lp98|exact xi98|apply usual_of; lia|exact pow_mul_close|].
  rewrite D98 in EX. apply Ok_inj in EX. subst X. rewrite off98 in Bd. exists M. split; [exact EM|]. split; [|split; [intros i j Hi Hj; apply Bd; assumption|]].
  - assert (T2 : usual (f_of_Z 2)) by (apply (usual_of 2 0); lia).
    constructor; [exact pow_mul_close|exact HD| |exact T2|exact T2|apply int_usual0; [reflexivity|lia]|apply int_usual0; [reflexivity|lia]|split; [exact Fz|left; exact Vz]].
    assert (G : forall th i j, (i < 3)%nat -> (j < 3)%nat -> match D_lp_f pow_mul (ply98 th) xi T with Ok N => is_finite (N i j) && (feq (N i j) fzero || (flt (f_of_Z_exp 1 (-20)) (N i j) && flt (N i j) (f_of_Z_exp 1 20))) | Err _ => false end = true).
    { intros th i j Hi Hj. destruct i as [|[|[|i]]]; try lia; (destruct j as [|[|[|j]]]; try lia); vm_compute; reflexivity. }
    intros i j Hi Hj. specialize (G (dec 1%Z (-1)%Z) i j Hi Hj). fold f in G. rewrite EM in G. apply andb_prop in G. destruct G as [G1 G2]. apply usual_bool; assumption.
  - apply lp_same_lower. apply (proj2 (t_C94_symmetric pow_mul f xi T)). exact EM.
Qed.
Let ev := tolerance 10 + 16 * unit.
Lemma k98 M : (forall i j, (i < 3)%nat -> (j < 3)%nat -> Rabs (B2R (M i j) - as_arr Xq i j) <= 80 * unit) -> 0 < ev <= 3 / 1000000000000000 /\ 0 <= INR (2 * 2) * k_off ev (numbers M) 2 2 <= 100 * ev /\
  INR (2 * 2) * kG_off ev (-1) (-1) 0 2 2 = 264 / 10 * ev.
Proof.
  intros B. assert (He : 0 < ev <= 3 / 1000000000000000) by (unfold ev; change (tolerance 10) with (1 / 1000000000000000); unfold unit; lra). split; [exact He|]. split.
  - assert (Y : forall i j, (i < 3)%nat -> (j < 3)%nat -> 0 <= Rabs (B2R (M i j)) <= Rabs (as_arr Xq i j) + / 1000).
    { intros i j Hi Hj. split; [apply Rabs_pos|]. specialize (B i j Hi Hj). replace (B2R (M i j)) with (as_arr Xq i j + (B2R (M i j) - as_arr Xq i j)) by ring. eapply Rle_trans; [apply Rabs_triang|]. apply Rplus_le_compat_l. eapply Rle_trans; [exact B|]. unfold unit. lra. }
    assert (Y0 := Y 0%nat 0%nat ltac:(lia) ltac:(lia)). assert (Y1 := Y 1%nat 0%nat ltac:(lia) ltac:(lia)). assert (Y2 := Y 1%nat 1%nat ltac:(lia) ltac:(lia)). assert (Y3 := Y 2%nat 0%nat ltac:(lia) ltac:(lia)). assert (Y4 := Y 2%nat 1%nat ltac:(lia) ltac:(lia)). assert (Y5 := Y 2%nat 2%nat ltac:(lia) ltac:(lia)).
    cbn in Y0, Y1, Y2, Y3, Y4, Y5. rewrite Rabs_R0 in Y3, Y4. rewrite (Rabs_right (183 / 744)) in Y0, Y2 by lra. rewrite (Rabs_right (41 / 744)) in Y1 by lra. rewrite (Rabs_right (71 / 744)) in Y5 by lra.
    unfold k_off, numbers. cbn [a11 a21 a22 a31 a32 a33]. set (z := _ + _ : R). assert (Z : 0 <= z <= 3) by (unfold z; lra). change (INR (2 * 2)) with (1 + 1 + 1 + 1).
    assert (0 <= ev * z <= ev * 3) by (split; [apply Rmult_le_pos; lra|apply Rmult_le_compat_l; lra]). lra.
  - unfold kG_off. rewrite Rabs_R0, (Rabs_left (-1)) by lra. cbn. field.
Qed.
Definition run98 (eigsh : fsolver) : res f64 := Ncr_from_lp_f parse eigsh pow_mul dec (f_of_Z 2) (f_of_Z 2) T 2 2 fzero fzero (f_of_Z 4) (f_of_Z 2) (f_of_Z_exp 1 (-2)) (f_of_Z 1) (f_of_Z (-1)) (f_of_Z (-1)) Nz (CStr "PINNED").
Lemma close98 eps gam eigsh x : 0 <= eps <= 1 / 1000000000000 -> 0 <= gam <= 1 / 1000000000000 -> accurate_to eps gam eigsh -> run98 eigsh = Ok x -> is_finite x = true /\ Rabs (B2R x - 671 / 496) <= 1 / 100000000.
Proof.
  intros He Hg Ac R. destruct M98 as (M & EM & UI & Bd & SL). destruct (k98 M Bd) as (Hv & HK & HG). assert (uv : unit = / 9007199254740992) by (unfold unit; lra).
  assert (P2 := proj2 (f_small 2 eq_refl)). assert (P1 := proj2 (f_small (-1) eq_refl)).
  assert (Y := t_C98_ncr parse eigsh eps gam (1 / 2) 8 (/ 20) f T fzero fzero (f_of_Z 4) (f_of_Z 2) (f_of_Z_exp 1 (-2)) (f_of_Z 1) Xq M pow_mul dec (f_of_Z 2) (f_of_Z 2) (f_of_Z (-1)) (f_of_Z (-1)) Nz (CStr "PINNED") Pinned Pinned Pinned Pinned 2 2 10 (1 / 400) KX GX (671 / 496) x
    Ac ltac:(lra) ltac:(lra) made98 ltac:(rewrite pz; cbn; lra) ltac:(rewrite !pz; split; [apply Rle_trans with (bp 0); [apply bpow_le; lia|cbn; lra]|apply Rle_trans with (bp 3); [cbn; lra|apply bpow_le; lia]]) lp98 xi98 ltac:(apply usual_of; lia) D98).
  rewrite P2, P1, Vz, off98 in Y. fold ev in Y. rewrite HG in Y. specialize (Y plateX quadX ltac:(lra) EM UI ltac:(lia) ltac:(cbn; lia) ltac:(cbn; lia) pinnedX leastX). cbv zeta in Y.
  set (d := 3 * (80 * unit) / / 20) in *. assert (Hd : 0 < d <= 1 / 1000000000000) by (unfold d; rewrite uv; lra).
  set (kk := INR (2 * 2) * k_off ev (numbers M) 2 2) in *. set (e := kk / ((1 - d) * (1 / 400))) in *. set (g := 264 / 10 * ev / ((1 - d) * (1 / 400))) in *.
  assert (Q : forall w, 0 <= w <= 100 * ev -> 0 <= w / ((1 - d) * (1 / 400)) <= 2 / 10000000000).
  { intros w Hw. assert (0 < (1 - d) * (1 / 400)) by (apply Rmult_lt_0_compat; lra). split; [apply Rmult_le_pos; [lra|left; apply Rinv_0_lt_compat; assumption]|]. apply (Rmult_le_reg_r ((1 - d) * (1 / 400))); [assumption|].
    replace (w / ((1 - d) * (1 / 400)) * ((1 - d) * (1 / 400))) with w by (field; lra). lra. }
  assert (He1 := Q kk HK). fold e in He1. assert (Hg1 : 0 <= g <= 2 / 10000000000) by (apply Q; lra). clear Q.
  set (E0 := d + e * (1 + d)) in *. assert (HE0 : 0 <= E0 <= 3 / 10000000000) by (unfold E0; assert (0 <= e * (1 + d) <= 2 / 10000000000 * (1 + 1 / 1000)) by (split; [apply Rmult_le_pos; lra|apply Rmult_le_compat; lra]); lra).
  set (EE := E0 + eps * (1 + E0)) in *. set (GG := g * (1 + d) + gam * (1 + E0)) in *.
  assert (HEE : 0 <= EE <= 4 / 10000000000) by (unfold EE; assert (0 <= eps * (1 + E0) <= 1 / 1000000000000 * (1 + 1)) by (split; [apply Rmult_le_pos; lra|apply Rmult_le_compat; lra]); lra).
  assert (HGG : 0 <= GG <= 4 / 10000000000) by (unfold GG; assert (0 <= gam * (1 + E0) <= 1 / 1000000000000 * (1 + 1)) by (split; [apply Rmult_le_pos; lra|apply Rmult_le_compat; lra]); assert (0 <= g * (1 + d) <= 2 / 10000000000 * (1 + 1 / 1000)) by (split; [apply Rmult_le_pos; lra|apply Rmult_le_compat; lra]); lra).
  assert (Tiny : powerRZ 2 (-900) <= 1 / 16) by (rewrite pow2_bp; replace (1 / 16) with (bp (-4)) by (cbn; lra); apply bpow_le; lia).
  destruct (Y ltac:(lra) critX ltac:(lra) ltac:(lra) R) as (Fx & Px & Qx). split; [exact Fx|].
  assert (W : EE * (1 + unit) + unit <= 5 / 10000000000) by (rewrite uv; nra). set (w := EE * (1 + unit) + unit) in *. set (y := B2R x) in *.
  assert (Qy : Rabs (1 / (671 / 496) - 1 / y) <= 5 / 10000000000 * (1 / y) + 5 / 10000000000).
  { eapply Rle_trans; [exact Qx|]. apply Rplus_le_compat; [|lra]. apply Rmult_le_compat_r; [apply Rlt_le, Rdiv_lt_0_compat; lra|exact W]. }
  apply Rcomplements.Rabs_le_between in Qy. destruct Qy as [Q1 Q2]. apply (Rmult_le_compat_l (671 / 496 * y)) in Q1, Q2; try (apply Rmult_le_pos; lra).
  replace (671 / 496 * y * (1 / (671 / 496) - 1 / y)) with (y - 671 / 496) in * by (field; lra). replace (671 / 496 * y * (5 / 10000000000 * (1 / y) + 5 / 10000000000)) with (671 / 496 * (5 / 10000000000) * (1 + y)) in Q2 by (field; lra). replace (671 / 496 * y * - (5 / 10000000000 * (1 / y) + 5 / 10000000000)) with (- (671 / 496 * (5 / 10000000000) * (1 + y))) in Q1 by (field; lra).
  apply Rabs_le. lra.
Qed.
Lemma runs98 : exists eigsh x, accurate_to 0 (2 * unit) eigsh /\ run98 eigsh = Ok x.
Proof.
  destruct M98 as (M & EM & UI & Bd & SL). destruct (k98 M Bd) as (Hv & HK & HG). assert (uv : unit = / 9007199254740992) by (unfold unit; lra).
  assert (P2 := proj2 (f_small 2 eq_refl)). assert (P1 := proj2 (f_small (-1) eq_refl)).
  assert (X := layup_near pow_mul dec Xq M (f_of_Z 2) (f_of_Z 2) (f_of_Z (-1)) (f_of_Z (-1)) Nz UI (CStr "PINNED") Pinned Pinned Pinned Pinned 2 2 10 (80 * unit) (/ 20) (1 / 400) KX GX).
  rewrite P2, P1, Vz, SL in X. fold ev in X. rewrite HG in X. specialize (X plateX Bd quadX ltac:(lra) ltac:(lia) ltac:(cbn; lia) ltac:(cbn; lia) pinnedX leastX).
  set (d := 3 * (80 * unit) / / 20) in *. assert (Hd : 0 < d <= 1 / 1000000000000) by (unfold d; rewrite uv; lra). specialize (X ltac:(lra)).
  set (e := INR (2 * 2) * k_off ev (numbers M) 2 2 / ((1 - d) * (1 / 400))) in *. set (g := 264 / 10 * ev / ((1 - d) * (1 / 400))) in *.
  assert (Q : forall w, 0 <= w <= 100 * ev -> 0 <= w / ((1 - d) * (1 / 400)) <= 2 / 10000000000).
  { intros w Hw. assert (0 < (1 - d) * (1 / 400)) by (apply Rmult_lt_0_compat; lra). split; [apply Rmult_le_pos; [lra|left; apply Rinv_0_lt_compat; assumption]|]. apply (Rmult_le_reg_r ((1 - d) * (1 / 400))); [assumption|].
    replace (w / ((1 - d) * (1 / 400)) * ((1 - d) * (1 / 400))) with w by (field; lra). lra. }
  assert (He1 := Q _ HK). fold e in He1. assert (Hg1 : 0 <= g <= 2 / 10000000000) by (apply Q; lra). clear Q.
  set (k1 := d + e * (1 + d)) in *. set (k2 := g * (1 + d)) in *. assert (B1 : 0 <= k1 <= 1 / 100) by (unfold k1; assert (0 <= e * (1 + d) <= 2 / 10000000000 * (1 + 1)) by (split; [apply Rmult_le_pos; lra|apply Rmult_le_compat; lra]); lra).
  assert (B2 : 0 <= k2 <= 1 / 100) by (unfold k2; assert (0 <= g * (1 + d) <= 2 / 10000000000 * (1 + 1)) by (split; [apply Rmult_le_pos; lra|apply Rmult_le_compat; lra]); lra).
  destruct X as (_ & _ & _ & _ & K1 & G1 & H1 & Fk & Fg & Pn & Nr & Lk). change (2 * 2)%nat with 4%nat in Lk.
  assert (L4 : List.length K1 = 4%nat) by (assert (Q := nr_len _ _ _ _ _ _ Nr); unfold reals in Q; rewrite map_length in Q; exact Q).
  destruct (t_C97_solver G1 K1 2 Pn ltac:(lia)) as (eigsh & (vals, vs) & Ac & Ev).
  - intros mu v Gp. assert (Q := gen_quad _ _ _ _ Pn Gp). destruct Gp as (Lv & Nv & _). assert (Lv4 : List.length v = 4%nat) by (rewrite Lv; unfold reals; rewrite map_length; exact L4).
    assert (F := formX v Lv4). assert (N1 := nr_K _ _ _ _ _ _ Nr v Lv4). assert (N2 := nr_KG _ _ _ _ _ _ Nr v Lv4). assert (Ps := quad_pos _ _ v pencilX Lv4 Nv).
    assert (Ps' := quad_pos _ _ v Pn Lv Nv). rewrite Q in N2. set (s := quad_rows KX v) in *. set (s' := quad_rows (reals K1) v) in *. set (h := quad_rows GX v) in *.
    apply Rcomplements.Rabs_le_between in N1. apply Rcomplements.Rabs_le_between in N2.
    assert (W1 : k1 * s <= 1 / 100 * s) by (apply Rmult_le_compat_r; lra). assert (W2 : k2 * s <= 1 / 100 * s) by (apply Rmult_le_compat_r; lra).
    split; apply (Rmult_le_reg_r s'); lra.
  - destruct (proj2 (Ac G1 K1 2%Z) vals vs) as (_ & A2 & M2 & ws & _ & _ & Er); [exact Fg|exact Fk|exact Pn|exact Ev|].
    assert (Lw := er_count _ _ _ _ _ Er). rewrite map_length in Lw. destruct vals as [|v0 vals]; [discriminate Lw|].
    exists eigsh, (fneg_recip v0). split; [exact Ac|]. unfold run98, Ncr_from_lp_f. rewrite made98. cbn [bind].
    assert (Ep : plate_init parse true (PFloat (f_of_Z 2)) (PFloat (f_of_Z 2)) (PFloat (f_of_Z (-1))) (PFloat (f_of_Z (-1))) (PFloat Nz) (PInt (Z.of_nat 2)) (PInt (Z.of_nat 2)) = Ok (FPlate (f_of_Z 2) (f_of_Z 2) (f_of_Z (-1)) (f_of_Z (-1)) Nz 2 2)) by reflexivity.
    rewrite Ep. cbn [bind fp_a fp_b fp_Nxx fp_Nyy fp_Nxy fp_m fp_n]. change (Z.to_nat 2) with 2%nat. fold xi. rewrite EM. cbn [bind]. unfold buckling_float. rewrite H1. cbn [bind fst snd].
    assert (Ek : Z.min 5 (Z.of_nat (List.length G1) - 2) = 2%Z) by (rewrite Lk; reflexivity).
    change (bind (bind (eigsh G1 K1 (Z.min 5 (Z.of_nat (List.length G1) - 2))) (fun r => Ok (map fneg_recip (fst r), snd r))) (fun r => match fst r with [] => Err IndexError | x :: _ => Ok x end) = Ok (fneg_recip v0)). rewrite Ek, Ev. reflexivity.
Qed.
End Ex.
Lemma norm98 : exists z mx, normalize_f (f_of_Z (-1)) (f_of_Z (-1)) fzero = Ok (f_of_Z (-1), f_of_Z (-1), z, mx) /\ is_finite z = true /\ B2R z = 0 /\ B2R mx = 1.
Proof.
  destruct (f_small (-1) eq_refl) as [F1 V1].
  destruct (t_C93_normalised (f_of_Z (-1)) (f_of_Z (-1)) fzero F1 F1 eq_refl ltac:(rewrite V1; lra)) as (x & y & z & mx & E & _ & Vm & _ & Q & _).
  assert (Em : B2R mx = 1) by (rewrite Vm, V1; change (B2R fzero) with 0; unfold largest; rewrite Rabs_R0, (Rabs_left (-1)) by lra; unfold Rmax; repeat destruct Rle_dec; lra).
  assert (Y : forall v, In (f_of_Z (-1), v) [(f_of_Z (-1), x); (f_of_Z (-1), y); (fzero, z)] -> v = f_of_Z (-1)).
  { intros v I. destruct (Q _ _ I) as (Nv & _ & Sg & _ & Ab). rewrite V1, Em in *. specialize (Ab ltac:(rewrite Rabs_left; lra)). 
    assert (Ev : B2R v = -1) by (unfold Rabs in Ab; destruct Rcase_abs in Ab; lra). apply B2R_inj; [destruct v; cbn in Ev; try reflexivity; lra|reflexivity|rewrite Ev, V1; reflexivity]. }
  assert (Ex := Y x (or_introl eq_refl)). assert (Ey := Y y (or_intror (or_introl eq_refl))). subst x y. exists z, mx. split; [exact E|].
  destruct (Q fzero z ltac:(do 2 right; left; reflexivity)) as (Nz & _ & _ & Bz & _). change (B2R fzero) with 0 in *. split; [apply Nz|]. split; [|exact Em].
  assert (Q0 := proj2 Nz fzero eq_refl). change (B2R fzero) with 0 in Q0. rewrite Em in Q0. replace (0 / 1) with 0 in Q0 by field. rewrite !Rminus_0_r, Rabs_R0 in Q0.
  assert (A := Rabs_pos (B2R z)). destruct (Req_dec (B2R z) 0) as [|C]; [assumption|]. apply Rabs_pos_lt in C. lra.
Qed.
(*@ C98 example: the ply of C94 (e1 = 4, e2 = 2, v12 = 1/4, g12 = 1) with all parameters zero and thickness 1 on a pinned square plate of side 2 under equal compression. The exact
    critical factor is 671/496. There is an accurate solver that answers, and every solver accurate to 10^-12 gives a buckling load within 10^-8; the same for what the
    optimisers hand to scipy, where a load that satisfies the constraint is within 10^-8 too. @*)
Example t_C98_ex : exists pow, pow_close pow /\ forall parse dec, dec_close dec ->
  critical (M3 (183 / 744) (41 / 744) 0 (41 / 744) (183 / 744) 0 0 0 (71 / 744)) 2 2 (-1) (-1) 0 (CStr "PINNED") 2 2 (671 / 496) /\
  (exists eigsh x, accurate_to 0 (2 * unit) eigsh /\
     Ncr_from_lp_f parse eigsh pow dec (f_of_Z 2) (f_of_Z 2) (f_of_Z 1) 2 2 fzero fzero (f_of_Z 4) (f_of_Z 2) (f_of_Z_exp 1 (-2)) (f_of_Z 1) (f_of_Z (-1)) (f_of_Z (-1)) fzero (CStr "PINNED") = Ok x) /\
  forall eps gam eigsh, 0 <= eps <= 1 / 1000000000000 -> 0 <= gam <= 1 / 1000000000000 -> accurate_to eps gam eigsh ->
    (forall x, Ncr_from_lp_f parse eigsh pow dec (f_of_Z 2) (f_of_Z 2) (f_of_Z 1) 2 2 fzero fzero (f_of_Z 4) (f_of_Z 2) (f_of_Z_exp 1 (-2)) (f_of_Z 1) (f_of_Z (-1)) (f_of_Z (-1)) fzero (CStr "PINNED") = Ok x ->
       is_finite x = true /\ Rabs (B2R x - 671 / 496) <= 1 / 100000000) /\
    exists f g mx, maximize_objective_f parse eigsh pow dec (f_of_Z 2) (f_of_Z 2) (f_of_Z 1) 2 2 (f_of_Z 4) (f_of_Z 2) (f_of_Z_exp 1 (-2)) (f_of_Z 1) (f_of_Z (-1)) (f_of_Z (-1)) fzero (CStr "PINNED") = Ok f /\
      weight_constraint_f parse eigsh pow dec (f_of_Z 2) (f_of_Z 2) 2 2 (f_of_Z 4) (f_of_Z 2) (f_of_Z_exp 1 (-2)) (f_of_Z 1) (f_of_Z (-1)) (f_of_Z (-1)) fzero (CStr "PINNED") = Ok (g, mx) /\
      B2R mx = 1 /\ (forall r, f [fzero; fzero] = Ok r -> B2R r = 1 \/ Rabs (B2R r + 671 / 496) <= 1 / 100000000) /\
      (forall x, g [f_of_Z 1; fzero; fzero] = Ok x -> B2R mx <= B2R x -> Rabs (B2R x - 671 / 496) <= 1 / 100000000).
Proof.
  exists pow_mul. split; [exact pow_mul_close|]. intros parse dec HD. split; [exact critX|]. split; [exact (runs98 parse dec fzero HD eq_refl eq_refl)|].
  intros eps gam eigsh He Hg Ac. split; [intros x R; exact (close98 parse dec fzero HD eq_refl eq_refl eps gam eigsh x He Hg Ac R)|].
  destruct norm98 as (z & mx & En & Fz & Vz & Em).
  destruct (proj2 (t_C98_handed parse eigsh pow_mul dec (f_of_Z 2) (f_of_Z 2) (f_of_Z 1) 2 2 (f_of_Z 4) (f_of_Z 2) (f_of_Z_exp 1 (-2)) (f_of_Z 1) (f_of_Z (-1)) (f_of_Z (-1)) fzero (CStr "PINNED")) _ _ _ _ En) as (f & g & Ef & Eg & _ & _ & H).
  exists f, g, mx. split; [exact Ef|]. split; [exact Eg|]. split; [exact Em|]. destruct (H (f_of_Z 1) fzero fzero) as (H1 & H2 & H3 & H4 & H5 & H6).
  assert (C := close98 parse dec z HD Fz Vz eps gam eigsh). unfold run98 in C. change (f_of_Z_exp 1 0) with (f_of_Z 1) in C.
  destruct (Ncr_from_lp_f parse eigsh pow_mul dec (f_of_Z 2) (f_of_Z 2) (f_of_Z 1) 2 2 fzero fzero (f_of_Z 4) (f_of_Z 2) (f_of_Z_exp 1 (-2)) (f_of_Z 1) (f_of_Z (-1)) (f_of_Z (-1)) z (CStr "PINNED")) as [v|e].
  - destruct (C v He Hg Ac eq_refl) as (Fv & Bv). split.
    + intros r Er. right. destruct (H1 v eq_refl Fv) as (r' & Er' & _ & Vr). rewrite Er in Er'. apply Ok_inj in Er'. subst r'. rewrite Vr. replace (- B2R v + 671 / 496) with (- (B2R v - 671 / 496)) by ring. rewrite Rabs_Ropp. exact Bv.
    + intros x Ex _. rewrite (H4 v eq_refl) in Ex. apply Ok_inj in Ex. subst x. exact Bv.
  - assert (D : e = ArpackError \/ e <> ArpackError) by (destruct e; (left; reflexivity) || (right; discriminate)). split.
    + intros r Er. left. destruct D as [-> |D]; [|assert (Z := H3 e D eq_refl); rewrite Er in Z; discriminate Z]. destruct (H2 eq_refl) as (r' & Er' & _ & Vr). rewrite Er in Er'. apply Ok_inj in Er'. subst r'. exact Vr.
    + intros x Ex Le. exfalso. destruct D as [-> |D]; [|assert (Z := H6 e D eq_refl); rewrite Ex in Z; discriminate Z]. destruct (H5 eq_refl) as (r' & Er' & _ & Vr). rewrite Ex in Er'. apply Ok_inj in Er'. subst r'. lra.
Qed.

(** ** two plies on the same plate *)
Definition Xl : mat3 := M3 (1 / 248) (1 / 1488) 0 (1 / 1488) (1 / 248) 0 0 0 (1 / 768).
Definition p_q (A B : R) : R := 1 / 248 * A + 13 / 1984 * B.
Definition KL : list (list R) := let x := p_q (2/105) (1/225) in let y := p_q (-1/420) (-1/900) in let z := p_q (-1/140) (1/3600) in [[x; y; y; z]; [y; x; z; y]; [y; z; x; y]; [z; y; y; x]].
Definition GL : list (list R) := map (map (fun x => / 128 * x)) GX.
Lemma pinnedL : calc_K_KG_D exact_tables (as_arr Xl) 2 2 (- / 128) (- / 128) 0 (CStr "PINNED") 2 2 = Ok (KL, GL).
Proof.
  assert (Ec : exists idx, compute_constraints (CStr "PINNED") 2 2 = Ok idx /\ sw_idx idx = [(1, 1); (1, 3); (3, 1); (3, 3)]%nat).
  { eexists. split; [vm_compute; reflexivity|reflexivity]. }
  destruct Ec as (idx & Ec & Es). rewrite (exact_fwd Xl 2 2 (- / 128) (- / 128) 0 _ _ _ idx ltac:(lra) ltac:(lra) Ec).
  rewrite Es. cbn [map]. unfold kx, kGf, k33f, exact_e. cbn [fst snd e00 e10 e11 e20 e21 e22].
  destruct ints13_ok as (-> & -> & -> & -> & -> & -> & -> & -> & -> & -> & -> & ->). cbn [Xl a11 a21 a22 a31 a32 a33].
  rewrite (T_ABD.small_int 2 0 1 1 (QArith_base.Qmake (-1)%Z 15%positive)), (T_ABD.small_int 2 0 1 3 (QArith_base.Qmake (1)%Z 60%positive)), (T_ABD.small_int 2 0 3 1 (QArith_base.Qmake (1)%Z 60%positive)), (T_ABD.small_int 2 0 3 3 (QArith_base.Qmake (-1)%Z 15%positive)) by (vm_compute; reflexivity).
  unfold Q2R. cbn [QArith_base.Qnum QArith_base.Qden]. unfold KL, GL, GX, p_q. cbn [map]. apply Ok_pair; repeat (apply f_equal2; [try lra; repeat (apply f_equal2; [lra|]); reflexivity|]); reflexivity.
Qed.
Lemma modesL x y z t : let s1 := x + y + z + t in let s2 := x - y + z - t in let s3 := x + y - z - t in let s4 := x - y - z + t in
  quad_rows KL [x; y; z; t] = 1/4 * (p_q (1/140) (1/400) * s1^2 + p_q (11/420) (1/240) * s2^2 + p_q (11/420) (1/240) * s3^2 + p_q (1/60) (1/144) * s4^2) /\
  quad_rows GL [x; y; z; t] = - (/ 128) * (1/8400 * s1^2 + 13/25200 * s2^2 + 13/25200 * s3^2 + 1/720 * s4^2) /\
  sum_sq [x; y; z; t] = 1/4 * s1^2 + 1/4 * s2^2 + 1/4 * s3^2 + 1/4 * s4^2.
Proof. cbv zeta. unfold KL, GL, GX, sum_sq, p_q. cbn [map]. cbv zeta. rewrite !quad22. cbn [map rsum]. repeat split; field. Qed.
Lemma quadL e : / 1000 * dot e e <= quad Xl e.
Proof.
  destruct e as [x y z]. unfold quad, dot, mvec, Xl. cbn [vx vy vz a11 a12 a13 a21 a22 a23 a31 a32 a33]. assert (A := pow2_ge_0 (x + y)). assert (B := pow2_ge_0 x). assert (C := pow2_ge_0 y). assert (D := pow2_ge_0 z). lra.
Qed.
Lemma plateL : plate_ok Xl 2 2 (CStr "PINNED") Pinned Pinned Pinned Pinned 2 2.
Proof.
  constructor; [lra|lra|reflexivity| |exact Sp_pinned|do 4 right; cbn; lia|cbn; lia|cbn; lia].
  intros e Ne. assert (Q := quadL e). destruct e as [x y z]. unfold dot in Q. cbn [vx vy vz] in Q. assert (A := pow2_ge_0 x). assert (B := pow2_ge_0 y). assert (C := pow2_ge_0 z).
  destruct (Req_dec (x * x + y * y + z * z) 0) as [E|E]; [|lra]. exfalso. apply Ne. unfold vzero. f_equal; nra.
Qed.
Lemma pencilL : pencil KL GL.
Proof. apply (t_C42_pencil Xl 2 2 (- / 128) (- / 128) 0 (CStr "PINNED") Pinned Pinned Pinned Pinned 2 2); try apply plateL; exact pinnedL. Qed.
Lemma leastL : at_least (1 / 25000) KL.
Proof.
  intros v L. destruct (four v L) as (x & y & z & t & ->). destruct (modesL x y z t) as (-> & _ & ->). unfold p_q.
  assert (A1 := pow2_ge_0 (x + y + z + t)). assert (A2 := pow2_ge_0 (x - y + z - t)). assert (A3 := pow2_ge_0 (x + y - z - t)). assert (A4 := pow2_ge_0 (x - y - z + t)). lra.
Qed.
Lemma formL v : List.length v = 4%nat -> - (3/4) * quad_rows KL v <= quad_rows GL v <= - (1/20) * quad_rows KL v.
Proof.
  intros L. destruct (four v L) as (x & y & z & t & ->). destruct (modesL x y z t) as (-> & -> & _). unfold p_q.
  assert (A1 := pow2_ge_0 (x + y + z + t)). assert (A2 := pow2_ge_0 (x - y + z - t)). assert (A3 := pow2_ge_0 (x + y - z - t)). assert (A4 := pow2_ge_0 (x - y - z + t)). lra.
Qed.
Lemma critL : critical Xl 2 2 (- / 128) (- / 128) 0 (CStr "PINNED") 2 2 (161 / 62).
Proof.
  exists KL, GL. split; [exact pinnedL|]. assert (Pn := pencilL). split; [lra|]. split.
  - exists [1; -1; -1; 1]. split; [reflexivity|]. split; [left; lra|].
    unfold KL, GL, GX, p_q. cbv [mat_vec dot_list map map2 rsum length repeat]. repeat (apply f_equal2; [field|]). reflexivity.
  - intros l Hl (v & B). assert (Z := buckles_zero KL GL l v Pn B). destruct B as (L & N & _). destruct (four v L) as (x & y & z & t & ->).
    destruct (modesL x y z t) as (EK & EG & ES). rewrite EK, EG in Z. unfold p_q in Z. assert (Q := sum_sq_nz _ N). rewrite ES in Q.
    assert (A1 := pow2_ge_0 (x + y + z + t)). assert (A2 := pow2_ge_0 (x - y + z - t)). assert (A3 := pow2_ge_0 (x + y - z - t)). assert (A4 := pow2_ge_0 (x - y - z + t)).
    destruct (Rle_or_lt (161 / 62) l) as [|Lt]; [assumption|exfalso]. nra.
Qed.
Lemma total98 : total ex_lay = 1 / 4. Proof. unfold total, height, ex_lay, ex_ply. cbn [map snd f_thickness made fo_thickness rsum]. rewrite T_MatFloat.val by lia. cbn. lra. Qed.
Lemma offL : matrix_off 0 (1 / 2) 8 3 ex_lay = 2460 * unit / 8. Proof. unfold matrix_off, ply_units. rewrite total98. cbn [length ex_lay INR]. field. Qed.
Lemma mu98 : powerRZ 2 (-40) <= 1 / 2. Proof. rewrite pz. cbn. lra. Qed.
Lemma q98 : powerRZ 2 (-200) <= 8 <= powerRZ 2 190. Proof. rewrite !pz. split; [apply Rle_trans with (bp 0); [apply bpow_le; lia|cbn; lra]|apply Rle_trans with (bp 3); [cbn; lra|apply bpow_le; lia]]. Qed.
Lemma ML98 pow dec : pow_close pow -> dec_close dec -> exists M, D_f ex_np ex_lay = Ok M /\ usual_inputs pow dec M (f_of_Z 2) (f_of_Z 2) (f_of_Z_exp (-1) (-7)) (f_of_Z_exp (-1) (-7)) fzero /\
  (forall i j, (i < 3)%nat -> (j < 3)%nat -> Rabs (B2R (M i j) - as_arr Xl i j) <= 2460 * unit / 8).
Proof.
  intros HP HD. destruct (t_C88_matrices ex_np 0 (1 / 2) 8 3 ex_lay ltac:(lia) ex_good ltac:(lra) mu98 q98) as (M & X & EM & EX & Bd). change (matrix_f ex_np 3 ex_lay) with (D_f ex_np ex_lay) in EM.
  rewrite ex_D in EX. apply Ok_inj in EX. subst X. rewrite offL in Bd. exists M. split; [exact EM|]. split; [|intros i j Hi Hj; apply Bd; assumption].
  assert (T2 : usual (f_of_Z 2)) by (apply (usual_of 2 0); lia).
  assert (UN : usual0 (f_of_Z_exp (-1) (-7))). { split; [reflexivity|right]. rewrite T_MatFloat.val by lia. rewrite Rabs_mult, (Rabs_left (-1)), (Rabs_right (bp (-7))) by (try apply Rle_ge, bpow_ge_0; lra). rewrite !pz. replace (- -1 * bp (-7)) with (bp (-7)) by ring. split; apply bpow_le; lia. }
  constructor; [exact HP|exact HD| |exact T2|exact T2|exact UN|exact UN|apply zero_usual0].
  assert (G : forall i j, (i < 3)%nat -> (j < 3)%nat -> match D_f ex_np ex_lay with Ok N => is_finite (N i j) && (feq (N i j) fzero || (flt (f_of_Z_exp 1 (-20)) (N i j) && flt (N i j) (f_of_Z_exp 1 20))) | Err _ => false end = true).
  { intros i j Hi Hj. destruct i as [|[|[|i]]]; try lia; (destruct j as [|[|[|j]]]; try lia); vm_compute; reflexivity. }
  intros i j Hi Hj. specialize (G i j Hi Hj). rewrite EM in G. apply andb_prop in G. destruct G as [G1 G2]. apply usual_bool; assumption.
Qed.
Lemma kL98 M : (forall i j, (i < 3)%nat -> (j < 3)%nat -> Rabs (B2R (M i j) - as_arr Xl i j) <= 2460 * unit / 8) -> let ev := tolerance 10 + 16 * unit in 0 < ev <= 3 / 1000000000000000 /\
  0 <= INR (2 * 2) * k_off ev (numbers (lower M)) 2 2 <= ev /\ INR (2 * 2) * kG_off ev (- / 128) (- / 128) 0 2 2 = 264 / 1280 * ev.
Proof.
  intros B ev. assert (He : 0 < ev <= 3 / 1000000000000000) by (unfold ev; change (tolerance 10) with (1 / 1000000000000000); unfold unit; lra). split; [exact He|]. split.
  - assert (Y : forall i j, (i < 3)%nat -> (j < 3)%nat -> 0 <= Rabs (B2R (M i j)) <= Rabs (as_arr Xl i j) + / 100000).
    { intros i j Hi Hj. split; [apply Rabs_pos|]. specialize (B i j Hi Hj). replace (B2R (M i j)) with (as_arr Xl i j + (B2R (M i j) - as_arr Xl i j)) by ring. eapply Rle_trans; [apply Rabs_triang|]. apply Rplus_le_compat_l. eapply Rle_trans; [exact B|]. unfold unit. lra. }
    assert (Y0 := Y 0%nat 0%nat ltac:(lia) ltac:(lia)). assert (Y1 := Y 1%nat 0%nat ltac:(lia) ltac:(lia)). assert (Y2 := Y 1%nat 1%nat ltac:(lia) ltac:(lia)). assert (Y3 := Y 2%nat 0%nat ltac:(lia) ltac:(lia)). assert (Y4 := Y 2%nat 1%nat ltac:(lia) ltac:(lia)). assert (Y5 := Y 2%nat 2%nat ltac:(lia) ltac:(lia)).
    cbn in Y0, Y1, Y2, Y3, Y4, Y5. rewrite Rabs_R0 in Y3, Y4. rewrite (Rabs_right (1 / 248)) in Y0, Y2 by lra. rewrite (Rabs_right (1 / 1488)) in Y1 by lra. rewrite (Rabs_right (1 / 768)) in Y5 by lra.
    unfold k_off, numbers. cbn [a11 a21 a22 a31 a32 a33]. unfold lower. cbn [Nat.leb Nat.ltb]. set (z := _ + _ : R). assert (Z : 0 <= z <= / 50) by (unfold z; lra). change (INR (2 * 2)) with (1 + 1 + 1 + 1).
    assert (0 <= ev * z <= ev * / 50) by (split; [apply Rmult_le_pos; lra|apply Rmult_le_compat_l; lra]). lra.
  - unfold kG_off. rewrite Rabs_R0, (Rabs_left (- / 128)) by lra. cbn. field.
Qed.
(*@ C98 example: the two plies of C88 on the pinned square plate of side 2 under equal compression 1/128: the exact factor is 161/62; every solver accurate to 10^-12 that answers
    makes the analysis report a first value within 10^-8 of it, and there is one that answers. @*)
Example t_C98_ex_layup : exists np l (D : mat3), good_layup np 0 (1 / 2) 8 l /\ attribute 3 (exact_layup l) = Ok D /\ forall pow dec, pow_close pow -> dec_close dec ->
  critical D 2 2 (- / 128) (- / 128) 0 (CStr "PINNED") 2 2 (161 / 62) /\
  (exists eigsh out vecs, accurate_to 0 (2 * unit) eigsh /\
     buckling_layup_f eigsh np pow dec l (f_of_Z 2) (f_of_Z 2) (f_of_Z_exp (-1) (-7)) (f_of_Z_exp (-1) (-7)) fzero (CStr "PINNED") 2 2 5 = Ok (out, vecs)) /\
  forall eps gam eigsh out vecs, 0 <= eps <= 1 / 1000000000000 -> 0 <= gam <= 1 / 1000000000000 -> accurate_to eps gam eigsh ->
    buckling_layup_f eigsh np pow dec l (f_of_Z 2) (f_of_Z 2) (f_of_Z_exp (-1) (-7)) (f_of_Z_exp (-1) (-7)) fzero (CStr "PINNED") 2 2 5 = Ok (out, vecs) ->
    exists x rest, out = x :: rest /\ is_finite x = true /\ Rabs (B2R x - 161 / 62) <= 1 / 100000000.
Proof.
  exists ex_np, ex_lay, Xl. split; [exact ex_good|]. split; [exact ex_D|]. intros pow dec HP HD. split; [exact critL|].
  destruct (ML98 pow dec HP HD) as (M & EM & UI & Bd). destruct (kL98 M Bd) as (Hv & HK & HG). set (ev := tolerance 10 + 16 * unit) in *. assert (uv : unit = / 9007199254740992) by (unfold unit; lra).
  assert (P2 := proj2 (f_small 2 eq_refl)). assert (P1 : B2R (f_of_Z_exp (-1) (-7)) = - / 128) by (rewrite T_MatFloat.val by lia; cbn; lra). assert (Vz : B2R fzero = 0) by reflexivity.
  set (d := 3 * (2460 * unit / 8) / / 1000) in *. assert (Hd : 0 < d <= 2 / 10000000000) by (unfold d; rewrite uv; lra).
  set (kk := INR (2 * 2) * k_off ev (numbers (lower M)) 2 2) in *. assert (HK' : 0 <= kk <= ev) by exact HK. clear HK. rename HK' into HK. set (e := kk / ((1 - d) * (1 / 25000))). set (g := 264 / 1280 * ev / ((1 - d) * (1 / 25000))).
  assert (Q : forall w, 0 <= w <= ev -> 0 <= w / ((1 - d) * (1 / 25000)) <= 2 / 10000000000).
  { intros w Hw. assert (0 < (1 - d) * (1 / 25000)) by (apply Rmult_lt_0_compat; lra). split; [apply Rmult_le_pos; [lra|left; apply Rinv_0_lt_compat; assumption]|]. apply (Rmult_le_reg_r ((1 - d) * (1 / 25000))); [assumption|].
    replace (w / ((1 - d) * (1 / 25000)) * ((1 - d) * (1 / 25000))) with w by (field; lra). lra. }
  assert (He1 := Q kk HK). fold e in He1. assert (Hg1 : 0 <= g <= 2 / 10000000000) by (apply Q; lra). clear Q.
  set (E0 := d + e * (1 + d)). assert (HE0 : 0 <= E0 <= 5 / 10000000000) by (unfold E0; assert (0 <= e * (1 + d) <= 2 / 10000000000 * (1 + 1 / 1000)) by (split; [apply Rmult_le_pos; lra|apply Rmult_le_compat; lra]); lra).
  set (G0 := g * (1 + d)). assert (HG0 : 0 <= G0 <= 3 / 10000000000) by (unfold G0; assert (0 <= g * (1 + d) <= 2 / 10000000000 * (1 + 1 / 1000)) by (split; [apply Rmult_le_pos; lra|apply Rmult_le_compat; lra]); lra).
  split.
  - assert (X := layup_near pow dec Xl M (f_of_Z 2) (f_of_Z 2) (f_of_Z_exp (-1) (-7)) (f_of_Z_exp (-1) (-7)) fzero UI (CStr "PINNED") Pinned Pinned Pinned Pinned 2 2 10 (2460 * unit / 8) (/ 1000) (1 / 25000) KL GL).
    rewrite P2, P1, Vz in X. fold ev in X. rewrite HG in X. specialize (X plateL Bd quadL ltac:(lra) ltac:(lia) ltac:(cbn; lia) ltac:(cbn; lia) pinnedL leastL). fold d kk in X. fold e g in X. fold E0 G0 in X. specialize (X ltac:(lra)).
    destruct X as (_ & _ & _ & _ & K1 & G1 & H1 & Fk & Fg & Pn & Nr & Lk). change (2 * 2)%nat with 4%nat in Lk.
    assert (L4 : List.length K1 = 4%nat) by (assert (Q := nr_len _ _ _ _ _ _ Nr); unfold reals in Q; rewrite map_length in Q; exact Q).
    destruct (t_C97_solver G1 K1 2 Pn ltac:(lia)) as (eigsh & (vals, vs) & Ac & Ev).
    + intros mu v Gp. assert (Q := gen_quad _ _ _ _ Pn Gp). destruct Gp as (Lv & Nv & _). assert (Lv4 : List.length v = 4%nat) by (rewrite Lv; unfold reals; rewrite map_length; exact L4).
      assert (F := formL v Lv4). assert (N1 := nr_K _ _ _ _ _ _ Nr v Lv4). assert (N2 := nr_KG _ _ _ _ _ _ Nr v Lv4). assert (Ps := quad_pos _ _ v pencilL Lv4 Nv).
      assert (Ps' := quad_pos _ _ v Pn Lv Nv). rewrite Q in N2. set (s := quad_rows KL v) in *. set (s' := quad_rows (reals K1) v) in *. set (h := quad_rows GL v) in *.
      apply Rcomplements.Rabs_le_between in N1. apply Rcomplements.Rabs_le_between in N2.
      assert (W1 : E0 * s <= 1 / 100 * s) by (apply Rmult_le_compat_r; lra). assert (W2 : G0 * s <= 1 / 100 * s) by (apply Rmult_le_compat_r; lra).
      split; apply (Rmult_le_reg_r s'); lra.
    + exists eigsh, (map fneg_recip vals), vs. split; [exact Ac|]. unfold buckling_layup_f. rewrite EM. cbn [bind]. unfold buckling_float. rewrite H1. cbn [bind fst snd].
      assert (Ek : Z.min 5 (Z.of_nat (List.length G1) - 2) = 2%Z) by (rewrite Lk; reflexivity).
      change (bind (eigsh G1 K1 (Z.min 5 (Z.of_nat (List.length G1) - 2))) (fun r => Ok (map fneg_recip (fst r), snd r)) = Ok (map fneg_recip vals, vs)). rewrite Ek, Ev. reflexivity.
  - intros eps gam eigsh out vecs He Hg Ac R.
    assert (Y := t_C98_layup eigsh eps gam ex_np 0 (1 / 2) 8 (/ 1000) ex_lay Xl M pow dec (f_of_Z 2) (f_of_Z 2) (f_of_Z_exp (-1) (-7)) (f_of_Z_exp (-1) (-7)) fzero (CStr "PINNED") Pinned Pinned Pinned Pinned 2 2 10 (1 / 25000) KL GL [161 / 62] 5 out vecs
      Ac ltac:(lra) ltac:(lra) ex_good ltac:(lra) mu98 q98 ex_D).
    rewrite P2, P1, Vz, offL in Y. fold ev in Y. rewrite HG in Y. specialize (Y plateL quadL ltac:(lra) EM UI ltac:(lia) ltac:(cbn; lia) ltac:(cbn; lia) pinnedL leastL). cbv zeta in Y. fold d kk in Y. fold e g in Y. fold E0 G0 in Y.
    set (EE := E0 + eps * (1 + E0)) in *. set (GG := G0 + gam * (1 + E0)) in *.
    assert (HEE : 0 <= EE <= 6 / 10000000000) by (unfold EE; assert (0 <= eps * (1 + E0) <= 1 / 1000000000000 * (1 + 1)) by (split; [apply Rmult_le_pos; lra|apply Rmult_le_compat; lra]); lra).
    assert (HGG : 0 <= GG <= 4 / 10000000000) by (unfold GG; assert (0 <= gam * (1 + E0) <= 1 / 1000000000000 * (1 + 1)) by (split; [apply Rmult_le_pos; lra|apply Rmult_le_compat; lra]); lra).
    assert (Tiny : powerRZ 2 (-900) <= 1 / 16) by (rewrite pow2_bp; replace (1 / 16) with (bp (-4)) by (cbn; lra); apply bpow_le; lia).
    destruct (Y ltac:(lra) (critical_lowest _ _ _ _ _ _ _ _ _ _ critL) ltac:(constructor; [split; lra|constructor]) R) as (Lo & Z). change (Z.to_nat (Z.min 5 (Z.of_nat (2 * 2) - 2))) with 2%nat in Lo.
    destruct out as [|x rest]; [discriminate Lo|]. exists x, rest. split; [reflexivity|]. destruct (Z ltac:(cbn; lia) 0%nat (161 / 62) eq_refl) as (x' & Ex & Fx & Px & Qx). cbn in Ex. assert (x' = x) by congruence. subst x'. split; [exact Fx|].
    assert (W : EE * (1 + unit) + unit <= 7 / 10000000000) by (rewrite uv; nra). set (w := EE * (1 + unit) + unit) in *. set (y := B2R x) in *.
    assert (Qy : Rabs (1 / (161 / 62) - 1 / y) <= 7 / 10000000000 * (1 / y) + 5 / 10000000000).
    { eapply Rle_trans; [exact Qx|]. apply Rplus_le_compat; [|lra]. apply Rmult_le_compat_r; [apply Rlt_le, Rdiv_lt_0_compat; lra|exact W]. }
    apply Rcomplements.Rabs_le_between in Qy. destruct Qy as [Q1 Q2]. apply (Rmult_le_compat_l (161 / 62 * y)) in Q1, Q2; try (apply Rmult_le_pos; lra).
    replace (161 / 62 * y * (1 / (161 / 62) - 1 / y)) with (y - 161 / 62) in * by (field; lra). replace (161 / 62 * y * (7 / 10000000000 * (1 / y) + 5 / 10000000000)) with (161 / 62 * (7 / 10000000000 + 5 / 10000000000 * y)) in Q2 by (field; lra). replace (161 / 62 * y * - (7 / 10000000000 * (1 / y) + 5 / 10000000000)) with (- (161 / 62 * (7 / 10000000000 + 5 / 10000000000 * y))) in Q1 by (field; lra).
    apply Rabs_le. lra.
Qed.
