(** Proofs of the theorems on the optimisation helpers in binary64. *)
From Coq Require Import Reals ZArith Lra Lia Bool.
From Flocq Require Import Core.Core IEEE754.BinarySingleNaN.
From Coq Require Import List.
From Verif Require Import M_Py M_Float M_Validate M_Optimize M_OptFloat S_Validate S_Round S_OptFloat L_Float L_Round L_MatFloat.
From Flocq Require Import Mult_error.
Import ListNotations.
Open Scope R_scope.

Lemma last_sort {X} (lt : X -> X -> bool) a b c d :
  last_of (sort3 lt a b c) d = if lt b a then (if lt c b then a else if lt c a then a else c) else (if lt c b then b else c).
Proof. unfold last_of, sort3, insert_third. destruct (lt b a), (lt c b), (lt c a); reflexivity. Qed.
Lemma fabs_fin x : fin x -> fin (fabs x). Proof. intros H. unfold fabs. rewrite is_finite_Babs. exact H. Qed.
Lemma fabs_val x : B2R (fabs x) = Rabs (B2R x). Proof. apply B2R_Babs. Qed.
Lemma max_fin x y z : fin x -> fin y -> fin z ->
  let mx := last_of (sort3 flt (fabs x) (fabs y) (fabs z)) fzero in fin mx /\ B2R mx = largest (B2R x) (B2R y) (B2R z).
Proof.
  intros Fx Fy Fz. cbn zeta. rewrite last_sort. unfold largest.
  assert (T : forall a b : f64, fin a -> fin b -> flt a b = if Rlt_dec (B2R a) (B2R b) then true else false).
  { intros a b Fa Fb. destruct (Rlt_dec (B2R a) (B2R b)) as [H|H]; [apply flt_fin; auto|].
    destruct (flt a b) eqn:E; [|reflexivity]. apply flt_fin in E; auto. contradiction. }
  rewrite !T by (apply fabs_fin; assumption). rewrite !fabs_val.
  unfold Rmax. destruct (Rlt_dec (Rabs (B2R y)) (Rabs (B2R x))), (Rlt_dec (Rabs (B2R z)) (Rabs (B2R y))), (Rlt_dec (Rabs (B2R z)) (Rabs (B2R x)));
    (split; [apply fabs_fin; assumption|]); rewrite fabs_val;
    destruct (Rle_dec (Rabs (B2R y)) (Rabs (B2R z)));
    repeat match goal with |- context [Rle_dec ?a ?b] => destruct (Rle_dec a b) end; lra.
Qed.
#[local] Instance valid64 : Valid_exp fexp64 := fexp_correct 53 1024 f64_prec.
Lemma pz k : powerRZ 2 k = bp k. Proof. symmetry. apply (bpow_powerRZ radix2). Qed.
Lemma rnd_nearest z (w : f64) : Rabs (rnd64 z - z) <= Rabs (B2R w - z).
Proof.
  destruct (round_N_pt radix2 fexp64 (fun x => negb (Z.even x)) z) as [_ H]. apply H. apply generic_format_B2R.
Qed.
Lemma rnd_m1 : rnd64 (-1) = -1.
Proof.
  apply round_generic; [apply valid_rnd_round_mode|]. replace (-1) with (- bp 0) by (cbn; lra). apply generic_format_opp, generic_format_bpow. cbn. lia.
Qed.
Lemma rnd_1 : rnd64 1 = 1.
Proof. apply round_generic; [apply valid_rnd_round_mode|]. change 1 with (bp 0). apply generic_format_bpow. cbn. lia. Qed.
Lemma rnd_abs1 z : Rabs z <= 1 -> Rabs (rnd64 z) <= 1.
Proof.
  intros H. apply abs_round_le_generic; [apply (fexp_correct 53 1024 eq_refl)|apply valid_rnd_round_mode| |exact H].
  change 1 with (bp 0). apply generic_format_bpow. cbn. lia.
Qed.
Lemma rnd_mono x y : x <= y -> rnd64 x <= rnd64 y.
Proof. apply round_le; [apply (fexp_correct 53 1024 eq_refl)|apply valid_rnd_round_mode]. Qed.
Lemma rnd_0 : rnd64 0 = 0. Proof. apply round_0, valid_rnd_round_mode. Qed.

Definition good (mx N v : f64) : Prop :=
  nearest v (B2R N / B2R mx) /\ Rabs (B2R v) <= 1 /\ 0 <= B2R v * B2R N /\
  Rabs (B2R v - B2R N / B2R mx) <= unit * Rabs (B2R N / B2R mx) + powerRZ 2 (-1075) /\
  (Rabs (B2R N) = B2R mx -> Rabs (B2R v) = 1).
Lemma div_good mx N : fin mx -> fin N -> 0 < B2R mx -> Rabs (B2R N) <= B2R mx -> good mx N (fdiv N mx).
Proof.
  intros Fm FN Pm Le. set (q := B2R N / B2R mx).
  assert (Q : Rabs q <= 1).
  { unfold q. unfold Rdiv. rewrite Rabs_mult, (Rabs_pos_eq (/ B2R mx)) by (left; apply Rinv_0_lt_compat, Pm).
    apply Rmult_le_reg_r with (B2R mx); [exact Pm|]. rewrite Rmult_assoc, Rinv_l by lra. lra. }
  destruct (div_rnd N mx FN ltac:(lra)) as [F E]; [fold q; apply Rle_trans with (1 := Q); change 1 with (bp 0); apply bpow_le; lia|].
  fold q in E. unfold good. fold q. rewrite E. split; [|split; [|split; [|split]]].
  - split; [exact F|]. intros w _. rewrite E. apply rnd_nearest.
  - apply rnd_abs1, Q.
  - destruct (Rle_or_lt 0 (B2R N)) as [S|S].
    + apply Rmult_le_pos; [|exact S]. rewrite <- rnd_0. apply rnd_mono. unfold q, Rdiv. apply Rmult_le_pos; [exact S|]. left. apply Rinv_0_lt_compat, Pm.
    + assert (rnd64 q <= 0).
      { rewrite <- rnd_0. apply rnd_mono. unfold q, Rdiv. assert (0 < / B2R mx) by (apply Rinv_0_lt_compat, Pm). nra. }
      nra.
  - destruct (rnd_err q) as (d & h & D1 & H1 & E1). rewrite E1. replace (q * (1 + d) + h - q) with (q * d + h) by ring.
    apply Rle_trans with (1 := Rabs_triang _ _). apply Rplus_le_compat; [|rewrite pz; exact H1]. rewrite Rabs_mult, Rmult_comm.
    apply Rmult_le_compat_r; [apply Rabs_pos|exact D1].
  - intros H. assert (q = 1 \/ q = -1) as [-> | ->].
    { unfold q. destruct (Rcase_abs (B2R N)) as [S|S]; [rewrite Rabs_left in H by lra|rewrite Rabs_right in H by lra].
      - right. rewrite <- H. field. lra.
      - left. rewrite <- H. field. lra. }
    + rewrite rnd_1. apply Rabs_R1.
    + rewrite rnd_m1, Rabs_left; lra.
Qed.
Lemma feq0 x : fin x -> feq x fzero = true <-> B2R x = 0.
Proof. intros F. rewrite (feq_fin x fzero F eq_refl). reflexivity. Qed.
Lemma largest_ge x y z : Rabs x <= largest x y z /\ Rabs y <= largest x y z /\ Rabs z <= largest x y z /\
  (Rabs x = largest x y z \/ Rabs y = largest x y z \/ Rabs z = largest x y z).
Proof.
  unfold largest, Rmax. destruct (Rle_dec (Rabs y) (Rabs z)), (Rle_dec (Rabs x) _); repeat split; lra || tauto.
Qed.

(*@ C93: the loads normalised in binary64. Unless all are zero nothing is raised; the fourth result is exactly the largest absolute load;
    every other result is a double nearest to the exact quotient, lies in [-1, 1], does not have the opposite sign, and the largest load
    becomes exactly 1 or -1. @*)
Lemma t_C93_normalised : forall Nxx Nyy Nxy : f64, is_finite Nxx = true -> is_finite Nyy = true -> is_finite Nxy = true ->
  ~ (B2R Nxx = 0 /\ B2R Nyy = 0 /\ B2R Nxy = 0) ->
  exists x y z mx, normalize_f Nxx Nyy Nxy = Ok (x, y, z, mx) /\ is_finite mx = true /\ B2R mx = largest (B2R Nxx) (B2R Nyy) (B2R Nxy) /\ 0 < B2R mx /\
    (forall N v, In (N, v) [(Nxx, x); (Nyy, y); (Nxy, z)] ->
       nearest v (B2R N / B2R mx) /\ Rabs (B2R v) <= 1 /\ 0 <= B2R v * B2R N /\
       Rabs (B2R v - B2R N / B2R mx) <= unit * Rabs (B2R N / B2R mx) + powerRZ 2 (-1075) /\
       (Rabs (B2R N) = B2R mx -> Rabs (B2R v) = 1)) /\
    (Rabs (B2R x) = 1 \/ Rabs (B2R y) = 1 \/ Rabs (B2R z) = 1).
Proof.
  intros Nxx Nyy Nxy Fx Fy Fz NZ. unfold normalize_f. destruct (max_fin Nxx Nyy Nxy Fx Fy Fz) as [Fm Em].
  set (mx := last_of _ _) in *. clearbody mx. destruct (largest_ge (B2R Nxx) (B2R Nyy) (B2R Nxy)) as (L1 & L2 & L3 & L4). rewrite <- Em in *.
  assert (P : 0 < B2R mx).
  { destruct (Rle_or_lt (B2R mx) 0) as [H|H]; [|exact H]. exfalso. apply NZ.
    assert (A1 := Rabs_pos (B2R Nxx)). assert (A2 := Rabs_pos (B2R Nyy)). assert (A3 := Rabs_pos (B2R Nxy)).
    repeat split; match goal with |- ?t = 0 => destruct (Req_dec t 0) as [e|e]; [exact e|apply Rabs_pos_lt in e; lra] end. }
  unfold py_fdiv. rewrite (feq_zero mx Fm) by lra. cbn [bind].
  assert (G1 := div_good mx Nxx Fm Fx P L1). assert (G2 := div_good mx Nyy Fm Fy P L2). assert (G3 := div_good mx Nxy Fm Fz P L3).
  exists (fdiv Nxx mx), (fdiv Nyy mx), (fdiv Nxy mx), mx. split; [reflexivity|]. split; [exact Fm|]. split; [reflexivity|]. split; [exact P|]. split.
  - intros N v [E|[E|[E|[]]]]; injection E as <- <-; assumption.
  - destruct G1 as (_ & _ & _ & _ & G1), G2 as (_ & _ & _ & _ & G2), G3 as (_ & _ & _ & _ & G3). intuition.
Qed.

(*@ C93: for finite loads ZeroDivisionError is raised exactly when all are zero, and nothing else is. @*)
Lemma t_C93_error : forall (Nxx Nyy Nxy : f64) e, is_finite Nxx = true -> is_finite Nyy = true -> is_finite Nxy = true ->
  (normalize_f Nxx Nyy Nxy = Err e <-> e = ZeroDivisionError /\ B2R Nxx = 0 /\ B2R Nyy = 0 /\ B2R Nxy = 0).
Proof.
  intros Nxx Nyy Nxy e Fx Fy Fz. split.
  - intros H. assert (Z : B2R Nxx = 0 /\ B2R Nyy = 0 /\ B2R Nxy = 0).
    { destruct (Req_dec (B2R Nxx) 0) as [A|A]; [destruct (Req_dec (B2R Nyy) 0) as [B|B]; [destruct (Req_dec (B2R Nxy) 0) as [C|C]; [auto|]|]|];
        (destruct (t_C93_normalised Nxx Nyy Nxy Fx Fy Fz) as (x & y & z & m & E & _); [tauto|rewrite E in H; discriminate]). }
    split; [|exact Z]. unfold normalize_f in H. set (mx := last_of _ _) in *. unfold py_fdiv in H. destruct (feq mx fzero); cbn in H; congruence.
  - intros (-> & A & B & C). unfold normalize_f. destruct (max_fin Nxx Nyy Nxy Fx Fy Fz) as [Fm Em]. set (mx := last_of _ _) in *. clearbody mx.
    unfold py_fdiv. assert (E : feq mx fzero = true).
    { apply feq0; [exact Fm|]. rewrite Em, A, B, C. unfold largest. rewrite Rabs_R0. unfold Rmax. repeat destruct Rle_dec; reflexivity. }
    rewrite E. reflexivity.
Qed.

Lemma flt_finf x : fin x -> flt x finf = true. Proof. destruct x as [s|s| |s m e H]; try discriminate; reflexivity. Qed.
Lemma finf_flt x : flt finf x = false. Proof. destruct x as [s|[|]| |s m e H]; reflexivity. Qed.
Lemma not_fin x : x <> fnan -> is_finite x = false -> fabs x = finf.
Proof. destruct x as [s|[|]| |s m e H]; try discriminate; try reflexivity. intros H. exfalso. apply H. reflexivity. Qed.
Lemma fin_dec (x : f64) : {fin x} + {is_finite x = false}. Proof. destruct (is_finite x); auto. Qed.

(*@ C93: with an infinite load and no NaN the maximum is infinite, the infinite loads become NaN and all others zero. @*)
Lemma t_C93_infinite : forall Nxx Nyy Nxy : f64, Nxx <> fnan -> Nyy <> fnan -> Nxy <> fnan ->
  is_finite Nxx = false \/ is_finite Nyy = false \/ is_finite Nxy = false ->
  exists x y z, normalize_f Nxx Nyy Nxy = Ok (x, y, z, finf) /\
    forall N v, In (N, v) [(Nxx, x); (Nyy, y); (Nxy, z)] ->
      (is_finite N = true -> is_finite v = true /\ B2R v = 0) /\ (is_finite N = false -> v = fnan).
Proof.
  intros Nxx Nyy Nxy A B C H. unfold normalize_f. assert (E : last_of (sort3 flt (fabs Nxx) (fabs Nyy) (fabs Nxy)) fzero = finf).
  { rewrite last_sort. destruct (fin_dec Nxx) as [Fx|Fx], (fin_dec Nyy) as [Fy|Fy], (fin_dec Nxy) as [Fz|Fz];
      try (exfalso; destruct H as [H|[H|H]]; congruence);
      try rewrite (not_fin Nxx A Fx); try rewrite (not_fin Nyy B Fy); try rewrite (not_fin Nxy C Fz);
      repeat rewrite finf_flt; repeat rewrite flt_finf by (apply fabs_fin; assumption);
      repeat match goal with |- context [if ?c then _ else _] => destruct c end; reflexivity. }
  rewrite E. unfold py_fdiv. change (feq finf fzero) with false. cbn [bind]. exists (fdiv Nxx finf), (fdiv Nyy finf), (fdiv Nxy finf). split; [reflexivity|].
  assert (G : forall N, N <> fnan -> (fin N -> fin (fdiv N finf) /\ B2R (fdiv N finf) = 0) /\ (is_finite N = false -> fdiv N finf = fnan)).
  { intros [s|s| |s m e h] HN; split; intros F; try discriminate; try (split; reflexivity); reflexivity. }
  intros N v [X|[X|[X|[]]]]; injection X as <- <-; apply G; assumption.
Qed.

Lemma flt_nan_l x : flt fnan x = false. Proof. destruct x; reflexivity. Qed.
Lemma flt_nan_r x : flt x fnan = false. Proof. destruct x as [s|[|]| |s m e H]; reflexivity. Qed.
Lemma fdiv_nan_r x : fdiv x fnan = fnan. Proof. destruct x; reflexivity. Qed.
Lemma fdiv_nan_l x : fdiv fnan x = fnan. Proof. destruct x; reflexivity. Qed.

(*@ C93: a NaN load. In the third place it makes everything NaN; in the second place the loads are divided by the third load, whatever
    the first is, so that ZeroDivisionError is raised when the third is zero; in the first place they are divided by the larger of the two
    others. @*)
Lemma t_C93_nan :
  (forall Nxx Nyy : f64, normalize_f Nxx Nyy fnan = Ok (fnan, fnan, fnan, fnan)) /\
  (forall Nxx Nxy : f64, is_finite Nxy = true -> B2R Nxy = 0 -> normalize_f Nxx fnan Nxy = Err ZeroDivisionError) /\
  (forall Nxx Nxy : f64, is_finite Nxx = true -> is_finite Nxy = true -> B2R Nxy <> 0 -> Rabs (B2R Nxx / B2R Nxy) <= powerRZ 2 1023 ->
     exists x z mx, normalize_f Nxx fnan Nxy = Ok (x, fnan, z, mx) /\ B2R mx = Rabs (B2R Nxy) /\ nearest x (B2R Nxx / Rabs (B2R Nxy)) /\ Rabs (B2R z) = 1) /\
  (forall Nyy Nxy : f64, is_finite Nyy = true -> is_finite Nxy = true -> ~ (B2R Nyy = 0 /\ B2R Nxy = 0) ->
     exists y z mx, normalize_f fnan Nyy Nxy = Ok (fnan, y, z, mx) /\ B2R mx = Rmax (Rabs (B2R Nyy)) (Rabs (B2R Nxy)) /\
       nearest y (B2R Nyy / B2R mx) /\ nearest z (B2R Nxy / B2R mx) /\ Rabs (B2R y) <= 1 /\ Rabs (B2R z) <= 1).
Proof.
  split; [|split; [|split]].
  - intros Nxx Nyy. unfold normalize_f. rewrite last_sort. change (fabs fnan) with fnan. rewrite !flt_nan_l.
    assert (E : (if flt (fabs Nyy) (fabs Nxx) then fnan else fnan) = fnan) by (destruct flt; reflexivity). rewrite E.
    unfold py_fdiv. change (feq fnan fzero) with false. cbn [bind]. rewrite !fdiv_nan_r. reflexivity.
  - intros Nxx Nxy F Z. unfold normalize_f. rewrite last_sort. change (fabs fnan) with fnan. rewrite flt_nan_l, flt_nan_r.
    unfold py_fdiv. assert (E : feq (fabs Nxy) fzero = true) by (apply feq0; [apply fabs_fin, F|rewrite fabs_val, Z; apply Rabs_R0]). rewrite E. reflexivity.
  - intros Nxx Nxy Fx F Z Q. rewrite pz in Q. unfold normalize_f. rewrite last_sort. change (fabs fnan) with fnan. rewrite flt_nan_l, flt_nan_r.
    assert (Fa := fabs_fin Nxy F). assert (Va := fabs_val Nxy). assert (P : 0 < B2R (fabs Nxy)) by (rewrite Va; apply Rabs_pos_lt, Z).
    unfold py_fdiv. rewrite (feq_zero _ Fa) by lra. cbn [bind]. rewrite fdiv_nan_l.
    exists (fdiv Nxx (fabs Nxy)), (fdiv Nxy (fabs Nxy)), (fabs Nxy). split; [reflexivity|]. split; [exact Va|]. split.
    + destruct (div_rnd Nxx (fabs Nxy) Fx ltac:(lra)) as [F1 E1].
      { rewrite Va. unfold Rdiv in *. rewrite Rabs_mult in *. rewrite Rabs_inv in *. rewrite Rabs_Rabsolu. exact Q. }
      rewrite Va in E1. split; [exact F1|]. intros w _. rewrite E1. apply rnd_nearest.
    + destruct (div_good (fabs Nxy) Nxy Fa F P ltac:(lra)) as (_ & _ & _ & _ & G). apply G. lra.
  - intros Nyy Nxy Fy Fz NZ. unfold normalize_f. rewrite last_sort. change (fabs fnan) with fnan. rewrite flt_nan_r.
    set (mx := if flt (fabs Nxy) (fabs Nyy) then fabs Nyy else fabs Nxy).
    assert (M : fin mx /\ B2R mx = Rmax (Rabs (B2R Nyy)) (Rabs (B2R Nxy))).
    { unfold mx. destruct (flt (fabs Nxy) (fabs Nyy)) eqn:E; (split; [apply fabs_fin; assumption|]); rewrite fabs_val.
      - apply flt_fin in E; try (apply fabs_fin; assumption). rewrite !fabs_val in E. rewrite Rmax_left; lra.
      - rewrite Rmax_right; [reflexivity|]. apply Rnot_lt_le. intros H. rewrite <- !fabs_val in H. apply flt_fin in H; try (apply fabs_fin; assumption). congruence. }
    clearbody mx. destruct M as [Fm Em].
    assert (L1 := Rmax_l (Rabs (B2R Nyy)) (Rabs (B2R Nxy))). assert (L2 := Rmax_r (Rabs (B2R Nyy)) (Rabs (B2R Nxy))). rewrite <- Em in *.
    assert (P : 0 < B2R mx).
    { destruct (Rle_or_lt (B2R mx) 0) as [H|H]; [|exact H]. exfalso. apply NZ. assert (A2 := Rabs_pos (B2R Nyy)). assert (A3 := Rabs_pos (B2R Nxy)).
      split; match goal with |- ?t = 0 => destruct (Req_dec t 0) as [e|e]; [exact e|apply Rabs_pos_lt in e; lra] end. }
    unfold py_fdiv. rewrite (feq_zero mx Fm) by lra. cbn [bind]. rewrite fdiv_nan_l.
    destruct (div_good mx Nyy Fm Fy P L1) as (A & B & _), (div_good mx Nxy Fm Fz P L2) as (A' & B' & _).
    exists (fdiv Nyy mx), (fdiv Nxy mx), mx. auto 10.
Qed.

(*@ C93: so with a NaN load "normalised" finite loads can lie outside [-1, 1]. @*)
Lemma t_C93_bounded_refuted : exists Nxx Nyy Nxy x y z mx : f64, normalize_f Nxx Nyy Nxy = Ok (x, y, z, mx) /\ is_finite x = true /\ B2R x = 2.
Proof.
  destruct t_C93_nan as (_ & _ & H & _).
  assert (V2 : B2R (f_of_Z 2) = 2) by (unfold B2R; cbn; unfold F2R; cbn; lra). destruct fone_val as [F1 V1].
  destruct (H (f_of_Z 2) fone eq_refl F1) as (x & z & mx & E & _ & [Fx Nx] & _).
  - rewrite V1. lra.
  - rewrite V1, V2, pz. unfold Rdiv. rewrite Rinv_1, Rmult_1_r, Rabs_pos_eq by lra. change 2 with (bp 1). apply bpow_le. lia.
  - exists (f_of_Z 2), fnan, fone, x, fnan, z, mx. split; [exact E|]. split; [exact Fx|]. specialize (Nx (f_of_Z 2) eq_refl).
    rewrite V1, V2, Rabs_R1 in Nx. replace (2 - 2 / 1) with 0 in Nx by field. rewrite Rabs_R0 in Nx. assert (A := Rabs_pos (B2R x - 2 / 1)).
    destruct (Req_dec (B2R x - 2 / 1) 0) as [e|e]; [lra|]. apply Rabs_pos_lt in e. lra.
Qed.

Lemma fge0 x : fin x -> fge x fzero = if Rle_dec 0 (B2R x) then true else false.
Proof.
  intros F. unfold fge. rewrite Bleb_correct by (auto; reflexivity). change (B2R fzero) with 0. case Rle_bool_spec; intros H; destruct Rle_dec; reflexivity || lra.
Qed.
Lemma fgt1 x : fin x -> fgt (fabs x) fone = if Rlt_dec 1 (Rabs (B2R x)) then true else false.
Proof.
  intros F. unfold fgt. rewrite Bltb_correct by (try apply fone_val; apply fabs_fin; auto). fold (fabs x). rewrite (proj2 fone_val), fabs_val.
  case Rlt_bool_spec; intros H; destruct Rlt_dec; reflexivity || lra.
Qed.
Lemma feq0b x : fin x -> feq x fzero = if Req_EM_T (B2R x) 0 then true else false.
Proof. intros F. destruct Req_EM_T as [e|e]; [apply feq0; assumption|apply feq_zero; assumption]. Qed.

(*@ C93: the warnings for finite loads are those of the exact loads; the normalised loads are never warned about as not normalised. @*)
Lemma t_C93_warnings : forall Nxx Nyy Nxy : f64, is_finite Nxx = true -> is_finite Nyy = true -> is_finite Nxy = true ->
  check_loads_f Nxx Nyy Nxy = check_loads (B2R Nxx) (B2R Nyy) (B2R Nxy) /\
  forall x y z mx, normalize_f Nxx Nyy Nxy = Ok (x, y, z, mx) -> ~ In NotNormalised (check_loads_f x y z).
Proof.
  assert (E : forall Nxx Nyy Nxy : f64, fin Nxx -> fin Nyy -> fin Nxy -> check_loads_f Nxx Nyy Nxy = check_loads (B2R Nxx) (B2R Nyy) (B2R Nxy)).
  { intros Nxx Nyy Nxy Fx Fy Fz. unfold check_loads_f, check_loads. rewrite !fge0, !fgt1, feq0b by assumption.
    repeat match goal with |- context [if ?c then _ else _] => match type of c with sumbool _ _ => destruct c end end; reflexivity. }
  intros Nxx Nyy Nxy Fx Fy Fz. split; [apply E; assumption|]. intros x y z mx H.
  destruct (t_C93_normalised Nxx Nyy Nxy Fx Fy Fz) as (x' & y' & z' & m' & H' & _ & _ & _ & G & _).
  { intros Z. rewrite (proj2 (t_C93_error Nxx Nyy Nxy ZeroDivisionError Fx Fy Fz) (conj eq_refl Z)) in H. discriminate. }
  rewrite H in H'. injection H' as <- <- <- <-.
  destruct (G Nxx x) as ([F1 _] & A1 & _); [left; reflexivity|]. destruct (G Nyy y) as ([F2 _] & A2 & _); [right; left; reflexivity|].
  destruct (G Nxy z) as ([F3 _] & A3 & _); [right; right; left; reflexivity|]. rewrite E by assumption. unfold check_loads.
  repeat destruct Rlt_dec; try lra. rewrite app_nil_r. repeat match goal with |- context [if ?c then _ else _] => destruct c end; intros [X|[]] || intros []; discriminate.
Qed.

(** ** the region *)
Lemma fmt_g : generic_format radix2 fexp64 (- (1 + bp (-52))).
Proof.
  apply generic_format_opp. replace (1 + bp (-52)) with (F2R (Float radix2 (2 ^ 52 + 1) (-52))).
  - apply generic_format_F2R. intros _. unfold cexp. rewrite (mag_unique _ _ 1).
    + cbn. lia.
    + unfold F2R. cbn. rewrite Rabs_pos_eq by lra. lra.
  - unfold F2R. cbn. lra.
Qed.
Lemma rnd_mid : rnd64 (- (1 + unit)) = -1.
Proof.
  unfold round, scaled_mantissa, cexp. rewrite (mag_unique _ _ 1).
  - change (fexp64 1) with (-52)%Z. change (round_mode mode_NE) with ZnearestE.
    replace (- (1 + unit) * bp (- (-52))) with (- IZR (2 ^ 52) - / 2) by (unfold unit; cbn; lra).
    assert (Fl : Zfloor (- IZR (2 ^ 52) - / 2) = (- 2 ^ 52 - 1)%Z).
    { apply Zfloor_imp. rewrite plus_IZR, minus_IZR, opp_IZR. lra. }
    unfold Znearest. rewrite Fl. rewrite Rcompare_Eq by (rewrite minus_IZR, opp_IZR; lra).
    replace (negb (Z.even (- 2 ^ 52 - 1))) with true by reflexivity.
    rewrite (Zceil_imp (- 2 ^ 52)).
    + unfold F2R. cbn. lra.
    + rewrite minus_IZR, opp_IZR. lra.
  - rewrite Rabs_Ropp, Rabs_pos_eq by (unfold unit; lra). unfold unit. cbn. lra.
Qed.
Lemma rnd_ge_m1 s : -1 <= rnd64 s <-> -1 - unit <= s.
Proof.
  split; intros H.
  - apply Rnot_lt_le. intros L. destruct (round_N_pt radix2 fexp64 (fun x => negb (Z.even x)) s) as [_ N]. specialize (N _ fmt_g).
    change (round radix2 fexp64 (Znearest (fun x => negb (Z.even x))) s) with (rnd64 s) in N.
    replace (bp (-52)) with (2 * unit) in N by (unfold unit; cbn; lra). assert (U := unit_val). revert N. unfold Rabs. repeat destruct Rcase_abs; lra.
  - rewrite <- rnd_mid. apply rnd_mono. lra.
Qed.
Lemma plus1_sign v : fin v -> Rabs (B2R v) <= bp 1010 -> flt (fadd v fone) fzero = true <-> B2R v < -1.
Proof.
  intros F Bv. destruct (fone_val) as [F1 V1].
  assert (B1 : Rabs (B2R v + B2R fone) <= bp 1023).
  { rewrite V1. apply Rle_trans with (1 := Rabs_triang _ _). rewrite Rabs_R1. assert (1 <= bp 1010) by (change 1 with (bp 0); apply bpow_le; lia).
    apply Rle_trans with (bp 1010 + bp 1010); [lra|]. replace (bp 1010 + bp 1010) with (bp 1011); [apply bpow_le; lia|].
    change 1011%Z with (1 + 1010)%Z. rewrite bpow_plus. change (bp 1) with 2. lra. }
  destruct (add_err v fone F F1 B1) as [Fs E]. rewrite (flt_fin _ fzero Fs eq_refl). change (B2R fzero) with 0. rewrite V1 in E.
  assert (U := unit_val). set (w := B2R v) in *. set (r := B2R (fadd v fone)) in *. clearbody w r. split; intros H.
  - apply Rnot_le_lt. intros L. rewrite (Rabs_pos_eq (w + 1)) in E by lra. assert (A := Rle_abs (- (r - (w + 1)))). rewrite Rabs_Ropp in A. nra.
  - rewrite (Rabs_left (w + 1)) in E by lra. assert (A := Rle_abs (r - (w + 1))). nra.
Qed.
Lemma core x3 d : fin x3 -> fin d -> Rabs (B2R x3) <= bp 1000 -> Rabs (B2R d) <= bp 1001 ->
  negb (flt (fadd (fadd x3 d) fone) fzero) = true <-> -1 - unit <= B2R x3 + B2R d.
Proof.
  intros F3 Fd B3 Bd. assert (S : Rabs (B2R x3 + B2R d) <= bp 1009).
  { apply Rle_trans with (1 := Rabs_triang _ _). apply Rle_trans with (bp 1008 + bp 1008).
    - apply Rplus_le_compat; [apply Rle_trans with (1 := B3)|apply Rle_trans with (1 := Bd)]; apply bpow_le; lia.
    - replace (bp 1008 + bp 1008) with (bp 1009); [lra|]. change 1009%Z with (1 + 1008)%Z. rewrite bpow_plus. change (bp 1) with 2. lra. }
  destruct (add_rnd x3 d F3 Fd) as [F E]; [apply Rle_trans with (1 := S), bpow_le; lia|].
  assert (Bv : Rabs (B2R (fadd x3 d)) <= bp 1010).
  { rewrite E. apply abs_round_le_generic; [apply (fexp_correct 53 1024 eq_refl)|apply valid_rnd_round_mode| |apply Rle_trans with (1 := S), bpow_le; lia].
    apply generic_format_bpow. cbn. lia. }
  assert (G := plus1_sign _ F Bv). rewrite <- rnd_ge_m1, <- E. destruct (flt _ fzero); cbn; split; intros H; try reflexivity; try discriminate.
  - assert (X := proj1 G eq_refl). lra.
  - apply Rnot_lt_le. intros L. apply G in L. discriminate.
Qed.
Lemma two_val : fin (f_of_Z 2) /\ B2R (f_of_Z 2) = 2.
Proof. split; [reflexivity|]. unfold B2R; cbn; unfold F2R; cbn; lra. Qed.
Lemma double x : fin x -> Rabs (B2R x) <= bp 1000 -> fin (fmul (f_of_Z 2) x) /\ B2R (fmul (f_of_Z 2) x) = 2 * B2R x /\ Rabs (2 * B2R x) <= bp 1001.
Proof.
  intros F Bx. assert (B2 : Rabs (2 * B2R x) <= bp 1001).
  { rewrite Rabs_mult, (Rabs_pos_eq 2) by lra. change 1001%Z with (1 + 1000)%Z. rewrite bpow_plus. change (bp 1) with 2. lra. }
  destruct two_val as [F2 V2]. destruct (mul_rnd (f_of_Z 2) x F2 F) as [Fm E]; [rewrite V2; apply Rle_trans with (1 := B2), bpow_le; lia|].
  split; [exact Fm|]. split; [|exact B2]. rewrite E, V2. apply round_generic; [apply valid_rnd_round_mode|].
  rewrite Rmult_comm. change 2 with (bp 1). apply (@mult_bpow_pos_exact_FLT radix2 (-1074) 53); [apply generic_format_B2R|lia].
Qed.

(*@ C93: with the penalty a point is accepted exactly when it violates the triangle by at most half a unit, so every point of the
    triangle is accepted. @*)
Lemma t_C93_triangle : forall pow (xi1 xi3 s : f64), pow xi1 2%nat = Ok s -> is_finite xi1 = true -> is_finite xi3 = true ->
  Rabs (B2R xi1) <= powerRZ 2 1000 -> Rabs (B2R xi3) <= powerRZ 2 1000 ->
  exists r, mask_f pow xi1 xi3 true = Ok r /\ (r = true <-> 2 * Rabs (B2R xi1) - 1 - unit <= B2R xi3) /\
    (constraint_mask (B2R xi1) (B2R xi3) true = true -> r = true).
Proof.
  intros pow xi1 xi3 s P F1 F3 B1 B3. rewrite pz in B1, B3. unfold mask_f, gn_f. rewrite P. cbn [bind negb]. eexists. split; [reflexivity|].
  assert (K : negb (flt (if flt xi1 fzero then g1_f xi1 xi3 else g2_f xi1 xi3) fzero) = true <-> 2 * Rabs (B2R xi1) - 1 - unit <= B2R xi3).
  { destruct (double xi1 F1 B1) as (Fd & Vd & Bd). destruct (flt xi1 fzero) eqn:E.
    - apply flt_fin in E; auto. change (B2R fzero) with 0 in E. unfold g1_f. rewrite (core _ _ F3 Fd B3) by (rewrite Vd; exact Bd). rewrite Vd, Rabs_left by exact E.
      split; lra.
    - assert (0 <= B2R xi1). { apply Rnot_lt_le. intros L. change 0 with (B2R fzero) in L. apply flt_fin in L; auto. congruence. }
      unfold g2_f. rewrite fsub_add. rewrite (core _ _ F3 (fopp_fin _ Fd) B3) by (rewrite fopp_val, Rabs_Ropp, Vd; exact Bd). rewrite fopp_val, Vd, Rabs_pos_eq by assumption.
      split; lra. }
  split; [exact K|]. intros H. apply K. assert (U := unit_val). unfold constraint_mask in H. cbn [negb] in H.
  unfold Rabs. destruct (Rcase_abs (B2R xi1)), (Rlt_dec (B2R xi1) 0); try lra; destruct Rlt_dec; try discriminate; lra.
Qed.

Lemma sq_small pow k x s : square_close k pow -> 0 <= k <= 1000 -> fin x -> Rabs (B2R x) <= 1 -> pow x 2%nat = Ok s ->
  fin s /\ Rabs (B2R s) <= bp 1000 /\ Rabs (B2R s - B2R x ^ 2) <= k * unit * B2R x ^ 2 + powerRZ 2 (-1074) /\ 0 <= B2R x ^ 2 <= 1.
Proof.
  intros H K F Bx E. destruct (H x F Bx) as (y & E' & Fy & A). rewrite E in E'. injection E' as <-. split; [exact Fy|].
  assert (S : 0 <= B2R x ^ 2 <= 1). { split; [apply pow2_ge_0|]. rewrite <- (pow2_abs (B2R x)). assert (T := Rabs_pos (B2R x)). nra. }
  split; [|split; [exact A|exact S]]. assert (U := unit_val).
  assert (T : powerRZ 2 (-1074) <= 1). { rewrite pz. change 1 with (bp 0). apply bpow_le. lia. }
  assert (L : Rabs (B2R s) <= 4). { replace (B2R s) with ((B2R s - B2R x ^ 2) + B2R x ^ 2) by ring. apply Rle_trans with (1 := Rabs_triang _ _). rewrite (Rabs_pos_eq (B2R x ^ 2)) by lra. assert (k * unit <= 1) by nra.
    assert (k * unit * B2R x ^ 2 <= 1 * 1) by (apply Rmult_le_compat; nra). lra. }
  apply Rle_trans with (1 := L). change 4 with (bp 2). apply bpow_le. lia.
Qed.
Lemma natural_core pow xi1 xi3 s : pow xi1 2%nat = Ok s -> fin s -> Rabs (B2R s) <= bp 1000 -> fin xi3 -> Rabs (B2R xi3) <= bp 1000 ->
  exists r, mask_f pow xi1 xi3 false = Ok r /\ (r = true <-> -1 - unit <= B2R xi3 - 2 * B2R s).
Proof.
  intros P Fs Bs F3 B3. unfold mask_f, gn_f. rewrite P. cbn [bind negb]. eexists. split; [reflexivity|].
  destruct (double s Fs Bs) as (Fd & Vd & Bd). rewrite fsub_add. rewrite (core _ _ F3 (fopp_fin _ Fd) B3) by (rewrite fopp_val, Rabs_Ropp, Vd; exact Bd).
  rewrite fopp_val, Vd. reflexivity.
Qed.
Lemma to1000 x : Rabs x <= 1 -> Rabs x <= bp 1000. Proof. intros H. apply Rle_trans with (1 := H). change 1 with (bp 0). apply bpow_le. lia. Qed.

(*@ C93: without the penalty and with squares accurate to three units, every accepted point violates the parabola by at most eight
    units, and every point inside it by six units times xi1^2 is accepted. @*)
Lemma t_C93_parabola : forall pow (xi1 xi3 : f64), square_close 3 pow -> is_finite xi1 = true -> is_finite xi3 = true ->
  Rabs (B2R xi1) <= 1 -> Rabs (B2R xi3) <= 1 ->
  exists r, mask_f pow xi1 xi3 false = Ok r /\
    (r = true -> - (8 * unit) <= B2R xi3 - 2 * B2R xi1 ^ 2 + 1) /\
    (6 * unit * B2R xi1 ^ 2 <= B2R xi3 - 2 * B2R xi1 ^ 2 + 1 -> r = true).
Proof.
  intros pow xi1 xi3 H F1 F3 B1 B3. destruct (H xi1 F1 B1) as (s & E & _).
  destruct (sq_small pow 3 xi1 s H ltac:(lra) F1 B1 E) as (Fs & Bs & A & S).
  destruct (natural_core pow xi1 xi3 s E Fs Bs F3 (to1000 _ B3)) as (r & Er & Hr). exists r. split; [exact Er|].
  assert (U := unit_val). assert (T : powerRZ 2 (-1074) <= unit / 4).
  { unfold Rdiv. rewrite pz. rewrite unit_bp. replace (/ 4) with (bp (-2)) by (cbn; lra). rewrite <- bpow_plus. apply bpow_le. lia. }
  assert (A1 := Rle_abs (B2R s - B2R xi1 ^ 2)). assert (A2 := Rle_abs (- (B2R s - B2R xi1 ^ 2))). rewrite Rabs_Ropp in A2.
  set (q := B2R xi1 ^ 2) in *. clearbody q. split.
  - intros X. apply Hr in X. nra.
  - intros X. apply Hr. nra.
Qed.

Lemma fine_grid r : 0 <= r <= 1 -> exists w : f64, fin w /\ Rabs (B2R w - r) <= unit / 2.
Proof.
  intros Hr. set (k := ZnearestE (r * IZR (2 ^ 53))).
  assert (N : Rabs (r * IZR (2 ^ 53) - IZR k) <= / 2) by apply Znearest_half.
  assert (K : (0 <= k <= 2 ^ 53)%Z).
  { split.
    - apply le_IZR. apply Rnot_lt_le. intros L. assert (k <= -1)%Z by (apply lt_IZR in L; lia). apply IZR_le in H. revert N. unfold Rabs. destruct Rcase_abs; nra.
    - apply le_IZR. apply Rnot_lt_le. intros L. assert (2 ^ 53 + 1 <= k)%Z by (apply lt_IZR in L; lia). apply IZR_le in H. rewrite plus_IZR in H. revert N. unfold Rabs. destruct Rcase_abs; nra. }
  assert (Fm : generic_format radix2 fexp64 (F2R (Float radix2 k (-53)))).
  { destruct (Z.eq_dec k (2 ^ 53)) as [->|Nk].
    - replace (F2R (Float radix2 (2 ^ 53) (-53))) with (bp 0) by (unfold F2R; cbn; lra). apply generic_format_bpow. cbn. lia.
    - apply (generic_format_FLT radix2 (-1074) 53). apply FLT_spec with (Float radix2 k (-53)); cbn; [reflexivity| |]; lia. }
  assert (C := @binary_normalize_correct 53 1024 f64_prec f64_emax mode_NE k (-53) false).
  cbn zeta in C. rewrite (round_generic radix2 fexp64 (round_mode mode_NE)) in C by exact Fm.
  assert (V : F2R (Float radix2 k (-53)) = IZR k * unit) by (unfold F2R; cbn; unfold unit; reflexivity).
  assert (Q : unit * IZR (2 ^ 53) = 1) by (unfold unit; lra).
  assert (R1 : 0 <= IZR k * unit <= 1). { destruct K as [K1 K2]. apply IZR_le in K1. apply IZR_le in K2. assert (U := unit_val). split; [nra|]. nra. }
  rewrite Rlt_bool_true in C.
  - destruct C as (V' & F' & _). exists (f_of_Z_exp k (-53)). split; [exact F'|]. change (B2R (f_of_Z_exp k (-53))) with (B2R (binary_normalize 53 1024 f64_prec f64_emax mode_NE k (-53) false)).
    rewrite V', V. replace (IZR k * unit - r) with (- (unit * (r * IZR (2 ^ 53) - IZR k))).
    + rewrite Rabs_Ropp, Rabs_mult, Rabs_pos_eq by (assert (U := unit_val); lra). assert (U := unit_val). nra.
    + replace (unit * (r * IZR (2 ^ 53) - IZR k)) with (r * (unit * IZR (2 ^ 53)) - IZR k * unit) by ring. rewrite Q. ring.
  - rewrite V, Rabs_pos_eq by lra. apply Rle_lt_trans with 1; [lra|]. change 1 with (bp 0). apply bpow_lt. lia.
Qed.

(*@ C93: when squares are correctly rounded every point of the parabola is accepted, and an accepted point violates it by at most two
    units. @*)
Lemma t_C93_parabola_exact : forall pow (xi1 xi3 : f64), square_nearest pow -> is_finite xi1 = true -> is_finite xi3 = true ->
  Rabs (B2R xi1) <= 1 -> Rabs (B2R xi3) <= 1 ->
  exists r, mask_f pow xi1 xi3 false = Ok r /\ (constraint_mask (B2R xi1) (B2R xi3) false = true -> r = true) /\
    (r = true -> - (2 * unit) <= B2R xi3 - 2 * B2R xi1 ^ 2 + 1).
Proof.
  intros pow xi1 xi3 H F1 F3 B1 B3. destruct (H xi1 F1 B1) as (s & E & Fs & Ns).
  assert (S : 0 <= B2R xi1 ^ 2 <= 1). { split; [apply pow2_ge_0|]. rewrite <- (pow2_abs (B2R xi1)). assert (T := Rabs_pos (B2R xi1)). nra. }
  destruct (fine_grid _ S) as (w & Fw & Ew). specialize (Ns w Fw). assert (A := Rle_trans _ _ _ Ns Ew). assert (U := unit_val).
  assert (Bs : Rabs (B2R s) <= bp 1000).
  { apply Rle_trans with 2; [|change 2 with (bp 1); apply bpow_le; lia]. replace (B2R s) with ((B2R s - B2R xi1 ^ 2) + B2R xi1 ^ 2) by ring.
    apply Rle_trans with (1 := Rabs_triang _ _). rewrite (Rabs_pos_eq (B2R xi1 ^ 2)) by lra. lra. }
  destruct (natural_core pow xi1 xi3 s E Fs Bs F3 (to1000 _ B3)) as (r & Er & Hr). exists r. split; [exact Er|].
  assert (A1 := Rle_abs (B2R s - B2R xi1 ^ 2)). assert (A2 := Rle_abs (- (B2R s - B2R xi1 ^ 2))). rewrite Rabs_Ropp in A2. split.
  - intros X. apply Hr. unfold constraint_mask in X. cbn [negb] in X. destruct Rlt_dec; [discriminate|]. lra.
  - intros X. apply Hr in X. lra.
Qed.

Lemma fadd_nan_l x : fadd fnan x = fnan. Proof. destruct x; reflexivity. Qed.
(*@ C93: an OverflowError of xi1**2 leaves the mask of the plots, even where it uses the two lines only, and the constraint of the parabola; the lines themselves
    use no power. @*)
Lemma t_C93_overflow : forall pow (xi1 xi3 t : f64) penalty e, pow xi1 2%nat = Err e ->
  mask_f pow xi1 xi3 penalty = Err e /\ natural_constraint_g_f pow [xi1; xi3] = Err e /\ natural_constraint_g_f pow [t; xi1; xi3] = Err e /\
  (exists g1 g2, penalty_g1_f [xi1; xi3] = Ok g1 /\ penalty_g1_f [t; xi1; xi3] = Ok g1 /\ penalty_g2_f [xi1; xi3] = Ok g2 /\ penalty_g2_f [t; xi1; xi3] = Ok g2).
Proof.
  intros pow xi1 xi3 t penalty e P. unfold mask_f, natural_constraint_g_f, gn_f, xi13_f. cbn [bind fst snd]. rewrite P. repeat split; try reflexivity. exists (g1_f xi1 xi3), (g2_f xi1 xi3). repeat split; reflexivity.
Qed.
(*@ C93: a point with NaN as xi3 is accepted, with the penalty and without it, although it lies in neither region. @*)
Lemma t_C93_nan_accepted : forall pow (xi1 s : f64) penalty, pow xi1 2%nat = Ok s -> mask_f pow xi1 fnan penalty = Ok true.
Proof.
  intros pow xi1 s penalty P. unfold mask_f, gn_f, g1_f, g2_f. rewrite P. cbn [bind]. rewrite !fsub_add, !fadd_nan_l.
  destruct penalty; cbn [negb]; [destruct (flt xi1 fzero)|]; rewrite flt_nan_l; reflexivity.
Qed.

Lemma sum_err x3 d : fin x3 -> fin d -> Rabs (B2R x3) <= 1 -> Rabs (B2R d) <= 2 + 1 / 1000 ->
  fin (fadd (fadd x3 d) fone) /\ Rabs (B2R (fadd (fadd x3 d) fone) - (B2R x3 + B2R d + 1)) <= 8 * unit.
Proof.
  intros F3 Fd B3 Bd. destruct fone_val as [F1 V1]. assert (U := unit_val).
  assert (S : Rabs (B2R x3 + B2R d) <= 3 + 1 / 1000) by (apply Rle_trans with (1 := Rabs_triang _ _); lra).
  assert (big : 8 <= bp 1023) by (change 8 with (bp 3); apply bpow_le; lia).
  destruct (add_err x3 d F3 Fd ltac:(lra)) as [F E].
  assert (D : Rabs (B2R (fadd x3 d)) <= 3 + 1 / 100).
  { replace (B2R (fadd x3 d)) with ((B2R (fadd x3 d) - (B2R x3 + B2R d)) + (B2R x3 + B2R d)) by ring. apply Rle_trans with (1 := Rabs_triang _ _). nra. }
  assert (D1 : Rabs (B2R (fadd x3 d) + B2R fone) <= 4 + 1 / 100).
  { rewrite V1. apply Rle_trans with (1 := Rabs_triang _ _). rewrite Rabs_R1. lra. }
  destruct (add_err _ fone F F1 ltac:(lra)) as [F' E']. split; [exact F'|]. rewrite V1 in E', D1.
  replace (B2R (fadd (fadd x3 d) fone) - (B2R x3 + B2R d + 1)) with
    ((B2R (fadd (fadd x3 d) fone) - (B2R (fadd x3 d) + 1)) + (B2R (fadd x3 d) - (B2R x3 + B2R d))) by ring.
  apply Rle_trans with (1 := Rabs_triang _ _). nra.
Qed.

(*@ C93: for points with coordinates in [-1, 1] the three constraint functions give finite values, the penalties within 8 units of the exact
    values and the parabola within 15, for both lengths of argument, and raise UnboundLocalError for any other. @*)
Lemma t_C93_values : forall pow (T xi1 xi3 : f64) y0, square_close 3 pow -> is_finite xi1 = true -> is_finite xi3 = true ->
  Rabs (B2R xi1) <= 1 -> Rabs (B2R xi3) <= 1 -> y0 = [xi1; xi3] \/ y0 = [T; xi1; xi3] ->
  exists g1 g2 g, penalty_g1_f y0 = Ok g1 /\ penalty_g2_f y0 = Ok g2 /\ natural_constraint_g_f pow y0 = Ok g /\
    is_finite g1 = true /\ Rabs (B2R g1 - (B2R xi3 + 2 * B2R xi1 + 1)) <= 8 * unit /\
    is_finite g2 = true /\ Rabs (B2R g2 - (B2R xi3 - 2 * B2R xi1 + 1)) <= 8 * unit /\
    is_finite g = true /\ Rabs (B2R g - (B2R xi3 - 2 * B2R xi1 ^ 2 + 1)) <= 15 * unit.
Proof.
  intros pow T xi1 xi3 y0 H F1 F3 B1 B3 Y. destruct (H xi1 F1 B1) as (s & E & _).
  destruct (sq_small pow 3 xi1 s H ltac:(lra) F1 B1 E) as (Fs & Bs & A & S).
  destruct (double xi1 F1 (to1000 _ B1)) as (Fd & Vd & _). destruct (double s Fs Bs) as (Fe & Ve & _).
  assert (U := unit_val). assert (Tn : powerRZ 2 (-1074) <= unit / 4).
  { unfold Rdiv. rewrite pz. rewrite unit_bp. replace (/ 4) with (bp (-2)) by (cbn; lra). rewrite <- bpow_plus. apply bpow_le. lia. }
  assert (D1 : Rabs (2 * B2R xi1) <= 2 + 1 / 1000) by (rewrite Rabs_mult, (Rabs_pos_eq 2) by lra; lra).
  assert (A' : Rabs (B2R s - B2R xi1 ^ 2) <= 13 / 4 * unit) by nra.
  assert (D2 : Rabs (2 * B2R s) <= 2 + 1 / 1000).
  { replace (2 * B2R s) with (2 * (B2R s - B2R xi1 ^ 2) + 2 * B2R xi1 ^ 2) by ring. apply Rle_trans with (1 := Rabs_triang _ _). rewrite !Rabs_mult, (Rabs_pos_eq 2), (Rabs_pos_eq (B2R xi1 ^ 2)) by lra. lra. }
  destruct (sum_err xi3 _ F3 Fd B3 ltac:(rewrite Vd; exact D1)) as [G1 E1].
  destruct (sum_err xi3 _ F3 (fopp_fin _ Fd) B3 ltac:(rewrite fopp_val, Rabs_Ropp, Vd; exact D1)) as [G2 E2].
  destruct (sum_err xi3 _ F3 (fopp_fin _ Fe) B3 ltac:(rewrite fopp_val, Rabs_Ropp, Ve; exact D2)) as [G3 E3].
  rewrite <- fsub_add in G2, E2, G3, E3. rewrite fopp_val in E2, E3. rewrite Vd in E1, E2. rewrite Ve in E3.
  exists (g1_f xi1 xi3), (g2_f xi1 xi3), (fadd (fsub xi3 (fmul (f_of_Z 2) s)) fone).
  assert (Q : xi13_f y0 = Ok (xi1, xi3)) by (destruct Y as [-> | ->]; reflexivity).
  unfold penalty_g1_f, penalty_g2_f, natural_constraint_g_f. rewrite Q. cbn [bind fst snd]. unfold gn_f. rewrite E. cbn [bind].
  do 3 (split; [reflexivity|]). split; [exact G1|]. split; [exact E1|]. split; [exact G2|]. split; [exact E2|]. split; [exact G3|].
  replace (B2R (fadd (fsub xi3 (fmul (f_of_Z 2) s)) fone) - (B2R xi3 - 2 * B2R xi1 ^ 2 + 1)) with
    ((B2R (fadd (fsub xi3 (fmul (f_of_Z 2) s)) fone) - (B2R xi3 + - (2 * B2R s) + 1)) + - 2 * (B2R s - B2R xi1 ^ 2)) by ring.
  apply Rle_trans with (1 := Rabs_triang _ _). rewrite Rabs_mult, (Rabs_left (-2)) by lra. lra.
Qed.

(*@ C93 example: squaring by multiplication meets both conditions on powers; loads (-4, 1, 3) and a point of the triangle's edge. @*)
Example t_C93_ex : square_close 3 (fun x _ => Ok (fmul x x)) /\ square_nearest (fun x _ => Ok (fmul x x)) /\
  (exists x y z mx, normalize_f (f_of_Z (-4)) (f_of_Z 1) (f_of_Z 3) = Ok (x, y, z, mx) /\ B2R mx = 4 /\ B2R x = -1 /\ B2R y = 1 / 4 /\ B2R z = 3 / 4) /\
  check_loads_f (f_of_Z (-4)) (f_of_Z 1) (f_of_Z 3) = [NotNormalised] /\
  mask_f (fun x _ => Ok (fmul x x)) fhalf fzero true = Ok true /\ mask_f (fun x _ => Ok (fmul x x)) fhalf (f_of_Z_exp (-1) (-2)) true = Ok false /\
  mask_f (fun x _ => Ok (fmul x x)) fhalf (f_of_Z_exp (-1) (-2)) false = Ok true.
Proof.
  assert (M : forall x : f64, fin x -> Rabs (B2R x) <= 1 -> fin (fmul x x) /\ B2R (fmul x x) = rnd64 (B2R x ^ 2)).
  { intros x F B. replace (B2R x ^ 2) with (B2R x * B2R x) by ring. apply mul_rnd; auto. rewrite Rabs_mult. assert (A := Rabs_pos (B2R x)).
    apply Rle_trans with 1; [nra|]. change 1 with (bp 0). apply bpow_le. lia. }
  split; [|split].
  - intros x F B. destruct (M x F B) as [F' E]. exists (fmul x x). split; [reflexivity|]. split; [exact F'|]. rewrite E.
    destruct (rnd_err (B2R x ^ 2)) as (d & h & D1 & H1 & E1). rewrite E1. replace (B2R x ^ 2 * (1 + d) + h - B2R x ^ 2) with (B2R x ^ 2 * d + h) by ring.
    apply Rle_trans with (1 := Rabs_triang _ _). assert (P := pow2_ge_0 (B2R x)). assert (U := unit_val). rewrite Rabs_mult, (Rabs_pos_eq (B2R x ^ 2)) by exact P.
    assert (bp (-1075) <= powerRZ 2 (-1074)) by (rewrite pz; apply bpow_le; lia).
    assert (A := Rabs_pos d). apply Rplus_le_compat; [|lra]. nra.
  - intros x F B. destruct (M x F B) as [F' E]. exists (fmul x x). split; [reflexivity|]. split; [exact F'|]. intros w _. rewrite E. apply rnd_nearest.
  - assert (V4 : B2R (f_of_Z (-4)) = -4) by (unfold B2R; cbn; unfold F2R; cbn; lra).
    assert (V1 : B2R (f_of_Z 1) = 1) by (unfold B2R; cbn; unfold F2R; cbn; lra).
    assert (V3 : B2R (f_of_Z 3) = 3) by (unfold B2R; cbn; unfold F2R; cbn; lra).
    assert (W2 : B2R (f_of_Z_exp 1 (-2)) = 1 / 4) by (unfold B2R; cbn; unfold F2R; cbn; lra).
    assert (W3 : B2R (f_of_Z_exp 3 (-2)) = 3 / 4) by (unfold B2R; cbn; unfold F2R; cbn; lra).
    assert (W1 : B2R (f_of_Z (-1)) = -1) by (unfold B2R; cbn; unfold F2R; cbn; lra).
    split; [|split; [vm_compute; reflexivity|split; [vm_compute; reflexivity|split; vm_compute; reflexivity]]].
    destruct (t_C93_normalised (f_of_Z (-4)) (f_of_Z 1) (f_of_Z 3) eq_refl eq_refl eq_refl) as (x & y & z & mx & E & Fm & Em & _ & G & _); [lra|].
    assert (M4 : B2R mx = 4). { rewrite Em, V4, V1, V3. unfold largest. rewrite Rabs_left, !Rabs_pos_eq by lra. rewrite (Rmax_right 1 3) by lra. rewrite Rmax_left; lra. }
    assert (Q : forall (v w : f64) r, nearest v r -> fin w -> B2R w = r -> B2R v = r).
    { intros v w r [_ N] Fw Ew. specialize (N w Fw). rewrite Ew in N. replace (r - r) with 0 in N by ring. rewrite Rabs_R0 in N. assert (A := Rabs_pos (B2R v - r)).
      destruct (Req_dec (B2R v - r) 0) as [e|e]; [lra|]. apply Rabs_pos_lt in e. lra. }
    exists x, y, z, mx. split; [exact E|]. split; [exact M4|].
    destruct (G _ x (or_introl eq_refl)) as (Gx & _). destruct (G _ y (or_intror (or_introl eq_refl))) as (Gy & _). destruct (G _ z (or_intror (or_intror (or_introl eq_refl)))) as (Gz & _).
    rewrite M4, V4 in Gx. rewrite M4, V1 in Gy. rewrite M4, V3 in Gz. replace (-4 / 4) with (-1) in Gx by field.
    split; [exact (Q x (f_of_Z (-1)) _ Gx eq_refl W1)|]. split; [exact (Q y (f_of_Z_exp 1 (-2)) _ Gy eq_refl W2)|exact (Q z (f_of_Z_exp 3 (-2)) _ Gz eq_refl W3)].
Qed.
