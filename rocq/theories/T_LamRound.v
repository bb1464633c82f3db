(** Proofs of the theorems on the laminate matrices in binary64 *)
From Coq Require Import Reals ZArith Lra Lia Bool.
From Flocq Require Import Core.Core IEEE754.BinarySingleNaN.
From Coq Require Import List.
From Verif Require Import M_Py M_Material M_Laminate M_K M_Float M_FloatArith M_RealArith M_LamArith S_Mat S_Laminate S_Validate S_Ritz S_Round S_LamRound L_Float L_Round L_Mat L_Lam L_LamAlg L_LamRound T_Laminate.
Import ListNotations.
Open Scope R_scope.

(** ** interfaces *)
Lemma interfaces_length {A : arith} (ts : list (num A)) : forall z, length (interfaces ts z) = length ts.
Proof. induction ts as [|t r IH]; intros z; cbn; [reflexivity|]. rewrite IH. reflexivity. Qed.
Lemma positions_cons {A : arith} (ts : list (num A)) : (1 <= length ts)%nat -> positions ts =
  (current_z <- ndiv A (nneg A (thickness_sum ts (nint A 0))) (nint A 2) ;; Ok (current_z :: interfaces ts current_z)).
Proof. destruct ts; [cbn; lia|reflexivity]. Qed.
Section Z.
Variable pow : f64 -> nat -> res f64.
Notation inter := (@interfaces (FA pow)).
Lemma interfaces_err T ts : forall zz z e, Forall usual ts -> fin zz -> 0 <= e -> e + slack * INR (length ts) <= 3000000 -> Rabs (B2R zz - z) <= e * unit * (T / 2) ->
  - T / 2 <= z -> z + rsum (map (@B2R 53 1024) ts) <= T / 2 -> 0 < T <= bp 84 ->
  forall k x, nth_error (zz :: inter ts zz) k = Some x -> fin x /\ Rabs (B2R x - (z + rsum (map (@B2R 53 1024) (firstn k ts)))) <= (e + slack * INR (length ts)) * unit * (T / 2).
Proof.
  assert (u := unit_val).
  induction ts as [|t r IH]; intros zz z e U F He Le E L H HT k x N; assert (uT : 0 <= unit * (T / 2)) by (apply Rmult_le_pos; lra).
  { destruct k; cbn [interfaces nth_error firstn map rsum length INR] in *; [|destruct k; discriminate]. injection N as <-. split; [exact F|].
    rewrite Rmult_0_r, !Rplus_0_r in *. exact E. }
  inversion U as [|? ? Ut Ur]; subst. destruct (usual_pos t Ut) as (Ft & Pt & _). assert (Hr := heights_pos r Ur). assert (J := pos_INR (length r)).
  cbn [length map rsum] in *. rewrite S_INR in *. assert (sl : 1 <= slack <= 2) by (unfold slack; lra).
  destruct k as [|k].
  { cbn [nth_error firstn map rsum] in *. injection N as <-. split; [exact F|]. rewrite Rplus_0_r. eapply Rle_trans; [exact E|]. rewrite !Rmult_assoc.
    apply Rmult_le_compat_r; [exact uT|]. assert (0 <= slack * (INR (length r) + 1)) by (apply Rmult_le_pos; lra). lra. }
  assert (e3 : e <= 3000000). { assert (0 <= slack * (INR (length r) + 1)) by (apply Rmult_le_pos; lra). lra. }
  destruct (step_err T zz z t e Ut F E ltac:(lra) L ltac:(lra) HT) as (F1 & _ & E1).
  cbn [interfaces] in N. change (nadd (FA pow) zz t) with (fadd zz t) in N. cbv zeta in N.
  destruct (IH (fadd zz t) (z + B2R t) (e + slack) Ur F1 ltac:(lra) ltac:(lra) E1 ltac:(lra) ltac:(lra) HT k x N) as [Fx Ex].
  split; [exact Fx|]. cbn [firstn map rsum]. rewrite <- Rplus_assoc. eapply Rle_trans; [exact Ex|]. right. ring.
Qed.
End Z.

(*@ C78: for up to a million plies of usual thickness, z_position in binary64 is a list of n + 1 finite numbers, and each is within n + 1 units times the
    total thickness of the exact height of that interface. @*)
Lemma t_C78_interfaces : forall pow ts, usual_plies ts -> exists zs : list f64, @positions (FA pow) ts = Ok zs /\ length zs = S (length ts) /\
  forall k x, nth_error zs k = Some x -> is_finite x = true /\ Rabs (B2R x - interface ts k) <= (INR (length ts) + 1) * unit * height ts.
Proof.
  intros pow ts U. destruct (bottom_err pow ts U) as (z & E & F & B). assert (R := height_range ts U). destruct U as (U & N & M).
  assert (P : 0 < bp (-64)) by apply bpow_gt_0. assert (J := pos_INR (length ts)). assert (u := unit_val).
  exists (z :: @interfaces (FA pow) ts z). split; [rewrite positions_cons by exact N; rewrite E; reflexivity|]. split; [cbn [length]; f_equal; apply (@interfaces_length (FA pow))|].
  intros k x Nx. destruct (interfaces_err pow (height ts) ts z (- height ts / 2) (INR (length ts) * slack + 1 + 1 / 100) U F) with (k := k) (x := x) as [Fx Ex]; try assumption; try lra.
  - unfold slack. lra. - unfold slack. lra. - unfold height. lra.
  - split; [exact Fx|]. eapply Rle_trans; [exact Ex|].
    replace ((INR (length ts) * slack + 1 + 1 / 100 + slack * INR (length ts)) * unit * (height ts / 2)) with ((INR (length ts) * slack + 1 / 2 + 1 / 200) * (unit * height ts)) by field.
    rewrite Rmult_assoc. apply Rmult_le_compat_r; [apply Rmult_le_pos; lra|]. unfold slack. lra.
Qed.

(** ** order *)
Lemma rnd_above x y : fin x -> fin y -> fin (fadd x y) -> 0 <= B2R y -> B2R x <= B2R (fadd x y).
Proof.
  intros Fx Fy F P. assert (M := @Bplus_correct 53 1024 f64_prec f64_emax mode_NE x y Fx Fy). fold (fadd x y) in M.
  destruct (Rlt_bool (Rabs (rnd64 (B2R x + B2R y))) (bp 1024)) eqn:E.
  - destruct M as (E1 & _ & _). rewrite E1. apply round_ge_generic; [apply (fexp_correct 53 1024 eq_refl)|apply valid_rnd_round_mode|apply generic_format_B2R|lra].
  - exfalso. destruct M as [M _]. rewrite <- is_finite_SF_B2SF, M in F. discriminate F.
Qed.
(*@ C78: for all finite non-negative thicknesses: as long as the interfaces are finite they never decrease from one ply to the next. @*)
Lemma t_C78_ordered : forall pow ts (zs : list f64), Forall (fun t => is_finite t = true /\ 0 <= B2R t) ts -> @positions (FA pow) ts = Ok zs -> Forall (fun x => is_finite x = true) zs ->
  forall k x y, nth_error zs k = Some x -> nth_error zs (S k) = Some y -> B2R x <= B2R y.
Proof.
  intros pow ts zs U E FZ.
  assert (G : forall z, fin z -> Forall (fun x => fin x) (@interfaces (FA pow) ts z) -> forall k x y, nth_error (z :: @interfaces (FA pow) ts z) k = Some x -> nth_error (@interfaces (FA pow) ts z) k = Some y -> B2R x <= B2R y).
  { clear E FZ. induction ts as [|t r IH]; intros z Fz Fi k x y Nx Ny; [destruct k; discriminate|]. inversion U as [|? ? [Ft Pt] Ur]; subst.
    cbn [interfaces] in *. change (nadd (FA pow) z t) with (fadd z t) in *. cbv zeta in *. inversion Fi as [|? ? F1 F2]; subst. destruct k as [|k].
    - cbn in Nx, Ny. injection Nx as <-. injection Ny as <-. apply rnd_above; assumption.
    - cbn [nth_error] in Nx, Ny. exact (IH Ur (fadd z t) F1 F2 k x y Nx Ny). }
  destruct ts as [|t r]. { injection E as <-. intros [|k] x y A B; [discriminate|]. destruct k; discriminate. }
  rewrite positions_cons in E by (cbn; lia). destruct (ndiv (FA pow) _ _) as [z|e]; [|discriminate]. cbn [bind] in E. injection E as <-.
  inversion FZ as [|? ? Fz Fi]; subst. intros k x y A B. exact (G z Fz Fi k x y A B).
Qed.
(*@ C78: strictly increasing when every ply is at least one unit (2^-53) of the total thickness. @*)
Lemma t_C78_strict : forall pow ts, usual_plies ts -> Forall (fun t => unit * height ts <= B2R t) ts -> exists zs : list f64, @positions (FA pow) ts = Ok zs /\
  forall k x y, nth_error zs k = Some x -> nth_error zs (S k) = Some y -> B2R x < B2R y.
Proof.
  intros pow ts U TH. destruct (bottom_err pow ts U) as (z & E & F & B). assert (R := height_range ts U). destruct U as (U & N & M).
  assert (P : 0 < bp (-64)) by apply bpow_gt_0. assert (u := unit_val).
  exists (z :: @interfaces (FA pow) ts z). split; [rewrite positions_cons by exact N; rewrite E; reflexivity|]. cbn [nth_error].
  assert (uT : 0 < unit * height ts) by (apply Rmult_lt_0_compat; lra).
  assert (L0 : - height ts / 2 <= - height ts / 2) by lra. assert (H0 : - height ts / 2 + rsum (map (@B2R 53 1024) ts) <= height ts / 2) by (unfold height; lra).
  assert (e0 : 0 <= INR (length ts) * slack + 1 + 1 / 100) by (assert (J := pos_INR (length ts)); unfold slack; lra).
  assert (e1 : INR (length ts) * slack + 1 + 1 / 100 + slack * INR (length ts) <= 3000000) by (unfold slack; lra).
  revert F B L0 H0 e0 e1. generalize (INR (length ts) * slack + 1 + 1 / 100) as e. generalize (- height ts / 2) at 1 3 4 as zr. clear E. revert z.
  set (T := height ts) in *. clearbody T. revert U TH. clear N M.
  induction ts as [|t r IH]; intros U TH z zr e F B L0 H0 e0 e1 k x y Nx Ny; [destruct k; discriminate|].
  inversion U as [|? ? Ut Ur]; subst. inversion TH as [|? ? Tt Tr]; subst. destruct (usual_pos t Ut) as (Ft & Pt & _). assert (Hr := heights_pos r Ur). assert (J := pos_INR (length r)).
  cbn [map rsum length] in *. rewrite S_INR in *. assert (sl : 1 <= slack <= 2) by (unfold slack; lra).
  assert (e3 : 0 <= slack * INR (length r)) by (apply Rmult_le_pos; lra).
  destruct (step_err T z zr t e Ut F B ltac:(lra) ltac:(lra) ltac:(lra) ltac:(lra)) as (F1 & D1 & E1).
  cbn [interfaces] in *. change (nadd (FA pow) z t) with (fadd z t) in *. cbv zeta in *. destruct k as [|k].
  - cbn in Nx, Ny. injection Nx as <-. injection Ny as <-. apply Rabs_le_inv in D1. lra.
  - cbn [nth_error] in Nx, Ny. apply (IH Ur Tr (fadd z t) (zr + B2R t) (e + slack) F1 E1 ltac:(lra) ltac:(lra) ltac:(lra) ltac:(lra) k x y Nx Ny).
Qed.

(** ** matrices *)
Lemma weight_bound p T z t : (1 <= p <= 3)%nat -> - T / 2 <= z -> z + t <= T / 2 -> 0 < t ->
  Rabs (((z + t) ^ p - z ^ p) / INR p) <= (match p with 1%nat => 1 | 2%nat => 1 / 2 | _ => 1 / 4 end) * (T ^ (p - 1) * t).
Proof.
  intros P L H Ht. assert (a1 : Rabs (z + t) <= T / 2) by (apply Rabs_le; lra). assert (a0 : Rabs z <= T / 2) by (apply Rabs_le; lra).
  destruct p as [|[|[|[|p]]]]; try lia; cbn [Nat.sub].
  - cbn [Rpow_def.pow INR]. replace (((z + t) * 1 - z * 1) / 1) with t by field. rewrite Rabs_right; lra.
  - replace (((z + t) ^ 2 - z ^ 2) / INR 2) with (t * (((z + t) + z) / 2)) by (cbn [INR]; field). rewrite Rabs_mult, (Rabs_right t) by lra.
    replace (1 / 2 * (T ^ 1 * t)) with (t * (T / 2)) by (cbn; field). apply Rmult_le_compat_l; [lra|]. apply Rabs_le. lra.
  - replace (((z + t) ^ 3 - z ^ 3) / INR 3) with (t * (((z + t) * (z + t) + (z + t) * z + z * z) / 3)) by (cbn [INR]; field). rewrite Rabs_mult, (Rabs_right t) by lra.
    replace (1 / 4 * (T ^ 2 * t)) with (t * (T / 2 * (T / 2))) by field. apply Rmult_le_compat_l; [lra|].
    unfold Rdiv at 1. rewrite Rabs_mult, (Rabs_right (/ 3)) by lra. assert (Q := Rabs_triang ((z + t) * (z + t) + (z + t) * z) (z * z)). assert (Q' := Rabs_triang ((z + t) * (z + t)) ((z + t) * z)).
    rewrite !Rabs_mult in *. assert (Rabs (z + t) * Rabs (z + t) <= T / 2 * (T / 2)) by (apply Rmult_le_compat; try apply Rabs_pos; assumption).
    assert (Rabs (z + t) * Rabs z <= T / 2 * (T / 2)) by (apply Rmult_le_compat; try apply Rabs_pos; assumption). assert (Rabs z * Rabs z <= T / 2 * (T / 2)) by (apply Rmult_le_compat; try apply Rabs_pos; assumption). lra.
Qed.
Lemma zeros : forall i j : nat, fin (f_of_Z 0) /\ Rabs 0 <= 0 /\ Rabs (B2R (f_of_Z 0) - 0) <= 0.
Proof. intros _ _. destruct (int_val 0 eq_refl) as [F E]. split; [exact F|]. rewrite E, Rminus_0_r, Rabs_R0. split; apply Rle_refl. Qed.
(*@ C78: A, B and D in binary64, for squares and cubes accurate to 3 units: no exception, finite entries, each within 3 n + 4 units times the largest entry of
    Q_layup times the first, second or third power of the total thickness of the exact sum over the plies (n plies, any arrays Q_layup). @*)
Lemma t_C78_matrices : forall pow p ts Qs q, pow_near pow -> (1 <= p <= 3)%nat -> usual_plies ts -> length Qs = length ts -> entries_below q Qs -> powerRZ 2 (-200) <= q <= powerRZ 2 200 ->
  exists M : nat -> nat -> f64, matrix pow p ts Qs = Ok M /\ forall i j, (i < 3)%nat -> (j < 3)%nat ->
    is_finite (M i j) = true /\ Rabs (B2R (M i j) - stiffness p ts Qs i j) <= (3 * INR (length ts) + 4) * unit * q * height ts ^ p.
Proof.
  intros pow p ts Qs q HP Hp U L B Hq. destruct (bottom_err pow ts U) as (z & E & F & Bz). assert (R := height_range ts U). destruct U as (U & N & M).
  assert (P : 0 < bp (-64)) by apply bpow_gt_0. assert (u := unit_val). set (n := INR (length ts)) in *. set (T := height ts) in *. assert (T0 : 0 < T) by lra.
  assert (n1 : 1 <= n) by (apply (le_INR 1), N).
  assert (Hq' : bp (-200) <= q <= bp 200) by (rewrite !(bpow_powerRZ radix2); exact Hq). assert (P2 : 0 < bp (-200)) by apply bpow_gt_0.
  assert (W0 : 0 < T ^ (p - 1)) by (apply pow_lt, T0). assert (WT : T ^ (p - 1) * T = T ^ p). { replace p with (S (p - 1)) at 2 by lia. cbn [Rpow_def.pow]. ring. }
  assert (HX := small_T p T R ltac:(lia)).
  assert (Gen : forall (f : f64 -> f64 -> res f64) al be ga, 0 <= al <= 2 -> 0 <= be <= 4000000 -> 0 <= ga <= 1 -> n * (al + ga + 1 / 1000) + (be + ga) <= 3 * n + 4 ->
    (forall x1 x0 z t, near_ply n T x1 x0 z t -> exists w, f x1 x0 = Ok w /\ fin w /\ Rabs (B2R w - ((z + t) ^ p - z ^ p) / INR p) <= unit * T ^ (p - 1) * (al * T + be * t)) ->
    (forall z t, - T / 2 <= z -> z + t <= T / 2 -> 0 < t -> Rabs (((z + t) ^ p - z ^ p) / INR p) <= ga * (T ^ (p - 1) * t)) ->
    exists M, @laminate_matrix (FA pow) f ts Qs = Ok M /\ forall i j, (i < 3)%nat -> (j < 3)%nat -> fin (M i j) /\ Rabs (B2R (M i j) - stiffness p ts Qs i j) <= (3 * n + 4) * unit * q * T ^ p).
  { intros f al be ga Ha Hb Hg S Hw Hwb.
    destruct (sum_rec_err pow (fun z t => ((z + t) ^ p - z ^ p) / INR p) f n T q (T ^ (p - 1)) al be ga ltac:(lra) R ltac:(rewrite WT; split; assumption) Hq' Ha Hb Hg Hw Hwb ts Qs z (- T / 2) (fun _ _ => f_of_Z 0) (fun _ _ => 0) (n * slack + 1 + 1 / 100) 0 0) as (M0 & EM & BM);
      try assumption; try (fold n; unfold slack in *; lra); try (unfold T, height; lra).
    - intros i j _ _. destruct (zeros i j) as (Z1 & Z2 & Z3). rewrite !Rmult_0_r, Rplus_0_l, Rmult_0_r. auto.
    - exists M0. split.
      + unfold laminate_matrix. rewrite positions_cons by exact N. rewrite E. cbn [bind]. etransitivity; [exact (@sum_plies_rec (FA pow) f ts [] z Qs _ L)|exact EM].
      + intros i j Hi Hj. destruct (BM i j Hi Hj) as [FM RM]. split; [exact FM|]. rewrite gmoment_moment, !Rplus_0_l in RM. eapply Rle_trans; [exact RM|].
        fold (height ts). fold T n. rewrite <- WT. replace (unit * (q * T ^ (p - 1)) * ((al + ga + 1 / 1000) * T * n + (be + ga) * T)) with ((n * (al + ga + 1 / 1000) + (be + ga)) * (unit * (q * (T ^ (p - 1) * T)))) by ring.
        replace ((3 * n + 4) * unit * q * (T ^ (p - 1) * T)) with ((3 * n + 4) * (unit * (q * (T ^ (p - 1) * T)))) by ring. apply Rmult_le_compat_r; [|exact S].
        apply Rmult_le_pos; [lra|]. apply Rmult_le_pos; [lra|]. apply Rmult_le_pos; lra. }
  destruct p as [|[|[|[|p]]]]; try lia.
  - apply (Gen (@weight_A (FA pow)) (51 / 100) (101 / 100) 1); try lra; [apply weight_A_err|]. intros. apply (weight_bound 1); assumption || lia.
  - apply (Gen (@weight_B (FA pow)) (102 / 100) (n + 26 / 10) (1 / 2)); try lra; [apply weight_B_err, HP|]. intros. apply (weight_bound 2); assumption || lia.
  - apply (Gen (@weight_D (FA pow)) (40 / 100) (102 / 100 * n + 2) (1 / 4)); try lra; [apply weight_D_err, HP|]. intros. apply (weight_bound 3); assumption || lia.
Qed.

(** ** symmetric layups *)
Lemma moment_app p ts : forall z qs ts' qs', length qs = length ts -> moment p z (ts ++ ts')%list (qs ++ qs')%list = moment p z ts qs + moment p (z + rsum ts) ts' qs'.
Proof.
  induction ts as [|t r IH]; intros z qs ts' qs' L; destruct qs as [|q qs]; try discriminate; cbn [List.app moment rsum]; [rewrite Rplus_0_r, Rplus_0_l; reflexivity|].
  injection L as L. rewrite IH by exact L. rewrite <- !Rplus_assoc. reflexivity.
Qed.
Lemma rsum_app' l l' : rsum (l ++ l')%list = rsum l + rsum l'. Proof. induction l as [|x l IH]; cbn; [ring|rewrite IH; ring]. Qed.
Lemma rsum_rev' l : rsum (rev l) = rsum l. Proof. induction l as [|x l IH]; cbn; [reflexivity|]. rewrite rsum_app', IH. cbn. ring. Qed.
Lemma moment_rev ts : forall z qs, length qs = length ts -> moment 2 (- (z + rsum ts)) (rev ts) (rev qs) = - moment 2 z ts qs.
Proof.
  induction ts as [|t r IH]; intros z qs L; destruct qs as [|q qs]; try discriminate; [cbn; ring|]. injection L as L. cbn [rev].
  rewrite moment_app by (rewrite !rev_length; exact L). rewrite rsum_rev'. cbn [rsum]. replace (- (z + (t + rsum r))) with (- (z + t + rsum r)) by ring. rewrite IH by exact L.
  cbn [moment INR]. field.
Qed.
Lemma moment_palindrome ts qs : length qs = length ts -> rev ts = ts -> rev qs = qs -> moment 2 (- rsum ts / 2) ts qs = 0.
Proof. intros L R Q. assert (M := moment_rev ts (- rsum ts / 2) qs L). rewrite R, Q in M. replace (- (- rsum ts / 2 + rsum ts)) with (- rsum ts / 2) in M by field. lra. Qed.
(*@ C78: for layups that read the same in both directions every entry of B is zero up to 3 n + 4 units times the largest entry of Q_layup times the square of the total thickness. @*)
Lemma t_C78_symmetric : forall pow ts Qs q, pow_near pow -> usual_plies ts -> length Qs = length ts -> entries_below q Qs -> powerRZ 2 (-200) <= q <= powerRZ 2 200 ->
  rev ts = ts -> rev Qs = Qs -> exists M : nat -> nat -> f64, matrix pow 2 ts Qs = Ok M /\
  forall i j, (i < 3)%nat -> (j < 3)%nat -> Rabs (B2R (M i j)) <= (3 * INR (length ts) + 4) * unit * q * height ts ^ 2.
Proof.
  intros pow ts Qs q HP U L B Hq Rt RQ. destruct (t_C78_matrices pow 2 ts Qs q HP ltac:(lia) U L B Hq) as (M & E & H). exists M. split; [exact E|]. intros i j Hi Hj.
  destruct (H i j Hi Hj) as [_ G]. unfold stiffness in G. unfold height at 1 in G. rewrite moment_palindrome in G; [rewrite Rminus_0_r in G; exact G|rewrite !map_length; exact L| |].
  - rewrite <- map_rev. f_equal. exact Rt.
  - rewrite <- map_rev. f_equal. exact RQ.
Qed.

(** ** the same text in exact arithmetic *)
Lemma thickness_sum_RA l : forall acc, @thickness_sum RA (map (fun p => thickness (snd p)) l) acc = total_thickness l acc.
Proof. induction l as [|p l IH]; intros acc; cbn [map thickness_sum total_thickness]; [reflexivity|apply IH]. Qed.
Lemma interfaces_RA l : forall z, @interfaces RA (map (fun p => thickness (snd p)) l) z = z_loop l z.
Proof. induction l as [|p l IH]; intros z; cbn [map interfaces z_loop]; [reflexivity|]. f_equal. apply IH. Qed.
Lemma positions_RA l : @positions RA (map (fun p => thickness (snd p)) l) = Ok (z_position l).
Proof.
  destruct l as [|p l]. { cbn. unfold z_position. cbn. f_equal. f_equal. field. }
  rewrite positions_cons by (cbn; lia). rewrite thickness_sum_RA. cbn [ndiv nneg nint RA]. destruct (Req_EM_T 2 0) as [Z|_]; [lra|]. cbn [bind]. rewrite interfaces_RA. reflexivity.
Qed.
Definition weight (p : nat) : R -> R -> R := match p with 1%nat => wA | 2%nat => wB | _ => wD end.
Lemma sum_rec_RA p (f : R -> R -> res R) : (1 <= p <= 3)%nat -> (forall x y, f x y = Ok (weight p x y)) -> forall l z (acc : nat -> nat -> R),
  exists M : nat -> nat -> R, @sum_rec RA f (map (fun p => thickness (snd p)) l) (map as_arr (Qs_of l)) z acc = Ok M /\ forall i j, (i < 3)%nat -> (j < 3)%nat -> M i j = acc i j + as_arr (lsum (weight p) z (pairs l)) i j.
Proof.
  intros Hp Hf. induction l as [|[th m] l IH]; intros z acc.
  { exists acc. split; [reflexivity|]. intros i j Hi Hj. destruct i as [|[|[|i]]]; try lia; destruct j as [|[|[|j]]]; try lia; cbn; ring. }
  cbn [map sum_rec Qs_of pairs lsum fst snd]. rewrite Hf. cbn [bind]. fold (Qs_of l). fold (pairs l). cbn [nadd nmul RA].
  destruct (IH (z + thickness m) (fun i j => acc i j + weight p (z + thickness m) z * as_arr (Qbar th m) i j)) as (M & E & G). exists M. split; [exact E|]. intros i j Hi Hj. rewrite (G i j Hi Hj).
  generalize (weight p (z + thickness m) z) as w. intros w.
  destruct i as [|[|[|i]]]; try lia; destruct j as [|[|[|j]]]; try lia; cbn [as_arr madd mscale a11 a12 a13 a21 a22 a23 a31 a32 a33]; ring.
Qed.
Lemma weights_RA : (forall x y, @weight_A RA x y = Ok (wA x y)) /\ (forall x y, @weight_B RA x y = Ok (wB x y)) /\ (forall x y, @weight_D RA x y = Ok (wD x y)).
Proof.
  split; [reflexivity|]. split; intros x y.
  - unfold weight_B. cbn [ndiv nint RA bind npow nmul nsub]. destruct (Req_EM_T 2 0) as [Z|_]; [lra|]. reflexivity.
  - unfold weight_D. cbn [ndiv nint RA bind npow nmul nsub]. destruct (Req_EM_T 3 0) as [Z|_]; [lra|]. reflexivity.
Qed.
Lemma attribute_eq p l : (1 <= p <= 3)%nat -> all_readable l -> attribute p l = Ok (Lsum (weight p) l).
Proof. intros P H. destruct p as [|[|[|[|p]]]]; try lia; cbn [attribute weight]; [apply A_of_eq|apply B_of_eq|apply D_of_eq]; exact H. Qed.
Lemma attribute_readable p l M : (1 <= p <= 3)%nat -> attribute p l = Ok M -> all_readable l.
Proof.
  intros P H. destruct (reads_or l) as [G|(EA & EB & ED & _)]; [exact G|]. destruct p as [|[|[|[|p]]]]; try lia; cbn [attribute] in H; congruence.
Qed.
Lemma Lsum_matrix p l : (1 <= p <= 3)%nat -> let f := match p with 1%nat => @weight_A RA | 2%nat => @weight_B RA | _ => @weight_D RA end in
  exists M : nat -> nat -> R, @laminate_matrix RA f (map (fun p => thickness (snd p)) l) (map as_arr (Qs_of l)) = Ok M /\ forall i j, (i < 3)%nat -> (j < 3)%nat -> M i j = as_arr (Lsum (weight p) l) i j.
Proof.
  intros P f. destruct weights_RA as (WA & WB & WD).
  assert (Hf : forall x y, f x y = Ok (weight p x y)). { intros x y. unfold f. destruct p as [|[|[|[|p]]]]; try lia; cbn [weight]; auto. }
  unfold laminate_matrix. rewrite positions_RA. cbn [bind]. unfold z_position.
  destruct (sum_rec_RA p f P Hf l (- total_thickness l 0 / 2) (fun _ _ => 0)) as (M & E & G). exists M. split.
  - etransitivity; [|exact E]. rewrite <- interfaces_RA. exact (@sum_plies_rec RA f (map (fun p => thickness (snd p)) l) [] _ (map as_arr (Qs_of l)) (fun _ _ => 0) ltac:(unfold Qs_of; rewrite !map_length; reflexivity)).
  - intros i j Hi Hj. rewrite (G i j Hi Hj), Rplus_0_l. unfold Lsum, z_bottom. rewrite total_thickness_sum, Rplus_0_l. reflexivity.
Qed.
(*@ C78: evaluated in exact arithmetic the same sums are the attributes A, B and D of the laminate (C10-C19), and the interfaces those of z_position. @*)
Lemma t_C78_same_text : forall l Qx A B D, Q_layup_of l = Ok Qx -> A_of l = Ok A -> B_of l = Ok B -> D_of l = Ok D ->
  let ts := map (fun p => thickness (snd p)) l in
  @positions RA ts = Ok (z_position l) /\
  (exists M : nat -> nat -> R, @matrix_A RA ts (map as_arr Qx) = Ok M /\ forall i j, (i < 3)%nat -> (j < 3)%nat -> M i j = as_arr A i j) /\
  (exists M : nat -> nat -> R, @matrix_B RA ts (map as_arr Qx) = Ok M /\ forall i j, (i < 3)%nat -> (j < 3)%nat -> M i j = as_arr B i j) /\
  (exists M : nat -> nat -> R, @matrix_D RA ts (map as_arr Qx) = Ok M /\ forall i j, (i < 3)%nat -> (j < 3)%nat -> M i j = as_arr D i j).
Proof.
  intros l Qx A B D EQ EA EB ED ts. assert (R := attribute_readable 1 l A ltac:(lia) EA). rewrite Q_layup_of_eq in EQ by exact R. injection EQ as <-.
  rewrite A_of_eq in EA by exact R. rewrite B_of_eq in EB by exact R. rewrite D_of_eq in ED by exact R. apply Ok_inj in EA, EB, ED. subst.
  split; [apply positions_RA|]. split; [exact (Lsum_matrix 1 l ltac:(lia))|]. split; [exact (Lsum_matrix 2 l ltac:(lia))|exact (Lsum_matrix 3 l ltac:(lia))].
Qed.

(** ** from the computed arrays to the exact laminate *)
Lemma lsum_moment p l i j : (1 <= p <= 3)%nat -> (i < 3)%nat -> (j < 3)%nat -> forall z, @eq R (as_arr (lsum (weight p) z (pairs l)) i j)
  (moment p z (map (fun p => thickness (snd p)) l) (map (fun X => as_arr X i j) (Qs_of l))).
Proof.
  intros P Hi Hj. induction l as [|[th m] l IH]; intros z.
  { destruct i as [|[|[|i]]]; try lia; destruct j as [|[|[|j]]]; try lia; reflexivity. }
  cbn [pairs map lsum Qs_of moment fst snd]. fold (pairs l). fold (Qs_of l). rewrite <- IH.
  assert (W : weight p (z + thickness m) z = ((z + thickness m) ^ p - z ^ p) / INR p).
  { destruct p as [|[|[|[|p]]]]; try lia; cbn [weight INR]; unfold wA, wB, wD; field. }
  rewrite <- W. generalize (weight p (z + thickness m) z) as w. intros w.
  destruct i as [|[|[|i]]]; try lia; destruct j as [|[|[|j]]]; try lia; cbn [as_arr madd mscale a11 a12 a13 a21 a22 a23 a31 a32 a33]; ring.
Qed.
Lemma moment_close p T eps ts : (1 <= p <= 3)%nat -> 0 <= eps -> 0 < T -> forall z qs xs, Forall (fun t => 0 < t) ts -> - T / 2 <= z -> z + rsum ts <= T / 2 -> Forall2 (fun q x => Rabs (q - x) <= eps) qs xs -> length qs = length ts ->
  Rabs (moment p z ts qs - moment p z ts xs) <= eps * T ^ (p - 1) * rsum ts.
Proof.
  intros P E0 T0. induction ts as [|t r IH]; intros z qs xs U L H F N.
  { destruct F; [|discriminate]. cbn. rewrite Rminus_0_r, Rabs_R0, Rmult_0_r. lra. }
  inversion U as [|? ? Ut Ur]; subst. destruct F as [|q x qs xs Fq F]; [discriminate|]. injection N as N. cbn [moment rsum] in *.
  assert (Sr : 0 <= rsum r). { clear -Ur. induction Ur; cbn; lra. }
  assert (I := IH (z + t) qs xs Ur ltac:(lra) ltac:(lra) F N). assert (W := weight_bound p T z t P L ltac:(lra) Ut).
  set (w := ((z + t) ^ p - z ^ p) / INR p) in *. replace (w * q + moment p (z + t) r qs - (w * x + moment p (z + t) r xs)) with (w * (q - x) + (moment p (z + t) r qs - moment p (z + t) r xs)) by ring.
  eapply Rle_trans; [apply Rabs_triang|]. rewrite Rabs_mult. assert (W0 : 0 < T ^ (p - 1)) by (apply pow_lt, T0). assert (Wt : 0 < T ^ (p - 1) * t) by (apply Rmult_lt_0_compat; lra).
  assert (Rabs w <= 1 * (T ^ (p - 1) * t)). { eapply Rle_trans; [exact W|]. apply Rmult_le_compat_r; [lra|]. destruct p as [|[|[|[|p]]]]; lia || lra. }
  assert (Rabs w * Rabs (q - x) <= 1 * (T ^ (p - 1) * t) * eps) by (apply Rmult_le_compat; try apply Rabs_pos; assumption). lra.
Qed.
Lemma Forall2_len {A B} (P : A -> B -> Prop) l l' : Forall2 P l l' -> length l = length l'. Proof. induction 1; cbn; congruence. Qed.
(*@ C78: so for a laminate whose Q_layup is computed within eps of the exact one, A, B and D as computed are within those units plus eps times the power of the total
    thickness of the exact A, B and D. @*)
Lemma t_C78_laminate : forall pow p l Qx X ts Qs q eps, pow_near pow -> (1 <= p <= 3)%nat -> usual_plies ts -> thicknesses ts l -> Q_layup_of l = Ok Qx -> attribute p l = Ok X ->
  arrays_within eps Qs Qx -> entries_below q Qs -> powerRZ 2 (-200) <= q <= powerRZ 2 200 ->
  exists M : nat -> nat -> f64, matrix pow p ts Qs = Ok M /\ forall i j, (i < 3)%nat -> (j < 3)%nat ->
    is_finite (M i j) = true /\ Rabs (B2R (M i j) - as_arr X i j) <= ((3 * INR (length ts) + 4) * unit * q + eps) * height ts ^ p.
Proof.
  intros pow p l Qx X ts Qs q eps HP P U TH EQ EX AW B Hq. assert (Rd := attribute_readable p l X P EX). rewrite (attribute_eq p l P Rd) in EX. apply Ok_inj in EX. subst X.
  rewrite Q_layup_of_eq in EQ by exact Rd. apply Ok_inj in EQ. subst Qx.
  assert (LQ : length Qs = length ts). { etransitivity; [exact (Forall2_len _ _ _ AW)|]. unfold Qs_of. rewrite map_length. apply (f_equal (@length R)) in TH. rewrite !map_length in TH. symmetry. exact TH. }
  destruct (t_C78_matrices pow p ts Qs q HP P U LQ B Hq) as (M & E & G). exists M. split; [exact E|]. intros i j Hi Hj. destruct (G i j Hi Hj) as [F C]. split; [exact F|].
  assert (HR := height_range ts U). assert (P0 : 0 < bp (-64)) by apply bpow_gt_0. destruct U as (U & N & NN).
  assert (e0 : 0 <= eps). { destruct AW as [|Q M0 Qs0 Ms H0 _]; [cbn in LQ; lia|]. eapply Rle_trans; [apply Rabs_pos|apply (H0 0%nat 0%nat); lia]. }
  assert (EX : @eq R (as_arr (Lsum (weight p) l) i j) (moment p (- height ts / 2) (map (@B2R 53 1024) ts) (map (fun X => as_arr X i j) (Qs_of l)))).
  { unfold Lsum. rewrite (lsum_moment p l i j P Hi Hj). rewrite <- TH. unfold z_bottom, hsum, pairs, height. rewrite map_map. cbn [fst]. rewrite TH. reflexivity. }
  assert (MC := moment_close p (height ts) eps (map (@B2R 53 1024) ts) P e0 ltac:(lra) (- height ts / 2) (map (fun Q => B2R (Q i j)) Qs) (map (fun X => as_arr X i j) (Qs_of l))).
  fold (height ts) in MC. fold (stiffness p ts Qs i j) in MC. rewrite <- EX in MC.
  assert (MC' : Rabs (stiffness p ts Qs i j - as_arr (Lsum (weight p) l) i j) <= eps * height ts ^ p).
  { replace (height ts ^ p) with (height ts ^ (p - 1) * height ts) by (replace p with (S (p - 1)) at 2 by lia; cbn [Rpow_def.pow]; ring). rewrite <- Rmult_assoc. apply MC; try lra.
    - clear -U. induction U as [|t r Ut _ IH]; cbn; constructor; [destruct (usual_pos t Ut) as (_ & Q & _); lra|exact IH].
    - clear -AW Hi Hj. induction AW as [|Q M0 Qs0 Ms H0 _ IH]; cbn; constructor; [apply H0; assumption|exact IH].
    - rewrite !map_length. exact LQ. }
  replace (B2R (M i j) - as_arr (Lsum (weight p) l) i j) with ((B2R (M i j) - stiffness p ts Qs i j) + (stiffness p ts Qs i j - as_arr (Lsum (weight p) l) i j)) by ring.
  eapply Rle_trans; [apply Rabs_triang|]. lra.
Qed.

(** ** witnesses *)
Definition square_cube (x : f64) (n : nat) : res f64 := Ok (match n with 2%nat => fmul x x | _ => fmul (fmul x x) x end).
Lemma square_cube_near : pow_near square_cube.
Proof.
  intros x n F A N. assert (u := unit_val). change (powerRZ 2 90) with (powerRZ (IZR radix2) 90) in A. rewrite <- bpow_powerRZ in A.
  change (powerRZ 2 (-900)) with (powerRZ (IZR radix2) (-900)). rewrite <- bpow_powerRZ. set (X := B2R x) in *. assert (X0 := Rabs_pos X).
  assert (A2 : Rabs (X * X) <= bp 180). { rewrite Rabs_mult. change 180%Z with (90 + 90)%Z. rewrite bpow_plus. apply Rmult_le_compat; assumption. }
  destruct (mul_err x x F F) as [F2 E2]; [fold X; eapply Rle_trans; [exact A2|apply bpow_le; lia]|]. fold X in E2.
  assert (t1 : bp (-1075) <= bp (-1000)) by (apply bpow_le; lia). assert (t2 : bp (-1000) * bp 90 * 2 <= bp (-900) / 2).
  { replace (bp (-900) / 2) with (bp (-901)). - change 2 with (bp 1) at 1. rewrite <- !bpow_plus. apply bpow_le. lia.
    - change (-901)%Z with (-900 + -1)%Z. rewrite bpow_plus. change (bp (-1)) with (/ 2). reflexivity. }
  assert (t0 : 0 < bp (-1000)) by apply bpow_gt_0. assert (t4 : 0 < bp (-900)) by apply bpow_gt_0. assert (t3 : 1 <= bp 90) by (change 1 with (bp 0); apply bpow_le; lia).
  assert (t5 : bp (-1000) <= bp (-900) / 2) by nra.
  destruct N as [-> | ->]; eexists; (split; [reflexivity|]).
  - split; [exact F2|]. replace (X ^ 2) with (X * X) by ring. assert (P := Rabs_pos (X * X)). nra.
  - set (Y := B2R (fmul x x)) in *. assert (P2 := Rabs_pos (X * X)).
    assert (AY : Rabs Y <= (1 + unit) * Rabs (X * X) + bp (-1075)). { replace Y with (Y - X * X + X * X) by ring. eapply Rle_trans; [apply Rabs_triang|]. lra. }
    assert (B1 : bp (-1075) <= 1) by (change 1 with (bp 0); apply bpow_le; lia). assert (B2 : 1 <= bp 180) by (change 1 with (bp 0); apply bpow_le; lia).
    assert (AY' : Rabs Y <= 4 * bp 180). { assert ((1 + unit) * Rabs (X * X) <= 2 * bp 180) by (apply Rmult_le_compat; lra). lra. }
    destruct (mul_err (fmul x x) x F2 F) as [F3 E3].
    { fold X Y. rewrite Rabs_mult. apply Rle_trans with (4 * bp 180 * bp 90); [apply Rmult_le_compat; try apply Rabs_pos; assumption|].
      change 4 with (bp 2). rewrite <- !bpow_plus. apply bpow_le. lia. }
    fold X Y in E3. split; [exact F3|]. replace (X ^ 3) with (X * X * X) by ring. set (V := X * X) in *.
    replace (B2R (fmul (fmul x x) x) - V * X) with ((B2R (fmul (fmul x x) x) - Y * X) + (Y - V) * X) by ring. eapply Rle_trans; [apply Rabs_triang|]. rewrite (Rabs_mult (Y - V)), (Rabs_mult V X).
    assert (M1 : Rabs (Y - V) * Rabs X <= (unit * Rabs V + bp (-1075)) * Rabs X) by (apply Rmult_le_compat_r; assumption).
    assert (M2 : bp (-1075) * Rabs X <= bp (-1000) * bp 90) by (apply Rmult_le_compat; [apply bpow_ge_0|exact X0|exact t1|exact A]).
    rewrite Rabs_mult in E3. assert (M3 : Rabs Y * Rabs X <= ((1 + unit) * Rabs V + bp (-1075)) * Rabs X) by (apply Rmult_le_compat_r; assumption).
    assert (VX : 0 <= Rabs V * Rabs X) by (apply Rmult_le_pos; apply Rabs_pos).
    assert (M4 : unit * (Rabs Y * Rabs X) <= unit * (((1 + unit) * Rabs V + bp (-1075)) * Rabs X)) by (apply Rmult_le_compat_l; lra).
    assert (M5 : unit * unit * (Rabs V * Rabs X) <= unit * (Rabs V * Rabs X)). { apply Rmult_le_compat_r; [exact VX|]. nra. }
    assert (M6 : unit * (bp (-1075) * Rabs X) <= 1 * (bp (-1000) * bp 90)). { apply Rmult_le_compat; try lra. apply Rmult_le_pos; [apply bpow_ge_0|exact X0]. }
    lra.
Qed.
Lemma usual_of m e : (0 < m < 2 ^ 53)%Z -> (-64 <= e <= 0)%Z -> (m <= 2 ^ 60)%Z -> usual (f_of_Z_exp m e).
Proof.
  intros Hm He _. destruct (f_of_Z_exp_denotes m e) as [F E]; [rewrite Z.abs_eq by lia; lia|lia|]. split; [exact F|]. rewrite E.
  change (powerRZ 2 (-64)) with (powerRZ (IZR radix2) (-64)). change (powerRZ 2 64) with (powerRZ (IZR radix2) 64). rewrite <- !bpow_powerRZ. split.
  - apply Rle_trans with (1 * bp e); [rewrite Rmult_1_l; apply bpow_le; lia|]. apply Rmult_le_compat_r; [apply bpow_ge_0|]. apply (IZR_le 1). lia.
  - apply Rle_trans with (bp 53 * bp 0); [|rewrite <- bpow_plus; apply bpow_le; lia]. apply Rmult_le_compat; [apply (IZR_le 0); lia|apply bpow_ge_0| |apply bpow_le; lia].
    change (bp 53) with (IZR (2 ^ 53)). apply IZR_le. lia.
Qed.
(*@ C78, the strict order is refuted: a ply much thinner than the rest has no height at all; its two interfaces are the same double and it contributes nothing to A, B and D. @*)
Lemma t_C78_absorbed_refuted : exists pow ts, usual_plies ts /\ exists (zs : list f64) x y, @positions (FA pow) ts = Ok zs /\ nth_error zs 1 = Some x /\ nth_error zs 2 = Some y /\ feq x y = true /\
  exists w, @weight_A (FA pow) y x = Ok w /\ feq w fzero = true.
Proof.
  exists square_cube, [f_of_Z_exp 1 0; f_of_Z_exp 1 (-60)]. split.
  - split; [apply Forall_cons; [apply usual_of; lia|apply Forall_cons; [apply usual_of; lia|apply Forall_nil]]|]. cbn [length INR]. split; [lia|lra].
  - eexists _, _, _. split; [reflexivity|]. split; [reflexivity|]. split; [reflexivity|]. split; [vm_compute; reflexivity|]. eexists. split; [reflexivity|]. vm_compute. reflexivity.
Qed.
(** one tenth *)
Definition tenth : f64 := f_of_Z_exp 7205759403792794 (-56).
(*@ C78, exact symmetry is refuted: three equal plies of thickness 0.1 with the unit matrix as stiffness do not have B = 0, and the top face is not opposite to the bottom face. @*)
Lemma t_C78_B_refuted : exists pow t, pow_near pow /\ usual t /\ feq t (fdiv (f_of_Z 1) (f_of_Z 10)) = true /\
  (exists M : nat -> nat -> f64, matrix pow 2 [t; t; t] [fid; fid; fid] = Ok M /\ feq (M 0 0)%nat fzero = false) /\
  (exists (zs : list f64) x y, @positions (FA pow) [t; t; t] = Ok zs /\ nth_error zs 0 = Some x /\ nth_error zs 3 = Some y /\ feq y (fopp x) = false).
Proof.
  exists square_cube, tenth. split; [exact square_cube_near|]. split; [apply usual_of; lia|]. split; [vm_compute; reflexivity|]. split.
  - eexists. split; [reflexivity|]. vm_compute. reflexivity.
  - eexists _, _, _. split; [reflexivity|]. split; [reflexivity|]. split; [reflexivity|]. vm_compute. reflexivity.
Qed.
(*@ C78: the hypotheses are met, with exact arrays, by two plies at 0 degrees of the example material (e1 = 2, e2 = 1, v12 = 0, g12 = 1, thickness 1). @*)
Example t_C78_ex : exists pow Q Qx X, pow_near pow /\ usual_plies [f_of_Z 1; f_of_Z 1] /\ thicknesses [f_of_Z 1; f_of_Z 1] [(0, Ortho ex_mat); (0, Ortho ex_mat)] /\
  Q_layup_of [(0, Ortho ex_mat); (0, Ortho ex_mat)] = Ok Qx /\ attribute 3 [(0, Ortho ex_mat); (0, Ortho ex_mat)] = Ok X /\ arrays_within 0 [Q; Q] Qx /\ entries_below 2 [Q; Q] /\
  as_arr X 0%nat 0%nat = 4 / 3 /\ height [f_of_Z 1; f_of_Z 1] = 2.
Proof.
  destruct (int_val 1 eq_refl) as [F1 E1]. destruct (int_val 2 eq_refl) as [F2 E2].
  assert (Rd : all_readable [(0, Ortho ex_mat); (0, Ortho ex_mat)]).
  { assert (readable (Ortho ex_mat)). { unfold readable, Q_0, o_Q0, pydiv, ex_mat, o_v21. cbn. destruct (Req_EM_T _ 0) as [Z|_]; [exfalso; lra|]. cbn. eauto. }
    constructor; [assumption|]. constructor; [assumption|constructor]. }
  assert (Q0 : Qbar 0 (Ortho ex_mat) = M3 2 0 0 0 1 0 0 0 1).
  { unfold Qbar, Q0p, Q_0, o_Q0, pydiv, ex_mat, o_v21, cdeg, sdeg. cbn [o_e1 o_e2 o_v12 o_g12]. replace (0 * PI / 180) with 0 by field. rewrite cos_0, sin_0.
    destruct (Req_EM_T _ 0) as [Z|_]; [exfalso; lra|]. cbn [bind]. unfold rot, T_real_inv, T_engineering, mmul. cbn [a11 a12 a13 a21 a22 a23 a31 a32 a33]. apply mat3_ext; cbn [a11 a12 a13 a21 a22 a23 a31 a32 a33]; field. }
  set (Q := fun i j : nat => if Nat.eqb i j then (if Nat.eqb i 0 then f_of_Z 2 else f_of_Z 1) else fzero).
  exists square_cube, Q, (Qs_of [(0, Ortho ex_mat); (0, Ortho ex_mat)]), (Lsum (weight 3) [(0, Ortho ex_mat); (0, Ortho ex_mat)]).
  split; [exact square_cube_near|]. split; [|split; [|split; [|split; [|split; [|split; [|split]]]]]].
  - split; [|cbn [length INR]; split; [lia|lra]]. assert (usual (f_of_Z 1)) by (apply (usual_of 1 0); lia). apply Forall_cons; [assumption|]. apply Forall_cons; [assumption|apply Forall_nil].
  - unfold thicknesses. cbn [map snd thickness ex_mat o_thickness]. change (B2R (f_of_Z 1)) with (@B2R 53 1024 (f_of_Z 1)) in E1. rewrite E1. reflexivity.
  - apply Q_layup_of_eq, Rd.
  - apply attribute_eq; [lia|exact Rd].
  - assert (W : forall i j, (i < 3)%nat -> (j < 3)%nat -> Rabs (B2R (Q i j) - as_arr (Qbar 0 (Ortho ex_mat)) i j) <= 0).
    { intros i j Hi Hj. rewrite Q0. unfold Q. destruct i as [|[|[|i]]]; try lia; destruct j as [|[|[|j]]]; try lia; cbn [Nat.eqb as_arr a11 a12 a13 a21 a22 a23 a31 a32 a33];
      rewrite ?E1, ?E2; try (change (B2R fzero) with 0); rewrite Rminus_diag_eq, Rabs_R0 by reflexivity; apply Rle_refl. }
    constructor; [exact W|]. constructor; [exact W|constructor].
  - assert (W : forall i j, (i < 3)%nat -> (j < 3)%nat -> fin (Q i j) /\ Rabs (B2R (Q i j)) <= 2).
    { intros i j _ _. unfold Q. destruct (Nat.eqb i j); [destruct (Nat.eqb i 0)|]; rewrite ?E1, ?E2; (split; [assumption || reflexivity|]); try (change (B2R fzero) with 0); apply Rabs_le; lra. }
    constructor; [exact W|]. constructor; [exact W|constructor].
  - unfold Lsum. cbn [pairs map fst snd thickness ex_mat o_thickness]. fold ex_mat. rewrite Q0. unfold z_bottom, hsum. cbn [map fst rsum lsum weight as_arr madd mscale a11 mzero]. unfold wD. match goal with |- @eq _ ?a ?b => change (@eq R a b) end. field.
  - unfold height. cbn [map rsum]. rewrite E1. ring.
Qed.
