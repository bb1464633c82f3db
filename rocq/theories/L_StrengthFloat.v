(** Lemmas on LaminateStrength in binary64 *)
From Coq Require Import Reals ZArith Lra Lia Bool String.
From Coquelicot Require Import Coquelicot.
From Flocq Require Import Core.Core IEEE754.BinarySingleNaN.
From Coq Require Import List.
From Verif Require Import M_Py M_Float M_FloatArith M_RealArith M_Validate M_Material M_Laminate M_Strength M_K M_MatFloat M_LamArith M_LayupFloat M_XiFloat M_Margin M_StrengthFloat S_Mat S_Laminate S_Ritz S_Validate S_Round S_LamRound S_MatFloat S_LayupFloat S_Strength S_Reserve S_StrengthFloat L_Float L_Round L_LamRound L_Mat L_Lam L_LamAlg L_LamSums L_LamEnergy L_Linalg L_LayupFloat L_XiFloat L_Strength T_LayupFloat.
Import ListNotations.
Open Scope string_scope.
Open Scope list_scope.
Open Scope R_scope.

(** ** structure of the tables *)
Notation plyf := ((f64 * fmaterial) * (f64 * f64))%type (only parsing).
Fixpoint zf (z : f64) (l : list (f64 * fmaterial)) : list plyf :=
  match l with [] => [] | p :: r => (p, (z, fadd z (f_thickness (snd p)))) :: zf (fadd z (f_thickness (snd p))) r end.
Lemma zf_fst l : forall z, map fst (zf z l) = l.
Proof. induction l as [|p r IH]; intros z; cbn [zf map fst]; [reflexivity|rewrite IH; reflexivity]. Qed.
Lemma zf_length l z : List.length (zf z l) = List.length l.
Proof. rewrite <- (zf_fst l z) at 2. rewrite map_length. reflexivity. Qed.
Lemma get_mid {A} (pre : list A) x r : get (pre ++ x :: r) (List.length pre) = Ok x.
Proof. unfold get. rewrite nth_error_app2, Nat.sub_diag by lia. reflexivity. Qed.
Lemma get_mid1 {A} (pre : list A) x y r : get (pre ++ x :: y :: r) (List.length pre + 1) = Ok y.
Proof. unfold get. rewrite nth_error_app2 by lia. replace (List.length pre + 1 - List.length pre)%nat with 1%nat by lia. reflexivity. Qed.
Section Rows.
Variable pow : f64 -> nat -> res f64.
Notation ifs := (@interfaces (FA pow)).
Lemma zmid_f l : forall pre z, mapM (fun i => zi <- get (pre ++ z :: ifs (thick l) z) i ;; zj <- get (pre ++ z :: ifs (thick l) z) (i + 1) ;; Ok (zi, zj))
  (seq (List.length pre) (List.length l)) = Ok (map snd (zf z l)).
Proof.
  induction l as [|p r IH]; intros pre z; [reflexivity|]. cbn [List.length seq mapM thick map interfaces zf snd].
  change (nadd (FA pow) z (f_thickness (snd p))) with (fadd z (f_thickness (snd p))). set (z1 := fadd z (f_thickness (snd p))).
  change (@get (num (FA pow))) with (@get f64).
  rewrite get_mid, get_mid1. cbn [bind].
  specialize (IH (pre ++ [z]) z1). rewrite <- app_assoc, app_length in IH. cbn [List.app] in IH. cbn [List.length] in IH. rewrite Nat.add_1_r in IH. fold (thick r).
  match goal with |- bind ?m _ = _ => replace m with (Ok (map snd (zf z1 r)) : res (list (f64 * f64))) by (symmetry; exact IH) end. reflexivity.
Qed.
Definition ends_f (f : plyf -> f64 -> fvec) (x : plyf) : fvec * fvec := (f x (fst (snd x)), f x (snd (snd x))).
Definition angle_f (x : plyf) : f64 := fst (fst x).
Fixpoint rows_f (f g : plyf -> f64 -> fvec) (i : nat) (xs : list plyf) : list frow :=
  match xs with
  | [] => []
  | x :: t => FRow (i + 1) (fst (snd x)) "bot" (angle_f x) (f x (fst (snd x))) (g x (fst (snd x))) :: FRow (i + 1) (snd (snd x)) "top" (angle_f x) (f x (snd (snd x))) (g x (snd (snd x))) :: rows_f f g (i + 1) t
  end.
Lemma row_loop_rows f g l : forall pre z, row_loop_f (pre ++ z :: ifs (thick l) z) (List.length pre) (combine (map (ends_f f) (zf z l)) (combine (map (ends_f g) (zf z l)) (map angle_f (zf z l)))) = Ok (rows_f f g (List.length pre) (zf z l)).
Proof.
  induction l as [|p r IH]; intros pre z; [reflexivity|]. cbn [zf map combine]. unfold ends_f. cbn [row_loop_f thick map interfaces fst snd].
  change (nadd (FA pow) z (f_thickness (snd p))) with (fadd z (f_thickness (snd p))). set (z1 := fadd z (f_thickness (snd p))). fold (thick r).
  change (@get (num (FA pow))) with (@get f64). rewrite get_mid, get_mid1. cbn [bind].
  specialize (IH (pre ++ [z]) z1). rewrite <- app_assoc, app_length in IH. cbn [List.app] in IH. cbn [List.length] in IH.
  match goal with |- bind ?m _ = _ => replace m with (Ok (rows_f f g (List.length pre + 1) (zf z1 r)) : res (list frow)) by (symmetry; exact IH) end. reflexivity.
Qed.
End Rows.

(** ** the interfaces *)
Definition ply_rel (n T : R) (x : plyf) (y : (R * material) * (R * R)) : Prop :=
  fst y = (B2R (fst (fst x)), exact_mat (snd (fst x))) /\ snd (snd y) = fst (snd y) + thickness (snd (fst y)) /\ near_ply n T (snd (snd x)) (fst (snd x)) (fst (snd y)) (thickness (snd (fst y))).
Lemma thick_mat m : thickness (exact_mat m) = B2R (f_thickness m). Proof. destruct m; reflexivity. Qed.
Lemma zf_rel n T l : 0 <= n <= 1000000 -> bp (-64) <= T <= bp 84 -> forall zz z e, Forall usual (thick l) -> fin zz -> 0 <= e -> e + slack * INR (List.length l) <= 2 * n + 2 -> Rabs (B2R zz - z) <= e * unit * (T / 2) ->
  - T / 2 <= z -> z + rsum (map (@B2R 53 1024) (thick l)) <= T / 2 -> Forall2 (ply_rel n T) (zf zz l) (zl z (exact_layup l)).
Proof.
  intros Hn HT. assert (u := unit_val). assert (P64 : 0 < bp (-64)) by apply bpow_gt_0.
  induction l as [|[th m] r IH]; intros zz z e U F He Le E Lz Hz; [constructor|]. cbn [thick map] in U, Hz. inversion U as [|? ? Ut Ur]; subst. cbn [snd] in *.
  destruct (usual_pos _ Ut) as (Ft & Pt & _). assert (Hr := heights_pos _ Ur). fold (thick r) in *. cbn [List.length rsum] in *. rewrite S_INR in *. assert (J := pos_INR (List.length r)).
  set (t := f_thickness m) in *. unfold slack in *.
  destruct (step_err T zz z t e Ut F E ltac:(lra) Lz ltac:(lra) ltac:(lra)) as (F1 & D1 & E1).
  assert (uT : 0 < unit * T) by (apply Rmult_lt_0_compat; lra).
  cbn [zf exact_layup map zl fst snd]. rewrite thick_mat. fold t. constructor.
  - split; [reflexivity|]. cbn [fst snd]. rewrite thick_mat. fold t. split; [reflexivity|]. constructor; try assumption; try lra.
    + eapply Rle_trans; [exact E|]. replace (e * unit * (T / 2)) with (e / 2 * (unit * T)) by field. rewrite Rmult_assoc. apply Rmult_le_compat_r; lra.
    + eapply Rle_trans; [exact E1|]. unfold slack. replace ((e + (1 + 1 / 100000000)) * unit * (T / 2)) with ((e + (1 + 1 / 100000000)) / 2 * (unit * T)) by field. rewrite Rmult_assoc. apply Rmult_le_compat_r; lra.
    + replace (B2R (fadd zz t) - B2R zz - B2R t) with (B2R (fadd zz t) - (B2R zz + B2R t)) by ring. exact D1.
  - apply (IH (fadd zz t) (z + B2R t) (e + slack)); unfold slack in *; try assumption; try lra.
Qed.
Lemma positions_rel pow l : usual_plies (thick l) -> exists c, @positions (FA pow) (thick l) = Ok (c :: @interfaces (FA pow) (thick l) c) /\
  Forall2 (ply_rel (INR (List.length l)) (total l)) (zf c l) (X (exact_layup l)).
Proof.
  intros HU. destruct (bottom_err pow (thick l) HU) as (z & E & F & Bz). assert (R := height_range (thick l) HU).
  change (total l) with (height (thick l)). set (T := height (thick l)) in *. assert (Ln : List.length (thick l) = List.length l) by (unfold thick; apply map_length).
  assert (HU' := HU). destruct HU' as (U & N1 & M). rewrite Ln in *. set (n := INR (List.length l)) in *. assert (n1 : 1 <= n) by (apply (le_INR 1), N1). assert (P64 : 0 < bp (-64)) by apply bpow_gt_0.
  exists z. split.
  { destruct (thick l) as [|t ts] eqn:El; [cbn in Ln; lia|]. unfold positions. rewrite E. reflexivity. }
  unfold X, zb. rewrite <- height_exact. fold T. apply (zf_rel n T l ltac:(lra) R z (- T / 2) (n * slack + 1 + 1 / 100)); try assumption; fold n; unfold slack in *; try lra.
  fold (height (thick l)). fold T. lra.
Qed.

(** the two rows of every ply *)
Definition vec_near (off : R) (v : fvec) (w : vec3) : Prop := forall k, (k < 3)%nat -> fin (v k) /\ Rabs (B2R (v k) - part w k) <= off.
Lemma rows_near n T zoff off f g f' g' xs ys : (n + 1) * unit * T <= zoff -> Forall2 (ply_rel n T) xs ys ->
  (forall x y a z, In x xs -> ply_rel n T x y -> fin a -> Rabs (B2R a - z) <= (n + 1) * unit * T -> Rabs z <= T / 2 -> vec_near off (f x a) (f' y z) /\ vec_near off (g x a) (g' y z)) ->
  forall i, Forall2 (row_near zoff off) (rows_f f g i xs) (rows f' g' i ys).
Proof.
  intros Hz H. induction H as [|[[th m] [a b]] [[th' m'] [z0 z1]] xs ys E H IH]; intros C i; [constructor|]. cbn [rows_f rows two_rows List.app fst snd angle_f]. destruct E as (E1 & E2 & N). cbn [fst snd] in *.
  assert (P := pair_equal_spec). apply P in E1. destruct E1 as [-> ->]. assert (N' := N). destruct N' as [Nn NT Nt Nl Nh F1 F0 D0 D1 _].
  assert (R0 : ply_rel n T ((th, m), (a, b)) ((B2R th, exact_mat m), (z0, z1))) by (split; [reflexivity|split; assumption]).
  destruct (C _ _ a z0 (or_introl eq_refl) R0 F0 D0) as [A1 A2]. { apply Rabs_le. lra. }
  assert (D1' : Rabs (B2R b - z1) <= (n + 1) * unit * T) by (rewrite E2; exact D1).
  destruct (C _ _ b z1 (or_introl eq_refl) R0 F1 D1') as [B1 B2]. { apply Rabs_le. rewrite E2. lra. }
  constructor; [constructor; cbn; try reflexivity; try assumption; split; [assumption|lra]|]. constructor; [constructor; cbn; try reflexivity; try assumption; split; [assumption|lra]|].
  apply IH. intros x y a' z Hx. apply C. right. exact Hx.
Qed.
