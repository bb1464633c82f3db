(** Closed form of the strain and stress tables *)
From Coq Require Import Reals List Lra Lia String.
From Verif Require Import M_Py S_Mat M_Material M_Laminate M_LamHistory M_Linalg S_Laminate M_Strength S_Strength
  L_Mat L_Lam L_LamAlg L_LamSums L_LamEnergy L_Linalg.
Import ListNotations.
Open Scope string_scope.
Open Scope list_scope.
Open Scope R_scope.

Lemma smapM_ext {A B} (f g : A -> ST B) l : (forall x w, f x w = g x w) -> forall w, smapM f l w = smapM g l w.
Proof.
  intros H; induction l as [|x t IH]; intros w; simpl; [reflexivity|]; unfold sbind; rewrite H.
  destruct (g x w) as [w' [y|e]]; [|reflexivity]; rewrite IH; reflexivity.
Qed.

(** plies with their z interval *)
Notation plyz := ((R * material) * (R * R))%type (only parsing).
Fixpoint zl (z0 : R) (l : list (R * material)) : list plyz :=
  match l with
  | [] => []
  | p :: t => (p, (z0, z0 + thickness (snd p))) :: zl (z0 + thickness (snd p)) t
  end.
Definition X l := zl (zb l) l.
Lemma zl_fst l : forall z0, map fst (zl z0 l) = l.
Proof. induction l as [|p t IH]; intros; simpl; [reflexivity|now rewrite IH]. Qed.
Lemma zl_length l z0 : List.length (zl z0 l) = List.length l.
Proof. rewrite <- (zl_fst l z0) at 2; rewrite map_length; reflexivity. Qed.

Definition GoodL (l : list (R * material)) (L : lam) : Prop := same (fresh l) L /\ Inv L.
Lemma GoodL_fresh l : GoodL l (fresh l).
Proof. split; [apply same_refl|apply fresh_Inv]. Qed.
Lemma GoodL_layup l L : GoodL l L -> layup L = l /\ stacking L = SAngles (map fst l).
Proof. intros [(H1&_&H2&_) _]; split; assumption. Qed.

Definition ABDp l := M6 (Lsum wA l) (Lsum wB l) (Lsum wB l) (Lsum wD l).
Definition sol l N : res (vec3 * vec3) := abd <- inv6 (ABDp l) ;; Ok (mvec6 abd N).

Lemma get_ABD_good l L : all_readable l -> GoodL l L -> exists L', get_ABD L = (L', Ok (ABDp l)) /\ GoodL l L'.
Proof.
  intros Hr [Hs HI]; destruct (GoodL_layup l L (conj Hs HI)) as [El _].
  assert (Hok : layup_ok (layup L)) by (rewrite El; apply all_readable_ok, Hr).
  destruct (get_ABD_inv L Hok HI) as (L' & E & HI' & Hs').
  exists L'; rewrite E; split; [|split; [eapply same_trans; eassumption|assumption]].
  f_equal; unfold pure_ABD; destruct (same_pure _ _ Hs) as (-> & -> & ->); reflexivity.
Qed.
Lemma get_Q_good l L : all_readable l -> GoodL l L -> exists L', get_Q_layup L = (L', Ok (Qs_of l)) /\ GoodL l L'.
Proof.
  intros Hr [Hs HI]; destruct (GoodL_layup l L (conj Hs HI)) as [El _].
  assert (Hok : layup_ok (layup L)) by (rewrite El; apply all_readable_ok, Hr).
  destruct (get_Q_inv L Hok HI) as (L' & E & HI' & Hs' & _).
  exists L'; rewrite E, El; split; [reflexivity|split; [eapply same_trans; eassumption|assumption]].
Qed.

Lemma epsilon0_run l N L h : all_readable l -> GoodL l L ->
  exists L', epsilon0 N (World L h) = (World L' h, sol l N) /\ GoodL l L'.
Proof.
  intros Hr HG; destruct (get_ABD_good l L Hr HG) as (L' & E & HG').
  exists L'; split; [|assumption].
  unfold epsilon0, sbind, on_lam, sol; simpl; rewrite E; simpl.
  destruct (inv6 (ABDp l)); reflexivity.
Qed.

Lemma zmid_eq t : forall pre z0, mapM (fun i => zi <- get (pre ++ z0 :: z_loop t z0) i ;; zj <- get (pre ++ z0 :: z_loop t z0) (i+1) ;; Ok (zi, zj))
  (seq (List.length pre) (List.length t)) = Ok (map snd (zl z0 t)).
Proof.
  induction t as [|p t IH]; intros pre z0; [reflexivity|].
  cbn [List.length seq mapM z_loop zl map snd].
  set (z1 := z0 + thickness (snd p)).
  assert (E0 : get (pre ++ z0 :: z1 :: z_loop t z1) (List.length pre) = Ok z0) by (unfold get; rewrite nth_error_mid; reflexivity).
  assert (Eq : pre ++ z0 :: z1 :: z_loop t z1 = (pre ++ [z0]) ++ z1 :: z_loop t z1) by (rewrite <- app_assoc; reflexivity).
  assert (E1 : get (pre ++ z0 :: z1 :: z_loop t z1) (List.length pre + 1) = Ok z1).
  { rewrite Eq; replace (List.length pre + 1)%nat with (List.length (pre ++ [z0])) by (rewrite app_length; reflexivity).
    unfold get; rewrite nth_error_mid; reflexivity. }
  rewrite E0, E1; cbn [bind].
  rewrite Eq; replace (S (List.length pre)) with (List.length (pre ++ [z0])) by (rewrite app_length; simpl; lia).
  rewrite IH; reflexivity.
Qed.
Lemma z_position_zb l : z_position l = zb l :: z_loop l (zb l).
Proof. unfold z_position, zb; rewrite total_thickness_sum, total_hsum, Rplus_0_l; reflexivity. Qed.

Fixpoint addrs (n k : nat) : list (addr * addr) :=
  match k with O => [] | S k' => (n, S n) :: addrs (S (S n)) k' end.
Definition flat (v : list (vec3 * vec3)) : list vec3 := flat_map (fun p => [fst p; snd p]) v.
Lemma flat_length v : List.length (flat v) = (2 * List.length v)%nat.
Proof. induction v as [|p t IH]; simpl; [reflexivity|]; rewrite IH; lia. Qed.

Definition ep (e0 : vec3 * vec3) (z : R) : vec3 := vadd (fst e0) (vscale z (snd e0)).
Lemma alloc_run e k zs : forall L h,
  smapM (fun h0 : R * R => let (htop, hbot) := h0 in
           t <~ alloc (vadd e (vscale htop k)) ;; b <~ alloc (vadd e (vscale hbot k)) ;; ret (t, b)) zs (World L h)
  = (World L (h ++ flat (map (fun p => (ep (e, k) (fst p), ep (e, k) (snd p))) zs)), Ok (addrs (List.length h) (List.length zs))).
Proof.
  induction zs as [|[a b] t IH]; intros L h.
  - simpl; rewrite app_nil_r; reflexivity.
  - cbn [smapM]. unfold sbind at 1. unfold sbind at 1. unfold sbind at 1.
    unfold alloc at 1; cbn [w_lam w_heap]. unfold alloc at 1; cbn [w_lam w_heap]. unfold ret at 1. cbn beta iota.
    unfold sbind; rewrite IH; cbn [map flat flat_map List.length addrs fst snd]; rewrite <- !app_assoc.
    rewrite !app_length; cbn [List.length app].
    unfold ret; f_equal.
    replace (List.length h + 1)%nat with (S (List.length h)) by lia.
    replace (List.length h + (1 + 1))%nat with (S (S (List.length h))) by lia. reflexivity.
Qed.

Definition eks (e0 : vec3 * vec3) (xs : list plyz) : list (vec3 * vec3) :=
  map (fun x => (ep e0 (fst (snd x)), ep e0 (snd (snd x)))) xs.

Lemma epsilonk_run l N L h : all_readable l -> GoodL l L ->
  exists L', GoodL l L' /\
  epsilonk N (World L h) =
    match sol l N with
    | Ok e0 => (World L' (h ++ flat (eks e0 (X l))), Ok (addrs (List.length h) (List.length (X l))))
    | Err e => (World L' h, Err e)
    end.
Proof.
  intros Hr HG; destruct (GoodL_layup l L HG) as [El Es].
  destruct (epsilon0_run l N L h Hr HG) as (L' & E & HG'); exists L'; split; [assumption|].
  unfold epsilonk. unfold sbind at 1. unfold lam_get at 1; cbn [w_lam]. unfold sbind at 1. unfold lam_get at 1; cbn [w_lam].
  rewrite El, Es; cbn [stacking_len]; rewrite map_length, z_position_zb.
  unfold sbind at 1. unfold lift at 1. pose proof (zmid_eq l [] (zb l)) as Ez; cbn [app List.length] in Ez; rewrite Ez; clear Ez.
  unfold sbind at 1. rewrite E.
  destruct (sol l N) as [e0|e]; [|reflexivity].
  rewrite alloc_run; unfold eks, X; rewrite map_map, !map_length, <- surjective_pairing; reflexivity.
Qed.

(** reading the vectors back *)
Lemma nth_app_len {A} (pre : list A) x post n : List.length pre = n -> get (pre ++ x :: post) n = Ok x.
Proof. intros <-; unfold get; rewrite nth_error_mid; reflexivity. Qed.
Lemma load_run {P A B} (g : A -> vec3 -> vec3 -> B) (q : P -> A) (v : P -> vec3 * vec3) L xs : forall pre post,
  smapM (fun p : A * (addr * addr) => et <~ load (fst (snd p)) ;; eb <~ load (snd (snd p)) ;; ret (g (fst p) et eb))
    (combine (map q xs) (addrs (List.length pre) (List.length xs))) (World L (pre ++ flat (map v xs) ++ post))
  = (World L (pre ++ flat (map v xs) ++ post), Ok (map (fun x => g (q x) (fst (v x)) (snd (v x))) xs)).
Proof.
  induction xs as [|x t IH]; intros pre post; [reflexivity|].
  cbn [map List.length addrs combine smapM flat flat_map fst snd].
  set (H := pre ++ _).
  assert (E0 : get H (List.length pre) = Ok (fst (v x))) by (unfold H; cbn [app]; apply nth_app_len; reflexivity).
  assert (EH : H = (pre ++ [fst (v x); snd (v x)]) ++ flat (map v t) ++ post) by (unfold H, flat; rewrite <- !app_assoc; reflexivity).
  assert (E1 : get H (S (List.length pre)) = Ok (snd (v x))).
  { replace H with ((pre ++ [fst (v x)]) ++ snd (v x) :: flat (map v t) ++ post) by (rewrite EH, <- !app_assoc; reflexivity).
    apply nth_app_len; rewrite app_length; simpl; lia. }
  unfold sbind at 1. unfold sbind at 1. unfold load at 1. cbn [w_heap]. rewrite E0.
  unfold sbind at 1. unfold load at 1. cbn [w_heap]. rewrite E1. unfold ret at 1.
  unfold sbind at 1. rewrite EH.
  replace (S (S (List.length pre))) with (List.length (pre ++ [fst (v x); snd (v x)])) by (rewrite app_length; simpl; lia).
  rewrite IH; reflexivity.
Qed.

Lemma upd_mid pre x post v n : List.length pre = n -> upd (pre ++ x :: post) n v = pre ++ v :: post.
Proof. intros <-; induction pre as [|y t IH]; simpl; [reflexivity|now rewrite IH]. Qed.

Lemma halve_run {P} (q : P -> R) (v : P -> vec3 * vec3) L xs : forall pre,
  smapM (fun p : R * (addr * addr) => let '(theta, (t, b)) := p in
           et <~ load t ;; _ <~ save t (halve3 et) ;;
           eb <~ load b ;; _ <~ save b (halve3 eb) ;;
           let T := T_real (cdeg theta) (sdeg theta) in
           et' <~ load t ;; eb' <~ load b ;;
           ret (double3 (mvec T et'), double3 (mvec T eb')))
    (combine (map q xs) (addrs (List.length pre) (List.length xs))) (World L (pre ++ flat (map v xs)))
  = (World L (pre ++ flat (map (fun x => (halve3 (fst (v x)), halve3 (snd (v x)))) xs)),
     Ok (map (fun x => let T := T_real (cdeg (q x)) (sdeg (q x)) in
                       (double3 (mvec T (halve3 (fst (v x)))), double3 (mvec T (halve3 (snd (v x)))))) xs)).
Proof.
  induction xs as [|x t IH]; intros pre; [reflexivity|].
  cbn [map List.length addrs combine smapM flat flat_map fst snd app].
  change (flat_map (fun p => [fst p; snd p]) (map v t)) with (flat (map v t)).
  unfold sbind at 1. unfold sbind at 1. unfold load at 1. cbn [w_heap].
  rewrite (nth_app_len pre) by reflexivity.
  unfold sbind at 1. unfold save at 1. cbn [w_heap w_lam]. rewrite upd_mid by reflexivity.
  unfold sbind at 1. unfold load at 1. cbn [w_heap].
  assert (E1 : forall a b r, pre ++ a :: b :: r = (pre ++ [a]) ++ b :: r :> list vec3) by (intros; rewrite <- app_assoc; reflexivity).
  assert (Ln : forall a : vec3, List.length (pre ++ [a]) = S (List.length pre)) by (intros; rewrite app_length; simpl; lia).
  rewrite E1, nth_app_len by apply Ln.
  unfold sbind at 1. unfold save at 1. cbn [w_heap w_lam]. rewrite upd_mid by apply Ln.
  unfold sbind at 1. unfold load at 1. cbn [w_heap]. rewrite <- E1, (nth_app_len pre) by reflexivity.
  unfold sbind at 1. unfold load at 1. cbn [w_heap]. rewrite E1, nth_app_len by apply Ln.
  unfold ret at 1. unfold sbind at 1.
  assert (E2 : forall a b r, (pre ++ [a]) ++ b :: r = (pre ++ [a; b]) ++ r :> list vec3) by (intros; rewrite <- !app_assoc; reflexivity).
  rewrite E2.
  replace (S (S (List.length pre))) with (List.length (pre ++ [halve3 (fst (v x)); halve3 (snd (v x))])) by (rewrite app_length; simpl; lia).
  rewrite IH. unfold ret; rewrite <- E2, <- E1; reflexivity.
Qed.

Lemma combine_map {A B C} (f : A -> B) (g : A -> C) l : combine (map f l) (map g l) = map (fun x => (f x, g x)) l.
Proof. induction l as [|x t IH]; simpl; [reflexivity|now rewrite IH]. Qed.

Definition theta_of (x : plyz) : R := fst (fst x).
Definition mat_of (x : plyz) : material := snd (fst x).
Lemma angles_X l : map fst l = map theta_of (X l).
Proof. unfold X; rewrite <- (zl_fst l (zb l)) at 1; rewrite map_map; reflexivity. Qed.
Lemma Qs_X l : Qs_of l = map (fun x => Qbar (theta_of x) (mat_of x)) (X l).
Proof. unfold X, Qs_of; rewrite <- (zl_fst l (zb l)) at 1; rewrite map_map; reflexivity. Qed.

(** both ends of a ply *)
Definition ends {A} (f : plyz -> R -> A) (x : plyz) : A * A := (f x (fst (snd x)), f x (snd (snd x))).
Definition f_strain (e0 : vec3 * vec3) (x : plyz) (z : R) : vec3 := ep e0 z.
Definition f_strain12 e0 (x : plyz) (z : R) : vec3 :=
  double3 (mvec (T_real (cdeg (theta_of x)) (sdeg (theta_of x))) (halve3 (ep e0 z))).
Definition f_stress e0 (x : plyz) (z : R) : vec3 := mvec (Qbar (theta_of x) (mat_of x)) (ep e0 z).
Definition f_stress12 e0 (x : plyz) (z : R) : vec3 := mvec (T_real (cdeg (theta_of x)) (sdeg (theta_of x))) (f_stress e0 x z).

Lemma stressk_run l N L h : all_readable l -> GoodL l L ->
  exists L' h', GoodL l L' /\
  stressk N (World L h) = (World L' (h ++ h'), e0 <- sol l N ;; Ok (map (ends (f_stress e0)) (X l))).
Proof.
  intros Hr HG; destruct (get_Q_good l L Hr HG) as (L1 & E1 & HG1).
  destruct (epsilonk_run l N L1 h Hr HG1) as (L2 & HG2 & E2).
  unfold stressk; unfold sbind at 1; unfold on_lam at 1; cbn [w_lam w_heap]; rewrite E1.
  unfold sbind at 1; rewrite E2; destruct (sol l N) as [e0|e].
  - exists L2, (flat (eks e0 (X l))); split; [assumption|]; rewrite Qs_X.
    pose proof (load_run (fun Q et eb => (mvec Q et, mvec Q eb)) (fun x => Qbar (theta_of x) (mat_of x)) (fun x => (ep e0 (fst (snd x)), ep e0 (snd (snd x)))) L2 (X l) h []) as E.
    rewrite app_nil_r in E; etransitivity; [|exact E].
    apply smapM_ext; intros [Q [t b]] w; reflexivity.
  - exists L2, []; rewrite app_nil_r; split; [assumption|reflexivity].
Qed.
Lemma epsilonk_123_run l N L h : all_readable l -> GoodL l L ->
  exists L' h', GoodL l L' /\
  epsilonk_123 N (World L h) = (World L' (h ++ h'), e0 <- sol l N ;; Ok (map (ends (f_strain12 e0)) (X l))).
Proof.
  intros Hr HG; destruct (GoodL_layup l L HG) as [El Es].
  destruct (epsilonk_run l N L h Hr HG) as (L2 & HG2 & E2).
  unfold epsilonk_123; unfold sbind at 1; unfold lam_get at 1; cbn [w_lam]; rewrite Es.
  unfold sbind at 1; rewrite E2; destruct (sol l N) as [e0|e].
  - exists L2; eexists; split; [assumption|].
    unfold sbind at 1; unfold angles, ret at 1; rewrite angles_X.
    unfold eks; rewrite (halve_run theta_of (fun x => (ep e0 (fst (snd x)), ep e0 (snd (snd x))))); reflexivity.
  - exists L2, []; rewrite app_nil_r; split; [assumption|reflexivity].
Qed.
Lemma stressk_123_run l N L h : all_readable l -> GoodL l L ->
  exists L' h', GoodL l L' /\
  stressk_123 N (World L h) = (World L' (h ++ h'), e0 <- sol l N ;; Ok (map (ends (f_stress12 e0)) (X l))).
Proof.
  intros Hr HG; destruct (GoodL_layup l L HG) as [El Es].
  destruct (stressk_run l N L h Hr HG) as (L2 & h' & HG2 & E2); exists L2, h'; split; [assumption|].
  unfold stressk_123; unfold sbind at 1; unfold lam_get at 1; cbn [w_lam]; rewrite Es.
  unfold sbind at 1; rewrite E2; destruct (sol l N) as [e0|e]; [|reflexivity]; cbn [bind].
  unfold sbind at 1; unfold angles, ret at 1; rewrite angles_X, combine_map; unfold ret; rewrite map_map; reflexivity.
Qed.

(** the rows *)
Definition two_rows (f g : plyz -> R -> vec3) (i : nat) (x : plyz) : list row :=
  let '((th, m), (z0, z1)) := x in
  [Row (i+1) z0 "bot" th (f x z0) (g x z0); Row (i+1) z1 "top" th (f x z1) (g x z1)].
Fixpoint rows (f g : plyz -> R -> vec3) (i : nat) (xs : list plyz) : list row :=
  match xs with [] => [] | x :: t => two_rows f g i x ++ rows f g (i+1) t end.

Lemma row_loop_eq f g t : forall pre z0,
  row_loop (pre ++ z0 :: z_loop t z0) (List.length pre)
    (combine (map (ends f) (zl z0 t)) (combine (map (ends g) (zl z0 t)) (map theta_of (zl z0 t))))
  = Ok (rows f g (List.length pre) (zl z0 t)).
Proof.
  induction t as [|[th m] t IH]; intros pre z0; [reflexivity|].
  cbn [zl z_loop map combine row_loop snd].
  set (z1 := z0 + thickness m).
  assert (Eq : pre ++ z0 :: z1 :: z_loop t z1 = (pre ++ [z0]) ++ z1 :: z_loop t z1) by (rewrite <- app_assoc; reflexivity).
  rewrite nth_app_len by reflexivity; cbn [bind].
  rewrite Eq, nth_app_len by (rewrite app_length; reflexivity); cbn [bind].
  replace (List.length pre + 1)%nat with (List.length (pre ++ [z0])) by (rewrite app_length; reflexivity).
  unfold ends at 1 2; cbn [fst snd].
  rewrite IH; cbn [bind rows two_rows app]; rewrite app_length; cbn [List.length]; reflexivity.
Qed.

Lemma calculate_stress_run l N L h : all_readable l -> GoodL l L ->
  exists L' h', GoodL l L' /\
  calculate_stress N (World L h) = (World L' (h ++ h'), e0 <- sol l N ;; Ok (rows (f_stress e0) (f_stress12 e0) 0 (X l))).
Proof.
  intros Hr HG.
  destruct (stressk_run l N L h Hr HG) as (L1 & h1 & HG1 & E1).
  destruct (stressk_123_run l N L1 (h ++ h1) Hr HG1) as (L2 & h2 & HG2 & E2).
  unfold calculate_stress; unfold sbind at 1; rewrite E1; destruct (sol l N) as [e0|e]; cbn [bind]; [|eauto].
  unfold sbind at 1; rewrite E2; cbn [bind].
  destruct (GoodL_layup l L2 HG2) as [El Es].
  exists L2, (h1 ++ h2); rewrite app_assoc; split; [assumption|].
  unfold sbind at 1; unfold lam_get at 1; cbn [w_lam]; rewrite Es.
  unfold sbind at 1; unfold lam_get at 1; cbn [w_lam]; rewrite El.
  unfold sbind at 1; unfold angles, ret at 1; unfold lift; rewrite z_position_zb, angles_X; f_equal.
  apply (row_loop_eq _ _ l [] (zb l)).
Qed.
Lemma calculate_strain_run l N L h : all_readable l -> GoodL l L ->
  exists L' h', GoodL l L' /\
  calculate_strain N (World L h) = (World L' (h ++ h'), e0 <- sol l N ;; Ok (rows (f_strain e0) (f_strain12 e0) 0 (X l))).
Proof.
  intros Hr HG.
  destruct (epsilonk_run l N L h Hr HG) as (L1 & HG1 & E1).
  unfold calculate_strain; unfold sbind at 1; rewrite E1; destruct (sol l N) as [e0|e] eqn:Esol; cbn [bind].
  2: { exists L1, []; rewrite app_nil_r; auto. }
  destruct (epsilonk_123_run l N L1 (h ++ flat (eks e0 (X l))) Hr HG1) as (L2 & h2 & HG2 & E2); rewrite Esol in E2.
  unfold sbind at 1; rewrite E2; cbn [bind].
  destruct (GoodL_layup l L2 HG2) as [El Es].
  exists L2, (flat (eks e0 (X l)) ++ h2); rewrite app_assoc; split; [assumption|].
  unfold sbind at 1; unfold lam_get at 1; cbn [w_lam]; rewrite Es.
  unfold sbind at 1; unfold lam_get at 1; cbn [w_lam]; rewrite El.
  unfold sbind at 1; unfold angles, ret at 1.
  unfold sbind at 1.
  assert (Ea : addrs (List.length h) (List.length (X l)) = map snd (combine (map (fun _ : plyz => tt) (X l)) (addrs (List.length h) (List.length (X l))))).
  { generalize (List.length h) as n; generalize (X l) as xs; clear; induction xs as [|x t IH]; intros n; simpl; [reflexivity|f_equal; apply IH]. }
  assert (Em : forall w, smapM (fun p : addr * addr => let (t, b) := p in et <~ load t ;; eb <~ load b ;; ret (et, eb)) (addrs (List.length h) (List.length (X l))) w =
     smapM (fun p : unit * (addr * addr) => et <~ load (fst (snd p)) ;; eb <~ load (snd (snd p)) ;; ret (et, eb)) (combine (map (fun _ : plyz => tt) (X l)) (addrs (List.length h) (List.length (X l)))) w).
  { generalize (List.length h) as n; generalize (X l) as xs; clear; induction xs as [|x t IH]; intros n w; [reflexivity|].
    cbn [List.length addrs map combine smapM fst snd]; generalize (et <~ load n ;; eb <~ load (S n) ;; ret (et, eb)); intros y.
    unfold sbind; destruct (y w) as [w' [v|e]]; [|reflexivity]; rewrite IH; reflexivity. }
  rewrite Em.
  pose proof (load_run (fun (_ : unit) (et eb : vec3) => (et, eb)) (fun _ : plyz => tt) (ends (f_strain e0)) L2 (X l) h h2) as E.
  rewrite app_assoc in E.
  change (map (ends (f_strain e0)) (X l)) with (eks e0 (X l)) in E; rewrite E.
  unfold lift; rewrite z_position_zb, angles_X; f_equal.
  etransitivity; [|apply (row_loop_eq (f_strain e0) (f_strain12 e0) l [] (zb l))].
  f_equal; f_equal; unfold X; apply map_ext; intros x; unfold ends; cbn [fst snd]; reflexivity.
Qed.
