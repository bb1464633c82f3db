(** Proofs of constructor validation, automatic names, equality of materials and laminates *)
From Coq Require Import Reals ZArith Bool List String Lia Lra Decimal DecimalString DecimalNat.
From Flocq Require Import IEEE754.BinarySingleNaN.
From Verif Require Import M_Py M_Float M_Validate M_MatObj S_Validate S_MatObj L_Float.
Import ListNotations.
Open Scope string_scope.
Open Scope list_scope.
Open Scope R_scope.

Lemma fn_min : forall parse v x,
  float_number parse v (Some fzero) None = Ok x <-> (to_float parse v = Some x /\ not_below_zero x).
Proof.
  intros parse v x. unfold float_number. destruct (to_float parse v) as [y|].
  2: split; [discriminate|intros [A _]; discriminate].
  cbn [below above]. destruct (flt y fzero) eqn:E.
  - split; [discriminate|]. intros [A B]. apply nbz_spec in B. congruence.
  - split.
    + intros [= ->]. split; [reflexivity|]. apply nbz_spec; exact E.
    + intros [[= ->] _]. reflexivity.
Qed.

Lemma fn_half : forall parse v x,
  float_number parse v (Some (fopp fhalf)) (Some fhalf) = Ok x <-> (to_float parse v = Some x /\ not_outside_half x).
Proof.
  intros parse v x. unfold float_number. destruct (to_float parse v) as [y|].
  2: split; [discriminate|intros [A _]; discriminate].
  cbn [below above]. destruct (flt y (fopp fhalf)) eqn:E.
  - split; [discriminate|]. intros [A B]. apply half_spec in B. destruct B; congruence.
  - destruct (fgt y fhalf) eqn:F.
    + split; [discriminate|]. intros [A B]. apply half_spec in B. destruct B; congruence.
    + split.
      * intros [= ->]. split; [reflexivity|]. apply half_spec; split; assumption.
      * intros [[= ->] _]. reflexivity.
Qed.

Lemma fn_none : forall parse v x,
  float_number parse v None None = Ok x <-> to_float parse v = Some x.
Proof.
  intros parse v x. unfold float_number. destruct (to_float parse v) as [y|]; cbn; split; congruence.
Qed.

Lemma in_one : forall parse v z,
  int_number parse v (Some fone) None = Ok z <->
  exists x, to_float parse v = Some x /\ denotes x (IZR z) /\ (1 <= z)%Z.
Proof.
  intros parse v z. unfold int_number. destruct (to_float parse v) as [y|].
  2: split; [discriminate|intros [x [A _]]; discriminate].
  destruct (f_is_integer y) eqn:I; cbn [negb].
  - apply f_is_integer_spec in I. destruct I as [q Hq]. rewrite (f_to_Z_spec _ _ Hq).
    cbn [below above]. destruct (flt y fone) eqn:E.
    + split; [discriminate|]. intros [x [[= <-] [Hz Le]]].
      assert (IZR z = IZR q) by (eapply denotes_inj; eauto). apply eq_IZR in H; subst q.
      assert (flt y fone = false); [|congruence].
      apply (flt_denotes_r y fone 1 fone_denotes). right; right. exists (IZR z). split; auto. apply IZR_le; exact Le.
    + apply (flt_denotes_r y fone 1 fone_denotes) in E. split.
      * intros [= <-]. exists y. split; [reflexivity|]. split; [assumption|].
        destruct E as [->|[->|[s [Hs Le]]]]; den.
        assert (s = IZR q) by (eapply denotes_inj; eauto). subst s. apply le_IZR in Le. exact Le.
      * intros [x [[= <-] [Hz _]]]. f_equal. apply eq_IZR. eapply denotes_inj; eauto.
  - split; [discriminate|]. intros [x [[= <-] [Hz _]]].
    assert (f_is_integer y = true) by (apply f_is_integer_spec; eauto). congruence.
Qed.

Lemma fn_err : forall parse v lo hi e, float_number parse v lo hi = Err e -> e = ValueError.
Proof.
  intros parse v lo hi e. unfold float_number. destruct (to_float parse v); [|congruence].
  destruct (below _ _); [congruence|]. destruct (above _ _); congruence.
Qed.
Lemma in_err : forall parse v lo hi e, int_number parse v lo hi = Err e -> e = ValueError.
Proof.
  intros parse v lo hi e. unfold int_number. destruct (to_float parse v); [|congruence].
  destruct (f_is_integer f); cbn; [|congruence].
  destruct (below _ _); [congruence|]. destruct (above _ _); congruence.
Qed.

Tactic Notation "stepE" ident(E) :=
  match goal with
  | |- context [bind ?x _] => destruct x eqn:E; cbn [bind]
  end.

Lemma ortho_cases : forall parse a,
  (exists e1 e2 v12 g12 th t1 c1 t2 c2 s,
     float_number parse (ao_e1 a) (Some fzero) None = Ok e1 /\
     float_number parse (ao_e2 a) (Some fzero) None = Ok e2 /\
     float_number parse (ao_v12 a) (Some (fopp fhalf)) (Some fhalf) = Ok v12 /\
     float_number parse (ao_g12 a) (Some fzero) None = Ok g12 /\
     float_number parse (ao_thickness a) (Some fzero) None = Ok th /\
     float_number parse (ao_t1 a) (Some fzero) None = Ok t1 /\
     float_number parse (ao_c1 a) (Some fzero) None = Ok c1 /\
     float_number parse (ao_t2 a) (Some fzero) None = Ok t2 /\
     float_number parse (ao_c2 a) (Some fzero) None = Ok c2 /\
     float_number parse (ao_s a) (Some fzero) None = Ok s /\
     ortho_init parse a = (r <- py_fdiv e2 e1 ;; Ok (FOMat e1 e2 v12 g12 th t1 c1 t2 c2 s (fmul v12 r))))
  \/ (ortho_init parse a = Err ValueError /\ forall m, ~ ortho_valid parse a m).
Proof.
  intros parse a. unfold ortho_init.
  stepE E1; [|right; split; [rewrite (fn_err _ _ _ _ _ E1); reflexivity|
     intros m V; pose proof (proj2 (fn_min _ _ _) (ov_e1 _ _ _ V)); congruence]].
  stepE E2; [|right; split; [rewrite (fn_err _ _ _ _ _ E2); reflexivity|
     intros m V; pose proof (proj2 (fn_min _ _ _) (ov_e2 _ _ _ V)); congruence]].
  stepE E3; [|right; split; [rewrite (fn_err _ _ _ _ _ E3); reflexivity|
     intros m V; pose proof (proj2 (fn_half _ _ _) (ov_v12 _ _ _ V)); congruence]].
  stepE E4; [|right; split; [rewrite (fn_err _ _ _ _ _ E4); reflexivity|
     intros m V; pose proof (proj2 (fn_min _ _ _) (ov_g12 _ _ _ V)); congruence]].
  stepE E5; [|right; split; [rewrite (fn_err _ _ _ _ _ E5); reflexivity|
     intros m V; pose proof (proj2 (fn_min _ _ _) (ov_thickness _ _ _ V)); congruence]].
  stepE E6; [|right; split; [rewrite (fn_err _ _ _ _ _ E6); reflexivity|
     intros m V; pose proof (proj2 (fn_min _ _ _) (ov_t1 _ _ _ V)); congruence]].
  stepE E7; [|right; split; [rewrite (fn_err _ _ _ _ _ E7); reflexivity|
     intros m V; pose proof (proj2 (fn_min _ _ _) (ov_c1 _ _ _ V)); congruence]].
  stepE E8; [|right; split; [rewrite (fn_err _ _ _ _ _ E8); reflexivity|
     intros m V; pose proof (proj2 (fn_min _ _ _) (ov_t2 _ _ _ V)); congruence]].
  stepE E9; [|right; split; [rewrite (fn_err _ _ _ _ _ E9); reflexivity|
     intros m V; pose proof (proj2 (fn_min _ _ _) (ov_c2 _ _ _ V)); congruence]].
  stepE E10; [|right; split; [rewrite (fn_err _ _ _ _ _ E10); reflexivity|
     intros m V; pose proof (proj2 (fn_min _ _ _) (ov_s _ _ _ V)); congruence]].
  left. do 10 eexists. repeat split; eassumption || reflexivity.
Qed.

Lemma ok_of_valid : forall parse a e1 e2 v12 g12 th t1 c1 t2 c2 s w,
     float_number parse (ao_e1 a) (Some fzero) None = Ok e1 ->
     float_number parse (ao_e2 a) (Some fzero) None = Ok e2 ->
     float_number parse (ao_v12 a) (Some (fopp fhalf)) (Some fhalf) = Ok v12 ->
     float_number parse (ao_g12 a) (Some fzero) None = Ok g12 ->
     float_number parse (ao_thickness a) (Some fzero) None = Ok th ->
     float_number parse (ao_t1 a) (Some fzero) None = Ok t1 ->
     float_number parse (ao_c1 a) (Some fzero) None = Ok c1 ->
     float_number parse (ao_t2 a) (Some fzero) None = Ok t2 ->
     float_number parse (ao_c2 a) (Some fzero) None = Ok c2 ->
     float_number parse (ao_s a) (Some fzero) None = Ok s ->
     ortho_valid parse a (FOMat e1 e2 v12 g12 th t1 c1 t2 c2 s w).
Proof.
  intros. constructor; cbn [fo_e1 fo_e2 fo_v12 fo_g12 fo_thickness fo_t1 fo_c1 fo_t2 fo_c2 fo_s];
  first [apply fn_min; assumption | apply fn_half; assumption].
Qed.

Lemma valid_det : forall parse a m m', ortho_valid parse a m -> ortho_valid parse a m' ->
  fo_v21 m = fo_v21 m' -> m = m'.
Proof.
  intros parse a m m' [] [] E. destruct m, m'; cbn in *.
  repeat match goal with H : _ /\ _ |- _ => destruct H end. congruence.
Qed.

(*@ C01. The constructor returns an object exactly when every argument converts to a float in its range and e1 is
    not a zero; the attributes are then those floats (v21 is the rounded v12 * (e2/e1)). @*)
Lemma t_C01_accepts : forall parse a m,
  ortho_init parse a = Ok m <->
  (ortho_valid parse a m /\ ~ is_zero (fo_e1 m) /\ fo_v21 m = fmul (fo_v12 m) (fdiv (fo_e2 m) (fo_e1 m))).
Proof.
  intros parse a m.
  destruct (ortho_cases parse a) as [H|[H1 H2]].
  - destruct H as (e1&e2&v12&g12&th&t1&c1&t2&c2&s&A1&A2&A3&A4&A5&A6&A7&A8&A9&A10&E).
    rewrite E. unfold py_fdiv. destruct (feq e1 fzero) eqn:Z; cbn [bind].
    + split; [discriminate|]. intros [V [NZ _]]. elim NZ. apply is_zero_spec.
      pose proof (proj2 (fn_min _ _ _) (ov_e1 _ _ _ V)). replace (fo_e1 m) with e1 by congruence. exact Z.
    + split.
      * intros [= <-]. split; [apply ok_of_valid; assumption|]. cbn. split; [|reflexivity].
        intros C; apply is_zero_spec in C; congruence.
      * intros [V [NZ W]]. f_equal. symmetry. apply (valid_det parse a); [exact V|apply ok_of_valid; assumption|].
        cbn [fo_v21]. rewrite W.
        pose proof (proj2 (fn_min _ _ _) (ov_e1 _ _ _ V)). replace (fo_e1 m) with e1 by congruence.
        pose proof (proj2 (fn_min _ _ _) (ov_e2 _ _ _ V)). replace (fo_e2 m) with e2 by congruence.
        pose proof (proj2 (fn_half _ _ _) (ov_v12 _ _ _ V)). replace (fo_v12 m) with v12 by congruence.
        reflexivity.
  - rewrite H1. split; [discriminate|]. intros [V _]. elim (H2 _ V).
Qed.

(*@ C01. ZeroDivisionError is raised exactly when every argument is in range and e1 is +0.0 or -0.0. @*)
Lemma t_C01_zero_division : forall parse a,
  ortho_init parse a = Err ZeroDivisionError <-> (exists m, ortho_valid parse a m /\ is_zero (fo_e1 m)).
Proof.
  intros parse a.
  destruct (ortho_cases parse a) as [H|[H1 H2]].
  - destruct H as (e1&e2&v12&g12&th&t1&c1&t2&c2&s&A1&A2&A3&A4&A5&A6&A7&A8&A9&A10&E).
    rewrite E. unfold py_fdiv. destruct (feq e1 fzero) eqn:Z; cbn [bind].
    + split; [|reflexivity]. intros _. exists (FOMat e1 e2 v12 g12 th t1 c1 t2 c2 s fnan).
      split; [apply ok_of_valid; assumption|]. apply is_zero_spec; exact Z.
    + split; [discriminate|]. intros [m [V C]]. apply is_zero_spec in C.
      pose proof (proj2 (fn_min _ _ _) (ov_e1 _ _ _ V)). replace (fo_e1 m) with e1 in C by congruence. congruence.
  - rewrite H1. split; [discriminate|]. intros [m [V _]]. elim (H2 _ V).
Qed.

(*@ C01. Every other call raises ValueError: some argument does not convert or is out of range. @*)
Lemma t_C01_value_error : forall parse a,
  ortho_init parse a = Err ValueError <-> (forall m, ~ ortho_valid parse a m).
Proof.
  intros parse a.
  destruct (ortho_cases parse a) as [H|[H1 H2]].
  - destruct H as (e1&e2&v12&g12&th&t1&c1&t2&c2&s&A1&A2&A3&A4&A5&A6&A7&A8&A9&A10&E).
    split.
    + rewrite E. unfold py_fdiv. destruct (feq e1 fzero); cbn [bind]; discriminate.
    + intros C. elim (C (FOMat e1 e2 v12 g12 th t1 c1 t2 c2 s fnan)). apply ok_of_valid; assumption.
  - tauto.
Qed.

(*@ C01. No other exception escapes. @*)
Lemma t_C01_total : forall parse a,
  (exists m, ortho_init parse a = Ok m) \/ ortho_init parse a = Err ValueError
  \/ ortho_init parse a = Err ZeroDivisionError.
Proof.
  intros parse a.
  destruct (ortho_cases parse a) as [H|[H1 H2]]; [|auto].
  destruct H as (e1&e2&v12&g12&th&t1&c1&t2&c2&s&A1&A2&A3&A4&A5&A6&A7&A8&A9&A10&E).
  rewrite E. unfold py_fdiv. destruct (feq e1 fzero); cbn [bind]; eauto.
Qed.

(*@ C01. NaN passes every check: a material all of whose numbers are NaN is accepted, whatever the parser. @*)
Lemma t_C01_nan_accepted : forall parse,
  exists m, ortho_init parse (oargs5 (PFloat fnan) (PFloat fnan) (PFloat fnan) (PFloat fnan) (PFloat fnan)) = Ok m
            /\ fo_e1 m = fnan /\ fo_thickness m = fnan.
Proof. intros parse. eexists. split; [vm_compute; reflexivity|]. split; reflexivity. Qed.

(*@ C01, example: a carbon ply with documented defaults is accepted. @*)
Example t_C01_example :
  match ortho_init ex_parse ex_oargs with
  | Ok m => feq (fo_e1 m) (f_of_Z 129500) && feq (fo_v12 m) (f_of_Z_exp 3 (-3)) && feq (fo_t1 m) fzero = true
  | Err _ => False
  end.
Proof. vm_compute. reflexivity. Qed.

(*@ C01, example: e1 = -0.0 passes the range check and then divides by zero; e1 = -1 is a ValueError. @*)
Example t_C01_example_errors :
  ortho_init ex_parse (oargs5 (PFloat fnzero) (PInt 1) (PInt 0) (PInt 1) (PInt 1)) = Err ZeroDivisionError /\
  ortho_init ex_parse (oargs5 (PInt (-1)) (PInt 1) (PInt 0) (PInt 1) (PInt 1)) = Err ValueError.
Proof. split; vm_compute; reflexivity. Qed.

Lemma iso_cases : forall parse a,
  (exists m, iso_init parse a = Ok m /\ iso_valid parse a m)
  \/ (iso_init parse a = Err ValueError /\ forall m, ~ iso_valid parse a m).
Proof.
  intros parse a. unfold iso_init.
  stepE E1; [|right; split; [rewrite (fn_err _ _ _ _ _ E1); reflexivity|
     intros m V; pose proof (proj2 (fn_min _ _ _) (iv_e _ _ _ V)); congruence]].
  stepE E2; [|right; split; [rewrite (fn_err _ _ _ _ _ E2); reflexivity|
     intros m V; pose proof (proj2 (fn_half _ _ _) (iv_v _ _ _ V)); congruence]].
  stepE E3; [|right; split; [rewrite (fn_err _ _ _ _ _ E3); reflexivity|
     intros m V; pose proof (proj2 (fn_min _ _ _) (iv_g _ _ _ V)); congruence]].
  stepE E4; [|right; split; [rewrite (fn_err _ _ _ _ _ E4); reflexivity|
     intros m V; pose proof (proj2 (fn_min _ _ _) (iv_thickness _ _ _ V)); congruence]].
  stepE E5; [|right; split; [rewrite (fn_err _ _ _ _ _ E5); reflexivity|
     intros m V; pose proof (proj2 (fn_min _ _ _) (iv_t _ _ _ V)); congruence]].
  stepE E6; [|right; split; [rewrite (fn_err _ _ _ _ _ E6); reflexivity|
     intros m V; pose proof (proj2 (fn_min _ _ _) (iv_c _ _ _ V)); congruence]].
  stepE E7; [|right; split; [rewrite (fn_err _ _ _ _ _ E7); reflexivity|
     intros m V; pose proof (proj2 (fn_min _ _ _) (iv_s _ _ _ V)); congruence]].
  left. eexists. split; [reflexivity|].
  constructor; cbn [fi_e fi_v fi_g fi_thickness fi_t fi_c fi_s];
  first [apply fn_min; assumption | apply fn_half; assumption].
Qed.

Lemma iso_valid_det : forall parse a m m', iso_valid parse a m -> iso_valid parse a m' -> m = m'.
Proof.
  intros parse a m m' [] []. destruct m, m'; cbn in *.
  repeat match goal with H : _ /\ _ |- _ => destruct H end. congruence.
Qed.

(*@ C02. The isotropic constructor succeeds exactly when all seven numbers convert and are in range. @*)
Lemma t_C02_accepts : forall parse a m, iso_init parse a = Ok m <-> iso_valid parse a m.
Proof.
  intros parse a m. destruct (iso_cases parse a) as [[m' [E V]]|[E N]]; rewrite E.
  - split; [intros [= <-]; exact V|]. intros V'. f_equal. eapply iso_valid_det; eauto.
  - split; [discriminate|]. intros V; elim (N _ V).
Qed.

(*@ C02. It fails only with ValueError. @*)
Lemma t_C02_errors : forall parse a e, iso_init parse a = Err e -> e = ValueError.
Proof. intros parse a e H. destruct (iso_cases parse a) as [[m' [E V]]|[E N]]; congruence. Qed.

(*@ C02. Leaving any of the documented optional allowables t, c, s out always raises ValueError. @*)
Lemma t_C02_default_allowables : forall parse e v g th (t c s : option pyobj),
  t = None \/ c = None \/ s = None ->
  iso_init parse (IArgs e v g th (opt_arg t) (opt_arg c) (opt_arg s)) = Err ValueError.
Proof.
  intros parse e v g th t c s H.
  destruct (iso_cases parse (IArgs e v g th (opt_arg t) (opt_arg c) (opt_arg s))) as [[m [E V]]|[E N]]; [|exact E].
  destruct V as [_ _ _ _ [A _] [B _] [C _]]; cbn [ai_t ai_c ai_s] in *.
  destruct H as [H | [H | H]]; subst; discriminate.
Qed.

(*@ C02, example: giving all seven numbers works. @*)
Example t_C02_example :
  match iso_init ex_parse ex_iargs with
  | Ok m => feq (fi_e m) (f_of_Z 70000) && feq (fi_s m) (f_of_Z 200) = true
  | Err _ => False
  end.
Proof. vm_compute. reflexivity. Qed.

(*@ C60. PlateStructure is constructed exactly when dproperty is a Property, a and b convert and are not below 0,
    the loads convert, and m and n convert to integral numbers of at least 1, which are stored as integers. @*)
Lemma t_C60_accepts : forall parse prop a b Nxx Nyy Nxy m n p,
  plate_init parse prop a b Nxx Nyy Nxy m n = Ok p <-> (prop = true /\ plate_valid parse a b Nxx Nyy Nxy m n p).
Proof.
  intros. unfold plate_init, is_instance. destruct prop; cbn [bind].
  2: split; [discriminate|intros [A _]; discriminate].
  stepE E1; [|split; [discriminate|intros [_ V]; pose proof (proj2 (fn_min _ _ _) (pv_a _ _ _ _ _ _ _ _ _ V)); congruence]].
  stepE E2; [|split; [discriminate|intros [_ V]; pose proof (proj2 (fn_min _ _ _) (pv_b _ _ _ _ _ _ _ _ _ V)); congruence]].
  stepE E3; [|split; [discriminate|intros [_ V]; pose proof (proj2 (fn_none _ _ _) (pv_Nxx _ _ _ _ _ _ _ _ _ V)); congruence]].
  stepE E4; [|split; [discriminate|intros [_ V]; pose proof (proj2 (fn_none _ _ _) (pv_Nyy _ _ _ _ _ _ _ _ _ V)); congruence]].
  stepE E5; [|split; [discriminate|intros [_ V]; pose proof (proj2 (fn_none _ _ _) (pv_Nxy _ _ _ _ _ _ _ _ _ V)); congruence]].
  stepE E6; [|split; [discriminate|intros [_ V]; pose proof (proj2 (in_one _ _ _) (pv_m _ _ _ _ _ _ _ _ _ V)); congruence]].
  stepE E7; [|split; [discriminate|intros [_ V]; pose proof (proj2 (in_one _ _ _) (pv_n _ _ _ _ _ _ _ _ _ V)); congruence]].
  split.
  - intros [= <-]. split; [reflexivity|]. constructor; cbn [fp_a fp_b fp_Nxx fp_Nyy fp_Nxy fp_m fp_n].
    + apply fn_min; assumption.
    + apply fn_min; assumption.
    + apply fn_none; assumption.
    + apply fn_none; assumption.
    + apply fn_none; assumption.
    + apply in_one; assumption.
    + apply in_one; assumption.
  - intros [_ [V1 V2 V3 V4 V5 V6 V7]].
    apply fn_min in V1. apply fn_min in V2. apply fn_none in V3. apply fn_none in V4. apply fn_none in V5.
    apply in_one in V6. apply in_one in V7. destruct p; cbn in *. congruence.
Qed.

(*@ C60. Every rejected call raises ValueError. @*)
Lemma t_C60_errors : forall parse prop a b Nxx Nyy Nxy m n e,
  plate_init parse prop a b Nxx Nyy Nxy m n = Err e -> e = ValueError.
Proof.
  intros parse prop a b Nxx Nyy Nxy m n e. unfold plate_init, is_instance. destruct prop; cbn [bind]; [|congruence].
  stepE E1; [|intros HE; injection HE as HE; subst e; exact (fn_err _ _ _ _ _ E1)].
  stepE E2; [|intros HE; injection HE as HE; subst e; exact (fn_err _ _ _ _ _ E2)].
  stepE E3; [|intros HE; injection HE as HE; subst e; exact (fn_err _ _ _ _ _ E3)].
  stepE E4; [|intros HE; injection HE as HE; subst e; exact (fn_err _ _ _ _ _ E4)].
  stepE E5; [|intros HE; injection HE as HE; subst e; exact (fn_err _ _ _ _ _ E5)].
  stepE E6; [|intros HE; injection HE as HE; subst e; exact (in_err _ _ _ _ _ E6)].
  stepE E7; [|intros HE; injection HE as HE; subst e; exact (in_err _ _ _ _ _ E7)].
  discriminate.
Qed.

(*@ C60. Consequence: infinite and NaN m or n are rejected while infinite and NaN edge lengths are accepted. @*)
Lemma t_C60_nonfinite : forall parse prop a b Nxx Nyy Nxy m n x,
  to_float parse m = Some x -> is_finite x = false ->
  plate_init parse prop a b Nxx Nyy Nxy m n = Err ValueError.
Proof.
  intros parse prop a b Nxx Nyy Nxy m n x Hx Hf.
  destruct (plate_init parse prop a b Nxx Nyy Nxy m n) as [p|e] eqn:E.
  - apply t_C60_accepts in E. destruct E as [_ V]. destruct (pv_m _ _ _ _ _ _ _ _ _ V) as [y [A [[B _] _]]].
    congruence.
  - f_equal. eapply t_C60_errors; eauto.
Qed.

(*@ C60, example: m = 10.0 is stored as 10; a = 0.0 and b = NaN are accepted. @*)
Example t_C60_example :
  match plate_init ex_parse true (PInt 0) (PFloat fnan) (PInt (-1)) (PInt 0) (PInt 0) (PFloat (f_of_Z 10)) (PInt 7) with
  | Ok p => fp_a p = fzero /\ fp_b p = fnan /\ feq (fp_Nxx p) (f_of_Z (-1)) = true /\ fp_m p = 10%Z /\ fp_n p = 7%Z
  | Err _ => False
  end
  /\ plate_init ex_parse true (PInt 1) (PInt 1) (PInt (-1)) (PInt 0) (PInt 0) (PFloat (f_of_Z_exp 21 (-1))) (PInt 7) = Err ValueError.
Proof. split; vm_compute; repeat split; reflexivity. Qed.
