(** Proofs of plate edge conditions and index sets *)
From Coq Require Import Bool Arith String Ascii List Sorted Lia.
From Verif Require Import M_Py M_Plate S_Plate L_Plate.
Import ListNotations.
Open Scope string_scope.
Open Scope list_scope.
Open Scope nat_scope.

Definition comps (c : condition) : list string := match c with Free => [] | Pinned => t3 | Clamped => t6 end.
Lemma names_bc s c : names s c -> boundary_conditions (lower s) = Ok (comps c).
Proof. intros H. destruct H as [s E|s E|s E|s E|s E]; rewrite E; reflexivity. Qed.
Lemma specifies_resolve c c0 ca d0 db : specifies c c0 ca d0 db ->
  resolve c = Ok (Edges (EList (comps c0)) (EList (comps ca)) (EList (comps d0)) (EList (comps db))).
Proof. intros H. destruct H as [| |s0 sa r0 rb c0 ca d0 db N0 Na M0 Mb]; [reflexivity|reflexivity|].
  cbn. rewrite (names_bc _ _ N0), (names_bc _ _ Na), (names_bc _ _ M0), (names_bc _ _ Mb). reflexivity. Qed.

Lemma mem_comps c : mem "TX" (EList (comps c)) = holds_value c /\ mem "TY" (EList (comps c)) = holds_value c
  /\ mem "TZ" (EList (comps c)) = holds_value c /\ mem "RX" (EList (comps c)) = holds_slope c
  /\ mem "RY" (EList (comps c)) = holds_slope c /\ mem "RZ" (EList (comps c)) = holds_slope c.
Proof. destruct c; repeat split. Qed.

Lemma xs_lt t r e0 e1 m : Forall (fun i => i < m + 4) (xs t r e0 e1 m).
Proof. apply Forall_forall. intros x Hx. apply firstn_in, in_pick in Hx. apply Hx. Qed.
Lemma xs_length t r e0 e1 m : List.length (xs t r e0 e1 m) = m.
Proof. apply (pick_first_k (mem t e0) (mem r e0) (mem t e1) (mem r e1) m). Qed.

(*@ C34: for the documented names the index sets of u, v and w are equal: all pairs, in row-major order, of the first m
    admissible x functions and the first n admissible y functions, with indices below m+4 and n+4; the quadruples that
    the assembly loops run over are all pairs of those pairs, in row-major order. @*)
Lemma t_C34_index_sets : forall c c0 ca d0 db m n, specifies c c0 ca d0 db ->
  exists idx fx fy,
    compute_constraints c m n = Ok idx
    /\ first_k (admissible c0 ca) m fx /\ first_k (admissible d0 db) n fy
    /\ Forall (fun i => i < m + 4) fx /\ Forall (fun j => j < n + 4) fy
    /\ row_major fx fy (sw_idx idx) /\ su_idx idx = sw_idx idx /\ sv_idx idx = sw_idx idx
    /\ row_major (sw_idx idx) (sw_idx idx) (widx idx)
    /\ List.length (widx idx) = m ^ 2 * n ^ 2.
Proof. intros c c0 ca d0 db m n H.
  set (e := Edges (EList (comps c0)) (EList (comps ca)) (EList (comps d0)) (EList (comps db))).
  pose proof (compute_ok c m n e (specifies_resolve _ _ _ _ _ H)) as K.
  assert (AK : all_known e) by (repeat split; discriminate). specialize (K AK).
  exists (idx_of e m n), (xs "TZ" "RZ" (e_x0 e) (e_xa e) m), (xs "TX" "RX" (e_y0 e) (e_yb e) n).
  destruct (mem_comps c0) as (A1 & A2 & A3 & A4 & A5 & A6). destruct (mem_comps ca) as (B1 & B2 & B3 & B4 & B5 & B6).
  destruct (mem_comps d0) as (C1 & C2 & C3 & C4 & C5 & C6). destruct (mem_comps db) as (D1 & D2 & D3 & D4 & D5 & D6).
  split; [exact K|].
  assert (Ex : forall t r, mem t (e_x0 e) = holds_value c0 -> mem r (e_x0 e) = holds_slope c0 ->
                mem t (e_xa e) = holds_value ca -> mem r (e_xa e) = holds_slope ca ->
                xs t r (e_x0 e) (e_xa e) m = firstn m (pick (holds_value c0) (holds_slope c0) (holds_value ca) (holds_slope ca) m)).
  { intros t r E1 E2 E3 E4. unfold xs. rewrite E1, E2, E3, E4. reflexivity. }
  split. { rewrite (Ex "TZ" "RZ") by assumption. apply pick_first_k. }
  split. { unfold xs, e. cbn [e_y0 e_yb]. rewrite C1, C4, D1, D4. apply pick_first_k. }
  split; [apply xs_lt|]. split; [apply xs_lt|]. split; [apply product_row_major|].
  split. { unfold idx_of. cbn [su_idx sw_idx]. rewrite (Ex "TX" "RX"), (Ex "TZ" "RZ") by assumption. reflexivity. }
  split. { unfold idx_of. cbn [sv_idx sw_idx]. rewrite (Ex "TY" "RY"), (Ex "TZ" "RZ") by assumption. reflexivity. }
  split; [apply product_row_major|].
  unfold idx_of. cbn [widx]. unfold product2. rewrite !prod_length, !xs_length. cbn. lia. Qed.

(*@ Example: a dictionary of documented names in mixed case, and the w functions of a 3 x 2 plate. @*)
Example t_C34_index_sets_ex :
  specifies (CDict (Some (EStr "Clamped")) (Some (EStr "free")) (Some (EStr "PINNED")) (Some (EStr "simply_Supported")))
            Clamped Free Pinned Pinned
  /\ match compute_constraints (CDict (Some (EStr "Clamped")) (Some (EStr "free")) (Some (EStr "PINNED")) (Some (EStr "simply_Supported"))) 3 2 with
     | Ok idx => sw_idx idx = [(2, 1); (2, 3); (3, 1); (3, 3); (4, 1); (4, 3)]
     | Err _ => False
     end.
Proof. split; [|reflexivity]. apply Sp_dict; [apply N_clamped|apply N_free|apply N_pinned|apply N_ss]; reflexivity. Qed.

(*@ C34: the default argument is the same as 'PINNED' @*)
Lemma t_C34_default : forall m n,
  compute_constraints default_constraints m n = compute_constraints (CStr "PINNED") m n.
Proof. reflexivity. Qed.

Lemma resolve_errors c e : resolve c = Err e -> e = TypeError \/ e = KeyError.
Proof. destruct c as [s|x0 xa y0 yb|]; cbn.
  - destruct (String.eqb s "PINNED"); [discriminate|]. destruct (String.eqb s "CLAMPED"); [discriminate|]. intros [= <-]; tauto.
  - assert (B : forall s e, boundary_conditions s = Err e -> e = KeyError).
    { intros s e'. unfold boundary_conditions. repeat (destruct (String.eqb _ _); [discriminate|]). intros [= <-]; reflexivity. }
    destruct x0 as [x0|], xa as [xa|], y0 as [y0|], yb as [yb|]; cbn; try (intros [= <-]; tauto);
    repeat match goal with
    | |- context[is_str ?x] => destruct (is_str x); cbn
    | |- context[boundary_conditions ?s] => let E := fresh in destruct (boundary_conditions s) eqn:E; cbn
    | |- Err _ = Err _ -> _ => intros [= <-]
    | |- Ok _ = Err _ -> _ => discriminate
    end; eauto.
  - intros [= <-]; tauto. Qed.


Lemma drop_if_other name x l : drop_if name EOther x l = Err TypeError.
Proof. reflexivity. Qed.
Lemma known_dec e : known e \/ e = EOther.
Proof. destruct e; [left; discriminate|left; discriminate|right; reflexivity]. Qed.

Lemma compute_other c m n e : resolve c = Ok e -> ~ all_known e -> compute_constraints c m n = Err TypeError.
Proof. intros R NK. unfold compute_constraints. rewrite R. cbn [bind].
  cbv zeta. destruct (known_dec (e_x0 e)) as [K0|E]; [|apply bind_err; rewrite E; reflexivity].
  destruct (chain_ok (mem "TX" (e_x0 e)) (mem "RX" (e_x0 e)) (mem "TX" (e_xa e)) (mem "RX" (e_xa e)) m) as (a1 & a2 & a3 & A1 & A2 & A3 & A4).
  destruct (chain_ok (mem "TY" (e_x0 e)) (mem "RY" (e_x0 e)) (mem "TY" (e_xa e)) (mem "RY" (e_xa e)) m) as (b1 & b2 & b3 & B1 & B2 & B3 & B4).
  destruct (chain_ok (mem "TZ" (e_x0 e)) (mem "RZ" (e_x0 e)) (mem "TZ" (e_xa e)) (mem "RZ" (e_xa e)) m) as (c1 & c2 & c3 & C1 & C2 & C3 & C4).
  destruct (chain_ok (mem "TX" (e_y0 e)) (mem "RX" (e_y0 e)) (mem "TX" (e_yb e)) (mem "RX" (e_yb e)) n) as (d1 & d2 & d3 & D1 & D2 & D3 & D4).
  destruct (chain_ok (mem "TY" (e_y0 e)) (mem "RY" (e_y0 e)) (mem "TY" (e_yb e)) (mem "RY" (e_yb e)) n) as (f1 & f2 & f3 & F1 & F2 & F3 & F4).
  destruct (chain_ok (mem "TZ" (e_y0 e)) (mem "RZ" (e_y0 e)) (mem "TZ" (e_yb e)) (mem "RZ" (e_yb e)) n) as (g1 & g2 & g3 & G1 & G2 & G3 & G4).
  do 6 (eapply bind_ok; [rewrite drop_if_known by assumption; eassumption|cbv beta]).
  destruct (known_dec (e_xa e)) as [Ka|E]; [|apply bind_err; rewrite E; reflexivity].
  do 6 (eapply bind_ok; [rewrite drop_if_known by assumption; eassumption|cbv beta]).
  destruct (known_dec (e_y0 e)) as [L0|E]; [|apply bind_err; rewrite E; reflexivity].
  do 6 (eapply bind_ok; [rewrite drop_if_known by assumption; eassumption|cbv beta]).
  destruct (known_dec (e_yb e)) as [Lb|E]; [|apply bind_err; rewrite E; reflexivity].
  exfalso. apply NK. repeat split; assumption. Qed.

(*@ C34: the only exceptions of the constraint analysis are TypeError and KeyError: removing functions and slicing never
    fails, for any m and n. @*)
Lemma t_C34_errors : forall c m n e, compute_constraints c m n = Err e -> e = TypeError \/ e = KeyError.
Proof. intros c m n e H. destruct (resolve c) as [ed|er] eqn:R.
  - destruct (known_dec (e_x0 ed)) as [K0|E0], (known_dec (e_xa ed)) as [Ka|Ea], (known_dec (e_y0 ed)) as [L0|F0], (known_dec (e_yb ed)) as [Lb|Fb];
    try (rewrite (compute_other c m n ed R) in H; [injection H as <-; tauto|];
         intros (G1 & G2 & G3 & G4); unfold known in *; congruence).
    rewrite (compute_ok c m n ed R) in H; [discriminate|]. repeat split; assumption.
  - unfold compute_constraints in H. rewrite R in H. injection H as <-. exact (resolve_errors _ _ R). Qed.

(*@ Example: an unknown name and a number instead of a list. @*)
Example t_C34_errors_ex :
  compute_constraints (CDict (Some (EStr "free")) (Some (EStr "guided")) (Some (EStr "free")) (Some (EStr "free"))) 4 4 = Err KeyError
  /\ compute_constraints (CDict (Some EOther) (Some (EStr "free")) (Some (EStr "free")) (Some (EStr "free"))) 4 4 = Err TypeError
  /\ compute_constraints (CStr "pinned") 4 4 = Err TypeError.
Proof. repeat split. Qed.

Lemma existsb_mem name l : existsb (String.eqb name) l = true <-> In name l.
Proof. rewrite existsb_exists. split.
  - intros (x & Hx & E). apply String.eqb_eq in E. subst. exact Hx.
  - intros H. exists name. split; [exact H|]. apply String.eqb_refl. Qed.
Lemma agree_mem name e e' : agree name e e' -> mem name e = mem name e'.
Proof. destruct e as [|l|], e' as [|l'|]; cbn; try contradiction. intros H.
  destruct (existsb (String.eqb name) l) eqn:E1, (existsb (String.eqb name) l') eqn:E2; try reflexivity; exfalso.
  - apply existsb_mem in E1. apply H, existsb_mem in E1. congruence.
  - apply existsb_mem in E2. apply H, existsb_mem in E2. congruence. Qed.
Lemma agree_known name e e' : agree name e e' -> known e /\ known e' /\ is_str e = false /\ is_str e' = false.
Proof. destruct e, e'; cbn; try contradiction. repeat split; discriminate. Qed.

(*@ C35: with component lists only TX and RX of the y edges matter: two dictionaries that differ in anything else on y0
    and yb give the same index sets, hence the same matrices. @*)
Lemma t_C35_only_tx_rx : forall x0 xa y0 yb y0' yb' m n,
  is_list x0 -> is_list xa ->
  agree "TX" y0 y0' -> agree "RX" y0 y0' -> agree "TX" yb yb' -> agree "RX" yb yb' ->
  compute_constraints (CDict (Some x0) (Some xa) (Some y0) (Some yb)) m n
  = compute_constraints (CDict (Some x0) (Some xa) (Some y0') (Some yb')) m n.
Proof. intros x0 xa y0 yb y0' yb' m n H0 Ha A1 A2 B1 B2.
  destruct (agree_known _ _ _ A1) as (K1 & K2 & _). destruct (agree_known _ _ _ B1) as (K3 & K4 & _).
  destruct x0 as [|l0|]; try contradiction. destruct xa as [|la|]; try contradiction.
  rewrite (compute_ok _ m n (Edges (EList l0) (EList la) y0 yb)); [|reflexivity|repeat split; try assumption; discriminate].
  rewrite (compute_ok _ m n (Edges (EList l0) (EList la) y0' yb')); [|reflexivity|repeat split; try assumption; discriminate].
  f_equal. unfold idx_of, xs. cbn [e_x0 e_xa e_y0 e_yb].
  rewrite (agree_mem _ _ _ A1), (agree_mem _ _ _ A2), (agree_mem _ _ _ B1), (agree_mem _ _ _ B2). reflexivity. Qed.

(*@ Example: y0 fully clamped in v and w against y0 fully free in v and w. @*)
Example t_C35_only_tx_rx_ex : agree "TX" (EList ["TX"; "TY"; "TZ"; "RY"; "RZ"]) (EList ["TX"])
  /\ agree "RX" (EList ["TX"; "TY"; "TZ"; "RY"; "RZ"]) (EList ["TX"]).
Proof. split; cbn; split; intuition discriminate. Qed.

(*@ C35: in particular TZ on y0 and yb does not hold the deflection there: w keeps function 0, which is 1 at y0. @*)
Lemma t_C35_tz_refuted : exists c, (exists l0 lb, c = CDict (Some (EList t3)) (Some (EList t3)) (Some (EList l0)) (Some (EList lb))
    /\ In "TZ" l0 /\ In "TZ" lb)
  /\ forall m n, 1 <= m -> 1 <= n -> exists idx, compute_constraints c m n = Ok idx /\ In (1, 0) (sw_idx idx).
Proof. exists (CDict (Some (EList t3)) (Some (EList t3)) (Some (EList ["TZ"])) (Some (EList ["TZ"]))). split.
  - exists ["TZ"], ["TZ"]. cbn. tauto.
  - intros m n Hm Hn. eexists. split; [apply compute_ok; [reflexivity|repeat split; discriminate]|].
    unfold idx_of. cbn [sw_idx e_x0 e_xa e_y0 e_yb]. apply in_prod_iff. destruct m as [|m]; [lia|]. destruct n as [|n]; [lia|].
    split; left; reflexivity. Qed.

Lemma prefix_app a s : String.prefix a s = true -> exists b, s = (a ++ b)%string.
Proof. revert s; induction a as [|c a IH]; intros s H; [exists s; reflexivity|].
  destruct s as [|d s]; [discriminate|]. cbn in H. destruct (ascii_dec c d) as [->|]; [|discriminate].
  destruct (IH s H) as (b & ->). exists b. reflexivity. Qed.
Lemma substring_in_spec name s : substring_in name s = true -> exists a b, s = (a ++ name ++ b)%string.
Proof. induction s as [|c s IH]; cbn [substring_in]; intros H.
  - rewrite orb_false_r in H. destruct (prefix_app _ _ H) as (b & E). exists "", b. exact E.
  - apply orb_true_iff in H. destruct H as [H|H].
    + destruct (prefix_app _ _ H) as (b & E). exists "", b. exact E.
    + destruct (IH H) as (a & b & ->). exists (String c a), b. reflexivity. Qed.
Lemma freed_mem name e : In name ["TX"; "TY"; "TZ"; "RX"; "RY"; "RZ"] -> list_or_plain e -> mem name (freed e) = mem name e.
Proof. intros Hn. destruct e as [s|l|]; cbn; [|reflexivity|contradiction]. intros H.
  destruct (substring_in name s) eqn:E; [|reflexivity]. exfalso. destruct (substring_in_spec _ _ E) as (a & b & K).
  exact (H name a b Hn K). Qed.
Lemma lp_known e : list_or_plain e -> known e /\ known (freed e).
Proof. destruct e; cbn; try contradiction; split; discriminate. Qed.

Lemma resolve_mixed x0 xa y0 yb : is_list x0 \/ is_list xa \/ is_list y0 \/ is_list yb ->
  resolve (CDict (Some x0) (Some xa) (Some y0) (Some yb)) = Ok (Edges x0 xa y0 yb).
Proof. intros H. destruct x0, xa, y0, yb; try reflexivity. cbn in H. tauto. Qed.

(*@ C36: if at least one edge is given by a list, every edge given by a text without component names is treated as free. @*)
Lemma t_C36_mixed : forall x0 xa y0 yb m n,
  list_or_plain x0 -> list_or_plain xa -> list_or_plain y0 -> list_or_plain yb ->
  is_list x0 \/ is_list xa \/ is_list y0 \/ is_list yb ->
  compute_constraints (CDict (Some x0) (Some xa) (Some y0) (Some yb)) m n
  = compute_constraints (CDict (Some (freed x0)) (Some (freed xa)) (Some (freed y0)) (Some (freed yb))) m n.
Proof. intros x0 xa y0 yb m n P0 Pa Q0 Qb H.
  destruct (lp_known _ P0) as [K0 K0']. destruct (lp_known _ Pa) as [Ka Ka']. destruct (lp_known _ Q0) as [L0 L0']. destruct (lp_known _ Qb) as [Lb Lb'].
  rewrite (compute_ok _ m n _ (resolve_mixed x0 xa y0 yb H)) by (repeat split; assumption).
  rewrite (compute_ok _ m n (Edges (freed x0) (freed xa) (freed y0) (freed yb))).
  - f_equal. unfold idx_of, xs. cbn [e_x0 e_xa e_y0 e_yb]. rewrite !freed_mem; try assumption; try reflexivity; cbn; tauto.
  - destruct x0, xa, y0, yb; cbn in *; try contradiction; reflexivity.
  - repeat split; assumption. Qed.

Lemma lower_char_upper c d : lower_char c = d -> nat_of_ascii c < 97 -> 65 <= nat_of_ascii c -> nat_of_ascii c <= 90 -> nat_of_ascii d = nat_of_ascii c + 32.
Proof. intros <- _ H1 H2. unfold lower_char. apply Nat.leb_le in H1. apply Nat.leb_le in H2. rewrite H1, H2. cbn [andb].
  apply nat_ascii_embedding. apply Nat.leb_le in H2. lia. Qed.

Lemma lower_app a b : lower (a ++ b) = (lower a ++ lower b)%string.
Proof. induction a as [|c a IH]; [reflexivity|]. cbn. f_equal. exact IH. Qed.

Lemma no_sub_lower s t : lower s = t ->
  (forall name, In name ["TX"; "TY"; "TZ"; "RX"; "RY"; "RZ"] -> substring_in (lower name) t = false) -> no_component s.
Proof. intros E H name a b Hn K. specialize (H name Hn). rewrite <- E, K, !lower_app in H.
  assert (G : forall a n b, substring_in n (a ++ n ++ b) = true).
  { clear. intros a n b. induction a as [|c a IH]; cbn [String.append].
    - assert (P : String.prefix n (n ++ b) = true).
      { induction n as [|c n IH]; [destruct b; reflexivity|]. cbn. destruct (ascii_dec c c); [exact IH|congruence]. }
      destruct (n ++ b)%string; cbn [substring_in]; rewrite P; reflexivity.
    - cbn [substring_in]. rewrite IH. apply orb_true_r. }
  rewrite G in H. discriminate H. Qed.

(*@ C36: none of the documented names contains a component name, in any letter case; so a named edge next to a listed
    one is free although the name asks for more. @*)
Lemma t_C36_names : forall s c, names s c -> list_or_plain (EStr s) /\ freed (EStr s) = EList [].
Proof. intros s c H. split; [|reflexivity]. cbn.
  destruct H as [s E|s E|s E|s E|s E]; apply (no_sub_lower s _ E); intros name Hn; cbn in Hn;
  repeat (destruct Hn as [<-|Hn]; [reflexivity|]); destruct Hn. Qed.

(*@ C36: a plate with x0 listed and xa, y0, yb clamped, pinned and fixed by name keeps every function of the three named
    edges. @*)
Lemma t_C36_refuted : forall m n, 3 <= m -> 4 <= n -> exists idx, compute_constraints mixed_example m n = Ok idx
  /\ forall i j, 1 <= i < 4 -> j < 4 -> In (i, j) (sw_idx idx) .
Proof. intros m n Hm Hn. eexists. split; [apply compute_ok; [reflexivity|repeat split; discriminate]|].
  intros i j Hi Hj. unfold idx_of. cbn [sw_idx e_x0 e_xa e_y0 e_yb]. apply in_prod_iff.
  destruct m as [|[|[|m]]]; try lia. destruct n as [|[|[|[|n]]]]; try lia. unfold xs. cbn.
  split; [destruct i as [|[|[|[|i]]]]; try lia; tauto|destruct j as [|[|[|[|j]]]]; try lia; tauto]. Qed.
