(** Proofs of property C21 (histories of attribute reads on a LaminateProperty). *)
From Coq Require Import Reals List Lra Lia String.
From Verif Require Import M_Py S_Mat M_Material M_Laminate M_LamHistory S_Laminate L_Mat L_Lam L_LamAlg L_LamSums L_LamEnergy T_Laminate.
Import ListNotations.
Open Scope string_scope.
Open Scope list_scope.
Open Scope R_scope.

(*@ C21: any sequence of reads returns, read by read, what a freshly constructed laminate returns for that read.
    In particular the overwriting of the cached A by B (lamination parameters) is not observable. (For
    lamination-parameter laminates the layup is empty, so the hypothesis on readable plies holds trivially.) @*)
Lemma t_C21_no_history : forall s p L reads, construct s p = Ok L -> all_readable (layup L) ->
  run L reads = map (fun r => snd (do_read L r)) reads.
Proof.
  intros s p L rs HL Hr; pose proof (construct_Inv _ _ _ HL) as I; pose proof (all_readable_ok _ Hr) as Hok.
  rewrite run_pure by assumption; apply map_ext; intros r.
  destruct (do_read_inv L r Hok I) as (L'&E&_); rewrite E; reflexivity.
Qed.
(*@ C21, concrete instance: reading B in between does not change A of a lamination-parameter laminate. @*)
Example t_C21_ex : exists L, construct (SDict [("xiA", DVec [1;0;1;0]); ("xiD", DVec [1;0;1;0]); ("T", DNum 1)]) (POne (Ortho ex_mat)) = Ok L /\
  run L [RdA; RdB; RdA] = [Ok (VMat (M3 2 0 0 0 1 0 0 0 1)); Ok (VMat mzero); Ok (VMat (M3 2 0 0 0 1 0 0 0 1))] /\
  all_readable (layup L).
Proof.
  set (d := [("xiA", DVec [1;0;1;0]); ("xiD", DVec [1;0;1;0]); ("T", DNum 1)]).
  destruct (construct (SDict d) (POne (Ortho ex_mat))) as [L|e] eqn:HL; [|discriminate].
  assert (El : layup L = []) by (eapply construct_layup_dict; eauto).
  exists L; split; [reflexivity|]; split; [|rewrite El; constructor].
  rewrite (t_C21_no_history _ _ _ _ HL) by (rewrite El; constructor).
  apply Ok_inj in HL; subst L.
  assert (E : forall L0, p_xiA L0 = DVec [1;0;1;0] -> plies L0 = POne (Ortho ex_mat) -> p_T L0 = DNum 1 ->
     snd (do_read L0 RdA) = Ok (VMat (M3 2 0 0 0 1 0 0 0 1))).
  { intros L0 E1 E2 E3; pose proof ex_Q0 as EQ; simpl in EQ; simpl; unfold get_A; rewrite E1, E2, E3; simpl; rewrite EQ; simpl.
    do 2 f_equal; apply mat3_ext; simpl; lra. }
  cbn [map]; rewrite !E by reflexivity; reflexivity.
Qed.

Lemma Q_loop_bad l : ~ all_readable l -> exists q, Q_loop l [] = (q, Some ZeroDivisionError).
Proof. intros N; destruct (Q_loop_or l []) as [H|H]; [contradiction|exact H]. Qed.
(*@ C21: the hypothesis is needed. If some Q_0 cannot be read, the first read of A raises ZeroDivisionError, but the
    second read of A on the same object returns the zero matrix without any error (same for B and D). @*)
Lemma t_C21_second_read_after_error : forall l L, laminate_of l = Ok L -> ~ all_readable l ->
  run L [RdA; RdA] = [Err ZeroDivisionError; Ok (VMat mzero)] /\
  run L [RdB; RdB] = [Err ZeroDivisionError; Ok (VMat mzero)] /\
  run L [RdD; RdD] = [Err ZeroDivisionError; Ok (VMat mzero)].
Proof.
  intros l L HL Hn; rewrite laminate_of_eq in HL; apply Ok_inj in HL; subst L.
  destruct (Q_loop_bad l Hn) as [q Eq].
  repeat split; cbn [run do_read]; unfold get_A, get_B, get_D, from_layup, get_Q_layup; simpl; rewrite Eq; simpl; reflexivity.
Qed.
(*@ C21, concrete instance: e1 = 1, e2 = 4, v12 = 1/2 is accepted by the constructor but has no Q_0. @*)
Example t_C21_unreadable_ex : ~ all_readable [(0, Ortho (OMat 1 4 (1/2) 1 1 0 0 0 0 0))].
Proof.
  intros H; inversion H as [|? ? [q E] _]; subst; simpl in E; rewrite o_Q0_spec in E.
  destruct (Req_EM_T _ 0) as [Z|N]; [discriminate|]; apply N; unfold o_den, o_v21; simpl; lra.
Qed.

(*@ C21: after layup is re-assigned, values already read are still served, although z_position follows the new layup:
    the object then mixes old and new. @*)
Lemma t_C21_stale_after_reassignment : forall l l' L A, laminate_of l = Ok L -> A_of l = Ok A ->
  run_actions L [Read RdA; SetLayup l'; Read RdA; Read RdZ] =
    [Some (Ok (VMat A)); None; Some (Ok (VMat A)); Some (Ok (VZs (z_position l')))].
Proof.
  intros l l' L A HL HA; rewrite laminate_of_eq in HL; apply Ok_inj in HL; subst L.
  reads l Hr; [|congruence].
  rewrite A_of_eq in HA by assumption; apply Ok_inj in HA; subst A.
  cbn [run_actions step do_read]; unfold get_A at 1; cbn [p_xiA fresh]; unfold from_layup, get_Q_layup; cbn [c_A fresh set_A c_Q layup].
  rewrite (Q_loop_ok l [] (all_readable_ok l Hr)); cbn [app layup set_Q set_A fresh]; rewrite accumulate_z; reflexivity.
Qed.
(*@ C21: so a re-assigned layup can leave A wrong. @*)
Lemma t_C21_stale_refuted : exists l l' L A A', laminate_of l = Ok L /\ A_of l = Ok A /\ A_of l' = Ok A' /\ A <> A' /\
  run_actions L [Read RdA; SetLayup l'; Read RdA] = [Some (Ok (VMat A)); None; Some (Ok (VMat A))].
Proof.
  destruct t_C24_ex as (A & A' & HA & HA' & N).
  exists [(0, Ortho ex_mat)], (rotate_all 90 [(0, Ortho ex_mat)]), (fresh [(0, Ortho ex_mat)]), A, A'.
  repeat split; auto using laminate_of_eq.
  pose proof (t_C21_stale_after_reassignment _ (rotate_all 90 [(0, Ortho ex_mat)]) _ _ (laminate_of_eq _) HA) as E.
  cbn [run_actions step] in *; destruct (do_read (fresh [(0, Ortho ex_mat)]) RdA) as [L1 v1].
  destruct (do_read (set_layup L1 (rotate_all 90 [(0, Ortho ex_mat)])) RdA) as [L2 v2].
  simpl in E; congruence.
Qed.
(*@ C21: the array returned by A is the cached object itself: whatever the caller writes into it is what A returns
    from then on (and ABD contains it). @*)
Lemma t_C21_aliased_array : forall l L A m, laminate_of l = Ok L -> A_of l = Ok A ->
  run_actions L [Read RdA; UserWriteA m; Read RdA; Read RdABD] =
   [Some (Ok (VMat A)); None; Some (Ok (VMat m)); Some (B <- B_of l ;; D <- D_of l ;; Ok (VMat6 (M6 m B B D)))].
Proof.
  intros l L A m HL HA; rewrite laminate_of_eq in HL; apply Ok_inj in HL; subst L.
  reads l Hr; [|congruence].
  rewrite A_of_eq in HA by assumption; apply Ok_inj in HA; subst A.
  rewrite B_of_eq, D_of_eq by assumption.
  cbn [run_actions step do_read]; unfold get_A at 1; cbn [p_xiA fresh]; unfold from_layup, get_Q_layup; cbn [c_A fresh set_A c_Q layup].
  rewrite (Q_loop_ok l [] (all_readable_ok l Hr)); cbn [app layup set_Q set_A fresh]; rewrite accumulate_z.
  unfold wrap; cbn [fst snd bind c_A set_A set_Q fresh].
  do 3 f_equal.
  unfold get_ABD, get_A, get_B, get_D, from_layup, get_Q_layup;
  repeat (cbn [p_xiA p_xiD c_A c_B c_D c_Q set_A set_B set_D set_Q fst snd bind fresh layup]; rewrite ?accumulate_z); reflexivity.
Qed.
