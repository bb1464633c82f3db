(** Property C21 (histories of attribute reads on a LaminateProperty).
    Statements only: every proof is [exact] a lemma of T_History.v with the same statement.
    Below each theorem, Print Assumptions lists the axioms it uses. *)
From Coq Require Import Reals List Lra Lia String.
From Verif Require Import M_Py S_Mat M_Material M_Laminate M_LamHistory S_Laminate.
Import ListNotations.
Open Scope string_scope.
Open Scope list_scope.
Open Scope R_scope.
From Verif Require T_History.

(** C21: any sequence of reads returns, read by read, what a freshly constructed laminate returns for that read.
    In particular the overwriting of the cached A by B (lamination parameters) is not observable. (For
    lamination-parameter laminates the layup is empty, so the hypothesis on readable plies holds trivially.) *)
Theorem C21_no_history : forall s p L reads, construct s p = Ok L -> all_readable (layup L) ->
  run L reads = map (fun r => snd (do_read L r)) reads.
Proof. exact T_History.t_C21_no_history. Qed.
Print Assumptions C21_no_history.

(** C21, concrete instance: reading B in between does not change A of a lamination-parameter laminate. *)
Example C21_ex : exists L, construct (SDict [("xiA", DVec [1;0;1;0]); ("xiD", DVec [1;0;1;0]); ("T", DNum 1)]) (POne (Ortho ex_mat)) = Ok L /\
  run L [RdA; RdB; RdA] = [Ok (VMat (M3 2 0 0 0 1 0 0 0 1)); Ok (VMat mzero); Ok (VMat (M3 2 0 0 0 1 0 0 0 1))] /\
  all_readable (layup L).
Proof. exact T_History.t_C21_ex. Qed.

(** C21: the hypothesis is needed. If some Q_0 cannot be read, the first read of A raises ZeroDivisionError, but the
    second read of A on the same object returns the zero matrix without any error (same for B and D). *)
Theorem C21_second_read_after_error : forall l L, laminate_of l = Ok L -> ~ all_readable l ->
  run L [RdA; RdA] = [Err ZeroDivisionError; Ok (VMat mzero)] /\
  run L [RdB; RdB] = [Err ZeroDivisionError; Ok (VMat mzero)] /\
  run L [RdD; RdD] = [Err ZeroDivisionError; Ok (VMat mzero)].
Proof. exact T_History.t_C21_second_read_after_error. Qed.
Print Assumptions C21_second_read_after_error.

(** C21, concrete instance: e1 = 1, e2 = 4, v12 = 1/2 is accepted by the constructor but has no Q_0. *)
Example C21_unreadable_ex : ~ all_readable [(0, Ortho (OMat 1 4 (1/2) 1 1 0 0 0 0 0))].
Proof. exact T_History.t_C21_unreadable_ex. Qed.

(** C21: after layup is re-assigned, values already read are still served, although z_position follows the new layup:
    the object then mixes old and new. *)
Theorem C21_stale_after_reassignment : forall l l' L A, laminate_of l = Ok L -> A_of l = Ok A ->
  run_actions L [Read RdA; SetLayup l'; Read RdA; Read RdZ] =
    [Some (Ok (VMat A)); None; Some (Ok (VMat A)); Some (Ok (VZs (z_position l')))].
Proof. exact T_History.t_C21_stale_after_reassignment. Qed.
Print Assumptions C21_stale_after_reassignment.

(** C21: so a re-assigned layup can leave A wrong. *)
Theorem C21_stale_refuted : exists l l' L A A', laminate_of l = Ok L /\ A_of l = Ok A /\ A_of l' = Ok A' /\ A <> A' /\
  run_actions L [Read RdA; SetLayup l'; Read RdA] = [Some (Ok (VMat A)); None; Some (Ok (VMat A))].
Proof. exact T_History.t_C21_stale_refuted. Qed.
Print Assumptions C21_stale_refuted.

(** C21: the array returned by A is the cached object itself: whatever the caller writes into it is what A returns
    from then on (and ABD contains it). *)
Theorem C21_aliased_array : forall l L A m, laminate_of l = Ok L -> A_of l = Ok A ->
  run_actions L [Read RdA; UserWriteA m; Read RdA; Read RdABD] =
   [Some (Ok (VMat A)); None; Some (Ok (VMat m)); Some (B <- B_of l ;; D <- D_of l ;; Ok (VMat6 (M6 m B B D)))].
Proof. exact T_History.t_C21_aliased_array. Qed.
Print Assumptions C21_aliased_array.
