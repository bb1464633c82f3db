(** Plate edge conditions and index sets
    Statements only: every proof is [exact] a lemma of T_Plate.v with the same statement.
    Below each theorem, Print Assumptions lists the axioms it uses. *)
From Coq Require Import Bool Arith String Ascii List Sorted Lia.
From Verif Require Import M_Py M_Plate S_Plate.
Import ListNotations.
Open Scope string_scope.
Open Scope list_scope.
Open Scope nat_scope.
From Verif Require T_Plate.

(** C34: for the documented names the index sets of u, v and w are equal: all pairs, in row-major order, of the first m
    admissible x functions and the first n admissible y functions, with indices below m+4 and n+4; the quadruples that
    the assembly loops run over are all pairs of those pairs, in row-major order. *)
Theorem C34_index_sets : forall c c0 ca d0 db m n, specifies c c0 ca d0 db ->
  exists idx fx fy,
    compute_constraints c m n = Ok idx
    /\ first_k (admissible c0 ca) m fx /\ first_k (admissible d0 db) n fy
    /\ Forall (fun i => i < m + 4) fx /\ Forall (fun j => j < n + 4) fy
    /\ row_major fx fy (sw_idx idx) /\ su_idx idx = sw_idx idx /\ sv_idx idx = sw_idx idx
    /\ row_major (sw_idx idx) (sw_idx idx) (widx idx)
    /\ List.length (widx idx) = m ^ 2 * n ^ 2.
Proof. exact T_Plate.t_C34_index_sets. Qed.
Print Assumptions C34_index_sets.

(** Example: a dictionary of documented names in mixed case, and the w functions of a 3 x 2 plate. *)
Example C34_index_sets_ex :
  specifies (CDict (Some (EStr "Clamped")) (Some (EStr "free")) (Some (EStr "PINNED")) (Some (EStr "simply_Supported")))
            Clamped Free Pinned Pinned
  /\ match compute_constraints (CDict (Some (EStr "Clamped")) (Some (EStr "free")) (Some (EStr "PINNED")) (Some (EStr "simply_Supported"))) 3 2 with
     | Ok idx => sw_idx idx = [(2, 1); (2, 3); (3, 1); (3, 3); (4, 1); (4, 3)]
     | Err _ => False
     end.
Proof. exact T_Plate.t_C34_index_sets_ex. Qed.

(** C34: the default argument is the same as 'PINNED' *)
Theorem C34_default : forall m n,
  compute_constraints default_constraints m n = compute_constraints (CStr "PINNED") m n.
Proof. exact T_Plate.t_C34_default. Qed.
Print Assumptions C34_default.

(** C34: the only exceptions of the constraint analysis are TypeError and KeyError: removing functions and slicing never
    fails, for any m and n. *)
Theorem C34_errors : forall c m n e, compute_constraints c m n = Err e -> e = TypeError \/ e = KeyError.
Proof. exact T_Plate.t_C34_errors. Qed.
Print Assumptions C34_errors.

(** Example: an unknown name and a number instead of a list. *)
Example C34_errors_ex :
  compute_constraints (CDict (Some (EStr "free")) (Some (EStr "guided")) (Some (EStr "free")) (Some (EStr "free"))) 4 4 = Err KeyError
  /\ compute_constraints (CDict (Some EOther) (Some (EStr "free")) (Some (EStr "free")) (Some (EStr "free"))) 4 4 = Err TypeError
  /\ compute_constraints (CStr "pinned") 4 4 = Err TypeError.
Proof. exact T_Plate.t_C34_errors_ex. Qed.

(** C35: with component lists only TX and RX of the y edges matter: two dictionaries that differ in anything else on y0
    and yb give the same index sets, hence the same matrices. *)
Theorem C35_only_tx_rx : forall x0 xa y0 yb y0' yb' m n,
  is_list x0 -> is_list xa ->
  agree "TX" y0 y0' -> agree "RX" y0 y0' -> agree "TX" yb yb' -> agree "RX" yb yb' ->
  compute_constraints (CDict (Some x0) (Some xa) (Some y0) (Some yb)) m n
  = compute_constraints (CDict (Some x0) (Some xa) (Some y0') (Some yb')) m n.
Proof. exact T_Plate.t_C35_only_tx_rx. Qed.
Print Assumptions C35_only_tx_rx.

(** Example: y0 fully clamped in v and w against y0 fully free in v and w. *)
Example C35_only_tx_rx_ex : agree "TX" (EList ["TX"; "TY"; "TZ"; "RY"; "RZ"]) (EList ["TX"])
  /\ agree "RX" (EList ["TX"; "TY"; "TZ"; "RY"; "RZ"]) (EList ["TX"]).
Proof. exact T_Plate.t_C35_only_tx_rx_ex. Qed.

(** C35: in particular TZ on y0 and yb does not hold the deflection there: w keeps function 0, which is 1 at y0. *)
Theorem C35_tz_refuted : exists c, (exists l0 lb, c = CDict (Some (EList t3)) (Some (EList t3)) (Some (EList l0)) (Some (EList lb))
    /\ In "TZ" l0 /\ In "TZ" lb)
  /\ forall m n, 1 <= m -> 1 <= n -> exists idx, compute_constraints c m n = Ok idx /\ In (1, 0) (sw_idx idx).
Proof. exact T_Plate.t_C35_tz_refuted. Qed.
Print Assumptions C35_tz_refuted.

(** C36: if at least one edge is given by a list, every edge given by a text without component names is treated as free. *)
Theorem C36_mixed : forall x0 xa y0 yb m n,
  list_or_plain x0 -> list_or_plain xa -> list_or_plain y0 -> list_or_plain yb ->
  is_list x0 \/ is_list xa \/ is_list y0 \/ is_list yb ->
  compute_constraints (CDict (Some x0) (Some xa) (Some y0) (Some yb)) m n
  = compute_constraints (CDict (Some (freed x0)) (Some (freed xa)) (Some (freed y0)) (Some (freed yb))) m n.
Proof. exact T_Plate.t_C36_mixed. Qed.
Print Assumptions C36_mixed.

(** C36: none of the documented names contains a component name, in any letter case; so a named edge next to a listed
    one is free although the name asks for more. *)
Theorem C36_names : forall s c, names s c -> list_or_plain (EStr s) /\ freed (EStr s) = EList [].
Proof. exact T_Plate.t_C36_names. Qed.
Print Assumptions C36_names.

(** C36: a plate with x0 listed and xa, y0, yb clamped, pinned and fixed by name keeps every function of the three named
    edges. *)
Theorem C36_refuted : forall m n, 3 <= m -> 4 <= n -> exists idx, compute_constraints mixed_example m n = Ok idx
  /\ forall i j, 1 <= i < 4 -> j < 4 -> In (i, j) (sw_idx idx) .
Proof. exact T_Plate.t_C36_refuted. Qed.
Print Assumptions C36_refuted.
