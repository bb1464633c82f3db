(** Layup strings and PCOMP cards
    Statements only: every proof is [exact] a lemma of T_Nastran.v with the same statement.
    Below each theorem, Print Assumptions lists the axioms it uses. *)
From Coq Require Import ZArith Bool String Ascii List Lia.
From Verif Require Import M_Py M_Float M_Nastran S_Nastran.
Import ListNotations.
Open Scope char_scope.
Open Scope list_scope.
From Verif Require T_Nastran.

(** C52: for every well-formed layup, whatever the conversion of number texts, [build_sequence] of its text returns
    exactly the denoted plies. *)
Theorem C52_roundtrip : forall (float_of : text -> option f64) (l : layup),
  wf_layup float_of l -> build_sequence float_of (print_layup l) = Ok (layup_plies l).
Proof. exact T_Nastran.t_C52_roundtrip. Qed.
Print Assumptions C52_roundtrip.

(** Example: the layup of the docstring is well-formed and is written as in the docstring. *)
Example C52_roundtrip_ex : wf_layup float_of_int_text docstring_layup
  /\ print_layup docstring_layup = T "[\pm45_{1}/0_2/90/(0/90)_1]s"
  /\ List.length (layup_plies docstring_layup) = 12.
Proof. exact T_Nastran.t_C52_roundtrip_ex. Qed.

(** C52: the brackets are optional: a text without blanks at its ends and not ending in s or S is read the same with
    and without them. *)
Theorem C52_brackets_optional : forall float_of (t : text),
  t <> [] -> is_space (hd "a" t) = false -> is_space (last t "a") = false -> is_s (last t "a") = false -> ~ In "s" t ->
  build_sequence float_of (T "[" ++ t ++ T "]") = build_sequence float_of t.
Proof. exact T_Nastran.t_C52_brackets_optional. Qed.
Print Assumptions C52_brackets_optional.

(** Example: a text meeting the conditions. *)
Example C52_brackets_optional_ex :
  let t := T "0_2/90" in
  t <> [] /\ is_space (hd "a" t) = false /\ is_space (last t "a") = false /\ is_s (last t "a") = false /\ ~ In "s" t
  /\ match build_sequence float_of_int_text t with Ok l => List.length l = 3 | Err _ => False end.
Proof. exact T_Nastran.t_C52_brackets_optional_ex. Qed.

(** C52: a group must carry a count: without one the text is rejected with ValueError. *)
Theorem C52_group_needs_count : forall (float_of : text -> option f64) (u : unit_) (us : list unit_),
  Forall (wf_unit float_of) (u :: us) ->
  build_sequence float_of (T "[(" ++ join "/" (map print_unit (u :: us)) ++ T ")]") = Err ValueError.
Proof. exact T_Nastran.t_C52_group_needs_count. Qed.
Print Assumptions C52_group_needs_count.

(** Example: (0/90) without a count. *)
Example C52_group_needs_count_ex : Forall (wf_unit float_of_int_text) [u_ false "0" 0 CNone; u_ false "90" 90 CNone].
Proof. exact T_Nastran.t_C52_group_needs_count_ex. Qed.

(** C53: whenever a text ending (up to blanks) in s or S is accepted, the result is a list followed by its mirror image. *)
Theorem C53_palindrome : forall float_of (t : text) (r : list f64) c,
  last_char (strip t) = Ok c -> is_s c = true -> build_sequence float_of t = Ok r ->
  exists l, r = l ++ List.rev l /\ List.rev r = r.
Proof. exact T_Nastran.t_C53_palindrome. Qed.
Print Assumptions C53_palindrome.

(** C53: dropping the s from a text without another s gives the first half, and the two texts are rejected together. *)
Theorem C53_half : forall float_of (t u : text),
  strip t = u ++ ["s"] -> u <> [] -> ~ In "s" u -> last u "a" <> "S" ->
  is_space (hd "a" u) = false -> is_space (last u "a") = false ->
  build_sequence float_of t = (l <- build_sequence float_of u ;; Ok (l ++ List.rev l)).
Proof. exact T_Nastran.t_C53_half. Qed.
Print Assumptions C53_half.

(** Example: [0_2/90]s . *)
Example C53_half_ex :
  let u := T "[0_2/90]" in
  strip (T " [0_2/90]s ") = u ++ ["s"] /\ u <> [] /\ ~ In "s" u /\ last u "a" <> "S"
  /\ is_space (hd "a" u) = false /\ is_space (last u "a") = false
  /\ match build_sequence float_of_int_text (T " [0_2/90]s ") with Ok l => List.length l = 6 | Err _ => False end.
Proof. exact T_Nastran.t_C53_half_ex. Qed.

(** C52: apart from a text that is empty (IndexError) the only exception is ValueError. *)
Theorem C52_errors : forall float_of (t : text) e, build_sequence float_of t = Err e ->
  e = ValueError \/ e = IndexError /\ remove_char "s" (strip t) = [].
Proof. exact T_Nastran.t_C52_errors. Qed.
Print Assumptions C52_errors.

(** Example: the text "s" raises IndexError, the text "x" raises ValueError. *)
Example C52_errors_ex : build_sequence float_of_int_text (T " s ") = Err IndexError
  /\ build_sequence float_of_int_text (T "x") = Err ValueError.
Proof. exact T_Nastran.t_C52_errors_ex. Qed.

(** C54: if number conversion rejects every text containing a capital S (as Python's does), every text ending, up to
    blanks, in a capital S raises ValueError. *)
Theorem C54_capital_s : forall float_of (t : text),
  (forall x, In "S" x -> float_of x = None) ->
  last_char (strip t) = Ok "S" -> build_sequence float_of t = Err ValueError.
Proof. exact T_Nastran.t_C54_capital_s. Qed.
Print Assumptions C54_capital_s.

(** Example: "[0/90]S" ends in S, and the decimal reader rejects texts with S. *)
Example C54_capital_s_ex : last_char (strip (T "[0/90]S")) = Ok "S"
  /\ (forall x, In "S" x -> float_of_int_text x = None)
  /\ is_ok (build_sequence float_of_int_text (T "[0/90]s")) = true.
Proof. exact T_Nastran.t_C54_capital_s_ex. Qed.

(** C55: a plus-minus unit with count n gives n plies of alternating sign, the first one positive. *)
Theorem C55_alternating : forall (float_of : text -> option f64) (tok : text) (x : f64) (n : nat),
  plain tok -> float_of tok = Some x ->
  exists l, build_sequence float_of (T "[\pm" ++ tok ++ T "_" ++ dec n ++ T "]") = Ok l
    /\ List.length l = n
    /\ (forall i, i < n -> nth_error l i = Some (if Nat.even i then x else fopp x)).
Proof. exact T_Nastran.t_C55_alternating. Qed.
Print Assumptions C55_alternating.

(** Example: the text 45 qualifies. *)
Example C55_alternating_ex : plain (T "45") /\ float_of_int_text (T "45") = Some (f_of_Z 45).
Proof. exact T_Nastran.t_C55_alternating_ex. Qed.

(** C55: without a count the negative ply is missing: one ply. *)
Theorem C55_no_count : forall (float_of : text -> option f64) (tok : text) (x : f64),
  plain tok -> float_of tok = Some x -> build_sequence float_of (T "[\pm" ++ tok ++ T "]") = Ok [x].
Proof. exact T_Nastran.t_C55_no_count. Qed.
Print Assumptions C55_no_count.

(** C55: the docstring example does not give the documented sequence; the second ply is 0, not -45. *)
Theorem C55_docstring_refuted : forall float_of : text -> option f64,
  float_of (T "0") = Some (f_of_Z 0) -> float_of (T "45") = Some (f_of_Z 45) -> float_of (T "90") = Some (f_of_Z 90) ->
  build_sequence float_of (T "[\pm45_{1}/0_2/90/(0/90)_1]s") = Ok (map f_of_Z [45; 0; 0; 90; 0; 90; 90; 0; 90; 0; 0; 45]%Z)
  /\ build_sequence float_of (T "[\pm45_{1}/0_2/90/(0/90)_1]s") <> Ok (map f_of_Z docstring_output).
Proof. exact T_Nastran.t_C55_docstring_refuted. Qed.
Print Assumptions C55_docstring_refuted.

(** Example: the decimal reader is such a conversion. *)
Example C55_docstring_refuted_ex :
  float_of_int_text (T "0") = Some (f_of_Z 0) /\ float_of_int_text (T "45") = Some (f_of_Z 45)
  /\ float_of_int_text (T "90") = Some (f_of_Z 90).
Proof. exact T_Nastran.t_C55_docstring_refuted_ex. Qed.

(** C56: a group nested at the start of a group is accepted, but the outer count is applied to the last unit only. *)
Theorem C56_nested : forall (float_of : text -> option f64) (u : unit_) (us : list unit_) (k : count) (v : unit_) (k2 : count),
  Forall (wf_unit float_of) (u :: us) -> wf_unit float_of v -> k <> CNone -> k2 <> CNone ->
  build_sequence float_of (T "[" ++ print_nitem (NGroup [NGroup (map NUnit (u :: us)) k; NUnit v] k2) ++ T "]")
  = Ok (concat (repeat (concat (map unit_plies (u :: us))) (count_value k)) ++ concat (repeat (unit_plies v) (count_value k2))).
Proof. exact T_Nastran.t_C56_nested. Qed.
Print Assumptions C56_nested.

(** C56: so the text ((0/90)_2/45)_2 gives 0,90,0,90,45,45 instead of the denoted ten plies. *)
Theorem C56_nested_refuted : exists (l : nitem) (r : list f64),
  print_nitem l = T "((0/90)_2/45)_2"
  /\ build_sequence float_of_int_text (T "[" ++ print_nitem l ++ T "]") = Ok r
  /\ List.length r = 6 /\ List.length (nitem_plies l) = 10.
Proof. exact T_Nastran.t_C56_nested_refuted. Qed.
Print Assumptions C56_nested_refuted.

(** C56: the plies of the nested group's last unit leak into the next group. *)
Theorem C56_leak : forall (float_of : text -> option f64) (u v w : unit_),
  wf_unit float_of u -> wf_unit float_of v -> wf_unit float_of w ->
  build_sequence float_of (T "[((" ++ print_unit u ++ T ")_1/" ++ print_unit v ++ T ")_1/(" ++ print_unit w ++ T ")_1]")
  = Ok (unit_plies u ++ unit_plies v ++ unit_plies v ++ unit_plies w).
Proof. exact T_Nastran.t_C56_leak. Qed.
Print Assumptions C56_leak.

(** Example: units meeting the hypotheses of the three statements on nesting. *)
Example C56_leak_ex : wf_unit float_of_int_text (u_ false "0" 0 CNone) /\ wf_unit float_of_int_text (u_ true "45" 45 (CPlain 3)).
Proof. exact T_Nastran.t_C56_leak_ex. Qed.

(** C56: text before an opening parenthesis is glued to the first number of the group. *)
Theorem C56_glued : forall (float_of : text -> option f64) (a rest : text),
  ~ In "(" a -> ~ In ")" a -> ~ In "/" a ->
  build_sequence float_of (T "[" ++ a ++ T "(" ++ rest ++ T "]") = build_sequence float_of (T "[(" ++ a ++ rest ++ T "]").
Proof. exact T_Nastran.t_C56_glued. Qed.
Print Assumptions C56_glued.

(** Example: 90(0/45)_2 is read as (900/45)_2. *)
Example C56_glued_ex :
  build_sequence float_of_int_text (T "[90(0/45)_2]") = Ok (map f_of_Z [900; 45; 900; 45]%Z).
Proof. exact T_Nastran.t_C56_glued_ex. Qed.

(** C58: what the thickness and material arguments stand for: a value for every ply, or a list of matching length; any
    other list raises ValueError. *)
Theorem C58_values : forall (a : parg) (n : nat) (l : list text),
  (convert_to_list a n = Ok l <-> stands_for n a l)
  /\ (convert_to_list a n = Err ValueError <-> ~ fits n a).
Proof. exact T_Nastran.t_C58_values. Qed.
Print Assumptions C58_values.

(** C58: the output requests: FIBER marks exactly the first and the last ply, YES and NO all plies, another sized
    argument of matching length is used as it is, a text by its characters. *)
Theorem C58_sout : forall (s : sarg) (n : nat) (l : list text),
  convert_sout s n = Ok l <-> sout_for n s l.
Proof. exact T_Nastran.t_C58_sout. Qed.
Print Assumptions C58_sout.

(** C58: the exceptions for output requests: IndexError exactly for FIBER with an empty sequence, ValueError for
    everything else that is not accepted. *)
Theorem C58_sout_errors : forall (s : sarg) (n : nat) (e : exn), convert_sout s n = Err e ->
  (e = IndexError /\ s = SoutStr (T "FIBER") /\ n = 0) \/ (e = ValueError /\ ~ (s = SoutStr (T "FIBER") /\ n = 0)).
Proof. exact T_Nastran.t_C58_sout_errors. Qed.
Print Assumptions C58_sout_errors.

(** Example: with five plies the text MAYBE is accepted, character by character; an empty sequence with FIBER is not. *)
Example C58_sout_ex : convert_sout (SoutStr (T "MAYBE")) 5 = Ok [T "M"; T "A"; T "Y"; T "B"; T "E"]
  /\ convert_sout (SoutStr (T "FIBER")) 3 = Ok [T "YES"; T "NO"; T "YES"]
  /\ convert_sout (SoutStr (T "FIBER")) 0 = Err IndexError /\ convert_sout (SoutStr (T "ALL")) 5 = Err ValueError.
Proof. exact T_Nastran.t_C58_sout_ex. Qed.

(** C57: when the arguments stand for the lists m, t and s, none of whose entries contains a comma or a line break, the
    card splits into the header and one line for every two plies, in order; the output request of every second ply has a
    plus sign glued to it, and after an odd number of plies the last line has one ply only and no plus sign. *)
Theorem C57_fields : forall (seq : list text) (midi ti : parg) (pid : Z) (z0 : text) (so : sarg) (m t s : list text),
  stands_for (List.length seq) midi m -> stands_for (List.length seq) ti t -> sout_for (List.length seq) so s ->
  clean z0 -> Forall clean m -> Forall clean t -> Forall clean seq -> Forall clean s ->
  exists card, build_pcomp seq midi ti pid z0 so = Ok card
    /\ fields card = [T "PCOMP"; str_Z pid; z0; []; []; []; []; T "+"] :: body_lines (zip4 m t seq s).
Proof. exact T_Nastran.t_C57_fields. Qed.
Print Assumptions C57_fields.

(** C57: reading the card back gives every ply, in order and unchanged. *)
Theorem C57_roundtrip : forall (seq : list text) (midi ti : parg) (pid : Z) (z0 : text) (so : sarg) (m t s : list text) (card : text),
  stands_for (List.length seq) midi m -> stands_for (List.length seq) ti t -> sout_for (List.length seq) so s ->
  clean z0 -> Forall clean m -> Forall clean t -> Forall clean seq -> Forall clean s ->
  build_pcomp seq midi ti pid z0 so = Ok card ->
  read_card card = zip4 m t seq s /\ map p_angle (read_card card) = seq /\ List.length (read_card card) = List.length seq.
Proof. exact T_Nastran.t_C57_roundtrip. Qed.
Print Assumptions C57_roundtrip.

(** Example: a card for three plies, whose text is as expected and meets the hypotheses. *)
Example C57_ex : card_example = Ok (T "PCOMP,12,,,,,,+" ++ [newline] ++ T "+,7,0.1,45.0,YES,7,0.2,-45.0,NO+" ++ [newline]
    ++ T "+,7,0.1,0.0,YES")
  /\ stands_for 3 (Scalar (T "7")) [T "7"; T "7"; T "7"] /\ stands_for 3 (Sized [T "0.1"; T "0.2"; T "0.1"]) [T "0.1"; T "0.2"; T "0.1"]
  /\ sout_for 3 (SoutStr (T "FIBER")) [T "YES"; T "NO"; T "YES"]
  /\ Forall clean [T "7"; T "0.1"; T "45.0"; T "-45.0"; T "0.0"; T "YES"; T "NO"; []].
Proof. exact T_Nastran.t_C57_ex. Qed.

(** C58: [build_pcomp] raises exactly when one of its arguments does not fit, ValueError before IndexError. *)
Theorem C58_card : forall (seq : list text) (midi ti : parg) (pid : Z) (z0 : text) (so : sarg),
  (is_ok (build_pcomp seq midi ti pid z0 so) = true <->
   fits (List.length seq) ti /\ fits (List.length seq) midi /\ exists s, sout_for (List.length seq) so s)
  /\ (build_pcomp seq midi ti pid z0 so = Err IndexError <->
       seq = [] /\ fits 0 ti /\ fits 0 midi /\ so = SoutStr (T "FIBER")).
Proof. exact T_Nastran.t_C58_card. Qed.
Print Assumptions C58_card.
