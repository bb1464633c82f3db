(** The texts of materials and laminates
    Statements only: every proof is [exact] a lemma of T_Repr.v with the same statement.
    Below each theorem, Print Assumptions lists the axioms it uses. *)
From Coq Require Import Reals ZArith Bool Ascii String Lia Decimal DecimalString DecimalZ DecimalNat.
From Coq Require Import List.
From Flocq Require Import IEEE754.BinarySingleNaN.
From Verif Require Import M_Py M_Float M_Validate M_MatObj M_Repr S_Validate S_MatObj S_Repr.
Import ListNotations.
Open Scope string_scope.
Open Scope list_scope.
Open Scope nat_scope.
From Verif Require T_Repr.

(** C90: the text of a material determines its class, its name and every number it prints, whatever the name contains (commas, digits or a
    whole text of another material). *)
Theorem C90_material : forall fmt n n' d d', prints fmt -> mat_text fmt n d = mat_text fmt n' d' -> same_class d d' /\ n = n' /\ numbers d = numbers d'.
Proof. exact T_Repr.t_C90_material. Qed.
Print Assumptions C90_material.

(** C90: so two materials with the same text compare equal, unless one of the numbers is NaN; then they never do. *)
Theorem C90_equal : forall fmt n n' d d', prints fmt -> mat_text fmt n d = mat_text fmt n' d' -> (mat_eq d (OpMat d') = Ok true <-> ~ In fnan (numbers d)).
Proof. exact T_Repr.t_C90_equal. Qed.
Print Assumptions C90_equal.

(** C90: the converse fails: a material with v12 = 0.0 and one with v12 = -0.0, otherwise equal and with the same name, compare equal and show
    different texts, as do two equal materials with different names. *)
Theorem C90_equal_refuted : forall fmt, prints fmt -> exists a b c d d',
  ortho_init ex_parse a = Ok d /\ ortho_init ex_parse b = Ok d' /\ ortho_init ex_parse c = Ok d /\
  mat_eq (DOrtho d) (OpMat (DOrtho d')) = Ok true /\ (forall n, mat_text fmt n (DOrtho d) <> mat_text fmt n (DOrtho d')) /\ (forall n n', n <> n' -> mat_text fmt n (DOrtho d) <> mat_text fmt n' (DOrtho d)).
Proof. exact T_Repr.t_C90_equal_refuted. Qed.
Print Assumptions C90_equal_refuted.

(** C90: in every history repr() of a material shows the name that reading .name in its place would give, and the numbers the material was
    constructed with; names read later are the same as if every repr() had been a read of the name. *)
Theorem C90_history : forall fmt parse l i k, nth_error l i = Some (RRepr k) -> forall s,
  (shown fmt parse l i k s <-> exists n name d, reported parse (only_names l) i k n /\ constructed parse (only_names l) k name d /\ s = mat_text fmt n d).
Proof. exact T_Repr.t_C90_history. Qed.
Print Assumptions C90_history.

(** C90: a material shows the same text at any time of its life ... *)
Theorem C90_stable : forall fmt parse l i j k s s', shown fmt parse l i k s -> shown fmt parse l j k s' -> s = s'.
Proof. exact T_Repr.t_C90_stable. Qed.
Print Assumptions C90_stable.

(** C90: ... and two different materials constructed without a name never show the same text, even if all their numbers are equal. *)
Theorem C90_distinct : forall fmt parse l i j k k' s s' d d', prints fmt -> k <> k' -> constructed parse (only_names l) k None d -> constructed parse (only_names l) k' None d' ->
  shown fmt parse l i k s -> shown fmt parse l j k' s' -> s <> s'.
Proof. exact T_Repr.t_C90_distinct. Qed.
Print Assumptions C90_distinct.

(** C90: the text of a laminate determines the list of its angles, an int being told from a float, and depends on nothing else. *)
Theorem C90_laminate : forall fmt l l', prints fmt -> (lam_text fmt l = lam_text fmt l' <-> l = l').
Proof. exact T_Repr.t_C90_laminate. Qed.
Print Assumptions C90_laminate.

(** C90: so the text of a laminate does not tell equal from unequal: two laminates with the same angles and different plies show the same text and
    compare unequal, and [0] and [0.0] on one ply compare equal and show different texts. *)
Theorem C90_laminate_refuted : forall fmt, prints fmt -> exists l l' r r' : list entry,
  lam_text fmt (angles l) = lam_text fmt (angles l') /\ lam_eq l (Some l') = Ok false /\ lam_text fmt (angles r) <> lam_text fmt (angles r') /\ lam_eq r (Some r') = Ok true.
Proof. exact T_Repr.t_C90_laminate_refuted. Qed.
Print Assumptions C90_laminate_refuted.

(** C90: floats can be written so that all these conditions hold. *)
Example C90_prints : prints plain_fmt.
Proof. exact T_Repr.t_C90_prints. Qed.

(** C90: a history: two materials with equal numbers show different texts, the same one each time; the texts of three laminates. *)
Example C90_ex :
  let l := [RCall (NewIso ex_iargs None); RCall (NewIso ex_iargs None); RRepr 1; RRepr 0; RCall (NewIso ex_iargs (Some "web")); RRepr 2; RRepr 1; RCall (ReadName 1); RRepr 7] in
  (exists s, shown plain_fmt ex_parse l 2 1 s /\ shown plain_fmt ex_parse l 6 1 s /\ ~ shown plain_fmt ex_parse l 3 0 s) /\
  nth_error (snd (rrun plain_fmt ex_parse mstate0 l)) 7 = Some (ROut (Name "ply_2")) /\
  list_text plain_fmt [NInt 0; NFloat fzero; NInt (-45)] = "[0, 0.0, -45]"%string /\ list_text plain_fmt [] = "[]"%string.
Proof. exact T_Repr.t_C90_ex. Qed.
