(** Specification side of the layup strings and PCOMP cards: abstract layups, how they are written and which
    sequence of angles they denote. Nothing here refers to how pcomp_generator.py reads the text. *)
From Coq Require Import ZArith NArith Bool String Ascii DecimalString List.
From Verif Require Import M_Py M_Float M_Nastran.
Import ListNotations.
Open Scope char_scope.
Open Scope list_scope.

(** Decimal numeral of a natural number (standard library printer). *)
Definition dec (n : nat) : text := T (NilZero.string_of_uint (Nat.to_uint n)).

(** Characters with a meaning in the notation, and white space *)
Definition marks : text := T "/()_[]{}sS\".
Definition plain_char (c : ascii) : bool := negb (is_space c) && negb (existsb (Ascii.eqb c) marks).
(** the text of a number: not empty, no marks, no white space *)
Definition plain (t : text) : Prop := t <> [] /\ forallb plain_char t = true.
Definition blank (t : text) : Prop := forallb is_space t = true.

(** A count: none, [_n] or [_{n}]. *)
Inductive count := CNone | CPlain (n : nat) | CBraced (n : nat).
Definition count_value (c : count) : nat :=
  match c with CNone => 1 | CPlain n | CBraced n => n end.
Definition print_count (c : count) : text :=
  match c with CNone => [] | CPlain n => "_" :: dec n | CBraced n => T "_{" ++ dec n ++ T "}" end.

(** A unit such as [45], [\pm45_{3}] or [0_2], possibly with blanks around it. *)
Record unit_ := Unit { u_left : text; u_pm : bool; u_tok : text; u_angle : f64; u_count : count; u_right : text }.
Definition print_unit (u : unit_) : text :=
  u_left u ++ (if u_pm u then T "\pm" else []) ++ u_tok u ++ print_count (u_count u) ++ u_right u.
(** the n plies of a unit; with [\pm] the signs alternate, starting with + *)
Definition unit_plies (u : unit_) : list f64 :=
  let n := count_value (u_count u) in
  if u_pm u then map (fun i => if Nat.even i then u_angle u else fopp (u_angle u)) (seq 0 n)
  else repeat (u_angle u) n.

Fixpoint join (sep : ascii) (l : list text) : text :=
  match l with [] => [] | [x] => x | x :: r => x ++ sep :: join sep r end.

(** A group (u/.../u)_n must carry its count. *)
Inductive item :=
| IUnit (u : unit_)
| IGroup (left : text) (first : unit_) (rest : list unit_) (c : count) (right : text).
Definition print_item (i : item) : text :=
  match i with
  | IUnit u => print_unit u
  | IGroup l u us c r => l ++ "(" :: join "/" (map print_unit (u :: us)) ++ ")" :: print_count c ++ r
  end.
Definition item_plies (i : item) : list f64 :=
  match i with
  | IUnit u => unit_plies u
  | IGroup _ u us c _ => concat (repeat (concat (map unit_plies (u :: us))) (count_value c))
  end.

(** A layup [ item / ... / item ] with an optional s, possibly with blanks around it. *)
Record layup := Layup { l_left : text; l_items : list item; l_sym : bool; l_right : text }.
Definition print_layup (l : layup) : text :=
  l_left l ++ "[" :: join "/" (map print_item (l_items l)) ++ "]" :: (if l_sym l then T "s" else []) ++ l_right l.
Definition layup_plies (l : layup) : list f64 :=
  let half := concat (map item_plies (l_items l)) in if l_sym l then half ++ rev half else half.

Definition wf_unit (float_of : text -> option f64) (u : unit_) : Prop :=
  blank (u_left u) /\ blank (u_right u) /\ plain (u_tok u) /\ float_of (u_tok u) = Some (u_angle u).
Definition wf_item (float_of : text -> option f64) (i : item) : Prop :=
  match i with
  | IUnit u => wf_unit float_of u
  | IGroup l u us c r => blank l /\ blank r /\ c <> CNone /\ Forall (wf_unit float_of) (u :: us)
  end.
Definition wf_layup (float_of : text -> option f64) (l : layup) : Prop :=
  blank (l_left l) /\ blank (l_right l) /\ l_items l <> [] /\ Forall (wf_item float_of) (l_items l).

(** A reader of decimal integers, used in the examples as the float conversion. *)
Definition float_of_int_text (t : text) : option f64 := option_map f_of_Z (int_of t).

(** [\pm45_{1}/0_2/90/(0/90)_1]s, the example of the docstring *)
Definition u_ pm tok z c := Unit [] pm (T tok) (f_of_Z z) c [].
Definition docstring_layup : layup :=
  Layup [] [IUnit (u_ true "45" 45 (CBraced 1)); IUnit (u_ false "0" 0 (CPlain 2)); IUnit (u_ false "90" 90 CNone);
            IGroup [] (u_ false "0" 0 CNone) [u_ false "90" 90 CNone] (CPlain 1) []] true [].
(** the sequence printed in the docstring, as angles in degrees (pcomp_generator.py:57) *)
Definition docstring_output : list Z := [45; -45; 0; 90; 0; 90; 90; 0; 90; 0; -45; 45]%Z.

(** nested groups *)
Inductive nitem :=
| NUnit (u : unit_)
| NGroup (l : list nitem) (c : count).
Fixpoint print_nitem (i : nitem) : text :=
  match i with
  | NUnit u => print_unit u
  | NGroup l c => "(" :: join "/" (map print_nitem l) ++ ")" :: print_count c
  end.
Fixpoint nitem_plies (i : nitem) : list f64 :=
  match i with
  | NUnit u => unit_plies u
  | NGroup l c => concat (repeat (concat (map nitem_plies l)) (count_value c))
  end.

(** ** PCOMP cards *)

(** the fields of the lines of a text *)
Definition fields (t : text) : list (list text) := map (split_on ",") (split_on newline t).

Record ply := Ply { p_mid : text; p_t : text; p_angle : text; p_sout : text }.
Definition ply_fields (p : ply) : list text := [p_mid p; p_t p; p_angle p; p_sout p].
Definition zip4 (m t a s : list text) : list ply :=
  map (fun x => match x with (((m, t), a), s) => Ply m t a s end) (combine (combine (combine m t) a) s).

(** Reading a card back: drop the header and the continuation mark at the start of each line, and take the "+" off
    the eighth data field. *)
Definition unplus (t : text) : text := if Ascii.eqb (last t " ") "+" then removelast t else t.
Definition read_line (l : list text) : list ply :=
  match l with
  | [_; m; t; a; s] => [Ply m t a s]
  | [_; m; t; a; s; m'; t'; a'; s'] => [Ply m t a s; Ply m' t' a' (unplus s')]
  | _ => []
  end.
Definition read_card (t : text) : list ply := concat (map read_line (tl (fields t))).

Definition clean (t : text) : Prop := ~ In "," t /\ ~ In newline t.

(** what an argument stands for, for n plies *)
Inductive stands_for (n : nat) : parg -> list text -> Prop :=
| SfScalar x l : List.length l = n -> (forall i, i < n -> nth i l [] = x) -> stands_for n (Scalar x) l
| SfSized l : List.length l = n -> stands_for n (Sized l) l.
Definition fits (n : nat) (a : parg) : Prop := match a with Scalar _ => True | Sized l => List.length l = n end.

Definition named_sout (s : text) : Prop := s = T "FIBER" \/ s = T "YES" \/ s = T "NO".
(** the output request of ply [i] of [n] *)
Inductive sout_for (n : nat) : sarg -> list text -> Prop :=
| SoFiber l : 0 < n -> List.length l = n ->
    (forall i, i < n -> nth i l [] = if Nat.eqb i 0 || Nat.eqb (S i) n then T "YES" else T "NO") ->
    sout_for n (SoutStr (T "FIBER")) l
| SoYes l : List.length l = n -> (forall i, i < n -> nth i l [] = T "YES") -> sout_for n (SoutStr (T "YES")) l
| SoNo l : List.length l = n -> (forall i, i < n -> nth i l [] = T "NO") -> sout_for n (SoutStr (T "NO")) l
| SoList l : List.length l = n -> sout_for n (SoutList l) l
| SoChars s : ~ named_sout s -> List.length s = n -> sout_for n (SoutStr s) (map (fun c => [c]) s).

(** the lines of the body, as fields *)
Fixpoint body_lines (l : list ply) : list (list text) :=
  match l with
  | [] => [[[]]]
  | [p] => [T "+" :: ply_fields p]
  | p :: q :: r => (T "+" :: ply_fields p ++ [p_mid q; p_t q; p_angle q; p_sout q ++ T "+"]) :: body_lines r
  end.

Definition card_example : res text :=
  build_pcomp [T "45.0"; T "-45.0"; T "0.0"] (Scalar (T "7")) (Sized [T "0.1"; T "0.2"; T "0.1"]) 12 [] (SoutStr (T "FIBER")).
