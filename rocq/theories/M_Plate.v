(** composipy/core/structure.py : PlateStructure, edge constraints and index sets.
    Strings are ASCII. m and n are the integers stored by the constructor (M_Validate.v). *)
From Coq Require Import Bool Arith String Ascii List.
From Verif Require Import M_Py.
Import ListNotations.
Open Scope string_scope.
Open Scope list_scope.

(** One entry of the constraints dictionary: a str, a list (or tuple, set) whose str elements are given (elements that
    are not str never equal a component name), or an object for which [in] raises TypeError. *)
Inductive edge := EStr (s : string) | EList (l : list string) | EOther.

(** The argument [constraints]: a str, a dictionary (the four keys that are read, each possibly missing), or another
    object, for which subscripting with a str raises TypeError (None, numbers, lists, ...). *)
Inductive constraints :=
| CStr (s : string)
| CDict (x0 xa y0 yb : option edge)
| COther.

Definition t3 : list string := ["TX"; "TY"; "TZ"].
Definition t6 : list string := ["TX"; "TY"; "TZ"; "RX"; "RY"; "RZ"].

(** structure.py:80-90 : the default argument *)
Definition default_constraints : constraints :=
  CDict (Some (EList t3)) (Some (EList t3)) (Some (EList t3)) (Some (EList t3)).

Definition lower_char (c : ascii) : ascii :=
  let n := nat_of_ascii c in if Nat.leb 65 n && Nat.leb n 90 then ascii_of_nat (n + 32) else c.
(** str.lower() on ASCII *)
Fixpoint lower (s : string) : string :=
  match s with EmptyString => EmptyString | String c t => String (lower_char c) (lower t) end.

Definition key (o : option edge) : res edge := match o with Some e => Ok e | None => Err KeyError end.
Definition is_str (e : edge) : bool := match e with EStr _ => true | _ => false end.
Definition the_str (e : edge) : string := match e with EStr s => s | _ => "" end.

(** structure.py:166-172 *)
Definition boundary_conditions (s : string) : res (list string) :=
  if String.eqb s "free" then Ok []
  else if String.eqb s "pinned" then Ok t3
  else if String.eqb s "simply_supported" then Ok t3
  else if String.eqb s "fixed" then Ok t6
  else if String.eqb s "clamped" then Ok t6
  else Err KeyError.

Record edges := Edges { e_x0 : edge; e_xa : edge; e_y0 : edge; e_yb : edge }.

(** structure.py:149-189. The conjunction of lines 161-164 is evaluated left to right and stops at the first False. *)
Definition resolve (c : constraints) : res edges :=
  match c with
  | CStr s =>
      if String.eqb s "PINNED" then Ok (Edges (EList t3) (EList t3) (EList t3) (EList t3))
      else if String.eqb s "CLAMPED" then Ok (Edges (EList t6) (EList t6) (EList t6) (EList t6))
      else Err TypeError
  | COther => Err TypeError
  | CDict x0 xa y0 yb =>
      b0 <- (e <- key x0 ;; Ok (is_str e)) ;;
      b1 <- (if b0 then (e <- key xa ;; Ok (is_str e)) else Ok false) ;;
      b2 <- (if b1 then (e <- key y0 ;; Ok (is_str e)) else Ok false) ;;
      b3 <- (if b2 then (e <- key yb ;; Ok (is_str e)) else Ok false) ;;
      if b3 then
        c0 <- (e <- key x0 ;; boundary_conditions (lower (the_str e))) ;;
        ca <- (e <- key xa ;; boundary_conditions (lower (the_str e))) ;;
        d0 <- (e <- key y0 ;; boundary_conditions (lower (the_str e))) ;;
        db <- (e <- key yb ;; boundary_conditions (lower (the_str e))) ;;
        Ok (Edges (EList c0) (EList ca) (EList d0) (EList db))
      else
        e0 <- key x0 ;; ea <- key xa ;; f0 <- key y0 ;; fb <- key yb ;;
        Ok (Edges e0 ea f0 fb)
  end.

(** [sub in s] for str: substring test *)
Fixpoint substring_in (sub s : string) : bool :=
  String.prefix sub s || match s with EmptyString => false | String _ t => substring_in sub t end.
(** [name in edge] *)
Definition contains (name : string) (e : edge) : res bool :=
  match e with
  | EStr s => Ok (substring_in name s)
  | EList l => Ok (existsb (String.eqb name) l)
  | EOther => Err TypeError
  end.

(** list.remove(x) *)
Fixpoint list_remove (x : nat) (l : list nat) : res (list nat) :=
  match l with
  | [] => Err ValueError
  | y :: t => if Nat.eqb y x then Ok t else r <- list_remove x t ;; Ok (y :: r)
  end.
(** [if name in e: l.remove(x)] *)
Definition drop_if (name : string) (e : edge) (x : nat) (l : list nat) : res (list nat) :=
  b <- contains name e ;; if b then list_remove x l else Ok l.

(** itertools.product of two lists *)
Definition product2 {A B} (l : list A) (r : list B) : list (A * B) := list_prod l r.

Record index_sets := Idx {
  su_idx : list (nat * nat); sv_idx : list (nat * nat); sw_idx : list (nat * nat);
  uidx : list ((nat * nat) * (nat * nat)); vidx : list ((nat * nat) * (nat * nat)); widx : list ((nat * nat) * (nat * nat)) }.

(** structure.py:191-265 : lines 254 and 255 take the y functions of v and w from [un]. The four-fold product of
    lines 257-259 is the product of the pair list with itself, in the same order. *)
Definition compute_constraints (c : constraints) (m n : nat) : res index_sets :=
  e <- resolve c ;;
  let sm := seq 0 (m + 4) in
  let sn := seq 0 (n + 4) in
  um <- drop_if "TX" (e_x0 e) 0 sm ;;
  vm <- drop_if "TY" (e_x0 e) 0 sm ;;
  wm <- drop_if "TZ" (e_x0 e) 0 sm ;;
  um <- drop_if "RX" (e_x0 e) 1 um ;;
  vm <- drop_if "RY" (e_x0 e) 1 vm ;;
  wm <- drop_if "RZ" (e_x0 e) 1 wm ;;
  um <- drop_if "TX" (e_xa e) 2 um ;;
  vm <- drop_if "TY" (e_xa e) 2 vm ;;
  wm <- drop_if "TZ" (e_xa e) 2 wm ;;
  um <- drop_if "RX" (e_xa e) 3 um ;;
  vm <- drop_if "RY" (e_xa e) 3 vm ;;
  wm <- drop_if "RZ" (e_xa e) 3 wm ;;
  un <- drop_if "TX" (e_y0 e) 0 sn ;;
  vn <- drop_if "TY" (e_y0 e) 0 sn ;;
  wn <- drop_if "TZ" (e_y0 e) 0 sn ;;
  un <- drop_if "RX" (e_y0 e) 1 un ;;
  vn <- drop_if "RY" (e_y0 e) 1 vn ;;
  wn <- drop_if "RZ" (e_y0 e) 1 wn ;;
  un <- drop_if "TX" (e_yb e) 2 un ;;
  vn <- drop_if "TY" (e_yb e) 2 vn ;;
  wn <- drop_if "TZ" (e_yb e) 2 wn ;;
  un <- drop_if "RX" (e_yb e) 3 un ;;
  vn <- drop_if "RY" (e_yb e) 3 vn ;;
  wn <- drop_if "RZ" (e_yb e) 3 wn ;;
  let um := firstn m um in let un := firstn n un in
  let vm := firstn m vm in let vn := firstn n un in
  let wm := firstn m wm in let wn := firstn n un in
  let su := product2 um un in let sv := product2 vm vn in let sw := product2 wm wn in
  Ok (Idx su sv sw (product2 su su) (product2 sv sv) (product2 sw sw)).
