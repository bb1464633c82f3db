(** composipy/nastranapi/pcomp_generator.py : layup strings and PCOMP cards.
    A Python str is a list of ASCII characters (no other characters are modelled). *)
From Coq Require Import ZArith Bool String Ascii DecimalString List.
From Verif Require Import M_Py M_Float.
Import ListNotations.
Open Scope char_scope.
Open Scope list_scope.

Notation text := (list ascii).
Definition T (s : string) : text := list_ascii_of_string s.

(** ** Python string methods used *)

(** ASCII characters for which [str.isspace] holds: 9-13, 28-31, 32 *)
Definition is_space (c : ascii) : bool :=
  let n := nat_of_ascii c in (Nat.leb 9 n && Nat.leb n 13) || (Nat.leb 28 n && Nat.leb n 32).
Fixpoint lstrip (l : text) : text :=
  match l with c :: t => if is_space c then lstrip t else l | [] => [] end.
(** [str.strip()] *)
Definition strip (l : text) : text := rev (lstrip (rev (lstrip l))).
(** [str.replace(c, '')] for a single character *)
Definition remove_char (c : ascii) (l : text) : text := filter (fun x => negb (Ascii.eqb x c)) l.
(** [str.replace('\pm', '')] : non-overlapping occurrences from the left. ('\p' is not an escape in Python, so
    the literal has the three characters backslash, p, m.) *)
Fixpoint remove_pm (l : text) : text :=
  match l with
  | "\" :: "p" :: "m" :: t => remove_pm t
  | c :: t => c :: remove_pm t
  | [] => []
  end.
(** [str.find('\pm') > -1] *)
Fixpoint has_pm (l : text) : bool :=
  match l with
  | "\" :: "p" :: "m" :: _ => true
  | _ :: t => has_pm t
  | [] => false
  end.
(** [str.split(c)] for a single character: at least one piece *)
Fixpoint split_on (c : ascii) (l : text) : list text :=
  match l with
  | [] => [[]]
  | x :: t => if Ascii.eqb x c then [] :: split_on c t
              else match split_on c t with p :: r => (x :: p) :: r | [] => [[x]] end
  end.
(** [l[-1]] *)
Definition last_char (l : text) : res ascii :=
  match rev l with c :: _ => Ok c | [] => Err IndexError end.
Definition first_char (l : text) : res ascii :=
  match l with c :: _ => Ok c | [] => Err IndexError end.
(** [c.lower() == 's'] *)
Definition is_s (c : ascii) : bool := Ascii.eqb c "s" || Ascii.eqb c "S".

(** Python [int(text)] on ASCII text: surrounding white space, an optional sign, decimal digits with single
    underscores between digits. [None] = ValueError. *)
Definition digit (c : ascii) : option Z :=
  let n := nat_of_ascii c in if Nat.leb 48 n && Nat.leb n 57 then Some (Z.of_nat (n - 48)) else None.
Fixpoint digits (acc : Z) (l : text) : option Z :=
  match l with
  | [] => Some acc
  | c :: t =>
      match digit c with
      | Some d => digits (10 * acc + d) t
      | None => if Ascii.eqb c "_"
                then match t with
                     | c2 :: t2 => match digit c2 with Some d => digits (10 * acc + d) t2 | None => None end
                     | [] => None
                     end
                else None
      end
  end.
Definition unsigned (l : text) : option Z :=
  match l with c :: t => match digit c with Some d => digits d t | None => None end | [] => None end.
Definition int_of (l : text) : option Z :=
  match strip l with
  | c :: t => if Ascii.eqb c "+" then unsigned t
              else if Ascii.eqb c "-" then option_map Z.opp (unsigned t)
              else unsigned (c :: t)
  | [] => None
  end.

Definition or_value_error {A} (o : option A) : res A := match o with Some x => Ok x | None => Err ValueError end.

(** [n * list] : empty for n <= 0 *)
Fixpoint rep_nat {A} (n : nat) (l : list A) : list A := match n with O => [] | S k => l ++ rep_nat k l end.
Definition rep {A} (n : Z) (l : list A) : list A := rep_nat (Z.to_nat n) l.

(** ** Layup strings *)

(** pcomp_generator.py:4-11 : _build_pm_unit; [(-1)**i*angle] is the float with its sign flipped for odd i (exact) *)
Fixpoint pm_from (i : nat) (k : nat) (angle : f64) : list f64 :=
  match k with
  | O => []
  | S k' => (if Nat.even i then angle else fopp angle) :: pm_from (S i) k' angle
  end.
Definition build_pm_unit (angle : f64) (times : Z) : list f64 := pm_from 0 (Z.to_nat times) angle.

(** pcomp_generator.py:14-37 : _build_stack_unit. [float_of] is Python's [float(str)] (not modelled: arbitrary). *)
Definition build_stack_unit (float_of : text -> option f64) (stacking : text) : res (list f64) :=
  let is_pm := has_pm stacking in
  match split_on "_" (strip (remove_pm stacking)) with
  | [a] => angle <- or_value_error (float_of a) ;;
           Ok (if is_pm then build_pm_unit angle 1 else rep 1 [angle])
  | [a; b] => angle <- or_value_error (float_of a) ;;
              times <- or_value_error (int_of (remove_char "}" (remove_char "{" b))) ;;
              Ok (if is_pm then build_pm_unit angle times else rep times [angle])
  | _ => Err ValueError
  end.

(** pcomp_generator.py:67-72 : the local variables of the loop *)
Record bstate := BState { b_unities : list f64; b_unity : list f64; b_block : list f64;
                          b_current : text; b_in_block : bool; b_mult : bool }.
Definition bstate0 : bstate := BState [] [] [] [] false false.

Definition times_of (cur : text) : res Z :=
  or_value_error (int_of (remove_char "}" (remove_char "{" (remove_char "_" cur)))).

(** pcomp_generator.py:74-119 : one iteration *)
Definition bstep (float_of : text -> option f64) (st : bstate) (char : ascii) : res bstate :=
  if Ascii.eqb char "(" then
    Ok (BState (b_unities st) (b_unity st) (b_block st) (b_current st) true (b_mult st))
  else if Ascii.eqb char ")" then
    u <- build_stack_unit float_of (b_current st) ;;
    Ok (BState (b_unities st) u (b_block st ++ u) [] (b_in_block st) true)
  else if Ascii.eqb char "/" && negb (b_in_block st) && negb (b_mult st) then
    u <- build_stack_unit float_of (b_current st) ;;
    Ok (BState (b_unities st ++ u) [] (b_block st) [] (b_in_block st) (b_mult st))
  else if Ascii.eqb char "/" && b_in_block st && negb (b_mult st) then
    u <- build_stack_unit float_of (b_current st) ;;
    Ok (BState (b_unities st) u (b_block st ++ u) [] (b_in_block st) (b_mult st))
  else if Ascii.eqb char "/" && b_mult st && negb (b_in_block st) then
    times <- times_of (b_current st) ;;
    Ok (BState (b_unities st ++ rep times (b_unity st)) [] (b_block st) [] (b_in_block st) false)
  else if Ascii.eqb char "/" && b_mult st && b_in_block st then
    times <- times_of (b_current st) ;;
    Ok (BState (b_unities st ++ rep times (b_block st)) [] [] [] false false)
  else
    Ok (BState (b_unities st) (b_unity st) (b_block st) (b_current st ++ [char]) (b_in_block st) (b_mult st)).

Fixpoint bloop (float_of : text -> option f64) (st : bstate) (l : text) : res bstate :=
  match l with
  | [] => Ok st
  | c :: t => st' <- bstep float_of st c ;; bloop float_of st' t
  end.

(** pcomp_generator.py:40-124 : build_sequence. Lines 62-63 compute an unused flag but index the string, so they
    raise on an empty one. *)
Definition build_sequence (float_of : text -> option f64) (stacking : text) : res (list f64) :=
  let s1 := strip stacking in
  c <- last_char s1 ;;
  let is_symmetric := is_s c in
  let s2 := remove_char "s" s1 in
  _ <- first_char s2 ;;
  let s3 := remove_char "]" (remove_char "[" s2) ++ ["/"] in
  st <- bloop float_of bstate0 s3 ;;
  let unities := b_unities st in
  Ok (if is_symmetric then unities ++ rev unities else unities).

(** ** PCOMP cards *)

(** An argument that is either one value (len() raises TypeError) or a sized, indexable sequence; the elements are
    given by their [str()]. *)
Inductive parg := Scalar (t : text) | Sized (l : list text).

(** pcomp_generator.py:127-136 : _convert_to_list *)
Definition convert_to_list (value : parg) (size : nat) : res (list text) :=
  match value with
  | Sized l => if Nat.eqb (List.length l) size then Ok l else Err ValueError
  | Scalar t => Ok (repeat t size)
  end.

(** The argument [sout]: a str, another sized sequence, or something without len(). *)
Inductive sarg := SoutStr (s : text) | SoutList (l : list text) | SoutOther.

Fixpoint set_last {A} (l : list A) (x : A) : list A :=
  match l with [] => [] | [_] => [x] | y :: t => y :: set_last t x end.
Definition text_eqb (a b : text) : bool := if list_eq_dec ascii_dec a b then true else false.

(** pcomp_generator.py:138-158 : _convert_sout *)
Definition convert_sout (sout : sarg) (size : nat) : res (list text) :=
  let default :=
    match sout with
    | SoutStr s => if Nat.eqb (List.length s) size then Ok (map (fun c => [c]) s) else Err ValueError
    | SoutList l => if Nat.eqb (List.length l) size then Ok l else Err ValueError
    | SoutOther => Err ValueError
    end in
  match sout with
  | SoutStr s =>
      if text_eqb s (T "FIBER") then
        match repeat (T "NO") size with
        | [] => Err IndexError                                   (* sout[0] = 'YES' on an empty list *)
        | _ :: t => Ok (set_last (T "YES" :: t) (T "YES"))
        end
      else if text_eqb s (T "NO") then Ok (repeat (T "NO") size)
      else if text_eqb s (T "YES") then Ok (repeat (T "YES") size)
      else default
  | _ => default
  end.

Definition newline : ascii := ascii_of_nat 10.
(** str(int) *)
Definition str_Z (z : Z) : text := T (NilZero.string_of_int (Z.to_int z)).

(** pcomp_generator.py:197 *)
Definition first_half (m t a s : text) : text :=
  T "+," ++ m ++ [","] ++ t ++ [","] ++ a ++ [","] ++ s ++ [","].
(** pcomp_generator.py:199 *)
Definition second_half (m t a s : text) : text :=
  m ++ [","] ++ t ++ [","] ++ a ++ [","] ++ s ++ T "+" ++ [newline].

(** pcomp_generator.py:194-201 : the loop over i = 0, 2, 4, ...; [fuel] bounds the number of iterations *)
Fixpoint pcomp_body (fuel i size : nat) (midi ti sequence sout : list text) (body : text) : res text :=
  match fuel with
  | O => Ok body
  | S fuel' =>
      if Nat.ltb i size then
        m <- get midi i ;; t <- get ti i ;; a <- get sequence i ;; s <- get sout i ;;
        let body1 := body ++ first_half m t a s in
        let body2 :=
          match (m <- get midi (S i) ;; t <- get ti (S i) ;; a <- get sequence (S i) ;; s <- get sout (S i) ;;
                 Ok (second_half m t a s)) with
          | Ok h => Ok (body1 ++ h)
          | Err IndexError => Ok (removelast body1)               (* body[0:-1] *)
          | Err e => Err e
          end in
        b <- body2 ;;
        pcomp_body fuel' (i + 2) size midi ti sequence sout b
      else Ok body
  end.

(** pcomp_generator.py:161-203 : build_pcomp. [pid] is the value of int(pid) (a failing conversion is not
    modelled); [z0] and the elements of [sequence] are given by their str(). range(0, size, 2) has at most [size]
    elements, so the fuel [size] is never exhausted early. *)
Definition build_pcomp (sequence : list text) (midi ti : parg) (pid : Z) (z0 : text) (sout : sarg) : res text :=
  let size := List.length sequence in
  ti' <- convert_to_list ti size ;;
  midi' <- convert_to_list midi size ;;
  sout' <- convert_sout sout size ;;
  let header := T "PCOMP," ++ str_Z pid ++ [","] ++ z0 ++ T ",,,,,+" ++ [newline] in
  body <- pcomp_body size 0 size midi' ti' sequence sout' [] ;;
  Ok (header ++ body).
