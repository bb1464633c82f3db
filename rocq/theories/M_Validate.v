(** composipy/utils/validators.py and the constructors that use it, on Python objects and binary64. *)
From Coq Require Import ZArith Bool List String.
From Flocq Require Import IEEE754.BinarySingleNaN.
From Verif Require Import M_Py M_Float.
Import ListNotations.

(** Python objects as far as [float()] is concerned. [POther c] is any other object (numpy scalar, Fraction,
    list, ...): [c] is the float its conversion returns, or [None] if the conversion raises. *)
Inductive pyobj :=
| PNone
| PBool (b : bool)
| PInt (z : Z)
| PFloat (x : f64)
| PStr (s : string)
| POther (c : option f64).

(** Python's builtin [float(v)]; [None] = some exception was raised (validators.py:9 and :21 catch every
    exception). [parse] is CPython's text-to-float conversion: it is not modelled, all theorems hold for an
    arbitrary one. An int whose rounding is out of range raises OverflowError. *)
Definition to_float (parse : string -> option f64) (v : pyobj) : option f64 :=
  match v with
  | PNone => None
  | PBool b => Some (if b then fone else fzero)
  | PInt z => let x := f_of_Z z in if is_finite x then Some x else None
  | PFloat x => Some x
  | PStr s => parse s
  | POther c => c
  end.

(** validators.py:11-12 / :25-26 : [n_min is not None and value < n_min] *)
Definition below (x : f64) (n_min : option f64) : bool :=
  match n_min with Some l => flt x l | None => false end.
(** validators.py:13-14 / :27-28 : [n_max is not None and value > n_max] *)
Definition above (x : f64) (n_max : option f64) : bool :=
  match n_max with Some u => fgt x u | None => false end.

(** validators.py:6-15 : _float_number (the [name] argument only enters the message) *)
Definition float_number (parse : string -> option f64) (value : pyobj) (n_min n_max : option f64) : res f64 :=
  match to_float parse value with
  | None => Err ValueError
  | Some x => if below x n_min then Err ValueError
              else if above x n_max then Err ValueError
              else Ok x
  end.

(** validators.py:18-29 : _int_number *)
Definition int_number (parse : string -> option f64) (value : pyobj) (n_min n_max : option f64) : res Z :=
  match to_float parse value with
  | None => Err ValueError
  | Some x => if negb (f_is_integer x) then Err ValueError
              else if below x n_min then Err ValueError
              else if above x n_max then Err ValueError
              else Ok (f_to_Z x)
  end.

(** validators.py:32-35 : _is_instance; [b] is the value of [isinstance(value, typeobj)] *)
Definition is_instance (b : bool) : res unit := if b then Ok tt else Err ValueError.

(** Python [x / y] on floats *)
Definition py_fdiv (x y : f64) : res f64 := if feq y fzero then Err ZeroDivisionError else Ok (fdiv x y).

(** material.py:72-82 : numbers stored by an OrthotropicMaterial *)
Record fomat := FOMat { fo_e1 : f64; fo_e2 : f64; fo_v12 : f64; fo_g12 : f64; fo_thickness : f64;
                        fo_t1 : f64; fo_c1 : f64; fo_t2 : f64; fo_c2 : f64; fo_s : f64; fo_v21 : f64 }.
(** Arguments of OrthotropicMaterial (material.py:59-71) without the name. *)
Record oargs := OArgs { ao_e1 : pyobj; ao_e2 : pyobj; ao_v12 : pyobj; ao_g12 : pyobj; ao_thickness : pyobj;
                        ao_t1 : pyobj; ao_c1 : pyobj; ao_t2 : pyobj; ao_c2 : pyobj; ao_s : pyobj }.
(** material.py:66-70 : the call with five arguments; the allowables default to the int 0. *)
Definition oargs5 (e1 e2 v12 g12 thickness : pyobj) : oargs :=
  OArgs e1 e2 v12 g12 thickness (PInt 0) (PInt 0) (PInt 0) (PInt 0) (PInt 0).

(** material.py:59-85 : OrthotropicMaterial.__init__ up to line 83 *)
Definition ortho_init (parse : string -> option f64) (a : oargs) : res fomat :=
  e1 <- float_number parse (ao_e1 a) (Some fzero) None ;;
  e2 <- float_number parse (ao_e2 a) (Some fzero) None ;;
  v12 <- float_number parse (ao_v12 a) (Some (fopp fhalf)) (Some fhalf) ;;
  g12 <- float_number parse (ao_g12 a) (Some fzero) None ;;
  thickness <- float_number parse (ao_thickness a) (Some fzero) None ;;
  t1 <- float_number parse (ao_t1 a) (Some fzero) None ;;
  c1 <- float_number parse (ao_c1 a) (Some fzero) None ;;
  t2 <- float_number parse (ao_t2 a) (Some fzero) None ;;
  c2 <- float_number parse (ao_c2 a) (Some fzero) None ;;
  s <- float_number parse (ao_s a) (Some fzero) None ;;
  r <- py_fdiv e2 e1 ;;
  Ok (FOMat e1 e2 v12 g12 thickness t1 c1 t2 c2 s (fmul v12 r)).

(** material.py:232-238 : numbers stored by an IsotropicMaterial *)
Record fimat := FIMat { fi_e : f64; fi_v : f64; fi_g : f64; fi_thickness : f64;
                        fi_t : f64; fi_c : f64; fi_s : f64 }.
Record iargs := IArgs { ai_e : pyobj; ai_v : pyobj; ai_g : pyobj; ai_thickness : pyobj;
                        ai_t : pyobj; ai_c : pyobj; ai_s : pyobj }.
(** material.py:228-230 : an optional argument that is not given is [None]. *)
Definition opt_arg (o : option pyobj) : pyobj := match o with Some v => v | None => PNone end.

(** material.py:222-241 : IsotropicMaterial.__init__ up to line 239 *)
Definition iso_init (parse : string -> option f64) (a : iargs) : res fimat :=
  e <- float_number parse (ai_e a) (Some fzero) None ;;
  v <- float_number parse (ai_v a) (Some (fopp fhalf)) (Some fhalf) ;;
  g <- float_number parse (ai_g a) (Some fzero) None ;;
  thickness <- float_number parse (ai_thickness a) (Some fzero) None ;;
  t <- float_number parse (ai_t a) (Some fzero) None ;;
  c <- float_number parse (ai_c a) (Some fzero) None ;;
  s <- float_number parse (ai_s a) (Some fzero) None ;;
  Ok (FIMat e v g thickness t c s).

(** structure.py:95-103 : the validated attributes of a PlateStructure *)
Record fplate := FPlate { fp_a : f64; fp_b : f64; fp_Nxx : f64; fp_Nyy : f64; fp_Nxy : f64; fp_m : Z; fp_n : Z }.

(** structure.py:95-108 : PlateStructure.__init__; [prop] = isinstance(dproperty, Property). The constraints
    argument is stored unchecked (see M_Plate.v). *)
Definition plate_init (parse : string -> option f64) (prop : bool) (a b Nxx Nyy Nxy m n : pyobj) : res fplate :=
  _ <- is_instance prop ;;
  fa <- float_number parse a (Some fzero) None ;;
  fb <- float_number parse b (Some fzero) None ;;
  xx <- float_number parse Nxx None None ;;
  yy <- float_number parse Nyy None None ;;
  xy <- float_number parse Nxy None None ;;
  zm <- int_number parse m (Some fone) None ;;
  zn <- int_number parse n (Some fone) None ;;
  Ok (FPlate fa fb xx yy xy zm zn).
