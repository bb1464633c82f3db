(** Vocabulary for the properties about constructors, names and equality. *)
From Coq Require Import Reals ZArith Bool List String.
From Flocq Require Import IEEE754.BinarySingleNaN.
From Verif Require Import M_Py M_Float M_Validate M_MatObj S_Validate.
Import ListNotations.
Open Scope R_scope.

(** Every argument converts to the float stored, and is in its documented range (e1 = 0 not excluded here). *)
Record ortho_valid (parse : string -> option f64) (a : oargs) (m : fomat) : Prop := {
  ov_e1 : to_float parse (ao_e1 a) = Some (fo_e1 m) /\ not_below_zero (fo_e1 m);
  ov_e2 : to_float parse (ao_e2 a) = Some (fo_e2 m) /\ not_below_zero (fo_e2 m);
  ov_v12 : to_float parse (ao_v12 a) = Some (fo_v12 m) /\ not_outside_half (fo_v12 m);
  ov_g12 : to_float parse (ao_g12 a) = Some (fo_g12 m) /\ not_below_zero (fo_g12 m);
  ov_thickness : to_float parse (ao_thickness a) = Some (fo_thickness m) /\ not_below_zero (fo_thickness m);
  ov_t1 : to_float parse (ao_t1 a) = Some (fo_t1 m) /\ not_below_zero (fo_t1 m);
  ov_c1 : to_float parse (ao_c1 a) = Some (fo_c1 m) /\ not_below_zero (fo_c1 m);
  ov_t2 : to_float parse (ao_t2 a) = Some (fo_t2 m) /\ not_below_zero (fo_t2 m);
  ov_c2 : to_float parse (ao_c2 a) = Some (fo_c2 m) /\ not_below_zero (fo_c2 m);
  ov_s : to_float parse (ao_s a) = Some (fo_s m) /\ not_below_zero (fo_s m) }.

Record iso_valid (parse : string -> option f64) (a : iargs) (m : fimat) : Prop := {
  iv_e : to_float parse (ai_e a) = Some (fi_e m) /\ not_below_zero (fi_e m);
  iv_v : to_float parse (ai_v a) = Some (fi_v m) /\ not_outside_half (fi_v m);
  iv_g : to_float parse (ai_g a) = Some (fi_g m) /\ not_below_zero (fi_g m);
  iv_thickness : to_float parse (ai_thickness a) = Some (fi_thickness m) /\ not_below_zero (fi_thickness m);
  iv_t : to_float parse (ai_t a) = Some (fi_t m) /\ not_below_zero (fi_t m);
  iv_c : to_float parse (ai_c a) = Some (fi_c m) /\ not_below_zero (fi_c m);
  iv_s : to_float parse (ai_s a) = Some (fi_s m) /\ not_below_zero (fi_s m) }.

Record plate_valid (parse : string -> option f64) (a b Nxx Nyy Nxy m n : pyobj) (p : fplate) : Prop := {
  pv_a : to_float parse a = Some (fp_a p) /\ not_below_zero (fp_a p);
  pv_b : to_float parse b = Some (fp_b p) /\ not_below_zero (fp_b p);
  pv_Nxx : to_float parse Nxx = Some (fp_Nxx p);
  pv_Nyy : to_float parse Nyy = Some (fp_Nyy p);
  pv_Nxy : to_float parse Nxy = Some (fp_Nxy p);
  pv_m : exists x, to_float parse m = Some x /\ denotes x (IZR (fp_m p)) /\ (1 <= fp_m p)%Z;
  pv_n : exists x, to_float parse n = Some x /\ denotes x (IZR (fp_n p)) /\ (1 <= fp_n p)%Z }.

(** Names: the observations of a history. *)
Definition same_class (x y : matdata) : Prop :=
  match x, y with DOrtho _, DOrtho _ => True | DIso _, DIso _ => True | _, _ => False end.

(** [constructed parse ops k name d]: the [k]-th successful construction in the history was given the name
    argument [name] and is a material with data [d]. Defined on the calls alone, without the program state. *)
Fixpoint constructions (parse : string -> option f64) (l : list mop) : list (matdata * option string) :=
  match l with
  | [] => []
  | NewOrtho a name :: t =>
      match ortho_init parse a with Ok m => (DOrtho m, name) :: constructions parse t | Err _ => constructions parse t end
  | NewIso a name :: t =>
      match iso_init parse a with Ok m => (DIso m, name) :: constructions parse t | Err _ => constructions parse t end
  | ReadName _ :: t => constructions parse t
  end.
Definition constructed parse l k name d : Prop := nth_error (constructions parse l) k = Some (d, name).

(** The [i]-th call of the history is a read of the name of instance [k] and it returned [s]. *)
Definition reported parse (l : list mop) (i k : nat) (s : string) : Prop :=
  nth_error l i = Some (ReadName k) /\ nth_error (snd (mrun parse mstate0 l)) i = Some (Name s).

(** How many constructions of the class of [d] succeeded before instance [k]. *)
Definition class_of (d : matdata) : bool := match d with DOrtho _ => true | DIso _ => false end.
Definition earlier parse l k (d : matdata) : nat :=
  List.length (filter (fun c => Bool.eqb (class_of (fst c)) (class_of d)) (firstn k (constructions parse l))).

(** Numeric attributes as lists *)
Definition ortho_numbers (m : fomat) : list f64 :=
  [fo_e1 m; fo_e2 m; fo_v12 m; fo_g12 m; fo_thickness m; fo_t1 m; fo_c1 m; fo_t2 m; fo_c2 m; fo_s m].
Definition iso_numbers (m : fimat) : list f64 :=
  [fi_e m; fi_v m; fi_g m; fi_thickness m; fi_t m; fi_c m; fi_s m].
Definition numbers (d : matdata) : list f64 :=
  match d with DOrtho m => ortho_numbers m | DIso m => iso_numbers m end.

(** Two materials of one class with pairwise equal numbers. *)
Definition same_material (x y : matdata) : Prop :=
  same_class x y /\ Forall2 same_number (numbers x) (numbers y).

(** Two angles denote the same number (int and float may be mixed). *)
Definition same_angle (a b : num) : Prop :=
  match a, b with
  | NInt x, NInt y => x = y
  | NInt z, NFloat x => denotes x (IZR z)
  | NFloat x, NInt z => denotes x (IZR z)
  | NFloat x, NFloat y => same_number x y
  end.

(** Two layup entries agree: the same tuple object, or same-or-equal angle and same-or-equal ply. *)
Definition agree_angle (x y : entry) : Prop :=
  oid (fst (oval x)) = oid (fst (oval y)) \/ same_angle (oval (fst (oval x))) (oval (fst (oval y))).
Definition agree_ply (x y : entry) : Prop :=
  oid (snd (oval x)) = oid (snd (oval y)) \/ same_material (oval (snd (oval x))) (oval (snd (oval y))).
Definition agree (x y : entry) : Prop := oid x = oid y \/ (agree_angle x y /\ agree_ply x y).

(** Plies whose comparison raises: distinct objects of different classes. *)
Definition incomparable (x y : entry) : Prop :=
  oid x <> oid y /\ agree_angle x y /\
  oid (snd (oval x)) <> oid (snd (oval y)) /\ ~ same_class (oval (snd (oval x))) (oval (snd (oval y))).

(** Data of the examples *)
Definition ex_fz (z : Z) : pyobj := PInt z.
Definition ex_oargs : oargs := oargs5 (PInt 129500) (PFloat (f_of_Z 9370)) (PFloat (f_of_Z_exp 3 (-3))) (PInt 5240) (PFloat (f_of_Z_exp 1 (-2))).
Definition ex_iargs : iargs := IArgs (PInt 70000) (PFloat (f_of_Z_exp 1 (-2))) (PInt 28000) (PInt 1) (PInt 300) (PInt 300) (PInt 200).
Definition ex_parse : string -> option f64 := fun _ => None.
