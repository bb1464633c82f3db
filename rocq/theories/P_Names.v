(** Automatic names and equality
    Statements only: every proof is [exact] a lemma of T_Names.v with the same statement.
    Below each theorem, Print Assumptions lists the axioms it uses. *)
From Coq Require Import Reals ZArith Bool List String Lia Decimal DecimalString DecimalNat.
From Flocq Require Import IEEE754.BinarySingleNaN.
From Verif Require Import M_Py M_Float M_Validate M_MatObj S_Validate S_MatObj.
Import ListNotations.
Open Scope string_scope.
Open Scope list_scope.
Open Scope nat_scope.
From Verif Require T_Names.

(** C06. What every read returns: the explicit name, or ply_N where N is one more than the number of earlier
    successful constructions of the same class (failed constructions do not count). *)
Theorem C06_reads : forall parse l i k s,
  reported parse l i k s ->
  exists d name, constructed parse l k name d /\
    s = match name with Some n => n | None => ply_name (S (earlier parse l k d)) end.
Proof. exact T_Names.t_C06_reads. Qed.
Print Assumptions C06_reads.

(** C06. Reading the name of any instance created before succeeds. *)
Theorem C06_defined : forall parse l i k,
  nth_error l i = Some (ReadName k) -> k < List.length (constructions parse (firstn i l)) ->
  exists s, reported parse l i k s.
Proof. exact T_Names.t_C06_defined. Qed.
Print Assumptions C06_defined.

(** C06. Two instances of one class constructed without a name never report the same name. *)
Theorem C06_unique : forall parse l i j k k' s s' d d',
  k <> k' -> same_class d d' ->
  constructed parse l k None d -> constructed parse l k' None d' ->
  reported parse l i k s -> reported parse l j k' s' -> s <> s'.
Proof. exact T_Names.t_C06_unique. Qed.
Print Assumptions C06_unique.

(** C06. An instance reports the same name in every read. *)
Theorem C06_stable : forall parse l i j k s s',
  reported parse l i k s -> reported parse l j k s' -> s = s'.
Proof. exact T_Names.t_C06_stable. Qed.
Print Assumptions C06_stable.

(** C06. An explicit name is returned unchanged. *)
Theorem C06_explicit : forall parse l i k n d s,
  constructed parse l k (Some n) d -> reported parse l i k s -> s = n.
Proof. exact T_Names.t_C06_explicit. Qed.
Print Assumptions C06_explicit.

(** C06, example: constructions of both classes, one failing; the first two instances share the name ply_1 (they
    are of different classes), and the second orthotropic one is ply_2 although a construction failed in between. *)
Example C06_example :
  snd (mrun ex_parse mstate0
        [NewOrtho ex_oargs None; NewIso ex_iargs None;
         NewOrtho (oargs5 PNone (PInt 1) (PInt 0) (PInt 1) (PInt 1)) None;
         NewOrtho ex_oargs None; NewOrtho ex_oargs (Some "web"); ReadName 2; ReadName 0; ReadName 1; ReadName 2; ReadName 3])
  = [Created 0; Created 1; Raised ValueError; Created 2; Created 3;
     Name "ply_2"; Name "ply_1"; Name "ply_1"; Name "ply_2"; Name "web"].
Proof. exact T_Names.t_C06_example. Qed.

(** C07. Two materials compare equal exactly when they are of one class and their numeric attributes (ten for
    orthotropic, seven for isotropic) are pairwise equal numbers; the name plays no role. *)
Theorem C07_exact : forall x y, mat_eq x (OpMat y) = Ok true <-> same_material x y.
Proof. exact T_Names.t_C07_exact. Qed.
Print Assumptions C07_exact.

(** C07. The comparison raises ValueError exactly when the other operand is not a material of the same class; it
    never returns False for such an operand. *)
Theorem C07_error : forall x o e,
  mat_eq x o = Err e <-> (e = ValueError /\ match o with OpMat y => ~ same_class x y | OpOther => True end).
Proof. exact T_Names.t_C07_error. Qed.
Print Assumptions C07_error.

(** C07. Equality is symmetric (including the exception) *)
Theorem C07_symmetric : forall x y, mat_eq x (OpMat y) = mat_eq y (OpMat x).
Proof. exact T_Names.t_C07_symmetric. Qed.
Print Assumptions C07_symmetric.

(** C07. and transitive. *)
Theorem C07_transitive : forall x y z,
  mat_eq x (OpMat y) = Ok true -> mat_eq y (OpMat z) = Ok true -> mat_eq x (OpMat z) = Ok true.
Proof. exact T_Names.t_C07_transitive. Qed.
Print Assumptions C07_transitive.

(** C07. It is reflexive exactly for materials without a NaN attribute: a material with a NaN is not equal to itself. *)
Theorem C07_reflexive : forall x, mat_eq x (OpMat x) = Ok true <-> ~ In fnan (numbers x).
Proof. exact T_Names.t_C07_reflexive. Qed.
Print Assumptions C07_reflexive.

(** C07. Zeros of either sign are equal; a material differing only in the sign of a zero allowable is equal. *)
Example C07_example :
  mat_eq (DOrtho (FOMat fone fone fzero fone fone fzero fzero fzero fzero fzero fzero))
         (OpMat (DOrtho (FOMat fone fone fnzero fone fone fnzero fzero fzero fzero fzero fnzero))) = Ok true
  /\ mat_eq (DOrtho (FOMat fone fone fzero fone fone fzero fzero fzero fzero fnan fzero))
         (OpMat (DOrtho (FOMat fone fone fzero fone fone fzero fzero fzero fzero fnan fzero))) = Ok false.
Proof. exact T_Names.t_C07_example. Qed.

(** C22. Two laminates compare equal exactly when they have the same number of plies and, ply by ply, the same
    (identical or equal) angle and the same (identical or equal) ply. *)
Theorem C22_exact : forall l1 l2, lam_eq l1 (Some l2) = Ok true <-> Forall2 agree l1 l2.
Proof. exact T_Names.t_C22_exact. Qed.
Print Assumptions C22_exact.

(** C22. It raises exactly when, at the first ply where the laminates differ, the angles agree but one ply is
    orthotropic and the other isotropic (and the laminates have equally many plies); the exception is ValueError. *)
Theorem C22_raises : forall l1 l2 e,
  lam_eq l1 (Some l2) = Err e <->
  (e = ValueError /\ List.length l1 = List.length l2 /\
   exists k x y, nth_error l1 k = Some x /\ nth_error l2 k = Some y /\
     Forall2 agree (firstn k l1) (firstn k l2) /\ incomparable x y).
Proof. exact T_Names.t_C22_raises. Qed.
Print Assumptions C22_raises.

(** C22. With plies of one class the comparison always returns a bool. *)
Theorem C22_one_class : forall (l1 l2 : list entry) d,
  Forall (fun x : entry => same_class (oval (snd (oval x))) d) l1 ->
  Forall (fun x : entry => same_class (oval (snd (oval x))) d) l2 ->
  exists b, lam_eq l1 (Some l2) = Ok b /\ (b = true <-> Forall2 agree l1 l2).
Proof. exact T_Names.t_C22_one_class. Qed.
Print Assumptions C22_one_class.

(** C22. A laminate always equals itself, even with NaN angles or plies (identity is tested first). *)
Theorem C22_self : forall l, lam_eq l (Some l) = Ok true.
Proof. exact T_Names.t_C22_self. Qed.
Print Assumptions C22_self.

(** C22. Laminates built from lamination parameters have an empty layup, so all of them compare equal, whatever
    their parameters and thickness; they equal an angle laminate exactly when that one has no plies. *)
Theorem C22_lamination_parameters : forall l, lam_eq [] (Some l) = Ok (match l with [] => true | _ => false end)
  /\ lam_eq l (Some []) = Ok (match l with [] => true | _ => false end).
Proof. exact T_Names.t_C22_lamination_parameters. Qed.
Print Assumptions C22_lamination_parameters.

(** C22. A laminate is unequal to everything that is not a laminate; no exception. *)
Theorem C22_other : forall l, lam_eq l None = Ok false.
Proof. exact T_Names.t_C22_other. Qed.
Print Assumptions C22_other.

(** C22, example: [0, 90] with int and float angles and equal but distinct plies; and a comparison that raises. *)
Example C22_example :
  let o := DOrtho (FOMat fone fone fzero fone fone fzero fzero fzero fzero fzero fzero) in
  let i := DIso (FIMat fone fzero fone fone fzero fzero fzero) in
  lam_eq [Obj 1 (Obj 2 (NInt 0), Obj 3 o); Obj 4 (Obj 5 (NInt 90), Obj 3 o)]
         (Some [Obj 6 (Obj 7 (NFloat fnzero), Obj 8 o); Obj 9 (Obj 10 (NFloat (f_of_Z 90)), Obj 8 o)]) = Ok true
  /\ lam_eq [Obj 1 (Obj 2 (NInt 0), Obj 3 o)] (Some [Obj 6 (Obj 2 (NInt 0), Obj 8 i)]) = Err ValueError
  /\ lam_eq [Obj 1 (Obj 2 (NInt 0), Obj 3 o)] (Some [Obj 6 (Obj 7 (NInt 45), Obj 8 i)]) = Ok false.
Proof. exact T_Names.t_C22_example. Qed.
