(** Real-arithmetic model of composipy/core/material.py (what the attributes *are*, exactly).
    Validation and float effects are modelled in M_Validate.v on binary64. *)
From Coq Require Import Reals List.
From Verif Require Import M_Py S_Mat.
Import ListNotations.
Open Scope R_scope.

(** material.py:72-81 : the ten stored numbers of an OrthotropicMaterial. *)
Record omat := OMat { o_e1 : R; o_e2 : R; o_v12 : R; o_g12 : R; o_thickness : R;
                      o_t1 : R; o_c1 : R; o_t2 : R; o_c2 : R; o_s : R }.
(** material.py:232-238 : the seven stored numbers of an IsotropicMaterial. *)
Record imat := IMat { i_e : R; i_v : R; i_g : R; i_thickness : R; i_t : R; i_c : R; i_s : R }.

Inductive material := Ortho (m : omat) | Iso (m : imat).

Definition thickness (m : material) : R :=
  match m with Ortho o => o_thickness o | Iso i => i_thickness i end.

(** Python float division: raises when the divisor is zero (exact-arithmetic idealisation). *)
Definition pydiv (x y : R) : res R :=
  if Req_EM_T y 0 then Err ZeroDivisionError else Ok (x / y).

(** material.py:82 : [self.__v21 = self.v12 * (self.e2/self.e1)].  Computed at construction; the
    constructor itself raises when e1 = 0 (see M_Validate.v), so here the quotient is total. *)
Definition o_v21 (m : omat) : R := o_v12 m * (o_e2 m / o_e1 m).

(** material.py:140-148 : OrthotropicMaterial.Q_0. The cache [__Q_0] only stores the value of this pure
    expression, so it is not part of the model. *)
Definition o_Q0 (m : omat) : res mat3 :=
  q11 <- pydiv (o_e1 m) (1 - o_v12 m * o_v21 m) ;;
  q12 <- pydiv (o_v12 m * o_e2 m) (1 - o_v12 m * o_v21 m) ;;
  q22 <- pydiv (o_e2 m) (1 - o_v12 m * o_v21 m) ;;
  Ok (M3 q11 q12 0
         q12 q22 0
         0   0   (o_g12 m)).

(** material.py:288-296 : IsotropicMaterial.Q_0 *)
Definition i_Q0 (m : imat) : res mat3 :=
  q11 <- pydiv (i_e m) (1 - i_v m * i_v m) ;;
  q12 <- pydiv (i_v m * i_e m) (1 - i_v m * i_v m) ;;
  q22 <- pydiv (i_e m) (1 - i_v m * i_v m) ;;
  Ok (M3 q11 q12 0
         q12 q22 0
         0   0   (i_g m)).

Definition Q_0 (m : material) : res mat3 :=
  match m with Ortho o => o_Q0 o | Iso i => i_Q0 i end.

(** material.py:150-172 : OrthotropicMaterial.Invariants; IsotropicMaterial has no such method. *)
Definition invariants_of_Q (q : mat3) : R * R * R * R * R :=
  let Q11 := a11 q in
  let Q12 := a12 q in
  let Q22 := a22 q in
  let Q66 := a33 q in
  (1/8 * (3*Q11 + 3*Q22 + 2*Q12 + 4*Q66),
   1/2 * (Q11 - Q22),
   1/8 * (Q11 + Q22 - 2*Q12 - 4*Q66),
   1/8 * (Q11 + Q22 + 6*Q12 - 4*Q66),
   1/8 * (Q11 + Q22 - 2*Q12 + 4*Q66)).

Definition Invariants (m : material) : res (R * R * R * R * R) :=
  match m with
  | Ortho o => q <- o_Q0 o ;; Ok (invariants_of_Q q)
  | Iso _ => Err AttributeError
  end.
