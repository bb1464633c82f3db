(** composipy/core/material.py: Q_0 and Invariants in binary64, from the numbers the constructors store (M_Validate.v). *)
From Coq Require Import ZArith List.
From Verif Require Import M_Py M_Float M_Validate.
Import ListNotations.

(** material.py:145-147 and :293-295 : np.array([[Q11, Q12, 0], [Q12, Q22, 0], [0, 0, Q66]]); the ints become 0.0 *)
Definition array3 (Q11 Q12 Q22 Q66 : f64) (i j : nat) : f64 :=
  match i, j with
  | 0, 0 => Q11 | 0, 1 => Q12
  | 1, 0 => Q12 | 1, 1 => Q22
  | 2, 2 => Q66
  | _, _ => fzero
  end%nat.
(** material.py:140-148 : OrthotropicMaterial.Q_0 on Python floats. The divisor is written three times in the code and has the same
    value each time. The cache stores the array *)
Definition ortho_Q0 (m : fomat) : res (nat -> nat -> f64) :=
  Q11 <- py_fdiv (fo_e1 m) (fsub fone (fmul (fo_v12 m) (fo_v21 m))) ;;
  Q12 <- py_fdiv (fmul (fo_v12 m) (fo_e2 m)) (fsub fone (fmul (fo_v12 m) (fo_v21 m))) ;;
  Q22 <- py_fdiv (fo_e2 m) (fsub fone (fmul (fo_v12 m) (fo_v21 m))) ;;
  Ok (array3 Q11 Q12 Q22 (fo_g12 m)).
(** material.py:288-296 : IsotropicMaterial.Q_0 *)
Definition iso_Q0 (m : fimat) : res (nat -> nat -> f64) :=
  Q11 <- py_fdiv (fi_e m) (fsub fone (fmul (fi_v m) (fi_v m))) ;;
  Q12 <- py_fdiv (fmul (fi_v m) (fi_e m)) (fsub fone (fmul (fi_v m) (fi_v m))) ;;
  Q22 <- py_fdiv (fi_e m) (fsub fone (fmul (fi_v m) (fi_v m))) ;;
  Ok (array3 Q11 Q12 Q22 (fi_g m)).
(** material.py:150-172 : OrthotropicMaterial.Invariants; numpy scalars from here on, [1/8] and [1/2] are Python floats *)
Definition ortho_invariants (m : fomat) : res (list f64) :=
  Q <- ortho_Q0 m ;;
  let Q11 := Q 0 0 in
  let Q12 := Q 0 1 in
  let Q22 := Q 1 1 in
  let Q66 := Q 2 2 in
  let n z x := fmul (f_of_Z z) x in
  let eighth := fdiv (f_of_Z 1) (f_of_Z 8) in
  let half := fdiv (f_of_Z 1) (f_of_Z 2) in
  Ok [fmul eighth (fadd (fadd (fadd (n 3 Q11) (n 3 Q22)) (n 2 Q12)) (n 4 Q66));
      fmul half (fsub Q11 Q22);
      fmul eighth (fsub (fsub (fadd Q11 Q22) (n 2 Q12)) (n 4 Q66));
      fmul eighth (fsub (fadd (fadd Q11 Q22) (n 6 Q12)) (n 4 Q66));
      fmul eighth (fadd (fsub (fadd Q11 Q22) (n 2 Q12)) (n 4 Q66))]%Z%nat.
