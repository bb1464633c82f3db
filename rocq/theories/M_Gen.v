(** The offline generators of the shape functions: composipy/pre_integrated_component/write_shape_function.py:8-47,
    write_pre_integrated_terms.py:7-52 and theoretical/write_bardell_terms.py:6-45 (the same functions three times).
    A sympy expression in the symbol is represented by its value at a real number. *)
From Coq Require Import Reals ZArith List.
From Verif Require Import M_Py.
Import ListNotations.
Open Scope R_scope.

(** sympy numbers met by the generator: the factorial of a negative integer is zoo (complex infinity) *)
Inductive snum := SFin (x : R) | SZoo.
(** sp.factorial of an integer *)
Definition factorial (z : Z) : snum := if Z.ltb z 0 then SZoo else SFin (INR (fact (Z.to_nat z))).
(** sp.factorial2 of an integer, as evaluated by sympy: 2^k k! for 2k, z!/(z-1)!! for odd z > 0,
    z (-1)^((1-z)/2) / (-z)!! for odd z < 0, ValueError for even z < 0 *)
Definition factorial2_pos (z : Z) : R :=
  if Z.even z then 2 ^ Z.to_nat (z / 2) * INR (fact (Z.to_nat (z / 2)))
  else INR (fact (Z.to_nat z)) / (2 ^ Z.to_nat (z / 2) * INR (fact (Z.to_nat (z / 2)))).
Definition factorial2 (z : Z) : res R :=
  if Z.leb 0 z then Ok (factorial2_pos z)
  else if Z.even z then Err ValueError else Ok (IZR z * (-1) ^ Z.to_nat ((1 - z) / 2) / factorial2_pos (- z)).
(** number * number and number / number; a non-zero number times zoo is zoo, a number divided by zoo is 0 *)
Definition smul (x : R) (y : snum) : snum := match y with SFin v => SFin (x * v) | SZoo => SZoo end.
Definition sdiv (x : R) (y : snum) : R := match y with SFin v => x / v | SZoo => 0 end.

(** write_shape_function.py:40-45 : one term of the loop, n counting from 0. 0 * sym**(-1) is 0. *)
Definition orth_term (r n : Z) (sym : R) : res R :=
  d <- factorial2 (2 * r - 2 * n - 7) ;;
  Ok (match factorial n with
      | SZoo => 0                                                      (* not reached: n >= 0 *)
      | SFin nf => sdiv ((-1) ^ Z.to_nat n * d) (smul (2 ^ Z.to_nat n * nf) (factorial (r - 2 * n - 1))) * powerRZ sym (r - 2 * n - 1)
      end).
(** write_shape_function.py:22-47 : _orth_polynomials *)
Definition orth_polynomials (r : Z) (sym : R) : res R :=
  fold_left (fun acc n => s <- acc ;; t <- orth_term r (Z.of_nat n) sym ;; Ok (s + t)) (seq 0 (Z.to_nat (r / 2 + 1))) (Ok 0).

(** write_shape_function.py:9-12, 19 and 71-73 : the dictionary FXI (F in the other two files); the constants 1/2, 3/4, 1/8 are
    exact in binary64 *)
Definition gen_F (i : nat) (xi : R) : res R :=
  match i with
  | 0%nat => Ok (1 / 2 - 3 / 4 * xi + 1 / 4 * xi ^ 3)
  | 1%nat => Ok (1 / 8 - 1 / 8 * xi - 1 / 8 * xi ^ 2 + 1 / 8 * xi ^ 3)
  | 2%nat => Ok (1 / 2 + 3 / 4 * xi - 1 / 4 * xi ^ 3)
  | 3%nat => Ok (- (1 / 8) - 1 / 8 * xi + 1 / 8 * xi ^ 2 + 1 / 8 * xi ^ 3)
  | _ => orth_polynomials (Z.of_nat i + 1) xi
  end.
