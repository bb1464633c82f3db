(** The hierarchical functions of Bardell (1991), written from the literature formula and independent of the stored texts:
    four Hermite cubics, then for the index i >= 4
      sum over n <= i/2 of (-1)^n (2i-2n-5)!! / (2^n n! (i-2n)!) xi^(i-2n).
    The two cubics carrying a slope have slope 1/2 there (the repository's scaling). *)
From Coq Require Import Reals ZArith List.
Import ListNotations.
Open Scope R_scope.

Fixpoint zfact (n : nat) : Z := match n with O => 1 | S k => Z.of_nat n * zfact k end%Z.
(** double factorial, 1 for 0 (and so for the argument -1 of the formula) *)
Fixpoint zdfact (n : nat) : Z := match n with O => 1 | S O => 1 | S (S k) => Z.of_nat n * zdfact k end%Z.

Definition bardell_term (i n : nat) (xi : R) : R :=
  (-1) ^ n * IZR (zdfact (2 * i - 2 * n - 5)) / (2 ^ n * IZR (zfact n) * IZR (zfact (i - 2 * n))) * xi ^ (i - 2 * n).

Definition bardell (i : nat) (xi : R) : R :=
  match i with
  | 0%nat => 1/2 - 3/4 * xi + 1/4 * xi ^ 3
  | 1%nat => 1/8 - 1/8 * xi - 1/8 * xi ^ 2 + 1/8 * xi ^ 3
  | 2%nat => 1/2 + 3/4 * xi - 1/4 * xi ^ 3
  | 3%nat => - (1/8) - 1/8 * xi + 1/8 * xi ^ 2 + 1/8 * xi ^ 3
  | _ => fold_right Rplus 0 (map (fun n => bardell_term i n xi) (seq 0 (S (i / 2))))
  end.
