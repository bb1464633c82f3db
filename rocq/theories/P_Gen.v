(** The theorems about the generators of the shape functions.
    Statements only: every proof is [exact] a lemma of T_Gen.v with the same statement.
    Below each theorem, Print Assumptions lists the axioms it uses. *)
From Coq Require Import Reals ZArith Arith Lra Lia.
From Coquelicot Require Import Coquelicot.
From Coq Require Import List.
From Verif Require Import M_Py M_Gen S_Mat S_Bardell S_Shape S_Energy.
Import ListNotations.
Open Scope R_scope.
From Verif Require T_Gen.

(** C71: the generator _orth_polynomials, run on any index however large, yields the function of the literature formula: the
    terms with a negative factorial (complex infinity in sympy) contribute 0, and no double factorial raises. *)
Theorem C71_generator : forall i x, gen_F i x = Ok (bardell i x).
Proof. exact T_Gen.t_C71_generator. Qed.
Print Assumptions C71_generator.

(** C71: from index 4 on, the functions are the (i-4)-th derivatives of (x^2-1)^(i-2), scaled: twice integrated Legendre polynomials. *)
Theorem C71_rodrigues : forall i x, (4 <= i)%nat -> bardell i x = Derive_n (fun y => (y ^ 2 - 1) ^ (i - 2)) (i - 4) x / (2 ^ (i - 2) * INR (fact (i - 2))).
Proof. exact T_Gen.t_C71_rodrigues. Qed.
Print Assumptions C71_rodrigues.

(** C71: for every index, however large, the generated function has the end values and slopes the constraint model relies on: 0 and 2
    carry a unit end value, 1 and 3 an end slope of one half, all others vanish with their slope at both ends. *)
Theorem C71_ends : forall i, exists f, (forall x, gen_F i x = Ok (f x)) /\ (forall x, ex_derive f x) /\ ends f = expected_ends i.
Proof. exact T_Gen.t_C71_ends. Qed.
Print Assumptions C71_ends.

(** C71: the integrals of products of derivatives vanish away from the diagonal: functions i and k with derivatives p and q (at
    most 2) are orthogonal whenever |i - k| > 4 - p - q, the cubics counting as index 3. *)
Theorem C71_sparse : forall p q i k, (p <= 2)%nat -> (q <= 2)%nat ->
  (Nat.max i 3 + 4 < k + p + q)%nat \/ (Nat.max k 3 + 4 < i + p + q)%nat -> exact_int p q i k = 0.
Proof. exact T_Gen.t_C71_sparse. Qed.
Print Assumptions C71_sparse.

(** C71: the second derivatives are orthogonal to each other and to those of the cubics, with squared norm 2/(2i-3). *)
Theorem C71_second : forall i k, (4 <= i)%nat -> exact_int 2 2 i k = (if Nat.eqb i k then 2 / (2 * INR i - 3) else 0) /\ exact_int 2 2 k i = exact_int 2 2 i k.
Proof. exact T_Gen.t_C71_second. Qed.
Print Assumptions C71_second.

(** C71, concrete instances. *)
Example C71_ex : exact_int 2 2 49 49 = 2 / 95 /\ exact_int 1 1 60 57 = 0 /\ exact_int 0 0 2 8 = 0 /\ exact_int 2 0 1 7 = 0.
Proof. exact T_Gen.t_C71_ex. Qed.
