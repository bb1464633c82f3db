(** The classical bounds of the buckling factor.
    Statements only: every proof is [exact] a lemma of T_Bounds.v with the same statement.
    Below each theorem, Print Assumptions lists the axioms it uses. *)
From Coq Require Import QArith Qreals Reals ZArith Lra Lia Bool String Classical FunctionalExtensionality.
From Coquelicot Require Import Coquelicot.
From Coq Require Import List.
From Verif Require Import M_Py M_Plate M_K M_RealArith M_Plot M_Buckling M_Tables S_Plate S_Mat S_Bardell S_Energy S_K S_Ritz S_Eigen S_Compare S_Space S_Bounds.
Import ListNotations.
Open Scope R_scope.
From Verif Require T_Bounds.

(** C79: the stiffness of a strip is what is left of the bending energy when the other two curvatures adjust freely. *)
Theorem C79_strip : forall D, symmetric D -> pos_def D -> 0 < strip_stiffness D /\ (forall e, strip_stiffness D * vx e ^ 2 <= quad D e) /\
  forall x, exists e, vx e = x /\ quad D e = strip_stiffness D * x ^ 2.
Proof. exact T_Bounds.t_C79_strip. Qed.
Print Assumptions C79_strip.

(** C79: no load along x below Euler's load of a strip of the plate is a buckling load, whatever the conditions on the edges along x: the length
    of the column is a when both ends hold the deflection, a/2 when both are clamped, 2a when one is clamped. *)
Theorem C79_column : forall (D : mat3) a b N c c0 ca d0 db m n f (K KG : list (list R)) l, plate_any D a b c c0 ca d0 db -> euler_column c0 ca f ->
  calc_K_KG_D exact_tables (as_arr D) a b (- N) 0 0 c m n = Ok (K, KG) -> factor K KG l ->
  strip_stiffness D * (PI / (f * a)) ^ 2 <= l * N.
Proof. exact T_Bounds.t_C79_column. Qed.
Print Assumptions C79_column.

(** C79: a plate held on all edges, without coupling of bending and twisting, buckles at no load along x below that of an infinitely long plate. *)
Theorem C79_long_plate : forall (D : mat3) a b N c c0 ca d0 db m n (K KG : list (list R)) l, plate_any D a b c c0 ca d0 db -> supported c0 ca d0 db ->
  orthotropic D -> 0 <= mixed_stiffness D -> calc_K_KG_D exact_tables (as_arr D) a b (- N) 0 0 c m n = Ok (K, KG) -> factor K KG l ->
  long_plate D b <= l * N.
Proof. exact T_Bounds.t_C79_long_plate. Qed.
Print Assumptions C79_long_plate.

(** C79: and when a^4 D22 is at most 4 b^4 D11 (for an isotropic plate: a at most 1.41 b), at no load below the classical value for one half wave
    in each direction. *)
Theorem C79_one_wave : forall (D : mat3) a b N c c0 ca d0 db m n (K KG : list (list R)) l, plate_any D a b c c0 ca d0 db -> supported c0 ca d0 db ->
  orthotropic D -> 0 <= mixed_stiffness D -> a22 D * a ^ 4 <= 4 * (a11 D * b ^ 4) ->
  calc_K_KG_D exact_tables (as_arr D) a b (- N) 0 0 c m n = Ok (K, KG) -> factor K KG l -> one_wave D a b <= l * N.
Proof. exact T_Bounds.t_C79_one_wave. Qed.
Print Assumptions C79_one_wave.

(** C79: with loads along both directions, each load is carried by its own direction and a share of the mixed stiffness. *)
Theorem C79_biaxial : forall (D : mat3) a b P Q c c0 ca d0 db m n (K KG : list (list R)) l t s, plate_any D a b c c0 ca d0 db -> supported c0 ca d0 db ->
  orthotropic D -> 0 <= mixed_stiffness D -> calc_K_KG_D exact_tables (as_arr D) a b (- P) (- Q) 0 c m n = Ok (K, KG) -> 0 < l -> factor K KG l ->
  0 <= t <= 1 -> s * P <= a11 D * (PI / a) ^ 2 + 2 * mixed_stiffness D * t * (PI / b) ^ 2 ->
  s * Q <= a22 D * (PI / b) ^ 2 + 2 * mixed_stiffness D * (1 - t) * (PI / a) ^ 2 -> s <= l.
Proof. exact T_Bounds.t_C79_biaxial. Qed.
Print Assumptions C79_biaxial.

(** C79: a plate clamped on all edges: two more bounds from below. *)
Theorem C79_clamped : forall (D : mat3) a b N c m n (K KG : list (list R)) l, plate_any D a b c Clamped Clamped Clamped Clamped ->
  orthotropic D -> 0 <= mixed_stiffness D -> calc_K_KG_D exact_tables (as_arr D) a b (- N) 0 0 c m n = Ok (K, KG) -> factor K KG l ->
  a11 D * (2 * PI / a) ^ 2 + 2 * mixed_stiffness D * (PI / b) ^ 2 <= l * N /\
  2 * (PI / b) ^ 2 * (2 * sqrt (a11 D * a22 D) + mixed_stiffness D) <= l * N.
Proof. exact T_Bounds.t_C79_clamped. Qed.
Print Assumptions C79_clamped.

(** C79: a simply supported plate with at least three functions in each direction, of any stiffness: the critical load is at most the energy of
    a fourth degree polynomial. *)
Theorem C79_upper : forall (D : mat3) a b N c m n, plate_any D a b c Pinned Pinned Pinned Pinned -> (3 <= m)%nat -> (3 <= n)%nat -> 0 < N ->
  (exists l, critical D a b (- N) 0 0 c m n l) /\
  forall l, critical D a b (- N) 0 0 c m n l ->
    l * N <= 168 / 17 * (a11 D / a ^ 2 + a22 D * a ^ 2 / b ^ 4) + 306 / 31 * (2 * mixed_stiffness D / b ^ 2).
Proof. exact T_Bounds.t_C79_upper. Qed.
Print Assumptions C79_upper.

(** C79: and of a clamped plate, for any number of functions. *)
Theorem C79_clamped_upper : forall (D : mat3) a b N c m n, plate_any D a b c Clamped Clamped Clamped Clamped -> (1 <= m)%nat -> (1 <= n)%nat -> 0 < N ->
  (exists l, critical D a b (- N) 0 0 c m n l) /\
  forall l, critical D a b (- N) 0 0 c m n l -> l * N <= 42 * (a11 D / a ^ 2 + a22 D * a ^ 2 / b ^ 4) + 12 * (2 * mixed_stiffness D / b ^ 2).
Proof. exact T_Bounds.t_C79_clamped_upper. Qed.
Print Assumptions C79_clamped_upper.

(** C79: the sandwich: for a simply supported plate without coupling, with at least three functions in each direction and a^4 D22 <= 4 b^4 D11,
    the critical load is the classical value for one half wave in each direction, to 0.14 per cent. *)
Theorem C79_sandwich : forall (D : mat3) a b N c m n, plate_any D a b c Pinned Pinned Pinned Pinned -> (3 <= m)%nat -> (3 <= n)%nat -> 0 < N ->
  orthotropic D -> 0 <= mixed_stiffness D -> a22 D * a ^ 4 <= 4 * (a11 D * b ^ 4) ->
  (exists l, critical D a b (- N) 0 0 c m n l) /\
  forall l, critical D a b (- N) 0 0 c m n l -> one_wave D a b <= l * N <= 1.0014 * one_wave D a b.
Proof. exact T_Bounds.t_C79_sandwich. Qed.
Print Assumptions C79_sandwich.

(** C79: no plate with Euler's columns at its ends buckles before its strips do: below that load it is safe. *)
Theorem C79_safe : forall (D : mat3) a b N c c0 ca d0 db m n f, plate_any D a b c c0 ca d0 db -> euler_column c0 ca f ->
  N < strip_stiffness D * (PI / (f * a)) ^ 2 -> safe D a b (- N) 0 0 c m n.
Proof. exact T_Bounds.t_C79_safe. Qed.
Print Assumptions C79_safe.

(** C79: clamped plates as the code computes them, with the stored tables and a solver as documented: when the load is at most Euler's, the first
    number reported is the critical factor, and it lies between the bounds. *)
Theorem C79_reported : forall eigsh (D : mat3) a b N c m n num out vecs, documented eigsh -> plate_ok D a b c Clamped Clamped Clamped Clamped m n ->
  (1 <= m)%nat -> (1 <= n)%nat -> 0 < N <= strip_stiffness D * (2 * PI / a) ^ 2 ->
  buckling_analysis eigsh stored_R (as_arr D) a b (- N) 0 0 c m n num = Ok (out, vecs) ->
  exists l rest, out = Fin l :: rest /\ critical D a b (- N) 0 0 c m n l /\ 1 <= l /\
    strip_stiffness D * (2 * PI / a) ^ 2 <= l * N <= 42 * (a11 D / a ^ 2 + a22 D * a ^ 2 / b ^ 4) + 12 * (2 * mixed_stiffness D / b ^ 2).
Proof. exact T_Bounds.t_C79_reported. Qed.
Print Assumptions C79_reported.

(** A plate within the scope of C79_column, C79_long_plate, C79_one_wave, C79_sandwich and C79_safe, its strip stiffness and its buckling load. *)
Example C79_ex : plate_ok (M3 4 1 0 1 1 0 0 0 1) 2 1 (CStr "PINNED") Pinned Pinned Pinned Pinned 3 3 /\ euler_column Pinned Pinned 1 /\
  supported Pinned Pinned Pinned Pinned /\ orthotropic (M3 4 1 0 1 1 0 0 0 1) /\ strip_stiffness (M3 4 1 0 1 1 0 0 0 1) = 3 /\
  one_wave (M3 4 1 0 1 1 0 0 0 1) 2 1 = 11 * PI ^ 2 /\ long_plate (M3 4 1 0 1 1 0 0 0 1) 1 = 10 * PI ^ 2 /\
  exists l, critical (M3 4 1 0 1 1 0 0 0 1) 2 1 (-1) 0 0 (CStr "PINNED") 3 3 l /\ 11 * PI ^ 2 <= l <= 1.0014 * (11 * PI ^ 2).
Proof. exact T_Bounds.t_C79_ex. Qed.

(** Loads in both directions (C79_biaxial) and the bounds of a clamped plate (C79_clamped, C79_clamped_upper, C79_reported). *)
Example C79_ex_more : plate_ok (M3 4 1 0 1 1 0 0 0 1) 2 1 (CStr "CLAMPED") Clamped Clamped Clamped Clamped 3 3 /\ euler_column Clamped Clamped (1 / 2) /\
  (exists (K KG : list (list R)) l, calc_K_KG_D exact_tables (as_arr (M3 4 1 0 1 1 0 0 0 1)) 2 1 (- (1)) (- (1)) 0 (CStr "CLAMPED") 3 3 = Ok (K, KG) /\ 0 < l /\ factor K KG l /\ PI ^ 2 <= l) /\
  exists l, critical (M3 4 1 0 1 1 0 0 0 1) 2 1 (- (1)) 0 0 (CStr "CLAMPED") 3 3 l /\ 3 * PI ^ 2 <= l * 1 <= 282.
Proof. exact T_Bounds.t_C79_ex_more. Qed.

(** A documented solver that answers for a clamped plate loaded below Euler's load, as C79_reported supposes. *)
Example C79_ex_solver : 0 < 1 <= strip_stiffness (M3 4 1 0 1 1 0 0 0 1) * (2 * PI / 2) ^ 2 /\ exists eigsh out vecs, documented eigsh /\
  buckling_analysis eigsh stored_R (as_arr (M3 4 1 0 1 1 0 0 0 1)) 2 1 (- (1)) 0 0 (CStr "CLAMPED") 3 3 5 = Ok (out, vecs) /\ List.length out = 5%nat.
Proof. exact T_Bounds.t_C79_ex_solver. Qed.
