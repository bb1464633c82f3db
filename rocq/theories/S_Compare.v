(** Vocabulary for comparing the critical factors of two plates. *)
From Coq Require Import Reals List.
From Verif Require Import M_Py M_Plate M_K M_RealArith S_Plate S_Mat S_K S_Ritz S_Eigen.
Import ListNotations.
Open Scope R_scope.

(** a plate within the scope of C42_pencil *)
Record plate_ok (D : mat3) (a b : R) (c : constraints) (c0 ca d0 db : condition) (m n : nat) : Prop := {
  ok_a : 0 < a; ok_b : 0 < b; ok_sym : symmetric D; ok_def : pos_def D;
  ok_edges : specifies c c0 ca d0 db; ok_held : restrained c0 ca d0 db;
  ok_m : (m + taken c0 + taken ca <= 30)%nat; ok_n : (n + taken d0 + taken db <= 30)%nat }.

(** the same without a limit on the numbers of functions *)
Record plate_any (D : mat3) (a b : R) (c : constraints) (c0 ca d0 db : condition) : Prop := {
  any_a : 0 < a; any_b : 0 < b; any_sym : symmetric D; any_def : pos_def D;
  any_edges : specifies c c0 ca d0 db; any_held : restrained c0 ca d0 db }.

(** l is the smallest positive factor of the matrices assembled for the plate *)
Definition critical (D : mat3) (a b Nxx Nyy Nxy : R) (c : constraints) (m n : nat) (l : R) : Prop :=
  exists K KG : list (list R), calc_K_KG_D exact_tables (as_arr D) a b Nxx Nyy Nxy c m n = Ok (K, KG) /\ smallest_factor K KG l.
(** no multiple of the loads up to one makes it buckle *)
Definition safe (D : mat3) (a b Nxx Nyy Nxy : R) (c : constraints) (m n : nat) : Prop :=
  forall l, critical D a b Nxx Nyy Nxy c m n l -> 1 < l.

(** an edge that holds no more than another *)
Definition softer (c' c : condition) : Prop := (taken c' <= taken c)%nat.
(** no strain stores more energy *)
Definition no_stiffer (D D' : mat3) : Prop := forall e, quad D e <= quad D' e.
(** no direction is compressed: p x^2 + 2 r x y + q y^2 is never negative *)
Definition no_compression (p q r : R) : Prop := 0 <= p /\ 0 <= q /\ r ^ 2 <= p * q.
