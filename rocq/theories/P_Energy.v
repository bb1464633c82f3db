(** The theorems relating the assembled matrices to the energy of the plate.
    Statements only: every proof is [exact] a lemma of T_Energy.v with the same statement.
    Below each theorem, Print Assumptions lists the axioms it uses. *)
From Coq Require Import Reals ZArith Lra Lia Bool String FinFun.
From Coquelicot Require Import Coquelicot.
From Coq Require Import List.
From Verif Require Import M_Py M_Plate M_K M_Tables M_Expr M_RealArith S_Plate S_Mat S_Bardell S_Energy S_K S_Ritz.
Import ListNotations.
Open Scope R_scope.
From Verif Require T_Energy.

(** C38: if the six tables held the exact integrals, every entry of K would be the bending energy of the two shape functions
    and every entry of KG the work of the loads on them, for all edge conditions, sizes, lengths and symmetric D. *)
Theorem C38_exact : forall (D : mat3) a b Nxx Nyy Nxy c m n idx, a <> 0 -> b <> 0 -> symmetric D -> compute_constraints c m n = Ok idx ->
  exists K KG, calc_K_KG_D exact_tables (as_arr D) a b Nxx Nyy Nxy c m n = Ok (K, KG) /\
  forall r s i j k l, nth_error (sw_idx idx) r = Some (i, j) -> nth_error (sw_idx idx) s = Some (k, l) ->
    entry K r s = Some (bending D a b (shape a b i j) (shape a b k l)) /\
    entry KG r s = Some (load_work Nxx Nyy Nxy a b (shape a b i j) (shape a b k l)).
Proof. exact T_Energy.t_C38_exact. Qed.
Print Assumptions C38_exact.

(** C38: with the tables as stored, every entry of K that the code returns is within k_err of the bending energy and every
    entry of KG within kG_err of the work of the loads; the bounds do not depend on the entry. *)
Theorem C38_stored : forall (D : mat3) a b Nxx Nyy Nxy c m n K KG, 0 < a -> 0 < b -> symmetric D ->
  calc_K_KG_D stored_R (as_arr D) a b Nxx Nyy Nxy c m n = Ok (K, KG) ->
  exists idx, compute_constraints c m n = Ok idx /\
  forall r s i j k l, nth_error (sw_idx idx) r = Some (i, j) -> nth_error (sw_idx idx) s = Some (k, l) ->
    exists x y, entry K r s = Some x /\ entry KG r s = Some y /\
      Rabs (x - bending D a b (shape a b i j) (shape a b k l)) <= k_err D a b /\
      Rabs (y - load_work Nxx Nyy Nxy a b (shape a b i j) (shape a b k l)) <= kG_err Nxx Nyy Nxy a b.
Proof. exact T_Energy.t_C38_stored. Qed.
Print Assumptions C38_stored.

(** C38: a 2 by 1 clamped plate of an orthotropic laminate meets the hypotheses. *)
Example C38_ex : symmetric (M3 10 2 1 2 5 0 1 0 3) /\
  exists K KG, calc_K_KG_D stored_R (as_arr (M3 10 2 1 2 5 0 1 0 3)) 1 2 1 0 0 (CStr "CLAMPED") 2 1 = Ok (K, KG) /\ square 2 K.
Proof. exact T_Energy.t_C38_ex. Qed.

(** C39: with exact integrals c^T K c is the bending energy of the deflection with coefficients c, for all edge conditions. *)
Theorem C39_energy : forall (D : mat3) a b Nxx Nyy Nxy c m n idx, a <> 0 -> b <> 0 -> symmetric D -> compute_constraints c m n = Ok idx ->
  exists K KG, calc_K_KG_D exact_tables (as_arr D) a b Nxx Nyy Nxy c m n = Ok (K, KG) /\
  forall cw, quad_rows K cw = bending D a b (combine_shapes a b (sw_idx idx) cw) (combine_shapes a b (sw_idx idx) cw).
Proof. exact T_Energy.t_C39_energy. Qed.
Print Assumptions C39_energy.

(** C39: with exact integrals K is positive semi-definite for every positive semi-definite D. *)
Theorem C39_semidefinite : forall (D : mat3) a b Nxx Nyy Nxy c m n K KG cw, 0 < a -> 0 < b -> symmetric D -> pos_semidef D ->
  calc_K_KG_D exact_tables (as_arr D) a b Nxx Nyy Nxy c m n = Ok (K, KG) -> 0 <= quad_rows K cw.
Proof. exact T_Energy.t_C39_semidefinite. Qed.
Print Assumptions C39_semidefinite.

(** C39: with exact integrals K is positive definite for every positive definite D and every named plate with one clamped or
    two held edges, whatever the numbers of functions. *)
Theorem C39_definite : forall (D : mat3) a b Nxx Nyy Nxy c c0 ca d0 db m n K KG cw, 0 < a -> 0 < b -> symmetric D -> pos_def D ->
  specifies c c0 ca d0 db -> restrained c0 ca d0 db ->
  calc_K_KG_D exact_tables (as_arr D) a b Nxx Nyy Nxy c m n = Ok (K, KG) ->
  List.length cw = (m * n)%nat -> nonzero cw -> 0 < quad_rows K cw.
Proof. exact T_Energy.t_C39_definite. Qed.
Print Assumptions C39_definite.

(** C39: with the stored tables c^T K c differs from the bending energy of the deflection by at most k_err times the square of
    the sum of |c|; with D positive semi-definite it is therefore no less than minus that amount. *)
Theorem C39_stored : forall (D : mat3) a b Nxx Nyy Nxy c m n K KG, 0 < a -> 0 < b -> symmetric D ->
  calc_K_KG_D stored_R (as_arr D) a b Nxx Nyy Nxy c m n = Ok (K, KG) ->
  exists idx, compute_constraints c m n = Ok idx /\ forall cw,
    let w := combine_shapes a b (sw_idx idx) cw in
    Rabs (quad_rows K cw - bending D a b w w) <= k_err D a b * rsum (map Rabs cw) ^ 2 /\
    (pos_semidef D -> - (k_err D a b * rsum (map Rabs cw) ^ 2) <= quad_rows K cw).
Proof. exact T_Energy.t_C39_stored. Qed.
Print Assumptions C39_stored.

(** C39: conversely, a named plate that is not restrained (all edges free, or one pinned and three free) has, from three
    functions a side on, a non-zero coefficient vector without energy: K is singular whatever D is. *)
Theorem C39_singular : forall (D : mat3) a b Nxx Nyy Nxy c c0 ca d0 db m n, 0 < a -> 0 < b -> symmetric D ->
  specifies c c0 ca d0 db -> ~ restrained c0 ca d0 db -> (3 <= m)%nat -> (3 <= n)%nat ->
  exists K KG cw, calc_K_KG_D exact_tables (as_arr D) a b Nxx Nyy Nxy c m n = Ok (K, KG) /\
    List.length cw = (m * n)%nat /\ nonzero cw /\ quad_rows K cw = 0.
Proof. exact T_Energy.t_C39_singular. Qed.
Print Assumptions C39_singular.

(** C39: a plate pinned on two edges is restrained, one pinned on a single edge is not; the identity is positive definite. *)
Example C39_ex2 : restrained Pinned Free Free Pinned /\ ~ restrained Free Pinned Free Free /\ pos_def mid /\ symmetric mid /\
  specifies (CDict (Some (EStr "FREE")) (Some (EStr "Pinned")) (Some (EStr "free")) (Some (EStr "free"))) Free Pinned Free Free.
Proof. exact T_Energy.t_C39_ex2. Qed.
