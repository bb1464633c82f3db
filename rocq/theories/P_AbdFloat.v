(** The theorems on the matrices of the coupled problem as assembled in binary64
    Statements only: every proof is [exact] a lemma of T_AbdFloat.v with the same statement.
    Below each theorem, Print Assumptions lists the axioms it uses. *)
From Coq Require Import Reals ZArith Lra Lia Bool String.
From Coquelicot Require Import Coquelicot.
From Flocq Require Import Core.Core IEEE754.BinarySingleNaN.
From Coq Require Import List.
From Verif Require Import M_Py M_Plate M_K M_Tables M_Expr M_Float M_FloatArith M_RealArith S_Validate S_Plate S_Mat S_Bardell S_Shape S_Energy S_K S_Ritz S_Eigen S_Compare S_Stored S_Round S_AbdFloat.
Import ListNotations.
Open Scope R_scope.
From Verif Require T_AbdFloat.

(** C100: for lengths, stiffnesses and loads of usual size the coupled assembly in binary64 succeeds for every accepted form of the edges with at most
    26 functions a side; every entry is finite, both matrices are square with three blocks a side, and each entry is within 16 units of the same entry
    computed without rounding from the stored integrals, and within tolerance plus 16 units of the one with exact integrals, counted in the weights of
    abd_off and kG_off. *)
Theorem C100_rounding : forall pow dec M a b Nxx Nyy Nxy c m n N idx, usual_inputs6 pow dec M a b Nxx Nyy Nxy -> compute_constraints c m n = Ok idx ->
  (N <= 30)%nat -> (m + 4 <= N)%nat -> (n + 4 <= N)%nat ->
  let ra := B2R a in let rb := B2R b in let lx := B2R Nxx in let ly := B2R Nyy in let lxy := B2R Nxy in let e := 16 * unit in let e' := tolerance N + 16 * unit in
  exists (K KG : list (list f64)) (Ks KGs Kx KGx : list (list R)),
    calc_K_KG_ABD (stored (FA pow) dec) M a b Nxx Nyy Nxy c m n = Ok (K, KG) /\ all_finite K /\ all_finite KG /\ square (3 * (m * n)) K /\ square (3 * (m * n)) KG /\
    calc_K_KG_ABD stored_R (numbers6 M) ra rb lx ly lxy c m n = Ok (Ks, KGs) /\ square (3 * (m * n)) Ks /\ square (3 * (m * n)) KGs /\
    entries_within (abd_off e M ra rb) K Ks /\ entries_within (kG_off e lx ly lxy ra rb) KG KGs /\
    calc_K_KG_ABD exact_tables (numbers6 M) ra rb lx ly lxy c m n = Ok (Kx, KGx) /\ square (3 * (m * n)) Kx /\ square (3 * (m * n)) KGx /\
    entries_within (abd_off e' M ra rb) K Kx /\ entries_within (kG_off e' lx ly lxy ra rb) KG KGx.
Proof. exact T_AbdFloat.t_C100_rounding. Qed.
Print Assumptions C100_rounding.

(** C100: for laminates with symmetric blocks, the blocks uv, vv, wv and ww of the matrix in binary64 are the coupled energies of the two displacements
    up to abd_off, the block ww of the second is the work of the loads up to kG_off, and its other blocks are zero. *)
Theorem C100_energy : forall pow dec M a b Nxx Nyy Nxy c m n N idx, usual_inputs6 pow dec M a b Nxx Nyy Nxy -> compute_constraints c m n = Ok idx ->
  (N <= 30)%nat -> (m + 4 <= N)%nat -> (n + 4 <= N)%nat ->
  let A := block_at M 0 0 in let B := block_at M 3 0 in let D := block_at M 3 3 in symmetric A -> symmetric B -> symmetric D ->
  let ra := B2R a in let rb := B2R b in let lx := B2R Nxx in let ly := B2R Nyy in let lxy := B2R Nxy in let e := tolerance N + 16 * unit in
  exists K KG : list (list f64), calc_K_KG_ABD (stored (FA pow) dec) M a b Nxx Nyy Nxy c m n = Ok (K, KG) /\
  forall r s pu pv pw qu qv qw,
    nth_error (su_idx idx) r = Some pu -> nth_error (sv_idx idx) r = Some pv -> nth_error (sw_idx idx) r = Some pw ->
    nth_error (su_idx idx) s = Some qu -> nth_error (sv_idx idx) s = Some qv -> nth_error (sw_idx idx) s = Some qw ->
    let at_block (P : list (list f64)) d e := entry P (d * (m * n) + r) (e * (m * n) + s) in
    let energy d e p q := coupled A B D ra rb (move d (shape_of ra rb p)) (move e (shape_of ra rb q)) in
    exists x01 x11 x21 x22 g, at_block K 0%nat 1%nat = Some x01 /\ at_block K 1%nat 1%nat = Some x11 /\ at_block K 2%nat 1%nat = Some x21 /\ at_block K 2%nat 2%nat = Some x22 /\
    at_block KG 2%nat 2%nat = Some g /\
    Rabs (B2R x01 - energy 0%nat 1%nat pu qv) <= abd_off e M ra rb /\ Rabs (B2R x11 - energy 1%nat 1%nat pv qv) <= abd_off e M ra rb /\
    Rabs (B2R x21 - energy 2%nat 1%nat pw qv) <= abd_off e M ra rb /\ Rabs (B2R x22 - energy 2%nat 2%nat pw qw) <= abd_off e M ra rb /\
    Rabs (B2R g - load_work lx ly lxy ra rb (shape_of ra rb pw) (shape_of ra rb qw)) <= kG_off e lx ly lxy ra rb /\
    (forall d e, (d < 3)%nat -> (e < 3)%nat -> (d, e) <> (2, 2)%nat -> exists z, at_block KG d e = Some z /\ is_zero z).
Proof. exact T_AbdFloat.t_C100_energy. Qed.
Print Assumptions C100_energy.

(** C100: the hypotheses are met, with accurate powers and literals that exist: a 2 by 2 plate pinned on all edges, all three blocks the identity. *)
Example C100_ex : exists pow dec, usual_inputs6 pow dec (fun i j => fid (i mod 3) (j mod 3)) (f_of_Z 2) (f_of_Z 2) (f_of_Z (-8)) fzero fzero /\
  (exists idx, compute_constraints (CStr "PINNED") 2 2 = Ok idx) /\ (2 + 4 <= 10)%nat /\
  block_at (fun i j => fid (i mod 3) (j mod 3)) 0 0 = mid /\ block_at (fun i j => fid (i mod 3) (j mod 3)) 3 0 = mid /\ block_at (fun i j => fid (i mod 3) (j mod 3)) 3 3 = mid /\ symmetric mid /\
  abd_off (tolerance 10 + 16 * unit) (fun i j => fid (i mod 3) (j mod 3)) 2 2 <= 7 / 10000000000000.
Proof. exact T_AbdFloat.t_C100_ex. Qed.
