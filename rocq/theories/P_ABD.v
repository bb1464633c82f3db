(** The theorems on the coupled stiffness matrices.
    Statements only: every proof is [exact] a lemma of T_ABD.v with the same statement.
    Below each theorem, Print Assumptions lists the axioms it uses. *)
From Coq Require Import Reals ZArith QArith Qreals Lra Lia Bool String.
From Coquelicot Require Import Coquelicot.
From Coq Require Import List.
From Verif Require Import M_Py M_Plate M_K M_Tables M_Expr M_RealArith S_Plate S_Mat S_Bardell S_Energy S_K S_Ritz.
Import ListNotations.
Open Scope R_scope.
From Verif Require T_ABD.

(** C40: with exact integrals, the blocks uv, vv, wv and ww of the matrix K of calc_K_KG_ABD are the coupled energy of the two
    displacements, and KG is the work of the loads in block ww and zero elsewhere, for all edges, sizes and symmetric A, B, D. *)
Theorem C40_right_blocks : forall (A B D : mat3) a b Nxx Nyy Nxy c m n idx, a <> 0 -> b <> 0 -> symmetric A -> symmetric B -> symmetric D ->
  compute_constraints c m n = Ok idx ->
  exists K KG, calc_K_KG_ABD exact_tables (arr6 A B D) a b Nxx Nyy Nxy c m n = Ok (K, KG) /\ square (3 * (m * n)) K /\ square (3 * (m * n)) KG /\
  forall r s pu pv pw qu qv qw,
    nth_error (su_idx idx) r = Some pu -> nth_error (sv_idx idx) r = Some pv -> nth_error (sw_idx idx) r = Some pw ->
    nth_error (su_idx idx) s = Some qu -> nth_error (sv_idx idx) s = Some qv -> nth_error (sw_idx idx) s = Some qw ->
    let at_block M d e := entry M (d * (m * n) + r) (e * (m * n) + s) in
    let energy d e p q := coupled A B D a b (move d (shape_of a b p)) (move e (shape_of a b q)) in
    at_block K 0%nat 1%nat = Some (energy 0%nat 1%nat pu qv) /\ at_block K 1%nat 1%nat = Some (energy 1%nat 1%nat pv qv) /\
    at_block K 2%nat 1%nat = Some (energy 2%nat 1%nat pw qv) /\ at_block K 2%nat 2%nat = Some (energy 2%nat 2%nat pw qw) /\
    at_block KG 2%nat 2%nat = Some (load_work Nxx Nyy Nxy a b (shape_of a b pw) (shape_of a b qw)) /\
    (forall d e, (d < 3)%nat -> (e < 3)%nat -> (d, e) <> (2, 2)%nat -> at_block KG d e = Some 0).
Proof. exact T_ABD.t_C40_right_blocks. Qed.
Print Assumptions C40_right_blocks.

(** C40: the other blocks, exactly: uu misses by (b/a - a/b) A66, vu by (a/b - b/a) A16, uw by wrong powers of a at B11 and B26,
    wu by the orders of the derivatives at B11 being exchanged, and block vw repeats block wu. *)
Theorem C40_wrong_blocks : forall (A B D : mat3) a b Nxx Nyy Nxy c m n idx, a <> 0 -> b <> 0 -> symmetric A -> symmetric B -> symmetric D ->
  compute_constraints c m n = Ok idx ->
  exists K KG, calc_K_KG_ABD exact_tables (arr6 A B D) a b Nxx Nyy Nxy c m n = Ok (K, KG) /\
  forall r s pu pv pw qu qv qw,
    nth_error (su_idx idx) r = Some pu -> nth_error (sv_idx idx) r = Some pv -> nth_error (sw_idx idx) r = Some pw ->
    nth_error (su_idx idx) s = Some qu -> nth_error (sv_idx idx) s = Some qv -> nth_error (sw_idx idx) s = Some qw ->
    let at_block M d e := entry M (d * (m * n) + r) (e * (m * n) + s) in
    let energy d e p q := coupled A B D a b (move d (shape_of a b p)) (move e (shape_of a b q)) in
    let int u u' v v' (p q : nat * nat) := exact_int u u' (fst p) (fst q) * exact_int v v' (snd p) (snd q) in
    at_block K 0%nat 0%nat = Some (energy 0%nat 0%nat pu qu + (b / a - a / b) * a33 A * int 0%nat 0%nat 1%nat 1%nat pu qu) /\
    at_block K 1%nat 0%nat = Some (energy 1%nat 0%nat pv qu + (a / b - b / a) * a31 A * int 1%nat 1%nat 0%nat 0%nat pv qu) /\
    at_block K 0%nat 2%nat = Some (energy 0%nat 2%nat pu qw + 2 * b * (1 - a) / a ^ 2 * a11 B * int 1%nat 2%nat 0%nat 0%nat pu qw
                                    + 2 * (a - 1) / b ^ 2 * a32 B * int 0%nat 0%nat 1%nat 2%nat pu qw) /\
    at_block K 2%nat 0%nat = Some (energy 2%nat 0%nat pw qu + 2 * b / a ^ 2 * a11 B * (int 2%nat 1%nat 0%nat 0%nat pw qu - int 1%nat 2%nat 0%nat 0%nat pw qu)) /\
    at_block K 1%nat 2%nat = at_block K 2%nat 0%nat.
Proof. exact T_ABD.t_C40_wrong_blocks. Qed.
Print Assumptions C40_wrong_blocks.

(** C40: for a square plate of a laminate without coupling, every block of K is the coupled energy and K is symmetric. *)
Theorem C40_square : forall (A D : mat3) a Nxx Nyy Nxy c m n idx, a <> 0 -> symmetric A -> symmetric D ->
  compute_constraints c m n = Ok idx ->
  exists K KG, calc_K_KG_ABD exact_tables (arr6 A mzero D) a a Nxx Nyy Nxy c m n = Ok (K, KG) /\
  (forall d e r s p q, (d < 3)%nat -> (e < 3)%nat ->
    nth_error (nth d [su_idx idx; sv_idx idx; sw_idx idx] []) r = Some p -> nth_error (nth e [su_idx idx; sv_idx idx; sw_idx idx] []) s = Some q ->
    entry K (d * (m * n) + r) (e * (m * n) + s) = Some (coupled A mzero D a a (move d (shape_of a a p)) (move e (shape_of a a q)))) /\
  sym_rows K.
Proof. exact T_ABD.t_C40_square. Qed.
Print Assumptions C40_square.

(** C40: with the stored tables, the entry uv of a clamped plate with one function a side equals the entry vu exactly when
    A16 is zero or the plate is square. *)
Theorem C40_membrane_symmetric_iff : forall (A B D : mat3) a b Nxx Nyy Nxy, 0 < a -> 0 < b ->
  exists K KG, calc_K_KG_ABD stored_R (arr6 A B D) a b Nxx Nyy Nxy (CStr "CLAMPED") 1 1 = Ok (K, KG) /\
  (entry K 0 1 = entry K 1 0 <-> a31 A = 0 \/ a = b).
Proof. exact T_ABD.t_C40_membrane_symmetric_iff. Qed.
Print Assumptions C40_membrane_symmetric_iff.

(** C40: with the stored tables K is never symmetric on a clamped plate with two functions along x if B11 is the only non-zero
    coupling: entry (v, w) should be zero and is not. *)
Theorem C40_coupling_refuted : forall (A D : mat3) B11 a b Nxx Nyy Nxy, a <> 0 -> b <> 0 -> B11 <> 0 ->
  let B := M3 B11 0 0 0 0 0 0 0 0 in
  exists K KG x, calc_K_KG_ABD stored_R (arr6 A B D) a b Nxx Nyy Nxy (CStr "CLAMPED") 2 1 = Ok (K, KG) /\
  entry K 2 5 = Some x /\ x <> 0 /\ entry K 5 2 = Some 0 /\ ~ sym_rows K /\
  coupled A B D a b (move 1 (shape a b 4 4)) (move 2 (shape a b 5 4)) = 0.
Proof. exact T_ABD.t_C40_coupling_refuted. Qed.
Print Assumptions C40_coupling_refuted.

(** C40: a non-square clamped plate and an unbalanced laminate meet the hypotheses. *)
Example C40_ex : symmetric (M3 10 2 1 2 5 0 1 0 3) /\ symmetric (M3 1 0 0 0 0 0 0 0 0) /\
  exists idx, compute_constraints (CStr "CLAMPED") 2 3 = Ok idx /\ nth_error (su_idx idx) 4 = Some (5, 5)%nat.
Proof. exact T_ABD.t_C40_ex. Qed.
