(** The theorems on the matrices as assembled in binary64
    Statements only: every proof is [exact] a lemma of T_Round.v with the same statement.
    Below each theorem, Print Assumptions lists the axioms it uses. *)
From Coq Require Import Reals ZArith Lra Lia Bool String.
From Coquelicot Require Import Coquelicot.
From Flocq Require Import Core.Core IEEE754.BinarySingleNaN.
From Coq Require Import List.
From Verif Require Import M_Py M_Plate M_K M_Tables M_Expr M_Float M_FloatArith M_RealArith M_Plot M_Buckling S_Validate S_Plate S_Mat S_Bardell S_Shape S_Energy S_K S_Ritz S_Eigen S_Compare S_Stored S_Round.
Import ListNotations.
Open Scope R_scope.
From Verif Require T_Round.

(** C77: for lengths, stiffnesses and loads of usual size the assembly in binary64 succeeds; every entry is finite, both matrices are square and
    symmetric to the last bit, and each entry is within 16 units of the same entry computed exactly from the stored integrals, counted in the weights
    of k_off and kG_off. *)
Theorem C77_rounding : forall pow dec D a b Nxx Nyy Nxy c c0 ca d0 db m n, usual_inputs pow dec D a b Nxx Nyy Nxy -> specifies c c0 ca d0 db ->
  (m + taken c0 + taken ca <= 30)%nat -> (n + taken d0 + taken db <= 30)%nat ->
  exists (K KG : list (list f64)) (K' KG' : list (list R)), calc_K_KG_D (stored (FA pow) dec) D a b Nxx Nyy Nxy c m n = Ok (K, KG) /\
    all_finite K /\ all_finite KG /\ square (m * n) K /\ square (m * n) KG /\ sym_rows K /\ sym_rows KG /\
    calc_K_KG_D stored_R (as_arr (numbers D)) (B2R a) (B2R b) (B2R Nxx) (B2R Nyy) (B2R Nxy) c m n = Ok (K', KG') /\ square (m * n) K' /\ square (m * n) KG' /\
    entries_within (k_off (16 * unit) (numbers D) (B2R a) (B2R b)) K K' /\
    entries_within (kG_off (16 * unit) (B2R Nxx) (B2R Nyy) (B2R Nxy) (B2R a) (B2R b)) KG KG'.
Proof. exact T_Round.t_C77_rounding. Qed.
Print Assumptions C77_rounding.

(** C77: so each entry is within k_off and kG_off, at the tolerance of the tables plus 16 units, of the entry assembled from exact integrals. *)
Theorem C77_entries : forall pow dec D a b Nxx Nyy Nxy c c0 ca d0 db m n M, usual_inputs pow dec D a b Nxx Nyy Nxy -> specifies c c0 ca d0 db ->
  (M <= 30)%nat -> (m + taken c0 + taken ca <= M)%nat -> (n + taken d0 + taken db <= M)%nat -> let e := tolerance M + 16 * unit in
  exists (K KG : list (list f64)) (K' KG' : list (list R)), calc_K_KG_D (stored (FA pow) dec) D a b Nxx Nyy Nxy c m n = Ok (K, KG) /\
    calc_K_KG_D exact_tables (as_arr (numbers D)) (B2R a) (B2R b) (B2R Nxx) (B2R Nyy) (B2R Nxy) c m n = Ok (K', KG') /\ square (m * n) K' /\ square (m * n) KG' /\
    entries_within (k_off e (numbers D) (B2R a) (B2R b)) K K' /\ entries_within (kG_off e (B2R Nxx) (B2R Nyy) (B2R Nxy) (B2R a) (B2R b)) KG KG'.
Proof. exact T_Round.t_C77_entries. Qed.
Print Assumptions C77_entries.

(** C77: for plates clamped on all four edges with m and n up to 26 the tables are exact and the 16 units are all there is. *)
Theorem C77_clamped : forall pow dec D a b Nxx Nyy Nxy c m n, usual_inputs pow dec D a b Nxx Nyy Nxy -> specifies c Clamped Clamped Clamped Clamped ->
  (m <= 26)%nat -> (n <= 26)%nat ->
  exists (K KG : list (list f64)) (K' KG' : list (list R)), calc_K_KG_D (stored (FA pow) dec) D a b Nxx Nyy Nxy c m n = Ok (K, KG) /\
    calc_K_KG_D exact_tables (as_arr (numbers D)) (B2R a) (B2R b) (B2R Nxx) (B2R Nyy) (B2R Nxy) c m n = Ok (K', KG') /\ square (m * n) K' /\ square (m * n) KG' /\
    entries_within (k_off (16 * unit) (numbers D) (B2R a) (B2R b)) K K' /\ entries_within (kG_off (16 * unit) (B2R Nxx) (B2R Nyy) (B2R Nxy) (B2R a) (B2R b)) KG KG'.
Proof. exact T_Round.t_C77_clamped. Qed.
Print Assumptions C77_clamped.

(** C77: if the tolerance and the rounding together are smaller than the margin of the plate, K as assembled in binary64 is positive definite and the
    critical factor l' of the assembled doubles and the exact one l satisfy |1/l - 1/l'| <= e/l' + g. *)
Theorem C77_close : forall pow dec D a b Nxx Nyy Nxy c c0 ca d0 db m n M u (K KG : list (list R)) l l', usual_inputs pow dec D a b Nxx Nyy Nxy ->
  plate_ok (numbers D) (B2R a) (B2R b) c c0 ca d0 db m n ->
  (M <= 30)%nat -> (m + taken c0 + taken ca <= M)%nat -> (n + taken d0 + taken db <= M)%nat ->
  calc_K_KG_D exact_tables (as_arr (numbers D)) (B2R a) (B2R b) (B2R Nxx) (B2R Nyy) (B2R Nxy) c m n = Ok (K, KG) -> at_least u K ->
  INR (m * n) * k_off (tolerance M + 16 * unit) (numbers D) (B2R a) (B2R b) < u ->
  critical (numbers D) (B2R a) (B2R b) (B2R Nxx) (B2R Nyy) (B2R Nxy) c m n l -> critical_float pow dec D a b Nxx Nyy Nxy c m n l' ->
  let e := INR (m * n) * k_off (tolerance M + 16 * unit) (numbers D) (B2R a) (B2R b) / u in
  let g := INR (m * n) * kG_off (tolerance M + 16 * unit) (B2R Nxx) (B2R Nyy) (B2R Nxy) (B2R a) (B2R b) / u in
  Rabs (1 / l - 1 / l') <= e * (1 / l') + g.
Proof. exact T_Round.t_C77_close. Qed.
Print Assumptions C77_close.

(** C77: K as assembled is then positive definite, and each of the two factors exists when the other does and is small enough. *)
Theorem C77_exists : forall pow dec D a b Nxx Nyy Nxy c c0 ca d0 db m n M u (K KG : list (list R)), usual_inputs pow dec D a b Nxx Nyy Nxy ->
  plate_ok (numbers D) (B2R a) (B2R b) c c0 ca d0 db m n ->
  (M <= 30)%nat -> (m + taken c0 + taken ca <= M)%nat -> (n + taken d0 + taken db <= M)%nat ->
  calc_K_KG_D exact_tables (as_arr (numbers D)) (B2R a) (B2R b) (B2R Nxx) (B2R Nyy) (B2R Nxy) c m n = Ok (K, KG) -> at_least u K ->
  INR (m * n) * k_off (tolerance M + 16 * unit) (numbers D) (B2R a) (B2R b) < u ->
  let e := INR (m * n) * k_off (tolerance M + 16 * unit) (numbers D) (B2R a) (B2R b) / u in
  let g := INR (m * n) * kG_off (tolerance M + 16 * unit) (B2R Nxx) (B2R Nyy) (B2R Nxy) (B2R a) (B2R b) / u in
  (exists K' KG' : list (list f64), calc_K_KG_D (stored (FA pow) dec) D a b Nxx Nyy Nxy c m n = Ok (K', KG') /\ pencil (reals K') (reals KG')) /\
  (forall l, critical (numbers D) (B2R a) (B2R b) (B2R Nxx) (B2R Nyy) (B2R Nxy) c m n l -> g < 1 / l -> exists l', critical_float pow dec D a b Nxx Nyy Nxy c m n l') /\
  (forall l', critical_float pow dec D a b Nxx Nyy Nxy c m n l' -> g < (1 - e) / l' -> exists l, critical (numbers D) (B2R a) (B2R b) (B2R Nxx) (B2R Nyy) (B2R Nxy) c m n l).
Proof. exact T_Round.t_C77_exists. Qed.
Print Assumptions C77_exists.

(** C77: the pinned 2 by 2 plate of C76, exact factor 2, assembled in doubles with any accurate power and any decimal literals read to nearest:
    there is a critical factor and it is within 2e-10 of 2. *)
Theorem C77_pinned_plate : forall pow dec, pow_close pow -> dec_close dec ->
  (exists l, critical_float pow dec fid (f_of_Z 2) (f_of_Z 2) (f_of_Z (-8)) fzero fzero (CStr "PINNED") 2 2 l) /\
  forall l, critical_float pow dec fid (f_of_Z 2) (f_of_Z 2) (f_of_Z (-8)) fzero fzero (CStr "PINNED") 2 2 l -> Rabs (l - 2) <= 2 / 10000000000.
Proof. exact T_Round.t_C77_pinned_plate. Qed.
Print Assumptions C77_pinned_plate.

(** C77: repeated multiplication is an accurate power, reading literals to nearest is accurate, and with them that plate meets the hypotheses. *)
Example C77_ex : exists pow dec, pow_close pow /\ dec_close dec /\ usual_inputs pow dec fid (f_of_Z 2) (f_of_Z 2) (f_of_Z (-8)) fzero fzero /\
  plate_ok (numbers fid) (B2R (f_of_Z 2)) (B2R (f_of_Z 2)) (CStr "PINNED") Pinned Pinned Pinned Pinned 2 2.
Proof. exact T_Round.t_C77_ex. Qed.
