(** The theorems on the buckling analysis with an eigen-solver of limited accuracy
    Statements only: every proof is [exact] a lemma of T_BucklingFloat.v with the same statement.
    Below each theorem, Print Assumptions lists the axioms it uses. *)
From Coq Require Import Reals ZArith Lra Lia Bool String Sorting.Sorted.
From Coquelicot Require Import Coquelicot.
From Flocq Require Import Core.Core IEEE754.BinarySingleNaN.
From Coq Require Import List.
From Verif Require Import M_Py M_Plate M_K M_Tables M_Expr M_Float M_FloatArith M_RealArith M_Plot M_Buckling M_BucklingFloat S_Validate S_Plate S_Mat S_Bardell S_Shape S_Energy S_K S_Ritz S_Eigen S_Compare S_Stored S_Round S_Higher S_BucklingFloat.
Import ListNotations.
Open Scope R_scope.
From Verif Require T_BucklingFloat.

(** C97: if two pencils are near each other, every one of the lowest factors of the one is near the factor in the same place of the other:
    |1/l - 1/l'| <= E/l' + G. *)
Theorem C97_factors : forall E G (K KG K' KG' : list (list R)) fs fs' j l l', pencil K KG -> pencil K' KG' -> near E G K KG K' KG' -> 0 <= E -> 0 <= G ->
  lowest K KG fs -> lowest K' KG' fs' -> nth_error fs j = Some l -> nth_error fs' j = Some l' -> Rabs (1 / l - 1 / l') <= E * (1 / l') + G.
Proof. exact T_BucklingFloat.t_C97_factors. Qed.
Print Assumptions C97_factors.

(** C97: and the other pencil has as many positive factors, if those of the one are small enough to be told from infinite ones. *)
Theorem C97_many : forall E G (K KG K' KG' : list (list R)) fs, pencil K KG -> pencil K' KG' -> near E G K KG K' KG' -> 0 <= E ->
  lowest K KG fs -> Forall (fun l => G < 1 / l) fs -> exists fs', lowest K' KG' fs' /\ List.length fs' = List.length fs.
Proof. exact T_BucklingFloat.t_C97_many. Qed.
Print Assumptions C97_many.

(** C97: the last step, -1./x in binary64, is accurate to one unit wherever x is neither tiny nor huge; x = 0, of either sign, gives an infinity. *)
Theorem C97_divide : forall x : f64, (powerRZ 2 (-1000) <= Rabs (B2R x) <= powerRZ 2 1000 ->
    is_finite (fneg_recip x) = true /\ Rabs (B2R (fneg_recip x) - -1 / B2R x) <= unit * Rabs (-1 / B2R x)) /\
  forall s, fneg_recip (B754_zero s) = B754_infinity (negb s).
Proof. exact T_BucklingFloat.t_C97_divide. Qed.
Print Assumptions C97_divide.

(** C97: the buckling analysis in binary64 from the stiffnesses and loads to the reported list, with an eigen-solver of limited accuracy: the values
    returned are finite and positive, and the one in place j is near the exact factor in place j. The bound adds up the rounding of the tables and of
    the assembly (e and g, as in C77), the inaccuracy of the solver (eps and gam) and one unit for the division. *)
Theorem C97_reported : forall eigsh eps gam pow dec D a b Nxx Nyy Nxy c c0 ca d0 db m n M u (K KG : list (list R)) fs num out vecs,
  accurate_to eps gam eigsh -> 0 <= eps -> 0 <= gam -> usual_inputs pow dec D a b Nxx Nyy Nxy ->
  plate_ok (numbers D) (B2R a) (B2R b) c c0 ca d0 db m n ->
  (M <= 30)%nat -> (m + taken c0 + taken ca <= M)%nat -> (n + taken d0 + taken db <= M)%nat ->
  calc_K_KG_D exact_tables (as_arr (numbers D)) (B2R a) (B2R b) (B2R Nxx) (B2R Nyy) (B2R Nxy) c m n = Ok (K, KG) -> at_least u K ->
  INR (m * n) * k_off (tolerance M + 16 * unit) (numbers D) (B2R a) (B2R b) < u ->
  let e := INR (m * n) * k_off (tolerance M + 16 * unit) (numbers D) (B2R a) (B2R b) / u in
  let g := INR (m * n) * kG_off (tolerance M + 16 * unit) (B2R Nxx) (B2R Nyy) (B2R Nxy) (B2R a) (B2R b) / u in
  let E := e + eps * (1 + e) in
  let G := g + gam * (1 + e) in
  lowest_factors (numbers D) (B2R a) (B2R b) (B2R Nxx) (B2R Nyy) (B2R Nxy) c m n fs ->
  Forall (fun l => 1 / l + G <= 1 - E /\ powerRZ 2 (-900) <= 1 / l - G) fs ->
  buckling_float eigsh pow dec D a b Nxx Nyy Nxy c m n num = Ok (out, vecs) ->
  List.length out = Z.to_nat (Z.min num (Z.of_nat (m * n) - 2)) /\
  ((List.length fs <= List.length out)%nat -> forall j l, nth_error fs j = Some l ->
    exists f, nth_error out j = Some f /\ is_finite f = true /\ 0 < B2R f /\ Rabs (1 / l - 1 / B2R f) <= (E * (1 + unit) + unit) * (1 / B2R f) + G).
Proof. exact T_BucklingFloat.t_C97_reported. Qed.
Print Assumptions C97_reported.

(** C97: exceptions: one raised by the assembly or by the solver leaves the analysis as it is, and fewer than three terms, or a num_eigvalues that is not
    positive, are a ValueError of the solver. *)
Theorem C97_raises : forall eigsh pow dec D a b Nxx Nyy Nxy c m n num e,
  (calc_K_KG_D (stored (FA pow) dec) D a b Nxx Nyy Nxy c m n = Err e -> buckling_float eigsh pow dec D a b Nxx Nyy Nxy c m n num = Err e) /\
  forall K KG : list (list f64), calc_K_KG_D (stored (FA pow) dec) D a b Nxx Nyy Nxy c m n = Ok (K, KG) ->
    let k := Z.min num (Z.of_nat (m * n) - 2) in
    (eigsh KG K k = Err e -> buckling_float eigsh pow dec D a b Nxx Nyy Nxy c m n num = Err e) /\
    (forall eps gam, accurate_to eps gam eigsh -> (m * n <= 2)%nat \/ (num <= 0)%Z -> buckling_float eigsh pow dec D a b Nxx Nyy Nxy c m n num = Err ValueError).
Proof. exact T_BucklingFloat.t_C97_raises. Qed.
Print Assumptions C97_raises.

(** C97: what a pair (x, v) proves on its own, wherever it comes from: if KG v - x K v is small, there is an eigenvalue within e of x. *)
Theorem C97_residual : forall (K KG : list (list R)) u e x v, pencil K KG -> at_least u K -> 0 < u -> 0 <= e -> List.length v = List.length K -> nonzero v ->
  sum_sq (residual KG K x v) <= e ^ 2 * u * quad_rows K v -> exists mu w, gen_pair KG K mu w /\ Rabs (mu - x) <= e.
Proof. exact T_BucklingFloat.t_C97_residual. Qed.
Print Assumptions C97_residual.

(** C97: and what j pairs prove together, if their vectors are nearly orthonormal in K: there are j positive factors, counted with their independent modes,
    not above the largest reported one by more than the bound. No mode is then reported twice, and no reported factor is below the true one in its place by more than that. *)
Theorem C97_count : forall (K KG : list (list R)) u o e h z Z xs vs, pencil K KG -> at_least u K -> 0 < u -> 0 <= o -> 0 < h ->
  let j := INR (List.length xs) in j * o < 1 -> j * e ^ 2 <= h ^ 2 * (1 - j * o) ->
  List.length vs = List.length xs -> Forall (fun v => List.length v = List.length K) vs ->
  (forall i k v w, nth_error vs i = Some v -> nth_error vs k = Some w -> Rabs (inner K v w - (if Nat.eqb i k then 1 else 0)) <= o) ->
  (forall i x v, nth_error xs i = Some x -> nth_error vs i = Some v -> - Z <= x <= - z /\ sum_sq (residual KG K x v) <= e ^ 2 * u) ->
  let d := (z - Z * o * j) / (1 + j * o) - h in 0 < d ->
  exists fs, lowest K KG fs /\ List.length fs = List.length xs /\ Forall (fun l => l <= 1 / d) fs.
Proof. exact T_BucklingFloat.t_C97_count. Qed.
Print Assumptions C97_count.

(** C97: there are such solvers: for a pencil of doubles whose eigenvalues lie between -1 and 0 (no factor below one, no negative one) there is a solver,
    accurate to two units, that answers. *)
Theorem C97_solver : forall (A M : list (list f64)) k, pencil (reals M) (reals A) -> (0 < k <= Z.of_nat (List.length M))%Z ->
  (forall mu v, gen_pair (reals A) (reals M) mu v -> -1 <= mu <= 0) ->
  exists eigsh r, accurate_to 0 (2 * unit) eigsh /\ eigsh A M k = Ok r.
Proof. exact T_BucklingFloat.t_C97_solver. Qed.
Print Assumptions C97_solver.

(** C97 example: the square pinned plate of C77 with m = n = 2. Its two lowest factors are 2 and 45/14. There is an accurate solver that answers, and every
    solver accurate to a few parts in 10^12 makes the analysis in binary64 report two values within a billionth of them. *)
Example C97_ex : forall pow dec, pow_close pow -> dec_close dec ->
  lowest_factors mid 2 2 (-8) 0 0 (CStr "PINNED") 2 2 [2; 45/14] /\
  (exists eigsh out vecs, accurate_to 0 (2 * unit) eigsh /\
     buckling_float eigsh pow dec fid (f_of_Z 2) (f_of_Z 2) (f_of_Z (-8)) fzero fzero (CStr "PINNED") 2 2 5 = Ok (out, vecs)) /\
  forall eps gam eigsh out vecs, 0 <= eps <= 1 / 1000000000000 -> 0 <= gam <= 1 / 1000000000000 -> accurate_to eps gam eigsh ->
    buckling_float eigsh pow dec fid (f_of_Z 2) (f_of_Z 2) (f_of_Z (-8)) fzero fzero (CStr "PINNED") 2 2 5 = Ok (out, vecs) ->
    exists p q, out = [p; q] /\ is_finite p = true /\ is_finite q = true /\ Rabs (B2R p - 2) <= 1 / 1000000000 /\ Rabs (B2R q - 45 / 14) <= 1 / 1000000000.
Proof. exact T_BucklingFloat.t_C97_ex. Qed.

(** C97 example: two pairs that are not exact, and what they prove. *)
Example C97_ex_count : let K := [[1; 0; 0]; [0; 1; 0]; [0; 0; 1]] in let KG := [[-1/2; 0; 0]; [0; 1; 0]; [0; 0; -1/2]] in
  pencil K KG /\ at_least 1 K /\
  (exists mu w, gen_pair KG K mu w /\ Rabs (mu - (-1/2)) <= 1 / 50) /\
  (forall i x v, nth_error [-1/2; -1/2] i = Some x -> nth_error [[1; 1/100; 0]; [0; 0; 1]] i = Some v -> - (1/2) <= x <= - (1/2) /\ sum_sq (residual KG K x v) <= (1/50) ^ 2 * 1) /\
  exists fs, lowest K KG fs /\ List.length fs = 2%nat /\ Forall (fun l => l <= 22 / 10) fs.
Proof. exact T_BucklingFloat.t_C97_ex_count. Qed.
