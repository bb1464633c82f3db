(** The theorems on the buckling load in binary64, from the plies or from lamination parameters
    Statements only: every proof is [exact] a lemma of T_NcrFloat.v with the same statement.
    Below each theorem, Print Assumptions lists the axioms it uses. *)
From Coq Require Import Reals ZArith Qreals Lra Lia Bool String Sorting.Sorted.
From Coquelicot Require Import Coquelicot.
From Flocq Require Import Core.Core IEEE754.BinarySingleNaN.
From Coq Require Import List.
From Verif Require Import M_Py M_Plate M_K M_Tables M_Expr M_Float M_FloatArith M_RealArith M_Validate M_Material M_Laminate M_Plot M_MatFloat M_LamArith M_LayupFloat M_LpFloat M_OptFloat M_Buckling M_BucklingFloat M_NcrFloat M_Optimize S_Validate S_Plate S_Mat S_Laminate S_Bardell S_Shape S_Energy S_K S_Ritz S_Eigen S_Compare S_Stored S_Round S_LamRound S_MatFloat S_Sens S_LayupFloat S_LpFloat S_OptFloat S_Higher S_Optimize S_BucklingFloat S_NcrFloat.
Import ListNotations.
Open Scope R_scope.
From Verif Require T_NcrFloat.

(** C98, from the plies to the list that is returned, in binary64, with an eigen-solver of limited accuracy: the entry in place j is near the factor in place j of the exact
    laminate. The bound adds up the share lost in D (d), in the tables and the assembly (e and g), by the solver (eps and gam) and in the division (one unit). *)
Theorem C98_layup : forall eigsh eps gam np k mu q nu l (X : mat3) (M : farr) pow dec a b Nxx Nyy Nxy c c0 ca d0 db m n N u (K KG : list (list R)) fs num out vecs,
  accurate_to eps gam eigsh -> 0 <= eps -> 0 <= gam ->
  good_layup np k mu q l -> 0 <= k <= 1000000 -> powerRZ 2 (-40) <= mu -> powerRZ 2 (-200) <= q <= powerRZ 2 190 ->
  attribute 3 (exact_layup l) = Ok X -> plate_ok X (B2R a) (B2R b) c c0 ca d0 db m n -> (forall e, nu * dot e e <= quad X e) -> 3 * matrix_off k mu q 3 l < nu ->
  D_f np l = Ok M -> usual_inputs pow dec M a b Nxx Nyy Nxy -> (N <= 30)%nat -> (m + taken c0 + taken ca <= N)%nat -> (n + taken d0 + taken db <= N)%nat ->
  calc_K_KG_D exact_tables (as_arr X) (B2R a) (B2R b) (B2R Nxx) (B2R Nyy) (B2R Nxy) c m n = Ok (K, KG) -> at_least u K ->
  let d := 3 * matrix_off k mu q 3 l / nu in
  let e := INR (m * n) * k_off (tolerance N + 16 * unit) (numbers (lower M)) (B2R a) (B2R b) / ((1 - d) * u) in
  let g := INR (m * n) * kG_off (tolerance N + 16 * unit) (B2R Nxx) (B2R Nyy) (B2R Nxy) (B2R a) (B2R b) / ((1 - d) * u) in
  let E := (d + e * (1 + d)) + eps * (1 + (d + e * (1 + d))) in
  let G := g * (1 + d) + gam * (1 + (d + e * (1 + d))) in
  INR (m * n) * k_off (tolerance N + 16 * unit) (numbers (lower M)) (B2R a) (B2R b) < (1 - d) * u ->
  lowest_factors X (B2R a) (B2R b) (B2R Nxx) (B2R Nyy) (B2R Nxy) c m n fs ->
  Forall (fun f => 1 / f + G <= 1 - E /\ powerRZ 2 (-900) <= 1 / f - G) fs ->
  buckling_layup_f eigsh np pow dec l a b Nxx Nyy Nxy c m n num = Ok (out, vecs) ->
  List.length out = Z.to_nat (Z.min num (Z.of_nat (m * n) - 2)) /\
  ((List.length fs <= List.length out)%nat -> forall j f, nth_error fs j = Some f ->
    exists f', nth_error out j = Some f' /\ is_finite f' = true /\ 0 < B2R f' /\ Rabs (1 / f - 1 / B2R f') <= (E * (1 + unit) + unit) * (1 / B2R f') + G).
Proof. exact T_NcrFloat.t_C98_layup. Qed.
Print Assumptions C98_layup.

(** C98, from lamination parameters to the buckling load in binary64: what Ncr_from_lp returns is near the exact critical factor. *)
Theorem C98_ncr : forall parse eigsh eps gam mu q nu f T xi1 xi3 E1 E2 v12 G12 (X : mat3) (M : farr) pow dec a b Nxx Nyy Nxy c c0 ca d0 db m n N u (K KG : list (list R)) l x,
  accurate_to eps gam eigsh -> 0 <= eps -> 0 <= gam ->
  ortho_init parse (oargs5 (PFloat E1) (PFloat E2) (PFloat v12) (PFloat G12) (PFloat (dec 1%Z (-1)%Z))) = Ok f ->
  powerRZ 2 (-40) <= mu -> powerRZ 2 (-200) <= q <= powerRZ 2 190 -> lp_ply mu q f -> four_parameters [xi1; fzero; xi3; fzero] -> usual T ->
  exact_D f [xi1; fzero; xi3; fzero] T = Ok X -> plate_ok X (B2R a) (B2R b) c c0 ca d0 db m n -> (forall e, nu * dot e e <= quad X e) -> 3 * lp_off mu q 3 T < nu ->
  D_lp_f pow f [xi1; fzero; xi3; fzero] T = Ok M -> usual_inputs pow dec M a b Nxx Nyy Nxy -> (N <= 30)%nat -> (m + taken c0 + taken ca <= N)%nat -> (n + taken d0 + taken db <= N)%nat ->
  calc_K_KG_D exact_tables (as_arr X) (B2R a) (B2R b) (B2R Nxx) (B2R Nyy) (B2R Nxy) c m n = Ok (K, KG) -> at_least u K ->
  let d := 3 * lp_off mu q 3 T / nu in
  let e := INR (m * n) * k_off (tolerance N + 16 * unit) (numbers M) (B2R a) (B2R b) / ((1 - d) * u) in
  let g := INR (m * n) * kG_off (tolerance N + 16 * unit) (B2R Nxx) (B2R Nyy) (B2R Nxy) (B2R a) (B2R b) / ((1 - d) * u) in
  let E := (d + e * (1 + d)) + eps * (1 + (d + e * (1 + d))) in
  let G := g * (1 + d) + gam * (1 + (d + e * (1 + d))) in
  INR (m * n) * k_off (tolerance N + 16 * unit) (numbers M) (B2R a) (B2R b) < (1 - d) * u ->
  critical X (B2R a) (B2R b) (B2R Nxx) (B2R Nyy) (B2R Nxy) c m n l -> 1 / l + G <= 1 - E -> powerRZ 2 (-900) <= 1 / l - G ->
  Ncr_from_lp_f parse eigsh pow dec a b T m n xi1 xi3 E1 E2 v12 G12 Nxx Nyy Nxy c = Ok x ->
  reports (E * (1 + unit) + unit) G l x.
Proof. exact T_NcrFloat.t_C98_ncr. Qed.
Print Assumptions C98_ncr.

(** C98: what the two optimisers hand to scipy: the loads are normalised first, so all-zero loads raise ZeroDivisionError; a point of the wrong length raises ValueError; the
    objective is minus the buckling load, exactly; an ArpackError of the eigen-solver becomes the load -1, so the objective 1; every other exception is passed on. *)
Theorem C98_handed : forall parse eigsh pow dec (a b T : f64) m n (E1 E2 v12 G12 Nxx Nyy Nxy : f64) c,
  (forall e, normalize_f Nxx Nyy Nxy = Err e -> maximize_objective_f parse eigsh pow dec a b T m n E1 E2 v12 G12 Nxx Nyy Nxy c = Err e /\ weight_constraint_f parse eigsh pow dec a b m n E1 E2 v12 G12 Nxx Nyy Nxy c = Err e) /\
  (forall x y z mx, normalize_f Nxx Nyy Nxy = Ok (x, y, z, mx) -> exists f g,
    maximize_objective_f parse eigsh pow dec a b T m n E1 E2 v12 G12 Nxx Nyy Nxy c = Ok f /\ weight_constraint_f parse eigsh pow dec a b m n E1 E2 v12 G12 Nxx Nyy Nxy c = Ok (g, mx) /\
    (forall y0, List.length y0 <> 2%nat -> f y0 = Err ValueError) /\ (forall y0, List.length y0 <> 3%nat -> g y0 = Err ValueError) /\
    forall t xi1 xi3,
      (forall v, Ncr_from_lp_f parse eigsh pow dec a b T m n xi1 xi3 E1 E2 v12 G12 x y z c = Ok v -> is_finite v = true -> exists r, f [xi1; xi3] = Ok r /\ is_finite r = true /\ B2R r = - B2R v) /\
      (Ncr_from_lp_f parse eigsh pow dec a b T m n xi1 xi3 E1 E2 v12 G12 x y z c = Err ArpackError -> exists r, f [xi1; xi3] = Ok r /\ is_finite r = true /\ B2R r = 1) /\
      (forall e, e <> ArpackError -> Ncr_from_lp_f parse eigsh pow dec a b T m n xi1 xi3 E1 E2 v12 G12 x y z c = Err e -> f [xi1; xi3] = Err e) /\
      (forall v, Ncr_from_lp_f parse eigsh pow dec a b t m n xi1 xi3 E1 E2 v12 G12 x y z c = Ok v -> g [t; xi1; xi3] = Ok v) /\
      (Ncr_from_lp_f parse eigsh pow dec a b t m n xi1 xi3 E1 E2 v12 G12 x y z c = Err ArpackError -> exists r, g [t; xi1; xi3] = Ok r /\ is_finite r = true /\ B2R r = -1) /\
      (forall e, e <> ArpackError -> Ncr_from_lp_f parse eigsh pow dec a b t m n xi1 xi3 E1 E2 v12 G12 x y z c = Err e -> g [t; xi1; xi3] = Err e)).
Proof. exact T_NcrFloat.t_C98_handed. Qed.
Print Assumptions C98_handed.

(** C98: so a design that satisfies the constraint of the weight problem as computed, for a factor l it reports up to E and G, really has l at least
    max_load / (1 + E + G max_load); a failed solver is never a feasible design. *)
Theorem C98_feasible : forall parse eigsh pow dec (a b : f64) m n (E1 E2 v12 G12 Nxx Nyy Nxy : f64) c g mx t xi1 xi3 x,
  weight_constraint_f parse eigsh pow dec a b m n E1 E2 v12 G12 Nxx Nyy Nxy c = Ok (g, mx) -> is_finite Nxx = true -> is_finite Nyy = true -> is_finite Nxy = true ->
  g [t; xi1; xi3] = Ok x -> is_finite x = true -> B2R mx <= B2R x ->
  exists Nx Ny Nz, normalize_f Nxx Nyy Nxy = Ok (Nx, Ny, Nz, mx) /\ Ncr_from_lp_f parse eigsh pow dec a b t m n xi1 xi3 E1 E2 v12 G12 Nx Ny Nz c = Ok x /\ 0 < B2R mx /\
    forall E G l, 0 <= E -> 0 <= G -> 0 < l -> reports E G l x -> B2R mx / (1 + E + G * B2R mx) <= l.
Proof. exact T_NcrFloat.t_C98_feasible. Qed.
Print Assumptions C98_feasible.

(** C98: and two designs are ranked rightly up to the bounds: if the computed load of the first is not below that of the second, the exact ones differ by no more. *)
Theorem C98_ranking : forall E G E' G' l l' x x', 0 <= E -> 0 <= G -> 0 <= G' -> 0 <= E' < 1 -> 0 < l -> 0 < l' -> reports E G l x -> reports E' G' l' x' -> B2R x' <= B2R x ->
  1 / l <= (1 + E) / (1 - E') * (1 / l' + G') + G.
Proof. exact T_NcrFloat.t_C98_ranking. Qed.
Print Assumptions C98_ranking.

(** C98 example: the ply of C94 (e1 = 4, e2 = 2, v12 = 1/4, g12 = 1) with all parameters zero and thickness 1 on a pinned square plate of side 2 under equal compression. The exact
    critical factor is 671/496. There is an accurate solver that answers, and every solver accurate to 10^-12 gives a buckling load within 10^-8; the same for what the
    optimisers hand to scipy, where a load that satisfies the constraint is within 10^-8 too. *)
Example C98_ex : exists pow, pow_close pow /\ forall parse dec, dec_close dec ->
  critical (M3 (183 / 744) (41 / 744) 0 (41 / 744) (183 / 744) 0 0 0 (71 / 744)) 2 2 (-1) (-1) 0 (CStr "PINNED") 2 2 (671 / 496) /\
  (exists eigsh x, accurate_to 0 (2 * unit) eigsh /\
     Ncr_from_lp_f parse eigsh pow dec (f_of_Z 2) (f_of_Z 2) (f_of_Z 1) 2 2 fzero fzero (f_of_Z 4) (f_of_Z 2) (f_of_Z_exp 1 (-2)) (f_of_Z 1) (f_of_Z (-1)) (f_of_Z (-1)) fzero (CStr "PINNED") = Ok x) /\
  forall eps gam eigsh, 0 <= eps <= 1 / 1000000000000 -> 0 <= gam <= 1 / 1000000000000 -> accurate_to eps gam eigsh ->
    (forall x, Ncr_from_lp_f parse eigsh pow dec (f_of_Z 2) (f_of_Z 2) (f_of_Z 1) 2 2 fzero fzero (f_of_Z 4) (f_of_Z 2) (f_of_Z_exp 1 (-2)) (f_of_Z 1) (f_of_Z (-1)) (f_of_Z (-1)) fzero (CStr "PINNED") = Ok x ->
       is_finite x = true /\ Rabs (B2R x - 671 / 496) <= 1 / 100000000) /\
    exists f g mx, maximize_objective_f parse eigsh pow dec (f_of_Z 2) (f_of_Z 2) (f_of_Z 1) 2 2 (f_of_Z 4) (f_of_Z 2) (f_of_Z_exp 1 (-2)) (f_of_Z 1) (f_of_Z (-1)) (f_of_Z (-1)) fzero (CStr "PINNED") = Ok f /\
      weight_constraint_f parse eigsh pow dec (f_of_Z 2) (f_of_Z 2) 2 2 (f_of_Z 4) (f_of_Z 2) (f_of_Z_exp 1 (-2)) (f_of_Z 1) (f_of_Z (-1)) (f_of_Z (-1)) fzero (CStr "PINNED") = Ok (g, mx) /\
      B2R mx = 1 /\ (forall r, f [fzero; fzero] = Ok r -> B2R r = 1 \/ Rabs (B2R r + 671 / 496) <= 1 / 100000000) /\
      (forall x, g [f_of_Z 1; fzero; fzero] = Ok x -> B2R mx <= B2R x -> Rabs (B2R x - 671 / 496) <= 1 / 100000000).
Proof. exact T_NcrFloat.t_C98_ex. Qed.

(** C98 example: the two plies of C88 on the pinned square plate of side 2 under equal compression 1/128: the exact factor is 161/62; every solver accurate to 10^-12 that answers
    makes the analysis report a first value within 10^-8 of it, and there is one that answers. *)
Example C98_ex_layup : exists np l (D : mat3), good_layup np 0 (1 / 2) 8 l /\ attribute 3 (exact_layup l) = Ok D /\ forall pow dec, pow_close pow -> dec_close dec ->
  critical D 2 2 (- / 128) (- / 128) 0 (CStr "PINNED") 2 2 (161 / 62) /\
  (exists eigsh out vecs, accurate_to 0 (2 * unit) eigsh /\
     buckling_layup_f eigsh np pow dec l (f_of_Z 2) (f_of_Z 2) (f_of_Z_exp (-1) (-7)) (f_of_Z_exp (-1) (-7)) fzero (CStr "PINNED") 2 2 5 = Ok (out, vecs)) /\
  forall eps gam eigsh out vecs, 0 <= eps <= 1 / 1000000000000 -> 0 <= gam <= 1 / 1000000000000 -> accurate_to eps gam eigsh ->
    buckling_layup_f eigsh np pow dec l (f_of_Z 2) (f_of_Z 2) (f_of_Z_exp (-1) (-7)) (f_of_Z_exp (-1) (-7)) fzero (CStr "PINNED") 2 2 5 = Ok (out, vecs) ->
    exists x rest, out = x :: rest /\ is_finite x = true /\ Rabs (B2R x - 161 / 62) <= 1 / 100000000.
Proof. exact T_NcrFloat.t_C98_ex_layup. Qed.
