(** The theorems on the loads a design carries and the normalised loads in binary64
    Statements only: every proof is [exact] a lemma of T_LoadFloat.v with the same statement.
    Below each theorem, Print Assumptions lists the axioms it uses. *)
From Coq Require Import Reals ZArith Lra Lia Bool String.
From Coquelicot Require Import Coquelicot.
From Flocq Require Import Core.Core IEEE754.BinarySingleNaN.
From Coq Require Import List.
From Verif Require Import M_Py M_Plate M_K M_Tables M_Expr M_Float M_FloatArith M_RealArith M_Validate M_Material M_Laminate M_Plot M_MatFloat M_LamArith M_LayupFloat M_LpFloat M_OptFloat M_Buckling M_BucklingFloat M_NcrFloat M_Optimize S_Validate S_Plate S_Mat S_Laminate S_Bardell S_Shape S_Energy S_K S_Ritz S_Eigen S_Compare S_Stored S_Round S_LamRound S_MatFloat S_Sens S_LayupFloat S_LpFloat S_OptFloat S_Higher S_Optimize S_BucklingFloat S_NcrFloat S_LoadFloat.
Import ListNotations.
Open Scope R_scope.
From Verif Require T_LoadFloat.

(** C99: the exact factor of a plate does not mind small changes of the loads: if the loads change, so does the reciprocal of the critical factor, by no more than the
    bound. A plate whose factor is within the bound of not existing may gain or lose it. *)
Theorem C99_loads : forall D a b Nxx Nyy Nxy Nxx' Nyy' Nxy' c c0 ca d0 db m n u (K KG : list (list R)) l, plate_ok D a b c c0 ca d0 db m n ->
  calc_K_KG_D exact_tables (as_arr D) a b Nxx Nyy Nxy c m n = Ok (K, KG) -> 0 < u -> at_least u K -> critical D a b Nxx Nyy Nxy c m n l ->
  let g := INR (m * n) * kG_off 1 (Nxx' - Nxx) (Nyy' - Nyy) (Nxy' - Nxy) a b / u in
  (g < 1 / l -> exists l', critical D a b Nxx' Nyy' Nxy' c m n l') /\
  forall l', critical D a b Nxx' Nyy' Nxy' c m n l' -> Rabs (1 / l - 1 / l') <= g.
Proof. exact T_LoadFloat.t_C99_loads. Qed.
Print Assumptions C99_loads.

(** C99: the largest load times the factor of the given loads is the factor of the loads the optimisers normalise in binary64, up to the bound, and one of them exists
    when the other does, unless the bound reaches it. *)
Theorem C99_normalised : forall (X : mat3) a b (Nxx Nyy Nxy Nx Ny Nz mx : f64) c c0 ca d0 db m n u (K KG : list (list R)), plate_ok X a b c c0 ca d0 db m n ->
  is_finite Nxx = true -> is_finite Nyy = true -> is_finite Nxy = true -> normalize_f Nxx Nyy Nxy = Ok (Nx, Ny, Nz, mx) ->
  calc_K_KG_D exact_tables (as_arr X) a b (B2R Nxx) (B2R Nyy) (B2R Nxy) c m n = Ok (K, KG) -> 0 < u -> at_least u K ->
  0 < B2R mx /\
  (forall l, critical X a b (B2R Nxx) (B2R Nyy) (B2R Nxy) c m n l -> load_off m n a b u < 1 / (B2R mx * l) -> exists l', critical X a b (B2R Nx) (B2R Ny) (B2R Nz) c m n l') /\
  (forall l', critical X a b (B2R Nx) (B2R Ny) (B2R Nz) c m n l' -> load_off m n a b u < 1 / l' -> exists l, critical X a b (B2R Nxx) (B2R Nyy) (B2R Nxy) c m n l) /\
  forall l l', critical X a b (B2R Nxx) (B2R Nyy) (B2R Nxy) c m n l -> critical X a b (B2R Nx) (B2R Ny) (B2R Nz) c m n l' -> Rabs (1 / (B2R mx * l) - 1 / l') <= load_off m n a b u.
Proof. exact T_LoadFloat.t_C99_normalised. Qed.
Print Assumptions C99_normalised.

(** C99: a design the weight optimiser takes for feasible carries the loads it was given, not only the normalised ones: when its constraint function returns x, x is at
    least the largest load and x stands for the factor of the exact plate up to E and G, then the exact plate does not buckle below nearly one times the given loads. *)
Theorem C99_carries : forall parse eigsh pow dec (X : mat3) (a b : f64) m n (E1 E2 v12 G12 Nxx Nyy Nxy : f64) c c0 ca d0 db g mx t xi1 xi3 x u E G (K KG : list (list R)),
  weight_constraint_f parse eigsh pow dec a b m n E1 E2 v12 G12 Nxx Nyy Nxy c = Ok (g, mx) -> is_finite Nxx = true -> is_finite Nyy = true -> is_finite Nxy = true ->
  g [t; xi1; xi3] = Ok x -> is_finite x = true -> B2R mx <= B2R x ->
  plate_ok X (B2R a) (B2R b) c c0 ca d0 db m n ->
  calc_K_KG_D exact_tables (as_arr X) (B2R a) (B2R b) (B2R Nxx) (B2R Nyy) (B2R Nxy) c m n = Ok (K, KG) -> 0 < u -> at_least u K -> 0 <= E -> 0 <= G ->
  (forall Nx Ny Nz l', normalize_f Nxx Nyy Nxy = Ok (Nx, Ny, Nz, mx) -> Ncr_from_lp_f parse eigsh pow dec a b t m n xi1 xi3 E1 E2 v12 G12 Nx Ny Nz c = Ok x ->
     critical X (B2R a) (B2R b) (B2R Nx) (B2R Ny) (B2R Nz) c m n l' -> reports E G l' x) ->
  forall l, critical X (B2R a) (B2R b) (B2R Nxx) (B2R Nyy) (B2R Nxy) c m n l -> 1 / (1 + E + (G + load_off m n (B2R a) (B2R b) u) * B2R mx) <= l.
Proof. exact T_LoadFloat.t_C99_carries. Qed.
Print Assumptions C99_carries.

(** C99: from the inputs of the weight optimiser to the loads the design carries, everything in binary64: if the constraint function returns at least the largest load at
    thickness t and parameters xi1, xi3, then the exact plate with these parameters has no buckling factor below nearly one under the given loads. Everything lost on
    the way is in the bound: the computed stiffness, the tables, the assembled matrices, the solver, the final division and the normalised loads. The factor of the
    normalised loads must not be below one (nearly) nor astronomically large, as in C98. *)
Theorem C99_design : forall parse eigsh eps gam mu q nu f t xi1 xi3 E1 E2 v12 G12 (X : mat3) (M : farr) pow dec a b Nxx Nyy Nxy Nx Ny Nz h mx c c0 ca d0 db m n N u (K KG : list (list R)) x,
  accurate_to eps gam eigsh -> 0 <= eps -> 0 <= gam ->
  ortho_init parse (oargs5 (PFloat E1) (PFloat E2) (PFloat v12) (PFloat G12) (PFloat (dec 1%Z (-1)%Z))) = Ok f ->
  powerRZ 2 (-40) <= mu -> powerRZ 2 (-200) <= q <= powerRZ 2 190 -> lp_ply mu q f -> four_parameters [xi1; fzero; xi3; fzero] -> usual t ->
  exact_D f [xi1; fzero; xi3; fzero] t = Ok X -> plate_ok X (B2R a) (B2R b) c c0 ca d0 db m n -> (forall e, nu * dot e e <= quad X e) -> 3 * lp_off mu q 3 t < nu ->
  is_finite Nxx = true -> is_finite Nyy = true -> is_finite Nxy = true -> normalize_f Nxx Nyy Nxy = Ok (Nx, Ny, Nz, mx) ->
  D_lp_f pow f [xi1; fzero; xi3; fzero] t = Ok M -> usual_inputs pow dec M a b Nx Ny Nz -> (N <= 30)%nat -> (m + taken c0 + taken ca <= N)%nat -> (n + taken d0 + taken db <= N)%nat ->
  calc_K_KG_D exact_tables (as_arr X) (B2R a) (B2R b) (B2R Nxx) (B2R Nyy) (B2R Nxy) c m n = Ok (K, KG) -> at_least u K ->
  let d := 3 * lp_off mu q 3 t / nu in
  let e := INR (m * n) * k_off (tolerance N + 16 * unit) (numbers M) (B2R a) (B2R b) / ((1 - d) * u) in
  let g := INR (m * n) * kG_off (tolerance N + 16 * unit) (B2R Nx) (B2R Ny) (B2R Nz) (B2R a) (B2R b) / ((1 - d) * u) in
  let E := (d + e * (1 + d)) + eps * (1 + (d + e * (1 + d))) in
  let G := g * (1 + d) + gam * (1 + (d + e * (1 + d))) in
  INR (m * n) * k_off (tolerance N + 16 * unit) (numbers M) (B2R a) (B2R b) < (1 - d) * u ->
  (forall l', critical X (B2R a) (B2R b) (B2R Nx) (B2R Ny) (B2R Nz) c m n l' -> 1 / l' + G <= 1 - E /\ powerRZ 2 (-900) <= 1 / l' - G) ->
  weight_constraint_f parse eigsh pow dec a b m n E1 E2 v12 G12 Nxx Nyy Nxy c = Ok (h, mx) -> h [t; xi1; xi3] = Ok x -> is_finite x = true -> B2R mx <= B2R x ->
  forall l, critical X (B2R a) (B2R b) (B2R Nxx) (B2R Nyy) (B2R Nxy) c m n l ->
    1 / (1 + (E * (1 + unit) + unit) + (G + load_off m n (B2R a) (B2R b) u) * B2R mx) <= l.
Proof. exact T_LoadFloat.t_C99_design. Qed.
Print Assumptions C99_design.

(** C99 example: the plate of C98 under five quarters in both directions. The largest load is 5/4 and the exact factor of the given loads 671/620. There is an accurate
    solver with which the constraint function of the weight optimiser returns at least 5/4 for thickness 1, and what it returns stands for the factor of the exact
    plate to 10^-7, as C99_carries asks. *)
Example C99_ex : exists pow, pow_close pow /\ forall parse dec, dec_close dec -> exists X : mat3,
  plate_ok X 2 2 (CStr "PINNED") Pinned Pinned Pinned Pinned 2 2 /\ critical X 2 2 (-5 / 4) (-5 / 4) 0 (CStr "PINNED") 2 2 (671 / 620) /\
  (exists K KG : list (list R), calc_K_KG_D exact_tables (as_arr X) 2 2 (-5 / 4) (-5 / 4) 0 (CStr "PINNED") 2 2 = Ok (K, KG) /\ at_least (1 / 400) K) /\
  load_off 2 2 2 2 (1 / 400) <= 1 / 100000000000 /\
  exists eigsh g mx x, accurate_to 0 (2 * unit) eigsh /\
    weight_constraint_f parse eigsh pow dec (f_of_Z 2) (f_of_Z 2) 2 2 (f_of_Z 4) (f_of_Z 2) (f_of_Z_exp 1 (-2)) (f_of_Z 1) (f_of_Z_exp (-5) (-2)) (f_of_Z_exp (-5) (-2)) fzero (CStr "PINNED") = Ok (g, mx) /\
    B2R (f_of_Z_exp (-5) (-2)) = -5 / 4 /\ B2R mx = 5 / 4 /\ g [f_of_Z 1; fzero; fzero] = Ok x /\ is_finite x = true /\ B2R mx <= B2R x /\
    forall Nx Ny Nz l', normalize_f (f_of_Z_exp (-5) (-2)) (f_of_Z_exp (-5) (-2)) fzero = Ok (Nx, Ny, Nz, mx) ->
      critical X 2 2 (B2R Nx) (B2R Ny) (B2R Nz) (CStr "PINNED") 2 2 l' -> reports 0 (1 / 10000000) l' x.
Proof. exact T_LoadFloat.t_C99_ex. Qed.

(** C99 example: the same plate meets the hypotheses of C99_design with every solver accurate to 10^-12; the bound is below 1 by less than 10^-8. *)
Example C99_ex_design : exists pow, pow_close pow /\ forall parse dec, dec_close dec -> exists f (X : mat3) (M : farr) Nx Ny Nz mx (K KG : list (list R)),
  ortho_init parse (oargs5 (PFloat (f_of_Z 4)) (PFloat (f_of_Z 2)) (PFloat (f_of_Z_exp 1 (-2))) (PFloat (f_of_Z 1)) (PFloat (dec 1%Z (-1)%Z))) = Ok f /\
  lp_ply (1 / 2) 8 f /\ exact_D f [fzero; fzero; fzero; fzero] (f_of_Z 1) = Ok X /\ plate_ok X 2 2 (CStr "PINNED") Pinned Pinned Pinned Pinned 2 2 /\
  (forall e, / 20 * dot e e <= quad X e) /\ 3 * lp_off (1 / 2) 8 3 (f_of_Z 1) < / 20 /\
  normalize_f (f_of_Z_exp (-5) (-2)) (f_of_Z_exp (-5) (-2)) fzero = Ok (Nx, Ny, Nz, mx) /\ B2R mx = 5 / 4 /\
  D_lp_f pow f [fzero; fzero; fzero; fzero] (f_of_Z 1) = Ok M /\ usual_inputs pow dec M (f_of_Z 2) (f_of_Z 2) Nx Ny Nz /\
  calc_K_KG_D exact_tables (as_arr X) 2 2 (-5 / 4) (-5 / 4) 0 (CStr "PINNED") 2 2 = Ok (K, KG) /\ at_least (1 / 400) K /\
  let d := 3 * lp_off (1 / 2) 8 3 (f_of_Z 1) / / 20 in
  let e := INR (2 * 2) * k_off (tolerance 10 + 16 * unit) (numbers M) 2 2 / ((1 - d) * (1 / 400)) in
  let g := INR (2 * 2) * kG_off (tolerance 10 + 16 * unit) (B2R Nx) (B2R Ny) (B2R Nz) 2 2 / ((1 - d) * (1 / 400)) in
  INR (2 * 2) * k_off (tolerance 10 + 16 * unit) (numbers M) 2 2 < (1 - d) * (1 / 400) /\
  forall eps gam, 0 <= eps <= 1 / 1000000000000 -> 0 <= gam <= 1 / 1000000000000 ->
    let E := (d + e * (1 + d)) + eps * (1 + (d + e * (1 + d))) in
    let G := g * (1 + d) + gam * (1 + (d + e * (1 + d))) in
    (forall l', critical X 2 2 (B2R Nx) (B2R Ny) (B2R Nz) (CStr "PINNED") 2 2 l' -> 1 / l' + G <= 1 - E /\ powerRZ 2 (-900) <= 1 / l' - G) /\
    1 - 1 / 100000000 <= 1 / (1 + (E * (1 + unit) + unit) + (G + load_off 2 2 2 2 (1 / 400)) * B2R mx).
Proof. exact T_LoadFloat.t_C99_ex_design. Qed.
