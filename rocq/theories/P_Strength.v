(** Properties C25-C30, C32, C61, C62 (LaminateStrength, exact arithmetic).
    Statements only: every proof is [exact] a lemma of T_Strength.v with the same statement.
    Below each theorem, Print Assumptions lists the axioms it uses. *)
From Coquelicot Require Import Coquelicot.
From Coq Require Import Reals List Lra Lia String.
From Verif Require Import M_Py S_Mat M_Material M_Laminate M_LamHistory M_Linalg S_Laminate M_Strength S_Strength.
Import ListNotations.
Open Scope string_scope.
Open Scope list_scope.
Open Scope R_scope.
From Verif Require T_Strength.

(** C25: epsilon0() is the one and only solution of ABD x = (Nxx,Nyy,Nxy,Mxx,Myy,Mxy). *)
Theorem C25_solves : forall l N x, epsilon0_of l N = Ok x ->
  exists M, ABD_of l = Ok M /\ mvec6 M x = N /\ forall y, mvec6 M y = N -> y = x.
Proof. exact T_Strength.t_C25_solves. Qed.
Print Assumptions C25_solves.

(** C25: it exists for every non-empty admissible laminate and every load. *)
Theorem C25_exists : forall l N, l <> [] -> all_admissible l -> exists x, epsilon0_of l N = Ok x.
Proof. exact T_Strength.t_C25_exists. Qed.
Print Assumptions C25_exists.

(** C25: the only exceptions are LinAlgError, raised exactly when ABD is singular (whatever the load), and
    ZeroDivisionError, raised exactly when some Q_0 cannot be read. *)
Theorem C25_errors : forall l N,
  (epsilon0_of l N = Err ZeroDivisionError <-> ~ all_readable l) /\
  (forall M, ABD_of l = Ok M -> (epsilon0_of l N = Err LinAlgError <-> singular M)) /\
  (forall e, epsilon0_of l N = Err e -> e = LinAlgError \/ e = ZeroDivisionError).
Proof. exact T_Strength.t_C25_errors. Qed.
Print Assumptions C25_errors.

(** C25: superposition and scaling of loads; zero load gives zero strain. *)
Theorem C25_linear : forall l N1 N2 k x1 x2, epsilon0_of l N1 = Ok x1 -> epsilon0_of l N2 = Ok x2 ->
  epsilon0_of l (add6 N1 (scale6 k N2)) = Ok (add6 x1 (scale6 k x2)) /\ epsilon0_of l zero6 = Ok zero6.
Proof. exact T_Strength.t_C25_linear. Qed.
Print Assumptions C25_linear.

(** C25: the loads do positive work (compliance), and the reciprocity theorem of Betti holds. *)
Theorem C25_energy : forall l N1 N2 x1 x2, epsilon0_of l N1 = Ok x1 -> epsilon0_of l N2 = Ok x2 ->
  dot6 N1 x2 = dot6 N2 x1 /\
  (l <> [] -> all_admissible l -> N1 <> zero6 -> 0 < dot6 N1 x1).
Proof. exact T_Strength.t_C25_energy. Qed.
Print Assumptions C25_energy.

(** C25, concrete instance: the cross-ply [0/90] laminate meets the hypotheses; a laminate without plies is singular. *)
Example C25_ex : (exists x, epsilon0_of ex_lam (V3 1 0 0, V3 0 0 0) = Ok x /\ 0 < dot6 (V3 1 0 0, V3 0 0 0) x) /\
  epsilon0_of [] (V3 1 0 0, V3 0 0 0) = Err LinAlgError.
Proof. exact T_Strength.t_C25_ex. Qed.

(** C26: integrating the reported plate-direction stresses through the thickness gives back the applied membrane
    loads, and integrating stress times z gives back the applied moments, for every laminate and load for which
    a table is returned. *)
Theorem C26_equilibrium : forall l N rows, stress_of l N = Ok rows ->
  resultant (fun _ => 1) rows = fst N /\ resultant (fun z => z) rows = snd N.
Proof. exact T_Strength.t_C26_equilibrium. Qed.
Print Assumptions C26_equilibrium.

(** C26, concrete instance: the unsymmetric [0/90] laminate under Nxx = 1, Mxy = 2 has such a table. *)
Example C26_ex : exists rows, stress_of ex_lam (V3 1 0 0, V3 0 0 2) = Ok rows /\
  resultant (fun _ => 1) rows = V3 1 0 0 /\ resultant (fun z => z) rows = V3 0 0 2.
Proof. exact T_Strength.t_C26_ex. Qed.

(** C27: in every row of calculate_strain the plate-direction strain is the mid-plane strain plus z times the
    curvature (both from epsilon0), for the z of the same row. *)
Theorem C27_linear : forall l N rows, strain_of l N = Ok rows ->
  exists e k, epsilon0_of l N = Ok (e, k) /\ Forall (fun r => r_xy r = vadd e (vscale (r_z r) k)) rows.
Proof. exact T_Strength.t_C27_linear. Qed.
Print Assumptions C27_linear.

(** C27: strains are continuous: the top row of a ply and the bottom row of the next ply have the same z and the same
    plate-direction strains. *)
Theorem C27_continuous : forall l N rows i r r', strain_of l N = Ok rows ->
  nth_error rows (2*i+1) = Some r -> nth_error rows (2*i+2) = Some r' -> r_z r = r_z r' /\ r_xy r = r_xy r'.
Proof. exact T_Strength.t_C27_continuous. Qed.
Print Assumptions C27_continuous.

(** C27, concrete instance: the [0/90] laminate has a table whose rows 1 and 2 are the common face of the two plies. *)
Example C27_ex : exists rows r r', strain_of ex_lam (V3 1 0 0, V3 0 0 2) = Ok rows /\
  nth_error rows 1 = Some r /\ nth_error rows 2 = Some r' /\ r_ply r = 1%nat /\ r_ply r' = 2%nat.
Proof. exact T_Strength.t_C27_ex. Qed.

(** C28: row by row, the material-direction stress is Q_0 of that ply times the material-direction strain; the strain
    energy density is the same in both axis systems; and the traces of stress and strain are invariant. The two
    tables agree in ply, z, position and angle. *)
Theorem C28_consistent : forall l N strains stresses j re rs, strain_of l N = Ok strains -> stress_of l N = Ok stresses ->
  nth_error strains j = Some re -> nth_error stresses j = Some rs ->
  r_ply rs = r_ply re /\ r_z rs = r_z re /\ r_position rs = r_position re /\ r_angle rs = r_angle re /\
  (exists m q, nth_error l (r_ply re - 1) = Some (r_angle re, m) /\ Q_0 m = Ok q /\ r_12 rs = mvec q (r_12 re)) /\
  dot (r_12 rs) (r_12 re) = dot (r_xy rs) (r_xy re) /\
  vx (r_12 rs) + vy (r_12 rs) = vx (r_xy rs) + vy (r_xy rs) /\
  vx (r_12 re) + vy (r_12 re) = vx (r_xy re) + vy (r_xy re).
Proof. exact T_Strength.t_C28_consistent. Qed.
Print Assumptions C28_consistent.

(** C28: the plate-direction stress is what a ply at that angle produces (strain rotated as a tensor into ply axes,
    multiplied by Q_0, rotated back), and material-direction strains are the rotated plate-direction strains. *)
Theorem C28_rotation : forall l N strains stresses j re rs, strain_of l N = Ok strains -> stress_of l N = Ok stresses ->
  nth_error strains j = Some re -> nth_error stresses j = Some rs ->
  exists m q, nth_error l (r_ply re - 1) = Some (r_angle re, m) /\ Q_0 m = Ok q /\
  let c := cos (r_angle re * PI / 180) in let s := sin (r_angle re * PI / 180) in
  r_12 re = eng_strain (rotate_tensor c s (tensor_strain (r_xy re))) /\
  r_xy rs = ply_stress c s q (r_xy re) /\ r_12 rs = rotate_tensor c s (r_xy rs).
Proof. exact T_Strength.t_C28_rotation. Qed.
Print Assumptions C28_rotation.

(** C28, concrete instance: both tables of the [0/90] laminate exist and have a row number 3. *)
Example C28_ex : exists strains stresses re rs, strain_of ex_lam (V3 1 0 0, V3 0 0 2) = Ok strains /\
  stress_of ex_lam (V3 1 0 0, V3 0 0 2) = Ok stresses /\ nth_error strains 3 = Some re /\ nth_error stresses 3 = Some rs /\ r_angle re = 90.
Proof. exact T_Strength.t_C28_ex. Qed.

(** C29: the tables have two rows per ply, from bottom to top; rows 2i and 2i+1 carry ply number i+1, positions bot and
    top, the angle of ply i, and z_position[i] and z_position[i+1]. *)
Theorem C29_shape : forall l N rows, strain_of l N = Ok rows \/ stress_of l N = Ok rows ->
  List.length rows = (2 * List.length l)%nat /\
  forall i th m, nth_error l i = Some (th, m) ->
    exists b t, nth_error rows (2*i) = Some b /\ nth_error rows (2*i+1) = Some t /\
      r_ply b = (i+1)%nat /\ r_ply t = (i+1)%nat /\ r_position b = "bot" /\ r_position t = "top" /\
      r_angle b = th /\ r_angle t = th /\
      nth_error (z_position l) i = Some (r_z b) /\ nth_error (z_position l) (i+1) = Some (r_z t).
Proof. exact T_Strength.t_C29_shape. Qed.
Print Assumptions C29_shape.

(** C30: any sequence of calls (epsilon0, calculate_strain, calculate_stress, calculate_maxstressmargin, and reads of the
    laminate's attributes) on one object returns, call by call, what that call returns on a fresh object: the
    in-place halving of shear strains is never visible. *)
Theorem C30_calls_independent : forall l L N calls, laminate_of l = Ok L -> all_readable l ->
  run_calls N (start L) calls = map (fun c => snd (do_call N c (start L))) calls.
Proof. exact T_Strength.t_C30_calls_independent. Qed.
Print Assumptions C30_calls_independent.

(** C30: in particular the shear column of calculate_strain is the full engineering shear strain, although
    calculate_strain itself runs the halving before it reads that column. *)
Theorem C30_gamma_not_halved : forall l L N e k r1 r2, laminate_of l = Ok L -> epsilon0_of l N = Ok (e, k) ->
  run_calls N (start L) [CStrain; CStrain] = [Ok (ATable r1); Ok (ATable r2)] ->
  r1 = r2 /\ Forall (fun r => vz (r_xy r) = vz e + r_z r * vz k) r1.
Proof. exact T_Strength.t_C30_gamma_not_halved. Qed.
Print Assumptions C30_gamma_not_halved.

(** C30: on laminates built from lamination parameters the tables are not available: calculate_strain, calculate_stress
    and calculate_maxstressmargin raise IndexError. *)
Theorem C30_lamination_parameters : forall d p L N, construct (SDict d) p = Ok L ->
  snd (calculate_strain N (start L)) = Err IndexError /\ snd (calculate_stress N (start L)) = Err IndexError /\
  forall M (mg : allow -> vec3 -> M), snd (calculate_maxstressmargin mg N (start L)) = Err IndexError.
Proof. exact T_Strength.t_C30_lamination_parameters. Qed.
Print Assumptions C30_lamination_parameters.

(** C30, concrete instance: the hypotheses hold for the [0/90] laminate, and two strain tables computed one after the
    other are really obtained. *)
Example C30_ex : exists L r, laminate_of ex_lam = Ok L /\ all_readable ex_lam /\
  run_calls (V3 1 0 0, V3 0 0 2) (start L) [CStrain; CStrain] = [Ok (ATable r); Ok (ATable r)] /\ List.length r = 4%nat.
Proof. exact T_Strength.t_C30_ex. Qed.

(** C32: row j of the margin table is computed from row j of the stress table and from the allowables of the same ply,
    and agrees with it in ply and angle, but the face named in its position column is always the other one. *)
Theorem C32_position_swapped : forall M (mg : allow -> vec3 -> M) l N margins stresses,
  margin_of mg l N = Ok margins -> stress_of l N = Ok stresses ->
  List.length margins = List.length stresses /\
  forall j rm rs, nth_error margins j = Some rm -> nth_error stresses j = Some rs ->
    mr_ply rm = r_ply rs /\ mr_angle rm = r_angle rs /\
    (exists o, nth_error l (r_ply rs - 1) = Some (r_angle rs, Ortho o) /\
       mr_margins rm = mg (Allow (o_t1 o) (o_c1 o) (o_t2 o) (o_c2 o) (o_s o)) (r_12 rs)) /\
    (r_position rs = "bot" /\ mr_position rm = "top" \/ r_position rs = "top" /\ mr_position rm = "bot").
Proof. exact T_Strength.t_C32_position_swapped. Qed.
Print Assumptions C32_position_swapped.

(** C32: hence the two tables disagree on the position of every row. *)
Theorem C32_never_agrees : forall M (mg : allow -> vec3 -> M) l N margins stresses j rm rs,
  margin_of mg l N = Ok margins -> stress_of l N = Ok stresses ->
  nth_error margins j = Some rm -> nth_error stresses j = Some rs -> mr_position rm <> r_position rs.
Proof. exact T_Strength.t_C32_never_agrees. Qed.
Print Assumptions C32_never_agrees.

(** C32, concrete instance: the [0/90] laminate has both tables; the bottom of the first ply is labelled top. *)
Example C32_ex : exists margins stresses rm rs, margin_of (fun a s => (a, s)) ex_lam (V3 1 0 0, V3 0 0 2) = Ok margins /\
  stress_of ex_lam (V3 1 0 0, V3 0 0 2) = Ok stresses /\ nth_error margins 0 = Some rm /\ nth_error stresses 0 = Some rs /\
  mr_position rm = "top" /\ r_position rs = "bot" /\ r_z rs = -1.
Proof. exact T_Strength.t_C32_ex. Qed.

(** C61: the margin table needs orthotropic plies only: with at least one isotropic ply the call raises AttributeError,
    and without any it succeeds whenever the stress table can be computed. *)
Theorem C61_isotropic_margin : forall M (mg : allow -> vec3 -> M) l N,
  ((exists th i, In (th, Iso i) l) -> margin_of mg l N = Err AttributeError) /\
  ((forall th i, ~ In (th, Iso i) l) -> forall stresses, stress_of l N = Ok stresses -> exists margins, margin_of mg l N = Ok margins).
Proof. exact T_Strength.t_C61_isotropic_margin. Qed.
Print Assumptions C61_isotropic_margin.

(** C61, concrete instance: an isotropic ply whose stress table exists has no margin table. *)
Example C61_ex : exists i stresses, stress_of [(0, Iso i)] (V3 1 0 0, V3 0 0 2) = Ok stresses /\
  margin_of (fun a s => (a, s)) [(0, Iso i)] (V3 1 0 0, V3 0 0 2) = Err AttributeError.
Proof. exact T_Strength.t_C61_ex. Qed.

(** C62: superposition: every stress and strain column of the tables is linear in the six loads, row by row. *)
Theorem C62_superposition : forall l N1 N2 k (table : loads -> res (list row)) t1 t2,
  table = strain_of l \/ table = stress_of l -> table N1 = Ok t1 -> table N2 = Ok t2 ->
  exists t, table (add6 N1 (scale6 k N2)) = Ok t /\
  forall j r r1 r2, nth_error t j = Some r -> nth_error t1 j = Some r1 -> nth_error t2 j = Some r2 ->
    r_xy r = vadd (r_xy r1) (vscale k (r_xy r2)) /\ r_12 r = vadd (r_12 r1) (vscale k (r_12 r2)) /\
    r_z r = r_z r1 /\ r_z r = r_z r2.
Proof. exact T_Strength.t_C62_superposition. Qed.
Print Assumptions C62_superposition.

(** C62, concrete instance: the [0/90] laminate has stress tables for two different loads. *)
Example C62_ex : exists t1 t2, stress_of ex_lam (V3 1 0 0, V3 0 0 2) = Ok t1 /\ stress_of ex_lam (V3 0 3 0, V3 0 1 0) = Ok t2 /\
  List.length t1 = 4%nat /\ List.length t2 = 4%nat.
Proof. exact T_Strength.t_C62_ex. Qed.
