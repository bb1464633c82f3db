(** Vocabulary for lamination parameters in binary64. *)
From Coq Require Import Reals ZArith.
From Flocq Require Import IEEE754.BinarySingleNaN.
From Coq Require Import List.
From Verif Require Import M_Py M_Float M_FloatArith M_Validate M_Material M_Laminate M_MatFloat M_LamArith M_LayupFloat M_LpFloat M_XiFloat S_Mat S_Laminate S_Ritz S_Round S_LamRound S_MatFloat S_LayupFloat S_LpFloat.
Import ListNotations.
Open Scope R_scope.

(** np.cos and np.sin are accurate to two units at twice and four times the angle in radians *)
Definition xi_near (np : numpy) (theta : f64) : Prop :=
  trig_near np (fmul (f_of_Z 2) (scaled_angle theta)) /\ trig_near np (fmul (f_of_Z 4) (scaled_angle theta)).
(** up to a million plies of usual thickness, at such angles up to 360 degrees *)
Definition xi_layup (np : numpy) (l : list (f64 * fmaterial)) : Prop :=
  pow_near (np_pow np) /\ Forall (fun p => xi_near np (fst p) /\ usual_angle (fst p)) l /\ usual_plies (map (fun p => f_thickness (snd p)) l).
(** xiA (p = 1) and xiD (p = 3) as computed and in exact numbers *)
Definition parameters_f (np : numpy) (p : nat) : list (f64 * fmaterial) -> res (list f64) := match p with 1%nat => xiA_f np | _ => xiD_f np end.
Definition parameters (p : nat) : list (R * material) -> res vec4 := match p with 1%nat => xiA_of | _ => xiD_of end.
(** error bound *)
Definition xi_off (p : nat) (l : list (f64 * fmaterial)) : R := (match p with 1%nat => 3 * INR (length l) + 120 | _ => 24 * INR (length l) + 150 end) * unit.
(** each of four doubles is finite and within eps of the number *)
Definition four_within (eps : R) (xs : list f64) (v : vec4) : Prop :=
  let '(a, b, c, d) := v in Forall2 (fun x r => is_finite x = true /\ Rabs (B2R x - r) <= eps) xs [a; b; c; d].
(** A (p = 1) and D (p = 3) computed from lamination parameters and a thickness *)
Definition lp_matrix_f (np : numpy) (p : nat) (f : fomat) (xs : list f64) (T : f64) : res farr := match p with 1%nat => A_lp_f f xs T | _ => D_lp_f (np_pow np) f xs T end.
(** bound for the difference of A and D from the plies and from the computed lamination parameters *)
Definition trip_off (np : numpy) (k mu q : R) (p : nat) (l : list (f64 * fmaterial)) : R :=
  matrix_off k mu q p l + lp_off mu q p (total_f np l) + (3 * INR (length l) * unit + 2 * xi_off p l) * q * total l ^ p.
