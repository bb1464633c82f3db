(** composipy/core/property.py: the lamination parameters of an angle layup in binary64. Angles and thicknesses are Python floats; np.cos, np.sin and ** are arguments
    (M_LayupFloat.v). Dividing a numpy array by zero does not raise. *)
From Coq Require Import ZArith List.
From Verif Require Import M_Py M_K M_Float M_FloatArith M_Validate M_MatFloat M_LamArith M_LayupFloat.
Import ListNotations.

(** property.py:279, 296 : angle *= np.pi / 180 *)
Definition scaled_angle (theta : f64) : f64 := fmul theta (fdiv fpi (f_of_Z 180)).
(** property.py:283-286, 300-303 : the four values the weight of a ply is multiplied with *)
Definition trig4 (np : numpy) (angle : f64) (k : nat) : f64 :=
  match k with
  | 0 => np_cos np (fmul (f_of_Z 2) angle)
  | 1 => np_sin np (fmul (f_of_Z 2) angle)
  | 2 => np_cos np (fmul (f_of_Z 4) angle)
  | _ => np_sin np (fmul (f_of_Z 4) angle)
  end.
(** property.py:278-286, 295-303 : the loop; the weight is written four times and has the same value each time *)
Fixpoint xi_loop_f (np : numpy) (w : f64 -> f64 -> res f64) (z : list f64) (angles : list f64) (i : nat) (acc : nat -> f64) : res (nat -> f64) :=
  match angles with
  | [] => Ok acc
  | theta :: r =>
      zk1 <- get z (i+1) ;;
      zk0 <- get z i ;;
      v <- w zk1 zk0 ;;
      xi_loop_f np w z r (i+1) (fun k => fadd (acc k) (fmul v (trig4 np (scaled_angle theta) k)))
  end.
(** property.py:300-303 : zk1**3-zk0**3 *)
Definition weight_cubes (pow : f64 -> nat -> res f64) (zk1 zk0 : f64) : res f64 :=
  p1 <- pow zk1 3 ;; p0 <- pow zk0 3 ;; Ok (fsub p1 p0).
(** the thicknesses of a layup and their sum, property.py:277, 294; the sum starts with the int 0 *)
Definition thick (l : list (f64 * fmaterial)) : list f64 := map (fun p => f_thickness (snd p)) l.
Definition total_f (np : numpy) (l : list (f64 * fmaterial)) : f64 := @thickness_sum (FA (np_pow np)) (thick l) (f_of_Z 0).
(** property.py:273-288 : xiA *)
Definition xiA_f (np : numpy) (l : list (f64 * fmaterial)) : res (list f64) :=
  z <- @positions (FA (np_pow np)) (thick l) ;;
  s <- xi_loop_f np (fun zk1 zk0 => Ok (fsub zk1 zk0)) z (map fst l) 0 (fun _ => f_of_Z 0) ;;
  Ok (map (fun k => fdiv (s k) (total_f np l)) [0; 1; 2; 3]).
(** property.py:290-304 : xiD *)
Definition xiD_f (np : numpy) (l : list (f64 * fmaterial)) : res (list f64) :=
  z <- @positions (FA (np_pow np)) (thick l) ;;
  s <- xi_loop_f np (weight_cubes (np_pow np)) z (map fst l) 0 (fun _ => f_of_Z 0) ;;
  t3 <- np_pow np (total_f np l) 3 ;;
  Ok (map (fun k => fdiv (fmul (f_of_Z 4) (s k)) t3) [0; 1; 2; 3]).
