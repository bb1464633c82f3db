(** The through-thickness sums of composipy/core/property.py (z_position, A, B and D of an angle layup) written over an abstract
    arithmetic, so that the same text is run in exact reals and in binary64. Each ply is its thickness and its array of Q_layup
    (an argument here; in binary64 it comes from M_LayupFloat.v). *)
From Coq Require Import List ZArith.
From Verif Require Import M_Py M_K.
Import ListNotations.

Section Lam.
Context {A : arith}.

(** property.py:112-114 : the sum starts with the int 0 *)
Fixpoint thickness_sum (ts : list (num A)) (acc : num A) : num A :=
  match ts with [] => acc | t :: r => thickness_sum r (nadd A acc t) end.
(** property.py:117-120 *)
Fixpoint interfaces (ts : list (num A)) (current_z : num A) : list (num A) :=
  match ts with
  | [] => []
  | t :: r => let z := nadd A current_z t in z :: interfaces r z
  end.
(** property.py:110-122 : z_position. For an empty layup the total is still the int 0, and -0/2 is 0.0 *)
Definition positions (ts : list (num A)) : res (list (num A)) :=
  match ts with
  | [] => Ok [nint A 0]
  | _ => current_z <- ndiv A (nneg A (thickness_sum ts (nint A 0))) (nint A 2) ;;
         Ok (current_z :: interfaces ts current_z)
  end.

(** property.py:205 *)
Definition weight_A (zk1 zk0 : num A) : res (num A) := Ok (nsub A zk1 zk0).
(** property.py:228 *)
Definition weight_B (zk1 zk0 : num A) : res (num A) :=
  h <- ndiv A (nint A 1) (nint A 2) ;;
  p1 <- npow A zk1 2 ;; p0 <- npow A zk0 2 ;;
  Ok (nmul A h (nsub A p1 p0)).
(** property.py:261 *)
Definition weight_D (zk1 zk0 : num A) : res (num A) :=
  h <- ndiv A (nint A 1) (nint A 3) ;;
  p1 <- npow A zk1 3 ;; p0 <- npow A zk0 3 ;;
  Ok (nmul A h (nsub A p1 p0)).

(** property.py:202-205, 225-228, 258-261 : the loops over enumerate(Q_layup), starting from np.zeros *)
Fixpoint sum_plies (f : num A -> num A -> res (num A)) (z : list (num A)) (Qs : list (@arr A)) (i : nat) (acc : @arr A) : res (@arr A) :=
  match Qs with
  | [] => Ok acc
  | Q :: r =>
      zk1 <- get z (i+1) ;;
      zk0 <- get z i ;;
      w <- f zk1 zk0 ;;
      sum_plies f z r (i+1) (fun p q => nadd A (acc p q) (nmul A w (Q p q)))
  end.
Definition laminate_matrix (f : num A -> num A -> res (num A)) (ts : list (num A)) (Qs : list (@arr A)) : res (@arr A) :=
  z <- positions ts ;; sum_plies f z Qs 0 (fun _ _ => nint A 0).
(** property.py:176-206, 208-229, 231-262 for an angle layup read for the first time *)
Definition matrix_A := laminate_matrix weight_A.
Definition matrix_B := laminate_matrix weight_B.
Definition matrix_D := laminate_matrix weight_D.
End Lam.
