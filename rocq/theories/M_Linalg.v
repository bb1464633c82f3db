(** np.linalg.inv for 6x6 matrices (used at core/strength.py:64): Gaussian elimination on augmented rows,
    LinAlgError when singular.  In exact arithmetic the result does not depend on the pivoting strategy
    (S: the inverse is unique), so the first non-zero pivot is taken instead of LAPACK's largest one. *)
From Coq Require Import Reals List.
From Verif Require Import M_Py S_Mat M_Laminate.
Import ListNotations.
Open Scope R_scope.

(** an equation: coefficients and right-hand side *)
Definition eqn := (list R * R)%type.

(** first equation whose leading coefficient is not zero, with the remaining equations *)
Fixpoint find_pivot (rows : list eqn) : option (R * list R * R * list eqn) :=
  match rows with
  | [] => None
  | (a :: p, b) :: t =>
      if Req_EM_T a 0
      then match find_pivot t with
           | Some (a', p', b', rest) => Some (a', p', b', (a :: p, b) :: rest)
           | None => None
           end
      else Some (a, p, b, t)
  | ([], b) :: t => None
  end.
Fixpoint zip_with (f : R -> R -> R) (u v : list R) : list R :=
  match u, v with
  | x :: u', y :: v' => f x y :: zip_with f u' v'
  | _, _ => []
  end.
Definition eliminate (a : R) (p : list R) (b : R) (row : eqn) : eqn :=
  match row with
  | (c :: r, d) => (zip_with (fun x y => x - c / a * y) r p, d - c / a * b)
  | ([], d) => ([], d)
  end.
Fixpoint ldot (u v : list R) : R :=
  match u, v with
  | x :: u', y :: v' => x * y + ldot u' v'
  | _, _ => 0
  end.
(** solve n equations in n unknowns; None when the matrix is singular *)
Fixpoint solve (n : nat) (rows : list eqn) : option (list R) :=
  match n with
  | O => Some []
  | S n' =>
      match find_pivot rows with
      | None => None
      | Some (a, p, b, rest) =>
          match solve n' (map (eliminate a p b) rest) with
          | None => None
          | Some x => Some ((b - ldot p x) / a :: x)
          end
      end
  end.

Definition rows6 (M : mat6) : list (list R) :=
  let r (X Y : mat3) :=
    [[a11 X; a12 X; a13 X; a11 Y; a12 Y; a13 Y];
     [a21 X; a22 X; a23 X; a21 Y; a22 Y; a23 Y];
     [a31 X; a32 X; a33 X; a31 Y; a32 Y; a33 Y]] in
  (r (blkA M) (blkB M) ++ r (blkC M) (blkD M))%list.
Definition unit6 (j : nat) : list R := map (fun i => if Nat.eqb i j then 1 else 0) (seq 0 6).
Definition column (M : mat6) (j : nat) : option (list R) := solve 6 (combine (rows6 M) (unit6 j)).
Definition of_columns (c1 c2 c3 c4 c5 c6 : list R) : mat6 :=
  let e i c := nth i c 0 in
  let blk i cs := match cs with
    | (c, c', c'') => M3 (e i c) (e i c') (e i c'') (e (i+1)%nat c) (e (i+1)%nat c') (e (i+1)%nat c'')
                         (e (i+2)%nat c) (e (i+2)%nat c') (e (i+2)%nat c'') end in
  M6 (blk 0%nat (c1, c2, c3)) (blk 0%nat (c4, c5, c6)) (blk 3%nat (c1, c2, c3)) (blk 3%nat (c4, c5, c6)).
Definition inv6 (M : mat6) : res mat6 :=
  match column M 0, column M 1, column M 2, column M 3, column M 4, column M 5 with
  | Some c1, Some c2, Some c3, Some c4, Some c5, Some c6 => Ok (of_columns c1 c2 c3 c4 c5 c6)
  | _, _, _, _, _, _ => Err LinAlgError
  end.
