(** Histories of attribute reads on one LaminateProperty object, and caller actions on its public state. *)
From Coq Require Import Reals List String.
From Verif Require Import M_Py S_Mat M_Material M_Laminate.
Import ListNotations.
Open Scope R_scope.

(** The nine public attributes computed by property.py:110-304. *)
Inductive read := RdA | RdB | RdD | RdABD | RdQ_layup | RdT_layup | RdZ | RdXiA | RdXiD.
Inductive value :=
| VMat (m : mat3) | VMat6 (m : mat6) | VMats (l : list mat3) | VTs (l : list (mat3 * mat3))
| VZs (l : list R) | VXi (x : vec4).

Definition wrap {A} (f : A -> value) (x : lam * res A) : lam * res value :=
  (fst x, v <- snd x ;; Ok (f v)).

Definition do_read (L : lam) (r : read) : lam * res value :=
  match r with
  | RdA => wrap VMat (get_A L)
  | RdB => wrap VMat (get_B L)
  | RdD => wrap VMat (get_D L)
  | RdABD => wrap VMat6 (get_ABD L)
  | RdQ_layup => wrap VMats (get_Q_layup L)
  | RdT_layup => wrap VTs (get_T_layup L)
  | RdZ => (L, Ok (VZs (z_position (layup L))))
  | RdXiA => wrap VXi (L, get_xiA L)
  | RdXiD => wrap VXi (L, get_xiD L)
  end.

(** The caller can also re-assign the public attribute [layup] (property.py:95 stores it as a plain
    attribute), or write into the array returned by [A], which is the cached object itself
    (property.py:206 returns self._A).  [UserWriteA m] stands for overwriting the contents of the last array
    returned by A with [m]. *)
Inductive action := Read (r : read) | SetLayup (l : list (R * material)) | UserWriteA (m : mat3).

Definition set_layup (L : lam) l :=
  Lam (stacking L) (plies L) l (c_Q L) (c_T L) (c_A L) (c_B L) (c_D L) (p_xiA L) (p_xiB L) (p_xiD L) (p_T L).

Definition step (L : lam) (a : action) : lam * option (res value) :=
  match a with
  | Read r => let (L', v) := do_read L r in (L', Some v)
  | SetLayup l => (set_layup L l, None)
  | UserWriteA m => (match c_A L with Some _ => set_A L m | None => L end, None)
  end.

(** Observed results of a sequence of reads / actions *)
Fixpoint run (L : lam) (rs : list read) : list (res value) :=
  match rs with
  | [] => []
  | r :: t => let (L', v) := do_read L r in v :: run L' t
  end.
Fixpoint run_actions (L : lam) (l : list action) : list (option (res value)) :=
  match l with
  | [] => []
  | a :: t => let (L', v) := step L a in v :: run_actions L' t
  end.
