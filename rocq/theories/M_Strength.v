(** Model of composipy/core/strength.py : class LaminateStrength (strain and stress tables, row structure of the
    margin table; the margin arithmetic itself is modelled on binary64 in M_Margin.v).

    State: the LaminateProperty object with its caches and a heap of numpy vectors.  The heap is there because
    _epsilonk_123 (strength.py:133-134) writes in place into the arrays it receives from _epsilonk.  Arrays that
    are created and never written to (epsilon, kappa, stresses, material-direction results) are plain values.
    Numbers are exact reals.  pd.DataFrame is the list of its rows; pd.set_option has no effect on values. *)
From Coq Require Import Reals List String.
From Verif Require Import M_Py S_Mat M_Material M_Laminate M_LamHistory M_Linalg S_Laminate.
Import ListNotations.
Open Scope string_scope.
Open Scope list_scope.
Open Scope R_scope.

Record world := World { w_lam : lam; w_heap : list vec3 }.
Definition ST (A : Type) := world -> world * res A.
Definition ret {A} (x : A) : ST A := fun w => (w, Ok x).
Definition lift {A} (x : res A) : ST A := fun w => (w, x).
Definition sbind {A B} (x : ST A) (f : A -> ST B) : ST B :=
  fun w => let (w', r) := x w in match r with Ok a => f a w' | Err e => (w', Err e) end.
Notation "x <~ e1 ;; e2" := (sbind e1 (fun x => e2)) (at level 61, e1 at next level, right associativity).
Fixpoint smapM {A B} (f : A -> ST B) (l : list A) : ST (list B) :=
  match l with
  | [] => ret []
  | x :: t => y <~ f x ;; r <~ smapM f t ;; ret (y :: r)
  end.
(** reading an attribute of self.dproperty *)
Definition on_lam {A} (f : lam -> lam * res A) : ST A :=
  fun w => let (L', r) := f (w_lam w) in (World L' (w_heap w), r).
Definition lam_get {A} (f : lam -> A) : ST A := fun w => (w, Ok (f (w_lam w))).
(** numpy vectors: allocation, reading all components, overwriting *)
Definition addr := nat.
Definition alloc (v : vec3) : ST addr := fun w => (World (w_lam w) (w_heap w ++ [v]), Ok (List.length (w_heap w))).
Definition load (a : addr) : ST vec3 := fun w => (w, get (w_heap w) a).
Fixpoint upd (h : list vec3) (a : nat) (v : vec3) : list vec3 :=
  match h, a with
  | [], _ => []
  | _ :: t, O => v :: t
  | x :: t, S a' => x :: upd t a' v
  end.
Definition save (a : addr) (v : vec3) : ST unit := fun w => (World (w_lam w) (upd (w_heap w) a v), Ok tt).

(** strength.py:65 : the load vector (Nxx, Nyy, Nxy), (Mxx, Myy, Mxy) *)
Definition loads := (vec3 * vec3)%type.

(** strength.py:53-66 : epsilon0 *)
Definition epsilon0 (N : loads) : ST (vec3 * vec3) :=
  ABD <~ on_lam get_ABD ;;
  abd <~ lift (inv6 ABD) ;;
  ret (mvec6 abd N).

(** len(self.dproperty.stacking) : number of angles, or number of keys of the dict *)
Definition stacking_len (s : stacking_t) : nat :=
  match s with SAngles l => List.length l | SDict d => List.length d end.

(** strength.py:69-97 : _epsilonk *)
Definition epsilonk (N : loads) : ST (list (addr * addr)) :=
  s <~ lam_get stacking ;;
  l <~ lam_get layup ;;
  let z := z_position l in
  zmid <~ lift (mapM (fun i => zi <- get z i ;; zj <- get z (i+1) ;; Ok (zi, zj)) (seq 0 (stacking_len s))) ;;
  e0 <~ epsilon0 N ;;
  let epsilon := fst e0 in
  let kappa := snd e0 in
  smapM (fun h : R * R => let (htop, hbot) := h in
           t <~ alloc (vadd epsilon (vscale htop kappa)) ;;
           b <~ alloc (vadd epsilon (vscale hbot kappa)) ;;
           ret (t, b)) zmid.

(** strength.py:100-121 : _stressk *)
Definition stressk (N : loads) : ST (list (vec3 * vec3)) :=
  Qk <~ on_lam get_Q_layup ;;
  ek <~ epsilonk N ;;
  smapM (fun p : mat3 * (addr * addr) => let '(Q, (t, b)) := p in
           et <~ load t ;;
           eb <~ load b ;;
           ret (mvec Q et, mvec Q eb)) (combine Qk ek).

(** Iterating over stacking: the angles; a dict yields its keys, and theta*np.pi with a str is a TypeError.
    (Not reachable here: for a dict stacking _epsilonk has already raised IndexError, see C30_lamination_parameters.) *)
Definition angles (s : stacking_t) : ST (list R) :=
  match s with SAngles l => ret l | SDict _ => lift (Err TypeError) end.

Definition halve3 (v : vec3) := V3 (vx v) (vy v) (vz v / 2).           (* v[2] /= 2 *)
Definition double3 (v : vec3) := V3 (vx v) (vy v) (vz v * 2).          (* v[2] *= 2 *)

(** strength.py:123-148 : _epsilonk_123, with the in-place divisions of lines 133-134 on the heap *)
Definition epsilonk_123 (N : loads) : ST (list (vec3 * vec3)) :=
  s <~ lam_get stacking ;;
  ek <~ epsilonk N ;;
  th <~ angles s ;;
  smapM (fun p : R * (addr * addr) => let '(theta, (t, b)) := p in
           et <~ load t ;; _ <~ save t (halve3 et) ;;
           eb <~ load b ;; _ <~ save b (halve3 eb) ;;
           let T := T_real (cdeg theta) (sdeg theta) in
           et' <~ load t ;;
           eb' <~ load b ;;
           ret (double3 (mvec T et'), double3 (mvec T eb'))) (combine th ek).

(** strength.py:151-176 : _stressk_123 *)
Definition stressk_123 (N : loads) : ST (list (vec3 * vec3)) :=
  s <~ lam_get stacking ;;
  sk <~ stressk N ;;
  th <~ angles s ;;
  ret (map (fun p : R * (vec3 * vec3) => let '(theta, (t, b)) := p in
         let T := T_real (cdeg theta) (sdeg theta) in (mvec T t, mvec T b)) (combine th sk)).

(** One DataFrame row: columns ply, z, position, angle, three plate-direction columns, three
    material-direction columns *)
Record row := Row { r_ply : nat; r_z : R; r_position : string; r_angle : R; r_xy : vec3; r_12 : vec3 }.

(** strength.py:239-264 / 307-332 : the row loop; [i] is the enumerate index, cur_ply = i+1 *)
Fixpoint row_loop (z : list R) (i : nat) (l : list ((vec3 * vec3) * ((vec3 * vec3) * R))) : res (list row) :=
  match l with
  | [] => Ok []
  | ((t, b), ((t12, b12), theta)) :: rest =>
      z0 <- get z i ;;
      z1 <- get z (i+1) ;;
      r <- row_loop z (i+1) rest ;;
      Ok (Row (i+1) z0 "bot" theta t t12 :: Row (i+1) z1 "top" theta b b12 :: r)
  end.

(** strength.py:202-266 : calculate_strain *)
Definition calculate_strain (N : loads) : ST (list row) :=
  ek <~ epsilonk N ;;
  ek123 <~ epsilonk_123 N ;;
  s <~ lam_get stacking ;;
  l <~ lam_get layup ;;
  th <~ angles s ;;
  vals <~ smapM (fun p : addr * addr => let (t, b) := p in et <~ load t ;; eb <~ load b ;; ret (et, eb)) ek ;;
  lift (row_loop (z_position l) 0 (combine vals (combine ek123 th))).

(** strength.py:269-334 : calculate_stress *)
Definition calculate_stress (N : loads) : ST (list row) :=
  sk <~ stressk N ;;
  sk123 <~ stressk_123 N ;;
  s <~ lam_get stacking ;;
  l <~ lam_get layup ;;
  th <~ angles s ;;
  lift (row_loop (z_position l) 0 (combine sk (combine sk123 th))).

(** strength.py:178-200 : _allowablek_123.  IsotropicMaterial has attributes t, c, s but no t1: AttributeError. *)
Record allow := Allow { al_t1 : R; al_c1 : R; al_t2 : R; al_c2 : R; al_s : R }.
Definition allowable (m : material) : res allow :=
  match m with
  | Ortho o => Ok (Allow (o_t1 o) (o_c1 o) (o_t2 o) (o_c2 o) (o_s o))
  | Iso _ => Err AttributeError
  end.
(** strength.py:336-389 : _calculate_maxstressallowable (columns ply, position, angle and the five allowables) *)
Record arow := ARow { ar_ply : nat; ar_position : string; ar_angle : R; ar_allow : allow }.
Fixpoint allow_loop (i : nat) (l : list (allow * R)) : list arow :=
  match l with
  | [] => []
  | (al, theta) :: t => ARow (i+1) "top" theta al :: ARow (i+1) "bot" theta al :: allow_loop (i+1) t
  end.
Definition calculate_maxstressallowable : ST (list arow) :=
  l <~ lam_get layup ;;
  al <~ lift (mapM (fun p => allowable (snd p)) l) ;;
  s <~ lam_get stacking ;;
  (* zip(allowablek_123, stacking): for a dict stacking the layup, hence the first list, is empty *)
  ret (allow_loop 0 (match s with SAngles th => combine al th | SDict _ => [] end)).

(** strength.py:391-426 : calculate_maxstressmargin.  The two tables have the same RangeIndex, so pandas combines
    them row by row; [mg] is the margin formula (M_Margin.v), applied to the allowables of row j of the
    allowable table and to (sigma1, sigma2, tau12) of row j of the stress table; ply, position and angle are
    copied from the allowable table (lines 415-417). *)
Record mrow (M : Type) := MRow { mr_ply : nat; mr_position : string; mr_angle : R; mr_margins : M }.
Arguments MRow {M}. Arguments mr_ply {M}. Arguments mr_position {M}. Arguments mr_angle {M}. Arguments mr_margins {M}.
Definition calculate_maxstressmargin {M} (mg : allow -> vec3 -> M) (N : loads) : ST (list (mrow M)) :=
  al <~ calculate_maxstressallowable ;;
  st <~ calculate_stress N ;;
  ret (map (fun p => MRow (ar_ply (fst p)) (ar_position (fst p)) (ar_angle (fst p)) (mg (ar_allow (fst p)) (r_12 (snd p))))
           (combine al st)).

(** Public calls on one LaminateStrength object, and their results *)
Inductive call := CEps0 | CStrain | CStress | CMargin | CRead (r : M_LamHistory.read).
Inductive answer :=
| AVec (x : vec3 * vec3) | ATable (t : list row) | AMargin (t : list (mrow (allow * vec3))) | ARead (v : M_LamHistory.value).
Definition do_call (N : loads) (c : call) : ST answer :=
  match c with
  | CEps0 => x <~ epsilon0 N ;; ret (AVec x)
  | CStrain => x <~ calculate_strain N ;; ret (ATable x)
  | CStress => x <~ calculate_stress N ;; ret (ATable x)
  | CMargin => x <~ calculate_maxstressmargin (fun a s => (a, s)) N ;; ret (AMargin x)
  | CRead r => x <~ on_lam (fun L => M_LamHistory.do_read L r) ;; ret (ARead x)
  end.
Fixpoint run_calls (N : loads) (w : world) (cs : list call) : list (res answer) :=
  match cs with
  | [] => []
  | c :: t => let (w', r) := do_call N c w in r :: run_calls N w' t
  end.
