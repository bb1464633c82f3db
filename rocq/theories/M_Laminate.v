(** Model of composipy/core/property.py : class LaminateProperty, including its lazily filled caches.

    The object is the record [lam]; every attribute read is a state transformer
    [lam -> lam * res value]: the state is returned also when the read raises, because Python keeps the
    assignments executed before the exception.
    Numbers are exact reals; np.pi is PI; numpy arrays are values (aliasing of returned arrays with the
    caches is modelled separately by the operation [UserWrite] of M_LamHistory.v). *)
From Coq Require Import Reals List String.
From Verif Require Import M_Py S_Mat M_Material.
Import ListNotations.
Open Scope R_scope.

(** The [stacking] argument: a sequence of angles, or a dict (insertion-ordered association list; only
    number, vector and None values occur). *)
Inductive dval := DVec (v : list R) | DNum (r : R) | DNone.
Definition dict := list (string * dval).
Inductive stacking_t := SAngles (l : list R) | SDict (d : dict).
(** The [plies] argument: a Material or a list of Materials. *)
Inductive plies_t := POne (m : material) | PMany (l : list material).

Record lam := Lam {
  stacking : stacking_t;
  plies : plies_t;
  layup : list (R * material);
  c_Q : option (list mat3);            (* _Q_layup *)
  c_T : option (list (mat3 * mat3));   (* _T_layup *)
  c_A : option mat3;                   (* _A *)
  c_B : option mat3;                   (* _B *)
  c_D : option mat3;                   (* _D *)
  p_xiA : dval;                        (* _xiA, DNone for None *)
  p_xiB : dval;                        (* _xiB *)
  p_xiD : dval;                        (* _xiD *)
  p_T : dval                           (* _total_thickness *)
}.

Fixpoint lookup (d : dict) (k : string) : option dval :=
  match d with
  | [] => None
  | (k', v) :: t => if String.eqb k k' then Some v else lookup t k
  end.

(** property.py:61-107 : __init__.  Branch by branch:
    - lines 63-73, angles: one Material is replicated, otherwise the lengths must agree;
    - lines 75-91, dict: xiA and xiB default to None; for a missing xiD or T the except clause only
      *creates* a KeyError object (lines 86, 90), so the local stays unassigned and lines 106/107 raise
      UnboundLocalError. *)
Definition construct (s : stacking_t) (p : plies_t) : res lam :=
  match s with
  | SAngles angles =>
      pl <- match p with
            | POne m => Ok (repeat m (List.length angles))
            | PMany l => if Nat.eqb (List.length l) (List.length angles) then Ok l else Err ValueError
            end ;;
      Ok (Lam s (PMany pl) (combine angles pl) None None None None None DNone DNone DNone DNone)
  | SDict d =>
      let xiA := match lookup d "xiA" with Some v => v | None => DNone end in
      let xiB := match lookup d "xiB" with Some v => v | None => DNone end in
      xiD <- match lookup d "xiD" with Some v => Ok v | None => Err UnboundLocalError end ;;
      T <- match lookup d "T" with Some v => Ok v | None => Err UnboundLocalError end ;;
      Ok (Lam s p [] None None None None None xiA xiB xiD T)
  end.

(** property.py:110-123 : z_position *)
Fixpoint total_thickness (l : list (R * material)) (acc : R) : R :=
  match l with [] => acc | t :: r => total_thickness r (acc + thickness (snd t)) end.
Fixpoint z_loop (l : list (R * material)) (current_z : R) : list R :=
  match l with
  | [] => []
  | t :: r => let z := current_z + thickness (snd t) in z :: z_loop r z
  end.
Definition z_position (l : list (R * material)) : list R :=
  let current_z := - total_thickness l 0 / 2 in
  current_z :: z_loop l current_z.

(** property.py:131-143 and 158-171 : transformation matrices of a ply at [theta] degrees *)
Definition cdeg (theta : R) : R := cos (theta * PI / 180).
Definition sdeg (theta : R) : R := sin (theta * PI / 180).
Definition T_real (c s : R) : mat3 :=
  M3 (c^2) (s^2) (2*c*s)
     (s^2) (c^2) (-2*c*s)
     (-c*s) (c*s) (c^2-s^2).
Definition T_engineering (c s : R) : mat3 :=
  M3 (c^2) (s^2) (c*s)
     (s^2) (c^2) (-c*s)
     (-2*c*s) (2*c*s) (c^2-s^2).

(** np.linalg.inv on a 3x3 matrix: LinAlgError when singular, else the inverse (cofactor formula; in exact
    arithmetic the result does not depend on the algorithm). *)
Definition inv3 (A : mat3) : res mat3 :=
  if Req_EM_T (det3 A) 0 then Err LinAlgError else Ok (mscale (/ det3 A) (adj3 A)).

(** property.py:145-149 : one entry of Q_layup; operands are evaluated left to right *)
Definition Q_ply (theta : R) (m : material) : res mat3 :=
  let c := cdeg theta in
  let s := sdeg theta in
  Ti <- inv3 (T_real c s) ;;
  q <- Q_0 m ;;
  Ok (mmul (mmul Ti q) (T_engineering c s)).

(** property.py:129-149 : the loop appends to the list already stored in the cache; on an exception the
    entries appended so far stay there. Result: (entries appended, exception if any). *)
Fixpoint Q_loop (l : list (R * material)) (acc : list mat3) : list mat3 * option exn :=
  match l with
  | [] => (acc, None)
  | (theta, ply) :: t =>
      match Q_ply theta ply with
      | Ok q => Q_loop t (acc ++ [q])%list
      | Err e => (acc, Some e)
      end
  end.

Definition set_Q (L : lam) q := Lam (stacking L) (plies L) (layup L) (Some q) (c_T L) (c_A L) (c_B L) (c_D L) (p_xiA L) (p_xiB L) (p_xiD L) (p_T L).
Definition set_T (L : lam) t := Lam (stacking L) (plies L) (layup L) (c_Q L) (Some t) (c_A L) (c_B L) (c_D L) (p_xiA L) (p_xiB L) (p_xiD L) (p_T L).
Definition set_A (L : lam) a := Lam (stacking L) (plies L) (layup L) (c_Q L) (c_T L) (Some a) (c_B L) (c_D L) (p_xiA L) (p_xiB L) (p_xiD L) (p_T L).
Definition set_B (L : lam) b := Lam (stacking L) (plies L) (layup L) (c_Q L) (c_T L) (c_A L) (Some b) (c_D L) (p_xiA L) (p_xiB L) (p_xiD L) (p_T L).
Definition set_D (L : lam) d := Lam (stacking L) (plies L) (layup L) (c_Q L) (c_T L) (c_A L) (c_B L) (Some d) (p_xiA L) (p_xiB L) (p_xiD L) (p_T L).

(** property.py:125-150 : Q_layup *)
Definition get_Q_layup (L : lam) : lam * res (list mat3) :=
  match c_Q L with
  | Some q => (L, Ok q)
  | None => match Q_loop (layup L) [] with
            | (q, None) => (set_Q L q, Ok q)
            | (q, Some e) => (set_Q L q, Err e)
            end
  end.

(** property.py:152-174 : T_layup *)
Definition get_T_layup (L : lam) : lam * res (list (mat3 * mat3)) :=
  match c_T L with
  | Some t => (L, Ok t)
  | None => let t := map (fun th => (T_real (cdeg (fst th)) (sdeg (fst th)),
                                     T_engineering (cdeg (fst th)) (sdeg (fst th)))) (layup L) in
            (set_T L t, Ok t)
  end.

(** The accumulation loops of property.py:202-205, 225-228, 258-261:
    [for i in enumerate(Q): M += f(z[i+1], z[i]) * Q[i]] with bounds-checked indexing. *)
Fixpoint accumulate (f : R -> R -> R) (z : list R) (Qs : list mat3) (i : nat) (acc : mat3) : mat3 * option exn :=
  match Qs with
  | [] => (acc, None)
  | Q :: t =>
      match (zk1 <- get z (i+1) ;; zk0 <- get z i ;; Ok (f zk1 zk0)) with
      | Ok w => accumulate f z t (i+1) (madd acc (mscale w Q))
      | Err e => (acc, Some e)
      end
  end.

Definition wA (zk1 zk0 : R) : R := zk1 - zk0.                         (* property.py:205 *)
Definition wB (zk1 zk0 : R) : R := (1/2) * (zk1^2 - zk0^2).           (* property.py:228 *)
Definition wD (zk1 zk0 : R) : R := (1/3) * (zk1^3 - zk0^3).           (* property.py:261 *)

(** [xi1, xi2, xi3, xi4 = v] : unpacking *)
Definition unpack4 (v : dval) : res (R * R * R * R) :=
  match v with
  | DVec [x1; x2; x3; x4] => Ok (x1, x2, x3, x4)
  | DVec _ => Err ValueError
  | _ => Err TypeError
  end.
Definition the_invariants (p : plies_t) : res (R * R * R * R * R) :=
  match p with POne m => Invariants m | PMany _ => Err AttributeError end.
Definition as_num (v : dval) : res R := match v with DNum r => Ok r | _ => Err TypeError end.

(** property.py:185-197 : A from lamination parameters *)
Definition A_from_xi (U : R * R * R * R * R) (xi : R * R * R * R) (T : R) : mat3 :=
  let '(U1, U2, U3, U4, U5) := U in
  let '(xi1, xi2, xi3, xi4) := xi in
  M3 (T*(U1 + U2*xi1 + U3*xi3)) (T*(-U3*xi3 + U4)) (T*(U2*xi2/2 + U3*xi4))
     (T*(-U3*xi3 + U4)) (T*(U1 - U2*xi1 + U3*xi3)) (T*(U2*xi2/2 - U3*xi4))
     (T*(U2*xi2/2 + U3*xi4)) (T*(U2*xi2/2 - U3*xi4)) (T*(-U3*xi3 + U5)).
(** property.py:241-253 : D from lamination parameters *)
Definition D_from_xi (U : R * R * R * R * R) (xi : R * R * R * R) (T : R) : mat3 :=
  let '(U1, U2, U3, U4, U5) := U in
  let '(xi1, xi2, xi3, xi4) := xi in
  M3 (T^3*(U1 + U2*xi1 + U3*xi3)/12) (T^3*(-U3*xi3 + U4)/12) (T^3*(U2*xi2/2 + U3*xi4)/12)
     (T^3*(-U3*xi3 + U4)/12) (T^3*(U1 - U2*xi1 + U3*xi3)/12) (T^3*(U2*xi2/2 - U3*xi4)/12)
     (T^3*(U2*xi2/2 + U3*xi4)/12) (T^3*(U2*xi2/2 - U3*xi4)/12) (T^3*(-U3*xi3 + U5)/12).

(** Second half of the A, B and D getters (property.py:199-206, 222-229, 255-262): if the cache is empty,
    store a zero matrix, then evaluate Q_layup (which may raise, leaving the zero matrix in the cache), then
    accumulate in place. [cache]/[store] select the attribute. *)
Definition from_layup (cache : lam -> option mat3) (store : lam -> mat3 -> lam) (f : R -> R -> R) (L : lam)
  : lam * res mat3 :=
  match cache L with
  | Some a => (L, Ok a)
  | None =>
      let L1 := store L mzero in
      let (L2, q) := get_Q_layup L1 in
      match q with
      | Err e => (L2, Err e)
      | Ok Qs => match accumulate f (z_position (layup L2)) Qs 0 mzero with
                 | (a, None) => (store L2 a, Ok a)
                 | (a, Some e) => (store L2 a, Err e)
                 end
      end
  end.

(** property.py:176-206 : A.  When xiA was given, A is recomputed from it on every read. *)
Definition get_A (L : lam) : lam * res mat3 :=
  match p_xiA L with
  | DNone => from_layup c_A set_A wA L
  | xi => match (U <- the_invariants (plies L) ;; x <- unpack4 xi ;; T <- as_num (p_T L) ;;
                 Ok (A_from_xi U x T)) with
          | Ok a => (set_A L a, Ok a)
          | Err e => (L, Err e)
          end
  end.

(** property.py:208-229 : B.  With xiA and xiD present, lines 216-220 overwrite [_A] (sic) with zeros. *)
Definition get_B (L : lam) : lam * res mat3 :=
  let L1 := match p_xiA L, p_xiD L with
            | DNone, _ => L
            | _, DNone => L
            | _, _ => set_A L mzero
            end in
  from_layup c_B set_B wB L1.

(** property.py:231-262 : D *)
Definition get_D (L : lam) : lam * res mat3 :=
  match p_xiD L with
  | DNone => from_layup c_D set_D wD L
  | xi => match (U <- the_invariants (plies L) ;; x <- unpack4 xi ;; T <- as_num (p_T L) ;;
                 Ok (D_from_xi U x T)) with
          | Ok d => (set_D L d, Ok d)
          | Err e => (L, Err e)
          end
  end.

(** property.py:264-271 : ABD = vstack([hstack([A, B]), hstack([B, D])]); the four blocks are read in the
    order A, B, B, D. A 6x6 matrix is represented by its four blocks. *)
Record mat6 := M6 { blkA : mat3; blkB : mat3; blkC : mat3; blkD : mat3 }.
Definition get_ABD (L : lam) : lam * res mat6 :=
  let (L1, a) := get_A L in
  match a with Err e => (L1, Err e) | Ok a =>
  let (L2, b) := get_B L1 in
  match b with Err e => (L2, Err e) | Ok b =>
  let (L3, b') := get_B L2 in
  match b' with Err e => (L3, Err e) | Ok b' =>
  let (L4, d) := get_D L3 in
  match d with Err e => (L4, Err e) | Ok d => (L4, Ok (M6 a b b' d))
  end end end end.

(** property.py:273-288 and 290-304 : xiA and xiD.  [weight] is the factor of the trigonometric functions,
    [norm] the final normalisation.  [sum([ply.thickness for ply in self.plies])] raises TypeError when
    plies is a single Material (dict stacking); iterating a dict stacking yields strings, which cannot be
    scaled: TypeError as well.  A zero divisor gives nan in numpy: NotFinite. *)
Definition vec4 := (R * R * R * R)%type.
Fixpoint xi_loop (f : R -> R -> R) (z : list R) (angles : list R) (i : nat) (acc : vec4) : res vec4 :=
  match angles with
  | [] => Ok acc
  | a :: t =>
      let angle := a * (PI / 180) in
      zk1 <- get z (i+1) ;;
      zk0 <- get z i ;;
      let '(x0, x1, x2, x3) := acc in
      xi_loop f z t (i+1)
        (x0 + f zk1 zk0 * cos (2*angle), x1 + f zk1 zk0 * sin (2*angle),
         x2 + f zk1 zk0 * cos (4*angle), x3 + f zk1 zk0 * sin (4*angle))
  end.
Definition plies_thickness (p : plies_t) : res R :=
  match p with POne _ => Err TypeError | PMany l => Ok (fold_left (fun a m => a + thickness m) l 0) end.
Definition wX (zk1 zk0 : R) : R := zk1^3 - zk0^3.                     (* property.py:300-303 *)
Definition xi_get (f : R -> R -> R) (k : R) (pw : nat) (L : lam) : res vec4 :=
  T <- plies_thickness (plies L) ;;
  match stacking L with
  | SDict _ => Err TypeError
  | SAngles angles =>
      xi <- xi_loop f (z_position (layup L)) angles 0 (0, 0, 0, 0) ;;
      let '(x0, x1, x2, x3) := xi in
      if Req_EM_T (T^pw) 0 then Err NotFinite
      else Ok (k*x0/T^pw, k*x1/T^pw, k*x2/T^pw, k*x3/T^pw)
  end.
Definition get_xiA (L : lam) : res vec4 := xi_get wA 1 1 L.           (* property.py:288 : xiA / T *)
Definition get_xiD (L : lam) : res vec4 := xi_get wX 4 3 L.           (* property.py:304 : 4*xiD / T**3 *)
