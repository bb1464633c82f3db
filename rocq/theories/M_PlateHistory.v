(** Histories of operations on PlateStructure objects that may share laminates and constraint dictionaries
    (composipy/core/structure.py:80-440, over exact reals). Objects are referred to by their position in the lists of the
    world. Constructor arguments are those already validated (M_Validate.v); drawing and printing are not modelled. *)
From Coq Require Import Reals ZArith Arith List.
From Verif Require Import M_Py M_Plate M_K M_Expr M_RealArith M_Buckling M_Plot S_Mat M_Material M_Laminate M_LamHistory.
Import ListNotations.
Open Scope R_scope.

(** structure.py:92-109 : the attributes. [p_con] is a reference: the constructor stores the object it is given (line 95).
    su_idx and sv_idx are written together with sw_idx (lines 261-263) and never read. *)
Record plate := Plate {
  p_lam : nat; p_a : R; p_b : R; p_con : nat; p_Nxx : R; p_Nyy : R; p_Nxy : R; p_m : nat; p_n : nat;
  p_sw : option (list (nat * nat)); p_eig : option (list ext * list (list R)) }.

(** The objects: laminates, constraint objects, plates. Constraint object 0 is the dictionary of the default argument
    (structure.py:84-89), which Python creates once, when the class body is executed. *)
Record world := World { w_lams : list lam; w_cons : list constraints; w_plates : list plate }.
Definition initial : world := World [] [default_constraints] [].

Inductive edge_key := KX0 | KXa | KY0 | KYb.
(** d[key] = value *)
Definition set_edge (c : constraints) (k : edge_key) (e : edge) : res constraints :=
  match c with
  | CDict x0 xa y0 yb =>
      Ok (match k with
          | KX0 => CDict (Some e) xa y0 yb | KXa => CDict x0 (Some e) y0 yb
          | KY0 => CDict x0 xa (Some e) yb | KYb => CDict x0 xa y0 (Some e) end)
  | CStr _ => Err TypeError
  | COther => Err TypeError
  end.

(** What a user can do. References to objects that do not exist cannot be written; the model answers IndexError. *)
Inductive op :=
| NewLaminate (s : stacking_t) (p : plies_t)
| NewConstraints (c : constraints)
| NewPlate (l : nat) (a b : R) (c : option nat) (Nxx Nyy Nxy : R) (m n : nat)     (* None: argument omitted *)
| SetEdge (p : nat) (k : edge_key) (e : edge)                                     (* plate.constraints['x0'] = e *)
| SetLaminateLayup (l : nat) (v : list (R * material))                            (* laminate.layup = v *)
| ReadLaminate (l : nat) (r : read)
| MatricesD (p : nat)                                                            (* plate.calc_K_KG_D() *)
| MatricesABD (p : nat)                                                          (* plate.calc_K_KG_ABD() *)
| Analyse (p : nat) (num : Z)                                                    (* plate.buckling_analysis(num_eigvalues=num) *)
| PlotMode (p : nat) (nth : Z) (ngridx ngridy : nat).                            (* plate.plot_eigenvalue(nth, ngridx, ngridy) *)
Inductive outcome :=
| Created (i : nat) | Done | Value (v : value)
| Matrices (K KG : list (list R)) | Factors (l : list ext) (vecs : list (list R)) | Drawn (z : list (list R)).

Definition put {X} (l : list X) (i : nat) (x : X) : list X := firstn i l ++ x :: skipn (S i) l.
Definition put_lam (w : world) i L := World (put (w_lams w) i L) (w_cons w) (w_plates w).
Definition put_con (w : world) i c := World (w_lams w) (put (w_cons w) i c) (w_plates w).
Definition put_plate (w : world) i p := World (w_lams w) (w_cons w) (put (w_plates w) i p).
Definition set_sw (p : plate) s := Plate (p_lam p) (p_a p) (p_b p) (p_con p) (p_Nxx p) (p_Nyy p) (p_Nxy p) (p_m p) (p_n p) (Some s) (p_eig p).
Definition set_eig (p : plate) e := Plate (p_lam p) (p_a p) (p_b p) (p_con p) (p_Nxx p) (p_Nyy p) (p_Nxy p) (p_m p) (p_n p) (p_sw p) (Some e).

(** structure.py:344-346 and 279-284 : one read of the attribute per row *)
Fixpoint read_rows {X} (getter : lam -> lam * res X) (k : nat) (L : lam) : lam * res (list X) :=
  match k with
  | O => (L, Ok [])
  | S k' => let (L1, r) := getter L in
            match r with
            | Err e => (L1, Err e)
            | Ok x => let (L2, rs) := read_rows getter k' L1 in (L2, (xs <- rs ;; Ok (x :: xs)))
            end
  end.
(** M[i, j] for the arrays A, B, D and ABD *)
Definition at3 (M : mat3) : @arr RA := fun i j =>
  match i, j return R with
  | 0, 0 => a11 M | 0, 1 => a12 M | 0, 2 => a13 M
  | 1, 0 => a21 M | 1, 1 => a22 M | 1, 2 => a23 M
  | 2, 0 => a31 M | 2, 1 => a32 M | 2, 2 => a33 M
  | _, _ => 0%R
  end%nat.
Definition at6 (M : mat6) : @arr RA := fun i j =>
  if Nat.ltb i 3 then (if Nat.ltb j 3 then at3 (blkA M) i j else at3 (blkB M) i (j - 3)%nat)
  else (if Nat.ltb j 3 then at3 (blkC M) (i - 3)%nat j else at3 (blkD M) (i - 3)%nat (j - 3)%nat).
(** row i is taken from the i-th read *)
Definition rows_of {X} (at_ : X -> @arr RA) (rs : list X) : @arr RA := fun i j =>
  match nth_error rs i with Some M => at_ M i j | None => 0%R end.

Section Step.
Variables (eigsh : solver) (t : tables RA).

(** structure.py:333-365 : the laminate is read first; then _compute_constraints stores the index lists (lines 261-263)
    before the loop *)
Definition matrices {X} (getter : lam -> lam * res X) (nrows : nat) (at_ : X -> @arr RA)
    (calc : @arr RA -> R -> R -> R -> R -> R -> constraints -> nat -> nat -> res (list (list R) * list (list R)))
    (w : world) (p : nat) : world * res (list (list R) * list (list R)) :=
  match (P <- get (w_plates w) p ;; L <- get (w_lams w) (p_lam P) ;; c <- get (w_cons w) (p_con P) ;; Ok (P, L, c)) with
  | Err e => (w, Err e)
  | Ok (P, L, c) =>
      let (L', r) := read_rows getter nrows L in
      let w1 := put_lam w (p_lam P) L' in
      match r with
      | Err e => (w1, Err e)
      | Ok rs =>
          let w2 := match compute_constraints c (p_m P) (p_n P) with Ok idx => put_plate w1 p (set_sw P (sw_idx idx)) | Err _ => w1 end in
          (w2, calc (rows_of at_ rs) (p_a P) (p_b P) (p_Nxx P) (p_Nyy P) (p_Nxy P) c (p_m P) (p_n P))
      end
  end.
Definition do_matrices_D := matrices get_D 3 at3 (calc_K_KG_D t).
Definition do_matrices_ABD := matrices get_ABD 6 at6 (calc_K_KG_ABD t).

(** structure.py:385-408 : the result is stored (line 407) only after the solver has answered *)
Definition do_analysis (w : world) (p : nat) (num : Z) : world * res (list ext * list (list R)) :=
  let (w1, r) := do_matrices_D w p in
  match (kk <- r ;; e <- eigsh (snd kk) (fst kk) (Z.min num (Z.of_nat (length (snd kk)) - 2)) ;;
         P <- get (w_plates w1) p ;; Ok (P, (map neg_recip (fst e), snd e))) with
  | Err x => (w1, Err x)
  | Ok (P, e) => (put_plate w1 p (set_eig P e), Ok e)
  end.

(** eigenvector[:, nth] : a negative index counts from the end *)
Definition column_z (e : list ext * list (list R)) (nth : Z) : res nat :=
  let k := Z.of_nat (length (fst e)) in
  if (Z.leb 0 nth && Z.ltb nth k)%bool then Ok (Z.to_nat nth)
  else if (Z.ltb nth 0 && Z.leb (- k) nth)%bool then Ok (Z.to_nat (k + nth)) else Err IndexError.

(** structure.py:410-428 : the stored result is used if there is one (line 411), otherwise an analysis with the default
    number of eigenvalues is run *)
Definition do_plot (w : world) (p : nat) (nth : Z) (ngridx ngridy : nat) : world * res (list (list R)) :=
  match get (w_plates w) p with
  | Err e => (w, Err e)
  | Ok P =>
      let (w1, r) := match p_eig P with Some _ => (w, Ok tt) | None => let (w1, r) := do_analysis w p 5 in (w1, (_ <- r ;; Ok tt)) end in
      (w1, (_ <- r ;; P1 <- get (w_plates w1) p ;;
            match p_eig P1 with
            | None => Err TypeError
            | Some e => j <- column_z e nth ;;
                        match p_sw P1 with
                        | None => Err TypeError                        (* len(None) *)
                        | Some sw => plot_values (snd e) sw j ngridx ngridy
                        end
            end))
  end.

Definition step (w : world) (o : op) : world * res outcome :=
  match o with
  | NewLaminate s p => match construct s p with
                       | Ok L => (World (w_lams w ++ [L]) (w_cons w) (w_plates w), Ok (Created (length (w_lams w))))
                       | Err e => (w, Err e) end
  | NewConstraints c => (World (w_lams w) (w_cons w ++ [c]) (w_plates w), Ok (Created (length (w_cons w))))
  | NewPlate l a b c Nxx Nyy Nxy m n =>
      let c' := match c with Some i => i | None => 0%nat end in
      match (_ <- get (w_lams w) l ;; _ <- get (w_cons w) c' ;; Ok tt) with
      | Err e => (w, Err e)
      | Ok _ => (World (w_lams w) (w_cons w) (w_plates w ++ [Plate l a b c' Nxx Nyy Nxy m n None None]), Ok (Created (length (w_plates w))))
      end
  | SetEdge p k e =>
      match (P <- get (w_plates w) p ;; c <- get (w_cons w) (p_con P) ;; c' <- set_edge c k e ;; Ok (p_con P, c')) with
      | Err x => (w, Err x)
      | Ok (i, c') => (put_con w i c', Ok Done)
      end
  | SetLaminateLayup l v =>
      match get (w_lams w) l with Err x => (w, Err x) | Ok L => (put_lam w l (set_layup L v), Ok Done) end
  | ReadLaminate l r =>
      match get (w_lams w) l with
      | Err x => (w, Err x)
      | Ok L => let (L', v) := do_read L r in (put_lam w l L', (x <- v ;; Ok (Value x)))
      end
  | MatricesD p => let (w', r) := do_matrices_D w p in (w', (x <- r ;; Ok (Matrices (fst x) (snd x))))
  | MatricesABD p => let (w', r) := do_matrices_ABD w p in (w', (x <- r ;; Ok (Matrices (fst x) (snd x))))
  | Analyse p num => let (w', r) := do_analysis w p num in (w', (x <- r ;; Ok (Factors (fst x) (snd x))))
  | PlotMode p nth gx gy => let (w', r) := do_plot w p nth gx gy in (w', (x <- r ;; Ok (Drawn x)))
  end.

(** the world after a history; exceptions are caught by the user and the history goes on *)
Fixpoint after (w : world) (ops : list op) : world :=
  match ops with [] => w | o :: rest => after (fst (step w o)) rest end.
(** what an operation returns *)
Definition answer (w : world) (o : op) : res outcome := snd (step w o).
End Step.
