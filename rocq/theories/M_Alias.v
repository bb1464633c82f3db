(** LaminateProperty objects and the lists and dictionaries they were built from.

    property.py:93-94 stores the arguments [stacking] and [plies] themselves, not copies; property.py:76-88 stores the lists found in a
    dictionary of lamination parameters. The caller can go on changing these objects in place. Here they live on a heap; the laminate
    holds their addresses, and every attribute is read from their contents at the time of the read. What is copied at construction
    (the pairs of [layup], property.py:73, and the numbers in the caches) is held by value.
    Simplifications: a list keeps holding elements of one kind (numbers or materials); materials are values. *)
From Coq Require Import Reals List String.
From Verif Require Import M_Py S_Mat M_Material M_Laminate M_LamHistory M_Strength.
Import ListNotations.
Open Scope string_scope.
Open Scope list_scope.

(** a value in a dictionary of lamination parameters: a list, a number or None *)
Inductive slot := ToList (i : nat) | Num (r : R) | NoneSlot.
(** objects the caller can change in place *)
Inductive cell := Nums (l : list R) | Mats (l : list material) | Entries (d : list (string * slot)).
Definition heap := list cell.
(** the argument [plies]: a Material or a list of Materials *)
Inductive plies_ref := OneMaterial (m : material) | MaterialList (i : nat).

(** the object: addresses for [stacking], [plies] and the lamination parameters, values for the rest (property.py:93-107) *)
Record held := Held {
  h_stacking : nat;
  h_plies : plies_ref;
  h_layup : list (R * material);
  h_Q : option (list mat3);
  h_T : option (list (mat3 * mat3));
  h_A : option mat3;
  h_B : option mat3;
  h_D : option mat3;
  h_xiA : slot;
  h_xiB : slot;
  h_xiD : slot;
  h_thick : slot }.

(** contents *)
Definition contents (h : heap) (s : slot) : dval :=
  match s with
  | ToList i => DVec (match nth_error h i with Some (Nums l) => l | _ => [] end)
  | Num r => DNum r
  | NoneSlot => DNone
  end.
Definition dict_now (h : heap) (d : list (string * slot)) : dict := map (fun e => (fst e, contents h (snd e))) d.
(** the stacking at an address; None: the address holds nothing of that kind (never the case for an existing laminate) *)
Definition stacking_now (h : heap) (i : nat) : option stacking_t :=
  match nth_error h i with
  | Some (Nums l) => Some (SAngles l)
  | Some (Entries d) => Some (SDict (dict_now h d))
  | _ => None
  end.
Definition plies_now (h : heap) (p : plies_ref) : option plies_t :=
  match p with
  | OneMaterial m => Some (POne m)
  | MaterialList i => match nth_error h i with Some (Mats l) => Some (PMany l) | _ => None end
  end.

(** what the attributes of the object refer to now. A dictionary emptied by the caller has nothing to iterate over, like an empty list. *)
Definition view (h : heap) (o : held) : lam :=
  Lam (match stacking_now h (h_stacking o) with Some (SDict []) | None => SAngles [] | Some s => s end)
      (match plies_now h (h_plies o) with Some p => p | None => PMany [] end)
      (h_layup o) (h_Q o) (h_T o) (h_A o) (h_B o) (h_D o)
      (contents h (h_xiA o)) (contents h (h_xiB o)) (contents h (h_xiD o)) (contents h (h_thick o)).
(** reading an attribute changes the caches only *)
Definition cached (o : held) (L : lam) : held :=
  Held (h_stacking o) (h_plies o) (layup L) (c_Q L) (c_T L) (c_A L) (c_B L) (c_D L) (h_xiA o) (h_xiB o) (h_xiD o) (h_thick o).

Fixpoint find_slot (d : list (string * slot)) (k : string) : option slot :=
  match d with
  | [] => None
  | (k', v) :: t => if String.eqb k k' then Some v else find_slot t k
  end.

(** property.py:61-107 : __init__ with the addresses of its arguments. A single Material is replaced by a new list (line 66), which
    gets the next address. None: an address does not hold an object of the kind. *)
Definition init (h : heap) (s : nat) (p : plies_ref) : option (heap * res held) :=
  match nth_error h s with
  | Some (Nums angles) =>
      match p with
      | OneMaterial m =>
          let l := repeat m (List.length angles) in
          Some (h ++ [Mats l], Ok (Held s (MaterialList (List.length h)) (combine angles l) None None None None None NoneSlot NoneSlot NoneSlot NoneSlot))
      | MaterialList i =>
          match nth_error h i with
          | Some (Mats l) =>
              if Nat.eqb (List.length l) (List.length angles)
              then Some (h, Ok (Held s p (combine angles l) None None None None None NoneSlot NoneSlot NoneSlot NoneSlot))
              else Some (h, Err ValueError)
          | _ => None
          end
      end
  | Some (Entries d) =>
      match plies_now h p with
      | None => None
      | Some _ =>
          let xiA := match find_slot d "xiA" with Some v => v | None => NoneSlot end in
          let xiB := match find_slot d "xiB" with Some v => v | None => NoneSlot end in
          Some (h, xiD <- match find_slot d "xiD" with Some v => Ok v | None => Err UnboundLocalError end ;;
                   T <- match find_slot d "T" with Some v => Ok v | None => Err UnboundLocalError end ;;
                   Ok (Held s p [] None None None None None xiA xiB xiD T))
      end
  | _ => None
  end.

(** ** Histories: the caller creates objects, changes them in place, builds laminates from them and uses the laminates *)
Record memory := Mem { m_heap : heap; m_lams : list held }.
Definition empty_memory : memory := Mem [] [].
Inductive op :=
| Create (c : cell)                          (* a new list or dictionary *)
| Overwrite (i : nat) (c : cell)             (* any change in place: assignment to elements, append, pop, update, ... *)
| Build (s : nat) (p : plies_ref)            (* LaminateProperty(stacking, plies) *)
| Ask (k : nat) (N : loads) (c : call).      (* an attribute of laminate number k, or a result of LaminateStrength(laminate, loads) *)
Inductive outcome := Done | Answer (a : res answer) | Raised (e : exn) | Impossible.

(** the lists a dictionary refers to exist and hold numbers *)
Definition sound_slot (h : heap) (s : slot) : bool :=
  match s with ToList i => match nth_error h i with Some (Nums _) => true | _ => false end | _ => true end.
Definition sound_cell (h : heap) (c : cell) : bool :=
  match c with Entries d => forallb (fun e => sound_slot h (snd e)) d | _ => true end.
(** an object keeps its type *)
Definition same_kind (c c' : cell) : bool :=
  match c, c' with Nums _, Nums _ | Mats _, Mats _ | Entries _, Entries _ => true | _, _ => false end.
Fixpoint put {A} (l : list A) (k : nat) (x : A) : list A :=
  match l, k with
  | [], _ => []
  | _ :: t, O => x :: t
  | y :: t, S k' => y :: put t k' x
  end.

(** One action. LaminateStrength keeps the laminate and the loads only (strength.py:34-51), so each result is computed from the laminate
    as it is now. *)
Definition act (m : memory) (o : op) : memory * outcome :=
  match o with
  | Create c => if sound_cell (m_heap m) c then (Mem (m_heap m ++ [c]) (m_lams m), Done) else (m, Impossible)
  | Overwrite i c =>
      match nth_error (m_heap m) i with
      | Some c0 => if andb (same_kind c0 c) (sound_cell (m_heap m) c) then (Mem (put (m_heap m) i c) (m_lams m), Done) else (m, Impossible)
      | None => (m, Impossible)
      end
  | Build s p =>
      match init (m_heap m) s p with
      | None => (m, Impossible)
      | Some (h, Err e) => (Mem h (m_lams m), Raised e)
      | Some (h, Ok o) => (Mem h (m_lams m ++ [o]), Done)
      end
  | Ask k N c =>
      match nth_error (m_lams m) k with
      | None => (m, Impossible)
      | Some o => let (w, a) := do_call N c (World (view (m_heap m) o) []) in
                  (Mem (m_heap m) (put (m_lams m) k (cached o (w_lam w))), Answer a)
      end
  end.
Fixpoint after (m : memory) (l : list op) : memory :=
  match l with [] => m | o :: t => after (fst (act m o)) t end.
(** what laminate number k answers now *)
Definition ask (m : memory) (k : nat) (N : loads) (c : call) : outcome := snd (act m (Ask k N c)).
