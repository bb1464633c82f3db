(** The theorems on the buckling factors above the critical one.
    Statements only: every proof is [exact] a lemma of T_Higher.v with the same statement.
    Below each theorem, Print Assumptions lists the axioms it uses. *)
From Coq Require Import Reals ZArith Lra Lia Bool String Sorting.Sorted Sorting.Permutation Classical.
From Coquelicot Require Import Coquelicot.
From Coq Require Import List.
From Verif Require Import M_Py M_Plate M_K M_RealArith M_Plot M_Buckling S_Plate S_Mat S_Energy S_K S_Ritz S_Eigen S_Compare S_Higher.
Import ListNotations.
Open Scope R_scope.
From Verif Require T_Higher.

(** C91: the lowest factors are determined by the energy (min-max principle): the one in place j, counted from 0, is the least multiple of the loads under
    which the energy is not positive on a space of j + 1 dimensions. *)
Theorem C91_minmax : forall (K KG : list (list R)) fs j l, pencil K KG -> lowest K KG fs -> nth_error fs j = Some l ->
  unstable K KG l (Datatypes.S j) /\ forall t, 0 < t -> unstable K KG t (Datatypes.S j) -> l <= t.
Proof. exact T_Higher.t_C91_minmax. Qed.
Print Assumptions C91_minmax.

(** C91: conversely, if the energy is not positive on a space of j dimensions under t times the loads, there are j positive factors not above t. *)
Theorem C91_exists : forall (K KG : list (list R)) t j, pencil K KG -> 0 < t -> unstable K KG t j ->
  exists fs, lowest K KG fs /\ List.length fs = j /\ Forall (fun l => l <= t) fs.
Proof. exact T_Higher.t_C91_exists. Qed.
Print Assumptions C91_exists.

(** C91: two lists of lowest factors agree as far as both go. *)
Theorem C91_unique : forall (K KG : list (list R)) fs fs' j l l', pencil K KG -> lowest K KG fs -> lowest K KG fs' -> nth_error fs j = Some l -> nth_error fs' j = Some l' -> l = l'.
Proof. exact T_Higher.t_C91_unique. Qed.
Print Assumptions C91_unique.

(** C91: the first of the lowest factors is the critical one. *)
Theorem C91_first : forall (D : mat3) a b Nxx Nyy Nxy c c0 ca d0 db m n l fs, plate_any D a b c c0 ca d0 db ->
  lowest_factors D a b Nxx Nyy Nxy c m n (l :: fs) -> critical D a b Nxx Nyy Nxy c m n l.
Proof. exact T_Higher.t_C91_first. Qed.
Print Assumptions C91_first.

(** C91: none of the lowest factors grows when shape functions are added or edges hold less; the refined plate has at least as many. *)
Theorem C91_refine : forall (D : mat3) a b Nxx Nyy Nxy c c0 ca d0 db m n c' c0' ca' d0' db' m' n' fs,
  plate_any D a b c c0 ca d0 db -> plate_any D a b c' c0' ca' d0' db' ->
  softer c0' c0 -> softer ca' ca -> softer d0' d0 -> softer db' db ->
  (m + taken c0 + taken ca <= m' + taken c0' + taken ca')%nat -> (n + taken d0 + taken db <= n' + taken d0' + taken db')%nat ->
  lowest_factors D a b Nxx Nyy Nxy c m n fs -> exists fs', lowest_factors D a b Nxx Nyy Nxy c' m' n' fs' /\ Forall2 Rle fs' fs.
Proof. exact T_Higher.t_C91_refine. Qed.
Print Assumptions C91_refine.

(** C91: nor does any of them grow when the bending stiffness is reduced or compression is added. *)
Theorem C91_monotone : forall (D D' : mat3) a b Nxx Nyy Nxy Nxx' Nyy' Nxy' c c0 ca d0 db m n fs',
  plate_any D a b c c0 ca d0 db -> plate_any D' a b c c0 ca d0 db -> no_stiffer D D' ->
  no_compression (Nxx' - Nxx) (Nyy' - Nyy) (Nxy' - Nxy) ->
  lowest_factors D' a b Nxx' Nyy' Nxy' c m n fs' -> exists fs, lowest_factors D a b Nxx Nyy Nxy c m n fs /\ Forall2 Rle fs fs'.
Proof. exact T_Higher.t_C91_monotone. Qed.
Print Assumptions C91_monotone.

(** C91: with a documented solver the analysis starts with the lowest positive factors, in ascending order and each as often as it has independent
    modes, as long as none of them is below one; all of them if there are as many as asked for. *)
Theorem C91_reported : forall eigsh (t : tables RA) (D : @arr RA) a b Nxx Nyy Nxy c m n num (K KG : list (list R)) out vecs fs, documented eigsh ->
  calc_K_KG_D t D a b Nxx Nyy Nxy c m n = Ok (K, KG) -> pencil K KG -> lowest K KG fs -> Forall (fun l => 1 <= l) fs ->
  buckling_analysis eigsh t D a b Nxx Nyy Nxy c m n num = Ok (out, vecs) -> (List.length fs <= List.length out)%nat ->
  firstn (List.length fs) out = map Fin fs.
Proof. exact T_Higher.t_C91_reported. Qed.
Print Assumptions C91_reported.

(** C91: a plate compressed in every direction has as many positive factors as unknowns. *)
Theorem C91_all : forall (D : mat3) a b Nxx Nyy Nxy c c0 ca d0 db m n k, plate_any D a b c c0 ca d0 db -> compression Nxx Nyy Nxy -> (k <= m * n)%nat ->
  exists fs, List.length fs = k /\ lowest_factors D a b Nxx Nyy Nxy c m n fs.
Proof. exact T_Higher.t_C91_all. Qed.
Print Assumptions C91_all.

(** C91: so for a plate that is compressed in every direction and does not buckle below its loads, the analysis returns exactly the lowest positive factors,
    in ascending order: no infinite one, no negative one, none left out. *)
Theorem C91_list : forall eigsh (D : mat3) a b Nxx Nyy Nxy c c0 ca d0 db m n num out vecs, documented eigsh -> plate_any D a b c c0 ca d0 db -> compression Nxx Nyy Nxy ->
  (forall l, critical D a b Nxx Nyy Nxy c m n l -> 1 <= l) ->
  buckling_analysis eigsh exact_tables (as_arr D) a b Nxx Nyy Nxy c m n num = Ok (out, vecs) ->
  exists fs, out = map Fin fs /\ lowest_factors D a b Nxx Nyy Nxy c m n fs.
Proof. exact T_Higher.t_C91_list. Qed.
Print Assumptions C91_list.

(** C91: and none of the reported factors grows under refinement. *)
Theorem C91_reported_refine : forall eigsh (D : mat3) a b Nxx Nyy Nxy c c0 ca d0 db m n c' c0' ca' d0' db' m' n' num num' out vecs out' vecs' j x x',
  documented eigsh -> plate_any D a b c c0 ca d0 db -> plate_any D a b c' c0' ca' d0' db' -> compression Nxx Nyy Nxy ->
  softer c0' c0 -> softer ca' ca -> softer d0' d0 -> softer db' db ->
  (m + taken c0 + taken ca <= m' + taken c0' + taken ca')%nat -> (n + taken d0 + taken db <= n' + taken d0' + taken db')%nat ->
  (forall l, critical D a b Nxx Nyy Nxy c' m' n' l -> 1 <= l) ->
  buckling_analysis eigsh exact_tables (as_arr D) a b Nxx Nyy Nxy c m n num = Ok (out, vecs) ->
  buckling_analysis eigsh exact_tables (as_arr D) a b Nxx Nyy Nxy c' m' n' num' = Ok (out', vecs') ->
  nth_error out j = Some x -> nth_error out' j = Some x' -> exists l l', x = Fin l /\ x' = Fin l' /\ l' <= l.
Proof. exact T_Higher.t_C91_reported_refine. Qed.
Print Assumptions C91_reported_refine.

(** C91 example: a factor with two independent modes is listed twice. *)
Theorem C91_ex_lowest : pencil [[1; 0; 0]; [0; 1; 0]; [0; 0; 1]] [[-1/2; 0; 0]; [0; 1; 0]; [0; 0; -1/2]] /\
  lowest [[1; 0; 0]; [0; 1; 0]; [0; 0; 1]] [[-1/2; 0; 0]; [0; 1; 0]; [0; 0; -1/2]] [2; 2].
Proof. exact T_Higher.t_C91_ex_lowest. Qed.
Print Assumptions C91_ex_lowest.

(** C91 example: a square pinned plate under equal compression in both directions has the factors 1, 135/52 twice, and 9/2; whatever the documented solver,
    the analysis reports the two lowest (it is asked for no more than m n - 2), and there is such a solver. *)
Theorem C91_ex : plate_any mid 2 2 (CStr "PINNED") Pinned Pinned Pinned Pinned /\ compression (-8) (-8) 0 /\
  lowest_factors mid 2 2 (-8) (-8) 0 (CStr "PINNED") 2 2 [1; 135/52; 135/52; 9/2] /\
  (forall eigsh out vecs, documented eigsh -> buckling_analysis eigsh exact_tables (as_arr mid) 2 2 (-8) (-8) 0 (CStr "PINNED") 2 2 5 = Ok (out, vecs) -> out = [Fin 1; Fin (135/52)]) /\
  exists eigsh out vecs, documented eigsh /\ buckling_analysis eigsh exact_tables (as_arr mid) 2 2 (-8) (-8) 0 (CStr "PINNED") 2 2 5 = Ok (out, vecs).
Proof. exact T_Higher.t_C91_ex. Qed.
Print Assumptions C91_ex.
