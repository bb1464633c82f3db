(** Laminates and the lists they were built from
    Statements only: every proof is [exact] a lemma of T_Alias.v with the same statement.
    Below each theorem, Print Assumptions lists the axioms it uses. *)
From Coq Require Import Reals Lra Lia String List.
From Verif Require Import M_Py S_Mat M_Material M_Laminate M_LamHistory M_Linalg S_Laminate M_Strength S_Strength M_Alias S_Alias.
Import ListNotations.
Open Scope string_scope.
Open Scope list_scope.
Open Scope R_scope.
From Verif Require T_Alias.

(** C85: a laminate built from lists and dictionaries answers, at first, as the laminate made of their contents; the constructor raises for the same contents. *)
Theorem C85_build : forall m s p st pl, stacking_now (m_heap m) s = Some st -> plies_now (m_heap m) p = Some pl ->
  match construct st pl with
  | Ok L => snd (act m (Build s p)) = Done /\ forall N c, ask (since m s p []) (next m) N c = Answer (snd (do_call N c (start L)))
  | Err e => act m (Build s p) = (m, Raised e)
  end.
Proof. exact T_Alias.t_C85_build. Qed.
Print Assumptions C85_build.

(** C85: whatever happens later to the lists and to any laminate, A, B, D, ABD, Q_layup, T_layup and z_position of a laminate with angles answer for the angles
    and plies it was built from. *)
Theorem C85_matrices : forall m s p L angles rest N r, arguments m s p L -> stacking L = SAngles angles -> all_readable (layup L) -> r <> RdXiA -> r <> RdXiD ->
  ask (since m s p rest) (next m) N (CRead r) = Answer (v <- snd (do_read L r) ;; Ok (ARead v)).
Proof. exact T_Alias.t_C85_matrices. Qed.
Print Assumptions C85_matrices.

(** C85: so does the attribute layup, which decides the comparison of laminates (C22). *)
Theorem C85_layup : forall m s p L angles rest, arguments m s p L -> stacking L = SAngles angles -> all_readable (layup L) ->
  exists o, nth_error (m_lams (since m s p rest)) (next m) = Some o /\ h_layup o = layup L.
Proof. exact T_Alias.t_C85_layup. Qed.
Print Assumptions C85_layup.

(** C85: xiA and xiD, in contrast, are computed from the list of angles and the list of plies as they are now, with the heights of the plies the laminate was built
    from: an angle more raises IndexError, an angle less leaves its ply out, and the total thickness is that of the present list of plies. *)
Theorem C85_xi : forall m s p L angles rest N, arguments m s p L -> stacking L = SAngles angles -> all_readable (layup L) -> exists th pl,
  stacking_now (m_heap (since m s p rest)) s = Some (SAngles th) /\ plies_now (m_heap (since m s p rest)) (MaterialList (plies_list m p)) = Some (PMany pl) /\
  ask (since m s p rest) (next m) N (CRead RdXiA) = Answer (v <- parameters (fun z1 z0 => z1 - z0) 1 1 (z_position (layup L)) th (thickness_of pl) ;; Ok (ARead (VXi v))) /\
  ask (since m s p rest) (next m) N (CRead RdXiD) = Answer (v <- parameters (fun z1 z0 => z1 ^ 3 - z0 ^ 3) 4 3 (z_position (layup L)) th (thickness_of pl) ;; Ok (ARead (VXi v))).
Proof. exact T_Alias.t_C85_xi. Qed.
Print Assumptions C85_xi.

(** C85: the tables of strains and stresses: the plate-direction columns belong to the laminate as built, but the angle of a ply and the material directions follow the
    present list; with fewer angles the last plies are missing, with more angles the tables raise IndexError. *)
Theorem C85_tables : forall m s p L angles rest N, arguments m s p L -> stacking L = SAngles angles -> all_readable (layup L) -> exists th,
  stacking_now (m_heap (since m s p rest)) s = Some (SAngles th) /\
  ((List.length th <= List.length (layup L))%nat ->
   match strain_of (layup L) N with
   | Ok true_rows => exists rows, ask (since m s p rest) (next m) N CStrain = Answer (Ok (ATable rows)) /\ returned turn_strain th rows true_rows
   | Err e => ask (since m s p rest) (next m) N CStrain = Answer (Err e)
   end /\
   match stress_of (layup L) N with
   | Ok true_rows => exists rows, ask (since m s p rest) (next m) N CStress = Answer (Ok (ATable rows)) /\ returned turn_stress th rows true_rows
   | Err e => ask (since m s p rest) (next m) N CStress = Answer (Err e)
   end) /\
  ((List.length (layup L) < List.length th)%nat ->
   ask (since m s p rest) (next m) N CStrain = Answer (Err IndexError) /\ ask (since m s p rest) (next m) N CStress = Answer (Err IndexError)).
Proof. exact T_Alias.t_C85_tables. Qed.
Print Assumptions C85_tables.

(** C85: the margins use the allowables of the plies as built and those turned stresses. *)
Theorem C85_margin : forall m s p L angles rest N al, arguments m s p L -> stacking L = SAngles angles -> all_readable (layup L) ->
  mapM (fun q => allowable (snd q)) (layup L) = Ok al -> exists th, stacking_now (m_heap (since m s p rest)) s = Some (SAngles th) /\
  forall rows, ask (since m s p rest) (next m) N CStress = Answer (Ok (ATable rows)) ->
  exists t, ask (since m s p rest) (next m) N CMargin = Answer (Ok (AMargin t)) /\ map (fun r => snd (mr_margins r)) t = map r_12 rows /\
    map (fun r => fst (mr_margins r)) t = flat_map (fun a => [a; a]) (firstn (List.length th) al).
Proof. exact T_Alias.t_C85_margin. Qed.
Print Assumptions C85_margin.

(** C85: a laminate built from a dictionary of lamination parameters answers, for every attribute but xiA and xiD, as the laminate of the present contents of the lists
    that were in the dictionary; entries assigned to the dictionary later have no effect. *)
Theorem C85_dict : forall m s p d L rest N r, arguments m s p L -> nth_error (m_heap m) s = Some (Entries d) -> r <> RdXiA -> r <> RdXiD -> exists pl L',
  plies_now (m_heap (since m s p rest)) p = Some pl /\ construct (SDict (dict_now (m_heap (since m s p rest)) d)) pl = Ok L' /\
  ask (since m s p rest) (next m) N (CRead r) = Answer (v <- snd (do_read L' r) ;; Ok (ARead v)).
Proof. exact T_Alias.t_C85_dict. Qed.
Print Assumptions C85_dict.

(** C85: so the margins can miss a failure. One ply at 90 degrees under a tension of 1: the stress across its fibres is 1, twice what it carries. After the caller has changed
    the angle in the list, A, B and D are the same and the margins report a stress of 1 along the fibres, half of what it carries. *)
Theorem C85_margin_refuted : exists N, (exists rows, ask (since setup 0 (MaterialList 1) []) 0 N CStress = Answer (Ok (ATable rows)) /\ rows <> [] /\ Forall (fun r => r_12 r = V3 0 1 0) rows) /\
  (exists t, ask (since setup 0 (MaterialList 1) [Overwrite 0 (Nums [0])]) 0 N CMargin = Answer (Ok (AMargin t)) /\ t <> [] /\ Forall (fun r => mr_margins r = (Allow 2 2 (1 / 2) (1 / 2) 1, V3 1 0 0)) t) /\
  ask (since setup 0 (MaterialList 1) [Overwrite 0 (Nums [0])]) 0 N (CRead RdABD) = ask (since setup 0 (MaterialList 1) []) 0 N (CRead RdABD).
Proof. exact T_Alias.t_C85_margin_refuted. Qed.
Print Assumptions C85_margin_refuted.

(** C85: the lamination parameter xiA follows the list of angles while A, B and D do not, so the two contradict each other; with one more angle in the list the attribute raises. *)
Theorem C85_xi_refuted : forall N, let x rest := ask (since setup 0 (MaterialList 1) rest) 0 N (CRead RdXiA) in
  x [] = Answer (Ok (ARead (VXi (-1, 0, 1, 0)))) /\ x [Overwrite 0 (Nums [0])] = Answer (Ok (ARead (VXi (1, 0, 1, 0)))) /\ x [Overwrite 0 (Nums [90; 0])] = Answer (Err IndexError) /\
  forall rest, ask (since setup 0 (MaterialList 1) rest) 0 N (CRead RdA) = Answer (Ok (ARead (VMat (M3 1 0 0 0 2 0 0 0 1)))).
Proof. exact T_Alias.t_C85_xi_refuted. Qed.
Print Assumptions C85_xi_refuted.

(** C85, concrete instance: a laminate given by lamination parameters follows changes of the list xiA, but not a new entry of the dictionary. *)
Example C85_ex_dict : forall N, let build := [Create (Nums [0; 0; 0; 0]); Create (Entries [("xiA", ToList 0); ("xiD", ToList 0); ("T", Num 1)])] in let m := after empty_memory build in
  (exists L, arguments m 1 (OneMaterial soft_ply) L) /\
  ask (since m 1 (OneMaterial soft_ply) [Overwrite 0 (Nums [1; 0; 1; 0])]) 0 N (CRead RdA) <> ask (since m 1 (OneMaterial soft_ply) []) 0 N (CRead RdA) /\
  ask (since m 1 (OneMaterial soft_ply) [Create (Nums [1; 0; 1; 0]); Overwrite 1 (Entries [("xiA", ToList 2); ("xiD", ToList 0); ("T", Num 1)])]) 0 N (CRead RdA) = ask (since m 1 (OneMaterial soft_ply) []) 0 N (CRead RdA).
Proof. exact T_Alias.t_C85_ex_dict. Qed.
