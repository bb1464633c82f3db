(** The theorems about histories of plates.
    Statements only: every proof is [exact] a lemma of T_PlateHistory.v with the same statement.
    Below each theorem, Print Assumptions lists the axioms it uses. *)
From Coq Require Import Reals ZArith QArith Qreals Arith Lra Lia Bool String.
From Coquelicot Require Import Coquelicot.
From Coq Require Import List.
From Verif Require Import M_Py M_Plate M_K M_RealArith M_Buckling M_Plot S_Mat S_Bardell S_Energy S_K S_Ritz M_Material M_Laminate M_LamHistory M_PlateHistory S_Laminate S_PlateHistory.
Import ListNotations.
Open Scope R_scope.
From Verif Require T_PlateHistory.

(** C70: calc_K_KG_D of a plate in any state returns the matrices of the laminate's D at that moment, with the plate's own
    dimensions and loads and the present contents of the constraint object; no earlier call on this or any other plate matters. *)
Theorem C70_matrices : forall eigsh (t : tables RA) w p P L c d,
  nth_error (w_plates w) p = Some P -> nth_error (w_lams w) (p_lam P) = Some L -> nth_error (w_cons w) (p_con P) = Some c -> snd (get_D L) = Ok d ->
  answer eigsh t w (MatricesD p) = (x <- calc_K_KG_D t (at3 d) (p_a P) (p_b P) (p_Nxx P) (p_Nyy P) (p_Nxy P) c (p_m P) (p_n P) ;; Ok (Matrices (fst x) (snd x))).
Proof. exact T_PlateHistory.t_C70_matrices. Qed.
Print Assumptions C70_matrices.

(** C70: likewise buckling_analysis: it always assembles anew, and never returns a stored result. *)
Theorem C70_analysis : forall eigsh (t : tables RA) w p P L c d num,
  nth_error (w_plates w) p = Some P -> nth_error (w_lams w) (p_lam P) = Some L -> nth_error (w_cons w) (p_con P) = Some c -> snd (get_D L) = Ok d ->
  answer eigsh t w (Analyse p num) = (x <- buckling_analysis eigsh t (at3 d) (p_a P) (p_b P) (p_Nxx P) (p_Nyy P) (p_Nxy P) c (p_m P) (p_n P) num ;; Ok (Factors (fst x) (snd x))).
Proof. exact T_PlateHistory.t_C70_analysis. Qed.
Print Assumptions C70_analysis.

(** C70: once a plate has been analysed, analysing it again gives the same factors and modes after any history of operations on
    any objects (assignments to laminate.layup included), as long as nobody edits its constraint object. *)
Theorem C70_repeatable : forall eigsh (t : tables RA) w p P num w1 out ops,
  nth_error (w_plates w) p = Some P -> step eigsh t w (Analyse p num) = (w1, Ok out) -> unedited eigsh t (p_con P) w1 ops ->
  answer eigsh t (after eigsh t w1 ops) (Analyse p num) = Ok out.
Proof. exact T_PlateHistory.t_C70_repeatable. Qed.
Print Assumptions C70_repeatable.

(** C70: plot_eigenvalue draws a mode of the last analysis of the plate, computed with the functions that analysis used, as long as
    since then either nobody has edited the constraint object or the matrices of the plate have not been assembled again. *)
Theorem C70_plot : forall eigsh (t : tables RA) w p P c idx num w1 ls vecs ops nth gx gy,
  nth_error (w_plates w) p = Some P -> nth_error (w_cons w) (p_con P) = Some c -> compute_constraints c (p_m P) (p_n P) = Ok idx ->
  step eigsh t w (Analyse p num) = (w1, Ok (Factors ls vecs)) -> Forall (fun o => ~ analyses p o) ops ->
  unedited eigsh t (p_con P) w1 ops \/ Forall (fun o => ~ assembles p o) ops ->
  answer eigsh t (after eigsh t w1 ops) (PlotMode p nth gx gy) =
  (j <- column_z (ls, vecs) nth ;; z <- plot_values vecs (sw_idx idx) j gx gy ;; Ok (Drawn z)).
Proof. exact T_PlateHistory.t_C70_plot. Qed.
Print Assumptions C70_plot.

(** C70: otherwise the drawing mixes two problems: editing the constraint object and assembling again makes plot_eigenvalue
    combine the coefficients of the old analysis with the functions of the new constraints, without an error. *)
Theorem C70_mixed : forall eigsh (t : tables RA) w p P c k e c' idx' num w1 ls vecs nth gx gy,
  nth_error (w_plates w) p = Some P -> nth_error (w_cons w) (p_con P) = Some c -> set_edge c k e = Ok c' -> compute_constraints c' (p_m P) (p_n P) = Ok idx' ->
  step eigsh t w (Analyse p num) = (w1, Ok (Factors ls vecs)) ->
  answer eigsh t (after eigsh t w1 [SetEdge p k e; MatricesD p]) (PlotMode p nth gx gy) =
  (j <- column_z (ls, vecs) nth ;; z <- plot_values vecs (sw_idx idx') j gx gy ;; Ok (Drawn z)).
Proof. exact T_PlateHistory.t_C70_mixed. Qed.
Print Assumptions C70_mixed.

(** C70: an assignment to one entry of the constraint dictionary changes that edge and no other: the matrices computed next, by this plate or any other
    plate holding the same dictionary, are those of the dictionary with the one entry replaced. When the constraints are a str or another
    object the assignment raises TypeError and changes nothing. *)
Theorem C70_edit : forall eigsh (t : tables RA) w p q P Q L x0 xa y0 yb d e,
  nth_error (w_plates w) p = Some P -> nth_error (w_plates w) q = Some Q -> p_con Q = p_con P -> nth_error (w_lams w) (p_lam Q) = Some L ->
  nth_error (w_cons w) (p_con P) = Some (CDict x0 xa y0 yb) -> snd (get_D L) = Ok d ->
  let edited k := answer eigsh t (after eigsh t w [SetEdge p k e]) (MatricesD q) in
  let from c := x <- calc_K_KG_D t (at3 d) (p_a Q) (p_b Q) (p_Nxx Q) (p_Nyy Q) (p_Nxy Q) c (p_m Q) (p_n Q) ;; Ok (Matrices (fst x) (snd x)) in
  edited KX0 = from (CDict (Some e) xa y0 yb) /\ edited KXa = from (CDict x0 (Some e) y0 yb) /\
  edited KY0 = from (CDict x0 xa (Some e) yb) /\ edited KYb = from (CDict x0 xa y0 (Some e)).
Proof. exact T_PlateHistory.t_C70_edit. Qed.
Print Assumptions C70_edit.

(** C70: see C70_edit. *)
Theorem C70_edit_error : forall eigsh (t : tables RA) w p P c k e, nth_error (w_plates w) p = Some P -> nth_error (w_cons w) (p_con P) = Some c ->
  (forall x0 xa y0 yb, c <> CDict x0 xa y0 yb) -> step eigsh t w (SetEdge p k e) = (w, Err TypeError).
Proof. exact T_PlateHistory.t_C70_edit_error. Qed.
Print Assumptions C70_edit_error.

(** C70: nth counts from the end when negative and raises IndexError outside -k .. k-1, k being the number of factors returned. *)
Theorem C70_nth : forall ls vecs nth, let k := Z.of_nat (List.length ls) in
  ((0 <= nth < k)%Z -> column_z (ls, vecs) nth = Ok (Z.to_nat nth)) /\
  ((- k <= nth < 0)%Z -> column_z (ls, vecs) nth = column_z (ls, vecs) (k + nth)) /\
  ((nth < - k)%Z \/ (k <= nth)%Z -> column_z (ls, vecs) nth = Err IndexError).
Proof. exact T_PlateHistory.t_C70_nth. Qed.
Print Assumptions C70_nth.

(** C70: plates built without a constraints argument share one dictionary: editing the constraints of one of them changes the
    matrices of every plate built that way afterwards, which behaves as if it had been given the edited dictionary. *)
Theorem C70_default_shared : forall eigsh (t : tables RA) w l a b Nxx Nyy Nxy a' b' Nxx' Nyy' Nxy' m n m' n' k e c c' L,
  nth_error (w_lams w) l = Some L -> nth_error (w_cons w) 0 = Some c -> set_edge c k e = Ok c' ->
  let p := List.length (w_plates w) in
  let w1 := after eigsh t w [NewPlate l a b None Nxx Nyy Nxy m n; SetEdge p k e] in
  answer eigsh t (after eigsh t w1 [NewPlate l a' b' None Nxx' Nyy' Nxy' m' n']) (MatricesD (Datatypes.S p)) =
  answer eigsh t (after eigsh t w1 [NewConstraints c'; NewPlate l a' b' (Some (List.length (w_cons w))) Nxx' Nyy' Nxy' m' n']) (MatricesD (Datatypes.S p)).
Proof. exact T_PlateHistory.t_C70_default_shared. Qed.
Print Assumptions C70_default_shared.

(** C70: if a ply of the laminate has no stiffness matrix, the first calc_K_KG_D raises ZeroDivisionError; calling it again returns
    matrices, with a stiffness matrix that is entirely zero. *)
Theorem C70_retry : forall eigsh (t : tables RA) w p P L l c, ~ all_readable l -> laminate_of l = Ok L ->
  nth_error (w_plates w) p = Some P -> nth_error (w_lams w) (p_lam P) = Some L -> nth_error (w_cons w) (p_con P) = Some c ->
  let w1 := fst (step eigsh t w (MatricesD p)) in
  answer eigsh t w (MatricesD p) = Err ZeroDivisionError /\
  answer eigsh t w1 (MatricesD p) = (x <- calc_K_KG_D t (at3 mzero) (p_a P) (p_b P) (p_Nxx P) (p_Nyy P) (p_Nxy P) c (p_m P) (p_n P) ;; Ok (Matrices (fst x) (snd x))) /\
  forall (K KG : list (list R)), answer eigsh t w1 (MatricesD p) = Ok (Matrices K KG) -> all_zero K.
Proof. exact T_PlateHistory.t_C70_retry. Qed.
Print Assumptions C70_retry.

(** C70: so "omitted constraints" does not mean four pinned edges: the same call builds different plates before and after
    somebody edits the constraints of another plate. *)
Theorem C70_default_refuted : forall eigsh, let lam := NewLaminate (SAngles [0]) (POne unit_ply) in let new := NewPlate 0 1 1 None 0 0 0 1 1 in
  exists K K', answer eigsh exact_tables (after eigsh exact_tables initial [lam; new]) (MatricesD 0) = Ok (Matrices K [[0]]) /\
    answer eigsh exact_tables (after eigsh exact_tables initial [lam; new; SetEdge 0 KX0 free_edge; new]) (MatricesD 1) = Ok (Matrices K' [[0]]) /\ K <> K'.
Proof. exact T_PlateHistory.t_C70_default_refuted. Qed.
Print Assumptions C70_default_refuted.

(** C70, concrete instance: two plates on one laminate; the first keeps its result although the layup is reassigned and the
    constraints of the second are edited. *)
Example C70_ex : let eigsh : solver := fun _ _ _ => Ok ([-1 / 2], [[3]]) in
  let w := after eigsh exact_tables initial [NewLaminate (SAngles [0]) (POne unit_ply); NewConstraints (CStr "PINNED"); NewPlate 0 1 1 (Some 1%nat) 0 0 0 1 1; NewPlate 0 1 1 None 0 0 0 1 1] in
  let ops := [SetLaminateLayup 0 []; SetEdge 1 KX0 free_edge; ReadLaminate 0 RdABD; Analyse 1 5; MatricesD 0] in
  exists P c idx w1, nth_error (w_plates w) 0 = Some P /\ nth_error (w_cons w) (p_con P) = Some c /\ compute_constraints c (p_m P) (p_n P) = Ok idx /\
    step eigsh exact_tables w (Analyse 0 5) = (w1, Ok (Factors [Fin 2] [[3]])) /\ unedited eigsh exact_tables (p_con P) w1 ops /\ Forall (fun o => ~ analyses 0 o) ops /\
    answer eigsh exact_tables (after eigsh exact_tables w1 ops) (Analyse 0 5) = Ok (Factors [Fin 2] [[3]]).
Proof. exact T_PlateHistory.t_C70_ex. Qed.

(** C70, concrete instances: an edit that changes the functions of a mixed drawing, and a ply without stiffness matrix. *)
Example C70_ex_mixed :
  (exists idx idx', compute_constraints default_constraints 2 2 = Ok idx /\
     (c' <- set_edge default_constraints KX0 free_edge ;; compute_constraints c' 2 2) = Ok idx' /\ List.length (sw_idx idx) = List.length (sw_idx idx') /\ sw_idx idx <> sw_idx idx') /\
  ~ all_readable [(0, Ortho (OMat 1 1 1 1 1 0 0 0 0 0))].
Proof. exact T_PlateHistory.t_C70_ex_mixed. Qed.
