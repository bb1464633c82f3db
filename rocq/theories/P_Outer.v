(** The theorems about plies added to the faces of a laminate.
    Statements only: every proof is [exact] a lemma of T_Outer.v with the same statement.
    Below each theorem, Print Assumptions lists the axioms it uses. *)
From Coq Require Import Reals ZArith Lra Lia List.
From Verif Require Import M_Py M_Material M_Laminate M_Plate M_K M_RealArith S_Mat S_Material S_Laminate S_Plate S_Energy S_K S_Ritz S_Eigen S_Compare S_Outer.
Import ListNotations.
Open Scope R_scope.
From Verif Require T_Outer.

(** C69: covering a laminate with plies on its faces never makes its D less stiff when the same thickness goes on both faces, or when
    the laminate has no coupling; the laminate in the middle may be any stack of physical plies. *)
Theorem C69_stiffer : forall bot l top D D', all_admissible bot -> all_admissible l -> all_admissible top ->
  total bot = total top \/ B_of l = Ok mzero -> D_of l = Ok D -> D_of (bot ++ l ++ top) = Ok D' -> no_stiffer D D'.
Proof. exact T_Outer.t_C69_stiffer. Qed.
Print Assumptions C69_stiffer.

(** C69: so covering the laminate of a plate in that way never lowers its critical factor, for every plate size, edge condition and load. *)
Theorem C69_buckling : forall bot l top D D' a b Nxx Nyy Nxy c c0 ca d0 db m n k, all_admissible bot -> all_admissible l -> all_admissible top -> l <> [] ->
  total bot = total top \/ B_of l = Ok mzero -> D_of l = Ok D -> D_of (bot ++ l ++ top) = Ok D' ->
  0 < a -> 0 < b -> specifies c c0 ca d0 db -> restrained c0 ca d0 db ->
  critical D' a b Nxx Nyy Nxy c m n k -> exists j, critical D a b Nxx Nyy Nxy c m n j /\ j <= k.
Proof. exact T_Outer.t_C69_buckling. Qed.
Print Assumptions C69_buckling.

(** C69: the condition is needed. A sheet of foam glued to one face of a foam-steel pair makes D less stiff, since the code measures
    every D from the middle of the laminate. *)
Theorem C69_one_side_refuted : exists l p D D', all_admissible l /\ S_Laminate.admissible (snd p) /\ D_of l = Ok D /\ D_of (p :: l) = Ok D' /\ ~ no_stiffer D D'.
Proof. exact T_Outer.t_C69_one_side_refuted. Qed.
Print Assumptions C69_one_side_refuted.

(** C69 example: steel on both faces of a foam-steel pair; and a foam core between two different faces. *)
Theorem C69_ex : all_admissible [(0, steel)] /\ all_admissible [(0, steel); (0, foam)] /\ total [(0, steel)] = total [(30, foam)] /\
  (exists D D', D_of [(0, steel); (0, foam)] = Ok D /\ D_of ([(0, steel)] ++ [(0, steel); (0, foam)] ++ [(30, foam)]) = Ok D' /\ no_stiffer D D') /\
  B_of [(0, foam)] = Ok mzero /\
  (exists D D', D_of [(0, foam)] = Ok D /\ D_of ([(0, steel)] ++ [(0, foam)] ++ []) = Ok D' /\ no_stiffer D D').
Proof. exact T_Outer.t_C69_ex. Qed.
Print Assumptions C69_ex.
