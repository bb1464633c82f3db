(** The laminate properties C08-C20, C23, C24 (LaminateProperty, exact arithmetic).
    Statements only: every proof is [exact] a lemma of T_Laminate.v with the same statement.
    Below each theorem, Print Assumptions lists the axioms it uses. *)
From Coq Require Import Reals List Lra Psatz Lia Permutation String.
From Verif Require Import M_Py S_Mat M_Material M_Laminate M_LamHistory S_Laminate.
Import ListNotations.
Open Scope string_scope.
Open Scope list_scope.
Open Scope R_scope.
From Verif Require T_Laminate.

(** C08: one material is used for every angle; the construction always succeeds. *)
Theorem C08_one_material : forall angles m, exists L,
  construct (SAngles angles) (POne m) = Ok L /\
  layup L = map (fun a => (a, m)) angles /\ plies L = PMany (repeat m (List.length angles)).
Proof. exact T_Laminate.t_C08_one_material. Qed.
Print Assumptions C08_one_material.

(** C08: a list of plies is accepted exactly when its length is the number of angles (otherwise ValueError), and
    ply i is paired with angle i. *)
Theorem C08_many_materials : forall angles pl,
  (List.length pl = List.length angles ->
     exists L, construct (SAngles angles) (PMany pl) = Ok L /\ List.length (layup L) = List.length angles /\
       forall i a m, nth_error angles i = Some a -> nth_error pl i = Some m -> nth_error (layup L) i = Some (a, m)) /\
  (List.length pl <> List.length angles -> construct (SAngles angles) (PMany pl) = Err ValueError).
Proof. exact T_Laminate.t_C08_many_materials. Qed.
Print Assumptions C08_many_materials.

(** C08, concrete instance. *)
Example C08_ex : exists L, construct (SAngles [0; 90]) (PMany [Ortho ex_mat; Ortho ex_mat]) = Ok L
  /\ layup L = [(0, Ortho ex_mat); (90, Ortho ex_mat)].
Proof. exact T_Laminate.t_C08_ex. Qed.

(** C09: a dictionary is accepted exactly when it has the keys xiD and T; a missing key surfaces as
    UnboundLocalError, never as KeyError. *)
Theorem C09_dict_accepted : forall d p,
  (lookup d "xiD" <> None /\ lookup d "T" <> None -> exists L, construct (SDict d) p = Ok L) /\
  (lookup d "xiD" = None \/ lookup d "T" = None -> construct (SDict d) p = Err UnboundLocalError).
Proof. exact T_Laminate.t_C09_dict_accepted. Qed.
Print Assumptions C09_dict_accepted.

(** C09: only xiA, xiD and T matter: two dictionaries that agree on these keys give laminates that cannot be told
    apart by any sequence of attribute reads (whatever their xiB and other keys), and every read of B gives zero. *)
Theorem C09_xiB_ignored : forall d d' p L L' reads,
  lookup d "xiA" = lookup d' "xiA" -> lookup d "xiD" = lookup d' "xiD" -> lookup d "T" = lookup d' "T" ->
  construct (SDict d) p = Ok L -> construct (SDict d') p = Ok L' ->
  run L reads = run L' reads /\ snd (get_B L) = Ok mzero.
Proof. exact T_Laminate.t_C09_xiB_ignored. Qed.
Print Assumptions C09_xiB_ignored.

(** C09, concrete instance: the hypotheses are satisfiable with different xiB. *)
Example C09_ex : exists L L',
  construct (SDict [("xiA", DVec [1;0;1;0]); ("xiB", DVec [1;1;1;1]); ("xiD", DVec [1;0;1;0]); ("T", DNum 1)]) (POne (Ortho ex_mat)) = Ok L /\
  construct (SDict [("xiA", DVec [1;0;1;0]); ("xiD", DVec [1;0;1;0]); ("T", DNum 1)]) (POne (Ortho ex_mat)) = Ok L' /\
  construct (SDict [("xiA", DVec [1;0;1;0]); ("T", DNum 1)]) (POne (Ortho ex_mat)) = Err UnboundLocalError.
Proof. exact T_Laminate.t_C09_ex. Qed.

(** C10: z_position has one entry more than plies; entry k is minus half the total plus the thicknesses of the first
    k plies. *)
Theorem C10_interfaces : forall l,
  List.length (z_position l) = S (List.length l) /\
  forall k, (k <= List.length l)%nat ->
    nth_error (z_position l) k = Some (- total l / 2 + total (firstn k l)).
Proof. exact T_Laminate.t_C10_interfaces. Qed.
Print Assumptions C10_interfaces.

(** C10: first and last entries are minus and plus half the total; consecutive entries differ by the ply thickness, so
    the list is increasing when thicknesses are positive. *)
Theorem C10_ends_and_steps : forall l,
  nth_error (z_position l) 0 = Some (- total l / 2) /\
  nth_error (z_position l) (List.length l) = Some (total l / 2) /\
  forall k th m, nth_error l k = Some (th, m) -> exists z0 z1,
    nth_error (z_position l) k = Some z0 /\ nth_error (z_position l) (S k) = Some z1 /\
    z1 - z0 = thickness m /\ (0 <= thickness m -> z0 <= z1) /\ (0 < thickness m -> z0 < z1).
Proof. exact T_Laminate.t_C10_ends_and_steps. Qed.
Print Assumptions C10_ends_and_steps.

(** C10, concrete instance. *)
Example C10_ex : z_position [(0, Ortho ex_mat); (90, Ortho ex_mat)] = [-1; 0; 1].
Proof. exact T_Laminate.t_C10_ex. Qed.

(** C11: the matrix inverted by Q_layup is never singular. *)
Theorem C11_never_singular : forall theta, exists Ti,
  inv3 (T_real (cdeg theta) (sdeg theta)) = Ok Ti /\
  mmul Ti (T_real (cdeg theta) (sdeg theta)) = mid /\ mmul (T_real (cdeg theta) (sdeg theta)) Ti = mid.
Proof. exact T_Laminate.t_C11_never_singular. Qed.
Print Assumptions C11_never_singular.

(** C11: reading Q_layup raises (ZeroDivisionError) exactly when some ply has an unreadable Q_0; otherwise it has one
    entry per ply. *)
Theorem C11_Q_layup_defined : forall l,
  (all_readable l -> exists Qs, Q_layup_of l = Ok Qs /\ List.length Qs = List.length l) /\
  (~ all_readable l -> Q_layup_of l = Err ZeroDivisionError).
Proof. exact T_Laminate.t_C11_Q_layup_defined. Qed.
Print Assumptions C11_Q_layup_defined.

(** C11: every entry of Q_layup is the textbook transformed stiffness of its ply, and maps every plate strain to the
    stress obtained by rotating the strain tensor into ply axes, applying Q_0 and rotating the stress tensor back. *)
Theorem C11_rotated_stiffness : forall l i th m Q q,
  nth_error l i = Some (th, m) -> Q_entry l i = Ok Q -> Q_0 m = Ok q ->
  Q = Qbar_textbook q (cdeg th) (sdeg th) /\
  forall e, mvec Q e = ply_stress (cdeg th) (sdeg th) q e.
Proof. exact T_Laminate.t_C11_rotated_stiffness. Qed.
Print Assumptions C11_rotated_stiffness.

(** C11: ... and the multiple-angle form with the U's returned by Invariants(). *)
Theorem C11_multiple_angles : forall l i th m Q U,
  nth_error l i = Some (th, m) -> Q_entry l i = Ok Q -> Invariants m = Ok U ->
  Q = Qbar_multiangle U (th * PI / 180).
Proof. exact T_Laminate.t_C11_multiple_angles. Qed.
Print Assumptions C11_multiple_angles.

(** C12: every entry is a symmetric matrix and its two trace-type invariants do not depend on the angle. *)
Theorem C12_symmetric_invariants : forall l i th m Q q,
  nth_error l i = Some (th, m) -> Q_entry l i = Ok Q -> Q_0 m = Ok q ->
  symmetric Q /\ a11 Q + a22 Q + 2 * a12 Q = a11 q + a22 q + 2 * a12 q /\ a33 Q - a12 Q = a33 q - a12 q.
Proof. exact T_Laminate.t_C12_symmetric_invariants. Qed.
Print Assumptions C12_symmetric_invariants.

(** C12: a half turn changes nothing; a quarter turn exchanges 11 and 22 and maps 16 to -26; a mirrored angle changes
    the sign of the 16 and 26 terms only. (l and l' are any two layups containing the two plies.) *)
Theorem C12_angle_symmetries : forall l l' i j th th' m Q Q',
  nth_error l i = Some (th, m) -> nth_error l' j = Some (th', m) -> Q_entry l i = Ok Q -> Q_entry l' j = Ok Q' ->
  (forall k : Z, th' = th + 180 * IZR k -> Q' = Q) /\
  (th' = th + 90 -> a11 Q' = a22 Q /\ a22 Q' = a11 Q /\ a12 Q' = a12 Q /\ a33 Q' = a33 Q /\
                    a13 Q' = - a23 Q /\ a23 Q' = - a13 Q) /\
  (th' = - th -> a11 Q' = a11 Q /\ a22 Q' = a22 Q /\ a12 Q' = a12 Q /\ a33 Q' = a33 Q /\
                 a13 Q' = - a13 Q /\ a23 Q' = - a23 Q).
Proof. exact T_Laminate.t_C12_angle_symmetries. Qed.
Print Assumptions C12_angle_symmetries.

(** C11, C12, concrete instance: a 0/90 laminate whose two entries differ. *)
Example C11_ex :
  Q_entry [(0, Ortho ex_mat); (90, Ortho ex_mat)] 0 = Ok (M3 2 0 0 0 1 0 0 0 1) /\
  Q_entry [(0, Ortho ex_mat); (90, Ortho ex_mat)] 1 = Ok (M3 1 0 0 0 2 0 0 0 1) /\
  exists U, Invariants (Ortho ex_mat) = Ok U.
Proof. exact T_Laminate.t_C11_ex. Qed.

(** C13: A, B, D of every laminate are symmetric and ABD is the symmetric matrix with blocks A, B, B, D, whatever
    the construction (angles or lamination parameters), whenever the reads succeed. *)
Theorem C13_symmetric : forall s p L M,
  construct s p = Ok L -> snd (get_ABD L) = Ok M ->
  snd (get_A L) = Ok (blkA M) /\ snd (get_B L) = Ok (blkB M) /\ snd (get_D L) = Ok (blkD M) /\ blkC M = blkB M /\
  symmetric (blkA M) /\ symmetric (blkB M) /\ symmetric (blkD M) /\ sym6 M.
Proof. exact T_Laminate.t_C13_symmetric. Qed.
Print Assumptions C13_symmetric.

(** C13: for angle laminates the reads of A, B, D, ABD succeed exactly when every Q_0 is readable. *)
Theorem C13_defined : forall l,
  (all_readable l -> exists A B D, A_of l = Ok A /\ B_of l = Ok B /\ D_of l = Ok D /\ ABD_of l = Ok (M6 A B B D)) /\
  (~ all_readable l -> A_of l = Err ZeroDivisionError /\ B_of l = Err ZeroDivisionError /\
      D_of l = Err ZeroDivisionError /\ ABD_of l = Err ZeroDivisionError).
Proof. exact T_Laminate.t_C13_defined. Qed.
Print Assumptions C13_defined.

(** C13, concrete instance: a laminate whose B is not zero. *)
Example C13_ex : B_of [(0, Ortho ex_mat); (90, Ortho ex_mat)] = Ok (M3 (-1/2) 0 0 0 (1/2) 0 0 0 0).
Proof. exact T_Laminate.t_C13_ex. Qed.

(** C14: a layup that reads the same from both faces has B = 0. *)
Theorem C14_symmetric_no_coupling : forall l B, symmetric_layup l -> B_of l = Ok B -> B = mzero.
Proof. exact T_Laminate.t_C14_symmetric_no_coupling. Qed.
Print Assumptions C14_symmetric_no_coupling.

(** C14, concrete instance. *)
Example C14_ex : symmetric_layup [(0, Ortho ex_mat); (90, Ortho ex_mat); (180, Ortho ex_mat)] /\
  exists B, B_of [(0, Ortho ex_mat); (90, Ortho ex_mat); (180, Ortho ex_mat)] = Ok B.
Proof. exact T_Laminate.t_C14_ex. Qed.

(** C15: A does not depend on the stacking order (even the error, when some ply cannot be read). *)
Theorem C15_A_order : forall l l', Permutation l l' -> A_of l = A_of l'.
Proof. exact T_Laminate.t_C15_A_order. Qed.
Print Assumptions C15_A_order.

(** C15: nor does xiA. *)
Theorem C15_xiA_order : forall l l', Permutation l l' -> xiA_of l = xiA_of l'.
Proof. exact T_Laminate.t_C15_xiA_order. Qed.
Print Assumptions C15_xiA_order.

(** C15: B and D do depend on the order. *)
Theorem C15_BD_order_refuted :
  (exists l l', Permutation l l' /\ all_readable l /\ B_of l <> B_of l') /\
  (exists l l', Permutation l l' /\ all_readable l /\ D_of l <> D_of l').
Proof. exact T_Laminate.t_C15_BD_order_refuted. Qed.
Print Assumptions C15_BD_order_refuted.

(** C16: turning the laminate upside down keeps A and D and negates B. *)
Theorem C16_flip : forall l,
  A_of (rev l) = A_of l /\ D_of (rev l) = D_of l /\ B_of (rev l) = (B <- B_of l ;; Ok (mneg B)).
Proof. exact T_Laminate.t_C16_flip. Qed.
Print Assumptions C16_flip.

(** C16, concrete instance: B is not zero here (see C13_ex), so the sign matters. *)
Example C16_ex : B_of (rev [(0, Ortho ex_mat); (90, Ortho ex_mat)]) = Ok (mneg (M3 (-1/2) 0 0 0 (1/2) 0 0 0 0)).
Proof. exact T_Laminate.t_C16_ex. Qed.

(** C17: balanced layups have no shear-extension coupling. *)
Theorem C17_balanced : forall l A, balanced l -> A_of l = Ok A ->
  a13 A = 0 /\ a23 A = 0 /\ a31 A = 0 /\ a32 A = 0.
Proof. exact T_Laminate.t_C17_balanced. Qed.
Print Assumptions C17_balanced.

(** C17: and the sine lamination parameters of xiA vanish. *)
Theorem C17_balanced_xiA : forall l x1 x2 x3 x4, balanced l -> xiA_of l = Ok (x1, x2, x3, x4) -> x2 = 0 /\ x4 = 0.
Proof. exact T_Laminate.t_C17_balanced_xiA. Qed.
Print Assumptions C17_balanced_xiA.

(** C17, concrete instance with a 45/-45/90 layup. *)
Example C17_ex : let l := [(45, Ortho ex_mat); (-45, Ortho ex_mat); (90, Ortho ex_mat)] in
  balanced l /\ (exists A, A_of l = Ok A) /\ exists x, xiA_of l = Ok x.
Proof. exact T_Laminate.t_C17_ex. Qed.

(** C18: the laminate built from the lamination parameters of a one-material layup has the same A and D, and the same
    ABD when the layup is symmetric. (All plies have the elastic constants of the orthotropic material o;
    thicknesses may vary.) *)
Theorem C18_round_trip : forall o l xa xd,
  readable (Ortho o) -> Forall (fun p => same_stiffness (snd p) (Ortho o)) l -> total l <> 0 ->
  xiA_of l = Ok xa -> xiD_of l = Ok xd ->
  let '(a1, a2, a3, a4) := xa in let '(d1, d2, d3, d4) := xd in
  exists L, construct (SDict [("xiA", DVec [a1; a2; a3; a4]); ("xiD", DVec [d1; d2; d3; d4]); ("T", DNum (total l))]%string)
                      (POne (Ortho o)) = Ok L /\
    snd (get_A L) = A_of l /\ snd (get_D L) = D_of l /\ (symmetric_layup l -> snd (get_ABD L) = ABD_of l).
Proof. exact T_Laminate.t_C18_round_trip. Qed.
Print Assumptions C18_round_trip.

(** C18, concrete instance: a symmetric 0/90/0 laminate. *)
Example C18_ex : let l := [(0, Ortho ex_mat); (90, Ortho ex_mat); (0, Ortho ex_mat)] in
  readable (Ortho ex_mat) /\ Forall (fun p => same_stiffness (snd p) (Ortho ex_mat)) l /\ total l <> 0 /\
  symmetric_layup l /\ exists xa xd, xiA_of l = Ok xa /\ xiD_of l = Ok xd.
Proof. exact T_Laminate.t_C18_ex. Qed.

(** C19: ABD of every non-empty layup of admissible plies is positive definite, hence injective. *)
Theorem C19_ABD_pos_def : forall l, l <> [] -> all_admissible l ->
  exists M, ABD_of l = Ok M /\ pos_def6 M /\ forall x, mvec6 M x = (vzero, vzero) -> x = (vzero, vzero).
Proof. exact T_Laminate.t_C19_ABD_pos_def. Qed.
Print Assumptions C19_ABD_pos_def.

(** C19, concrete instance. *)
Example C19_ex : all_admissible [(0, Ortho ex_mat); (37, Ortho ex_mat)].
Proof. exact T_Laminate.t_C19_ex. Qed.

(** C19: shear modulus 0 or thickness 0, both accepted by the constructor, give a singular ABD. *)
Theorem C19_degenerate :
  (exists l M, ABD_of l = Ok M /\ l = [(0, Ortho (OMat 2 1 0 0 1 0 0 0 0 0))] /\ exists x, x <> (vzero, vzero) /\ mvec6 M x = (vzero, vzero)) /\
  (exists l M, ABD_of l = Ok M /\ l = [(0, Ortho (OMat 2 1 0 1 0 0 0 0 0 0))] /\ exists x, x <> (vzero, vzero) /\ mvec6 M x = (vzero, vzero)).
Proof. exact T_Laminate.t_C19_degenerate. Qed.
Print Assumptions C19_degenerate.

(** C20: lamination parameters of every non-empty layup of positive-thickness plies lie in [-1,1] and satisfy
    xi3 >= 2 xi1^2 - 1; for 0/45/-45/90 layups also xi3 >= 2|xi1| - 1. *)
Theorem C20_feasible : forall l x1 x2 x3 x4,
  l <> [] -> Forall (fun p => 0 < thickness (snd p)) l ->
  xiA_of l = Ok (x1, x2, x3, x4) \/ xiD_of l = Ok (x1, x2, x3, x4) ->
  (-1 <= x1 <= 1) /\ (-1 <= x2 <= 1) /\ (-1 <= x3 <= 1) /\ (-1 <= x4 <= 1) /\
  x3 >= 2 * x1 ^ 2 - 1 /\
  (Forall (fun p => standard_angle (fst p)) l -> x3 >= 2 * Rabs x1 - 1).
Proof. exact T_Laminate.t_C20_feasible. Qed.
Print Assumptions C20_feasible.

(** C20: the reads succeed for every such layup. *)
Theorem C20_defined : forall l, l <> [] -> Forall (fun p => 0 < thickness (snd p)) l ->
  (exists x, xiA_of l = Ok x) /\ (exists x, xiD_of l = Ok x).
Proof. exact T_Laminate.t_C20_defined. Qed.
Print Assumptions C20_defined.

(** C20, concrete instance: the 0/45 layup meets the hypotheses of both parts. *)
Example C20_ex : let l := [(0, Ortho ex_mat); (45, Ortho ex_mat)] in
  l <> [] /\ Forall (fun p => 0 < thickness (snd p)) l /\ Forall (fun p => standard_angle (fst p)) l.
Proof. exact T_Laminate.t_C20_ex. Qed.

(** C23: replacing a ply by plies of the same angle and elastic constants whose thicknesses add up to it changes
    neither A nor B nor D. *)
Theorem C23_split : forall l1 th m l2 sub, all_readable (l1 ++ (th, m) :: l2) ->
  Forall (fun p => fst p = th /\ same_stiffness (snd p) m) sub -> total sub = thickness m ->
  A_of (l1 ++ sub ++ l2) = A_of (l1 ++ (th, m) :: l2) /\
  B_of (l1 ++ sub ++ l2) = B_of (l1 ++ (th, m) :: l2) /\
  D_of (l1 ++ sub ++ l2) = D_of (l1 ++ (th, m) :: l2).
Proof. exact T_Laminate.t_C23_split. Qed.
Print Assumptions C23_split.

(** C23: the interfaces below and above the split ply stay where they were. *)
Theorem C23_interfaces : forall l1 th m l2 sub, total sub = thickness m ->
  (forall k, (k <= List.length l1)%nat ->
     nth_error (z_position (l1 ++ sub ++ l2)) k = nth_error (z_position (l1 ++ (th, m) :: l2)) k) /\
  (forall k, (k <= List.length l2)%nat ->
     nth_error (z_position (l1 ++ sub ++ l2)) (List.length l1 + List.length sub + k) =
     nth_error (z_position (l1 ++ (th, m) :: l2)) (List.length l1 + 1 + k)).
Proof. exact T_Laminate.t_C23_interfaces. Qed.
Print Assumptions C23_interfaces.

(** C23, concrete instance: one ply of thickness 1 replaced by two of 1/4 and 3/4. *)
Example C23_ex : let sub := [(30, Ortho (OMat 2 1 0 1 (1/4) 0 0 0 0 0)); (30, Ortho (OMat 2 1 0 1 (3/4) 0 0 0 0 0))] in
  Forall (fun p => fst p = 30 /\ same_stiffness (snd p) (Ortho (OMat 2 1 0 1 1 0 0 0 0 0))) sub /\
  total sub = thickness (Ortho (OMat 2 1 0 1 1 0 0 0 0 0)).
Proof. exact T_Laminate.t_C23_ex. Qed.

(** C24: adding phi to all angles transforms A, B and D by the same fourth-order tensor rotation:
    M' = T_real(phi)^-1 M T_engineering(phi). *)
Theorem C24_rotation : forall phi l Ti, inv3 (T_real (cdeg phi) (sdeg phi)) = Ok Ti ->
  let turn (M : res mat3) := (M <- M ;; Ok (mmul (mmul Ti M) (T_engineering (cdeg phi) (sdeg phi)))) in
  A_of (rotate_all phi l) = turn (A_of l) /\ B_of (rotate_all phi l) = turn (B_of l) /\ D_of (rotate_all phi l) = turn (D_of l).
Proof. exact T_Laminate.t_C24_rotation. Qed.
Print Assumptions C24_rotation.

(** C24: A is the stiffness seen in rotated axes: for every strain, the rotated laminate's A e is the membrane force
    obtained by expressing e in the axes of the unrotated laminate, applying its A and rotating back. *)
Theorem C24_tensor : forall phi l A A', A_of l = Ok A -> A_of (rotate_all phi l) = Ok A' ->
  forall e, mvec A' e = ply_stress (cdeg phi) (sdeg phi) A e.
Proof. exact T_Laminate.t_C24_tensor. Qed.
Print Assumptions C24_tensor.

(** C24: rotations compose, and rotating back restores the matrices. *)
Theorem C24_group : forall phi psi l,
  rotate_all psi (rotate_all phi l) = rotate_all (phi + psi) l /\
  A_of (rotate_all (- phi) (rotate_all phi l)) = A_of l /\
  B_of (rotate_all (- phi) (rotate_all phi l)) = B_of l /\
  D_of (rotate_all (- phi) (rotate_all phi l)) = D_of l.
Proof. exact T_Laminate.t_C24_group. Qed.
Print Assumptions C24_group.

(** C24, concrete instance. *)
Example C24_ex : exists A A', A_of [(0, Ortho ex_mat)] = Ok A /\ A_of (rotate_all 90 [(0, Ortho ex_mat)]) = Ok A' /\ A <> A'.
Proof. exact T_Laminate.t_C24_ex. Qed.
