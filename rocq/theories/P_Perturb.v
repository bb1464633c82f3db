(** The theorems on how far the stored tables move the critical factor
    Statements only: every proof is [exact] a lemma of T_Perturb.v with the same statement.
    Below each theorem, Print Assumptions lists the axioms it uses. *)
From Coq Require Import Reals ZArith QArith Qreals Lra Lia Bool String.
From Coquelicot Require Import Coquelicot.
From Coq Require Import List.
From Verif Require Import M_Py M_Plate M_K M_Tables M_RealArith M_Plot M_Buckling S_Plate S_Mat S_Bardell S_Shape S_Energy S_K S_Ritz S_Eigen S_Compare S_Stored.
Import ListNotations.
Open Scope R_scope.
From Verif Require T_Perturb.

(** C76: every plate with symmetric positive definite D and held edges has a positive margin u: with exact integrals the energy of any coefficient
    vector is at least u times its squared length. *)
Theorem C76_margin : forall (D : mat3) a b Nxx Nyy Nxy c c0 ca d0 db m n (K KG : list (list R)), plate_ok D a b c c0 ca d0 db m n ->
  calc_K_KG_D exact_tables (as_arr D) a b Nxx Nyy Nxy c m n = Ok (K, KG) -> exists u, 0 < u /\ at_least u K.
Proof. exact T_Perturb.t_C76_margin. Qed.
Print Assumptions C76_margin.

(** C76: if the rounding of the tables is smaller than that margin, the matrices the code assembles are symmetric and K is positive definite,
    so that everything proved of such pencils holds of them. *)
Theorem C76_pencil : forall (D : mat3) a b Nxx Nyy Nxy c c0 ca d0 db m n M u (K KG : list (list R)), plate_ok D a b c c0 ca d0 db m n ->
  (M <= 30)%nat -> (m + taken c0 + taken ca <= M)%nat -> (n + taken d0 + taken db <= M)%nat ->
  calc_K_KG_D exact_tables (as_arr D) a b Nxx Nyy Nxy c m n = Ok (K, KG) -> at_least u K -> INR (m * n) * k_off (tolerance M) D a b < u ->
  exists K' KG' : list (list R), calc_K_KG_D stored_R (as_arr D) a b Nxx Nyy Nxy c m n = Ok (K', KG') /\ pencil K' KG'.
Proof. exact T_Perturb.t_C76_pencil. Qed.
Print Assumptions C76_pencil.

(** C76: then the critical factor l' of the matrices the code assembles and the exact one l satisfy |1/l - 1/l'| <= e/l' + g, where e and g are
    the rounding of K and KG relative to the margin. *)
Theorem C76_close : forall (D : mat3) a b Nxx Nyy Nxy c c0 ca d0 db m n M u (K KG : list (list R)) l l', plate_ok D a b c c0 ca d0 db m n ->
  (M <= 30)%nat -> (m + taken c0 + taken ca <= M)%nat -> (n + taken d0 + taken db <= M)%nat ->
  calc_K_KG_D exact_tables (as_arr D) a b Nxx Nyy Nxy c m n = Ok (K, KG) -> at_least u K -> INR (m * n) * k_off (tolerance M) D a b < u ->
  critical D a b Nxx Nyy Nxy c m n l -> critical_with stored_R D a b Nxx Nyy Nxy c m n l' ->
  let e := INR (m * n) * k_off (tolerance M) D a b / u in
  let g := INR (m * n) * kG_off (tolerance M) Nxx Nyy Nxy a b / u in
  Rabs (1 / l - 1 / l') <= e * (1 / l') + g.
Proof. exact T_Perturb.t_C76_close. Qed.
Print Assumptions C76_close.

(** C76: and each of the two exists when the other does and is small enough: a buckling load is neither invented nor lost by the rounding. *)
Theorem C76_exists : forall (D : mat3) a b Nxx Nyy Nxy c c0 ca d0 db m n M u (K KG : list (list R)), plate_ok D a b c c0 ca d0 db m n ->
  (M <= 30)%nat -> (m + taken c0 + taken ca <= M)%nat -> (n + taken d0 + taken db <= M)%nat ->
  calc_K_KG_D exact_tables (as_arr D) a b Nxx Nyy Nxy c m n = Ok (K, KG) -> at_least u K -> INR (m * n) * k_off (tolerance M) D a b < u ->
  let e := INR (m * n) * k_off (tolerance M) D a b / u in
  let g := INR (m * n) * kG_off (tolerance M) Nxx Nyy Nxy a b / u in
  (forall l, critical D a b Nxx Nyy Nxy c m n l -> g < 1 / l -> exists l', critical_with stored_R D a b Nxx Nyy Nxy c m n l') /\
  (forall l', critical_with stored_R D a b Nxx Nyy Nxy c m n l' -> g < (1 - e) / l' -> exists l, critical D a b Nxx Nyy Nxy c m n l).
Proof. exact T_Perturb.t_C76_exists. Qed.
Print Assumptions C76_exists.

(** C76: so for an exact factor above one by more than the rounding, the first value returned by the buckling analysis is that close to it, with
    every documented solver and any number of requested values. *)
Theorem C76_reported : forall eigsh (D : mat3) a b Nxx Nyy Nxy c c0 ca d0 db m n M u num (K KG : list (list R)) l out vecs, documented eigsh ->
  plate_ok D a b c c0 ca d0 db m n ->
  (M <= 30)%nat -> (m + taken c0 + taken ca <= M)%nat -> (n + taken d0 + taken db <= M)%nat ->
  calc_K_KG_D exact_tables (as_arr D) a b Nxx Nyy Nxy c m n = Ok (K, KG) -> at_least u K -> INR (m * n) * k_off (tolerance M) D a b < u ->
  let e := INR (m * n) * k_off (tolerance M) D a b / u in
  let g := INR (m * n) * kG_off (tolerance M) Nxx Nyy Nxy a b / u in
  critical D a b Nxx Nyy Nxy c m n l -> g < 1 / l -> 1 / l + g <= 1 - e ->
  buckling_analysis eigsh stored_R (as_arr D) a b Nxx Nyy Nxy c m n num = Ok (out, vecs) ->
  exists l' rest, out = Fin l' :: rest /\ critical_with stored_R D a b Nxx Nyy Nxy c m n l' /\ Rabs (1 / l - 1 / l') <= e * (1 / l') + g.
Proof. exact T_Perturb.t_C76_reported. Qed.
Print Assumptions C76_reported.

(** C76: a square pinned plate under compression, with m = n = 2: its exact factor is 2, and every documented solver makes the code return a first
    value within a billionth of 2. *)
Theorem C76_pinned_plate : critical mid 2 2 (-8) 0 0 (CStr "PINNED") 2 2 2 /\
  forall eigsh num out vecs, documented eigsh -> buckling_analysis eigsh stored_R (as_arr mid) 2 2 (-8) 0 0 (CStr "PINNED") 2 2 num = Ok (out, vecs) ->
  exists l rest, out = Fin l :: rest /\ Rabs (l - 2) <= 1 / 1000000000.
Proof. exact T_Perturb.t_C76_pinned_plate. Qed.
Print Assumptions C76_pinned_plate.

(** C76: that plate meets the hypotheses of the theorems above, with margin 1/100. *)
Example C76_ex : plate_ok mid 2 2 (CStr "PINNED") Pinned Pinned Pinned Pinned 2 2 /\
  exists K KG : list (list R), calc_K_KG_D exact_tables (as_arr mid) 2 2 (-8) 0 0 (CStr "PINNED") 2 2 = Ok (K, KG) /\ at_least (1 / 100) K /\
  INR (2 * 2) * k_off (tolerance 10) mid 2 2 < 1 / 100 /\ critical mid 2 2 (-8) 0 0 (CStr "PINNED") 2 2 2.
Proof. exact T_Perturb.t_C76_ex. Qed.
