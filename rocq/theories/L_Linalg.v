(** Soundness and completeness of the elimination in M_Linalg.v *)
From Coq Require Import Reals List Lra Lia.
From Verif Require Import M_Py S_Mat M_Laminate M_Linalg S_Laminate L_Mat.
Import ListNotations.
Open Scope R_scope.

Definition wf (n : nat) (r : eqn) : Prop := length (fst r) = n.
Definition sat (x : list R) (r : eqn) : Prop := ldot (fst r) x = snd r.
Definition hom (x : list R) (r : eqn) : Prop := ldot (fst r) x = 0.

Lemma ldot_zip k : forall n u v x, length u = n -> length v = n -> length x = n ->
  ldot (zip_with (fun a b => a - k * b) u v) x = ldot u x - k * ldot v x.
Proof.
  induction n as [|n IH]; intros [|a u] [|b v] [|c x] Hu Hv Hx; simpl in *; try discriminate; [ring|].
  rewrite IH by lia; ring.
Qed.
Lemma zip_length f : forall u v, length u = length v -> length (zip_with f u v) = length u.
Proof. induction u as [|a u IH]; intros [|b v] H; simpl in *; try discriminate; auto. Qed.

Lemma find_pivot_some rows : forall n a p b rest, Forall (wf (S n)) rows -> find_pivot rows = Some (a, p, b, rest) ->
  a <> 0 /\ length p = n /\ Forall (wf (S n)) rest /\ length rows = S (length rest) /\
  (forall P : eqn -> Prop, Forall P rows <-> P (a :: p, b) /\ Forall P rest).
Proof.
  induction rows as [|[[|c r] d] t IH]; intros n a p b rest Hw Hf; simpl in Hf; try discriminate.
  inversion Hw as [|? ? Hr Ht]; subst.
  destruct (Req_EM_T c 0) as [E|N].
  - destruct (find_pivot t) as [[[[a' p'] b'] rest']|] eqn:Ef; [|discriminate]; injection Hf as <- <- <- <-.
    destruct (IH n a' p' b' rest' Ht eq_refl) as (H1 & H2 & H3 & H4 & H5).
    repeat split; auto.
    + simpl; rewrite H4; reflexivity.
    + inversion H; subst; apply H5; assumption.
    + inversion H; subst; constructor; [assumption|]; apply H5; assumption.
    + intros [K1 K2]; inversion K2; subst; constructor; [assumption|]; apply H5; auto.
  - injection Hf as <- <- <- <-.
    split; [assumption|split; [unfold wf in Hr; cbn [fst length] in Hr; injection Hr; auto|split; [assumption|split; [reflexivity|]]]].
    intros P; split; intros H; [inversion H; auto|constructor; apply H].
Qed.
Lemma find_pivot_none rows : forall n, Forall (wf (S n)) rows -> find_pivot rows = None ->
  Forall (fun r : eqn => exists p, fst r = 0 :: p) rows.
Proof.
  induction rows as [|[[|c r] d] t IH]; intros n Hw Hf; [constructor| |].
  - inversion Hw as [|? ? Hr Ht]; discriminate Hr.
  - inversion Hw as [|? ? Hr Ht]; subst; simpl in Hf; destruct (Req_EM_T c 0) as [->|N]; [|discriminate].
    constructor; [simpl; eauto|]; apply (IH n Ht).
    destruct (find_pivot t) as [[[[a' p'] b'] rest']|]; [discriminate|reflexivity].
Qed.
Lemma elim_wf a p b n row : length p = n -> wf (S n) row -> wf n (eliminate a p b row).
Proof.
  destruct row as [[|c r] d]; unfold wf; simpl; intros Hp Hr; [discriminate|].
  rewrite zip_length; lia.
Qed.
Lemma elim_sat a p b n row x x0 : a <> 0 -> length p = n -> wf (S n) row -> length x = n ->
  a * x0 + ldot p x = b -> (sat x (eliminate a p b row) <-> sat (x0 :: x) row).
Proof.
  destruct row as [[|c r] d]; unfold wf, sat; simpl; intros Ha Hp Hr Hx E; [discriminate|].
  rewrite (ldot_zip (c/a) n) by lia.
  assert (E0 : x0 = (b - ldot p x) / a) by (rewrite <- E; field; exact Ha).
  assert (K : c * x0 = c/a * b - c/a * ldot p x) by (rewrite E0; field; exact Ha).
  rewrite K; split; intros; lra.
Qed.
Lemma ldot_zero_l u : forall n, ldot u (repeat 0 n) = 0.
Proof. induction u as [|a u IH]; intros [|n]; simpl; auto; rewrite IH; ring. Qed.

(** a solution returned satisfies every equation and is the only one *)
Lemma solve_sound n : forall rows x, Forall (wf n) rows -> length rows = n -> solve n rows = Some x ->
  length x = n /\ Forall (sat x) rows /\
  forall y, length y = n -> Forall (sat y) rows -> y = x.
Proof.
  induction n as [|n IH]; intros rows x Hw Hl Hs; simpl in Hs.
  - injection Hs as <-; destruct rows; [|discriminate]; repeat split; auto.
    intros [|]; [reflexivity|discriminate].
  - destruct (find_pivot rows) as [[[[a p] b] rest]|] eqn:Ef; [|discriminate].
    destruct (solve n (map (eliminate a p b) rest)) as [x'|] eqn:Es; [|discriminate]; injection Hs as <-.
    destruct (find_pivot_some rows n a p b rest Hw Ef) as (Ha & Hp & Hr & Hlen & HP).
    assert (Hw' : Forall (wf n) (map (eliminate a p b) rest)).
    { apply Forall_map; revert Hr; apply Forall_impl; intros r; apply elim_wf, Hp. }
    destruct (IH _ x' Hw' ltac:(rewrite map_length; lia) Es) as (H1 & H2 & H3).
    assert (E0 : a * ((b - ldot p x') / a) + ldot p x' = b) by (field; exact Ha).
    split; [simpl; lia|split].
    + apply HP; split; [unfold sat; simpl; exact E0|].
      rewrite Forall_map in H2; rewrite Forall_forall in *; intros r Hin.
      apply (elim_sat a p b n r x' _ Ha Hp (Hr r Hin) H1 E0), H2, Hin.
    + intros [|y0 y] Hy Hsat; [discriminate|]; simpl in Hy.
      apply HP in Hsat; destruct Hsat as [Ey Hrest]; unfold sat in Ey; simpl in Ey.
      assert (Exy : y = x').
      { apply H3; [lia|]; rewrite Forall_map; rewrite Forall_forall in *; intros r Hin.
        apply (elim_sat a p b n r y y0 Ha Hp (Hr r Hin) ltac:(lia) Ey), Hrest, Hin. }
      subst y; f_equal; rewrite <- Ey; field; exact Ha.
Qed.
(** if no solution is returned, the matrix has a non-trivial kernel (whatever the right-hand sides) *)
Lemma hom_elim a p b n row x x0 : a <> 0 -> length p = n -> wf (S n) row -> length x = n ->
  a * x0 + ldot p x = 0 -> (hom x (eliminate a p b row) <-> hom (x0 :: x) row).
Proof.
  destruct row as [[|c r] d]; unfold wf, hom; simpl; intros Ha Hp Hr Hx E; [discriminate|].
  rewrite (ldot_zip (c/a) n) by lia.
  assert (E0 : x0 = - ldot p x / a) by (replace (- ldot p x) with (a * x0) by lra; field; exact Ha).
  assert (K : c * x0 = - (c/a) * ldot p x) by (rewrite E0; field; exact Ha).
  rewrite K; split; intros; lra.
Qed.
Lemma solve_complete n : forall rows, Forall (wf n) rows -> length rows = n -> solve n rows = None ->
  exists x, length x = n /\ x <> repeat 0 n /\ Forall (hom x) rows.
Proof.
  induction n as [|n IH]; intros rows Hw Hl Hs; simpl in Hs; [discriminate|].
  destruct (find_pivot rows) as [[[[a p] b] rest]|] eqn:Ef.
  - destruct (solve n (map (eliminate a p b) rest)) as [x'|] eqn:Es; [discriminate|].
    destruct (find_pivot_some rows n a p b rest Hw Ef) as (Ha & Hp & Hr & Hlen & HP).
    assert (Hw' : Forall (wf n) (map (eliminate a p b) rest)).
    { apply Forall_map; revert Hr; apply Forall_impl; intros r; apply elim_wf, Hp. }
    destruct (IH _ Hw' ltac:(rewrite map_length; lia) Es) as (x & Hx & Nx & Hh).
    assert (E0 : a * (- ldot p x / a) + ldot p x = 0) by (field; exact Ha).
    exists ((- ldot p x / a) :: x); split; [simpl; lia|split].
    + simpl; intros E; injection E as _ E; contradiction.
    + apply HP; split; [unfold hom; simpl; exact E0|].
      rewrite Forall_map in Hh; rewrite Forall_forall in *; intros r Hin.
      apply (hom_elim a p b n r x _ Ha Hp (Hr r Hin) Hx E0), Hh, Hin.
  - exists (1 :: repeat 0 n); split; [simpl; rewrite repeat_length; reflexivity|split].
    + simpl; intros E; injection E; lra.
    + pose proof (find_pivot_none rows n Hw Ef) as H; revert H; apply Forall_impl; intros [r d] [p E]; simpl in E; subst r.
      unfold hom; simpl; rewrite ldot_zero_l; ring.
Qed.
(** solvability depends on the coefficients only *)
Lemma solve_unique_kernel n rows x : Forall (wf n) rows -> length rows = n -> solve n rows = Some x ->
  forall y, length y = n -> Forall (hom y) rows -> y = repeat 0 n.
Proof.
  revert rows x; induction n as [|n IH]; intros rows x Hw Hl Hs y Hy Hh; simpl in Hs.
  - destruct y; [reflexivity|discriminate].
  - destruct (find_pivot rows) as [[[[a p] b] rest]|] eqn:Ef; [|discriminate].
    destruct (solve n (map (eliminate a p b) rest)) as [x'|] eqn:Es; [|discriminate]; injection Hs as <-.
    destruct (find_pivot_some rows n a p b rest Hw Ef) as (Ha & Hp & Hr & Hlen & HP).
    assert (Hw' : Forall (wf n) (map (eliminate a p b) rest)).
    { apply Forall_map; revert Hr; apply Forall_impl; intros r; apply elim_wf, Hp. }
    destruct y as [|y0 y]; [discriminate|]; simpl in Hy.
    apply HP in Hh; destruct Hh as [Ey Hrest]; unfold hom in Ey; simpl in Ey.
    assert (Ez : y = repeat 0 n).
    { apply (IH _ x' Hw' ltac:(rewrite map_length; lia) Es); [lia|].
      rewrite Forall_map; rewrite Forall_forall in *; intros r Hin.
      apply (hom_elim a p b n r y y0 Ha Hp (Hr r Hin) ltac:(lia) Ey), Hrest, Hin. }
    subst y; rewrite ldot_zero_l in Ey; simpl; f_equal.
    apply Rmult_eq_reg_l with a; lra.
Qed.

(** ** 6x6 *)
Definition list6 (x : vec3 * vec3) : list R := [vx (fst x); vy (fst x); vz (fst x); vx (snd x); vy (snd x); vz (snd x)].
Definition of_list6 (l : list R) : vec3 * vec3 :=
  (V3 (nth 0 l 0) (nth 1 l 0) (nth 2 l 0), V3 (nth 3 l 0) (nth 4 l 0) (nth 5 l 0)).
Lemma list6_inv l : length l = 6%nat -> list6 (of_list6 l) = l.
Proof. destruct l as [|a [|b [|c [|d [|e [|f [|? ?]]]]]]]; simpl; try discriminate; reflexivity. Qed.
Lemma rows6_wf M b : length b = 6%nat -> Forall (wf 6) (combine (rows6 M) b) /\ length (combine (rows6 M) b) = 6%nat.
Proof.
  destruct b as [|b1 [|b2 [|b3 [|b4 [|b5 [|b6 [|? ?]]]]]]]; simpl; try discriminate; intros _.
  split; [|reflexivity]; repeat constructor.
Qed.
Lemma rows6_sat M b x : Forall (sat (list6 x)) (combine (rows6 M) (list6 b)) <-> mvec6 M x = b.
Proof.
  destruct M as [[? ? ? ? ? ? ? ? ?] [? ? ? ? ? ? ? ? ?] [? ? ? ? ? ? ? ? ?] [? ? ? ? ? ? ? ? ?]], x as [[? ? ?] [? ? ?]], b as [[? ? ?] [? ? ?]].
  unfold mvec6, mvec, vadd; simpl; split; intros H.
  - repeat match goal with H : Forall _ (_ :: _) |- _ => inversion H; subst; clear H end.
    unfold sat in *; simpl in *; f_equal; f_equal; lra.
  - injection H as H1 H2 H3 H4 H5 H6; repeat constructor; unfold sat; simpl; lra.
Qed.
Lemma rows6_hom M b x : length b = 6%nat -> (Forall (hom (list6 x)) (combine (rows6 M) b) <-> mvec6 M x = (vzero, vzero)).
Proof.
  intros Hb; destruct b as [|b1 [|b2 [|b3 [|b4 [|b5 [|b6 [|? ?]]]]]]]; simpl in Hb; try discriminate.
  destruct M as [[? ? ? ? ? ? ? ? ?] [? ? ? ? ? ? ? ? ?] [? ? ? ? ? ? ? ? ?] [? ? ? ? ? ? ? ? ?]], x as [[? ? ?] [? ? ?]].
  unfold mvec6, mvec, vadd, vzero; simpl; split; intros H.
  - repeat match goal with H : Forall _ (_ :: _) |- _ => inversion H; subst; clear H end.
    unfold hom in *; simpl in *; f_equal; f_equal; lra.
  - injection H as H1 H2 H3 H4 H5 H6; repeat constructor; unfold hom; simpl; lra.
Qed.
Definition singular6 (M : mat6) : Prop := exists x, x <> (vzero, vzero) /\ mvec6 M x = (vzero, vzero).
Lemma unit6_length j : length (unit6 j) = 6%nat.
Proof. reflexivity. Qed.
Lemma column_none M j : column M j = None -> singular6 M.
Proof.
  intros H; destruct (rows6_wf M (unit6 j) (unit6_length j)) as [Hw Hl].
  destruct (solve_complete 6 _ Hw Hl H) as (x & Hx & Nx & Hh).
  exists (of_list6 x); split.
  - intros E; apply Nx; rewrite <- (list6_inv x Hx), E; reflexivity.
  - apply (rows6_hom M (unit6 j)); [reflexivity|rewrite list6_inv; assumption].
Qed.
Lemma column_some_regular M j c : column M j = Some c -> forall x, mvec6 M x = (vzero, vzero) -> x = (vzero, vzero).
Proof.
  intros H x Hx; destruct (rows6_wf M (unit6 j) (unit6_length j)) as [Hw Hl].
  apply (rows6_hom M (unit6 j) x (unit6_length j)) in Hx.
  pose proof (solve_unique_kernel 6 _ c Hw Hl H (list6 x) eq_refl Hx) as E.
  destruct x as [[? ? ?] [? ? ?]]; unfold list6 in E; simpl in E; injection E as -> -> -> -> -> ->; reflexivity.
Qed.
Lemma column_sat M j c b : column M j = Some c -> unit6 j = list6 b -> length c = 6%nat /\ mvec6 M (of_list6 c) = b.
Proof.
  intros H Hb; destruct (rows6_wf M (unit6 j) (unit6_length j)) as [Hw Hl].
  destruct (solve_sound 6 _ c Hw Hl H) as (H1 & H2 & _); split; [exact H1|].
  apply rows6_sat; rewrite list6_inv, <- Hb by assumption; exact H2.
Qed.
Definition vadd6 (x y : vec3 * vec3) := (vadd (fst x) (fst y), vadd (snd x) (snd y)).
Definition vscale6 k (x : vec3 * vec3) := (vscale k (fst x), vscale k (snd x)).
Lemma mvec6_add M x y : mvec6 M (vadd6 x y) = vadd6 (mvec6 M x) (mvec6 M y).
Proof. unfold mvec6, vadd6; simpl; rewrite !mvec_vadd; f_equal; mat_ring. Qed.
Lemma mvec6_scale M k x : mvec6 M (vscale6 k x) = vscale6 k (mvec6 M x).
Proof. unfold mvec6, vscale6; simpl; rewrite !mvec_vscale; f_equal; mat_ring. Qed.
Lemma of_columns_mvec c1 c2 c3 c4 c5 c6 v :
  mvec6 (of_columns c1 c2 c3 c4 c5 c6) v =
  vadd6 (vscale6 (vx (fst v)) (of_list6 c1)) (vadd6 (vscale6 (vy (fst v)) (of_list6 c2)) (vadd6 (vscale6 (vz (fst v)) (of_list6 c3))
  (vadd6 (vscale6 (vx (snd v)) (of_list6 c4)) (vadd6 (vscale6 (vy (snd v)) (of_list6 c5)) (vscale6 (vz (snd v)) (of_list6 c6)))))).
Proof.
  destruct v as [[x y z] [u w t]]; unfold mvec6, of_columns, vadd6, vscale6, of_list6; cbn [fst snd blkA blkB blkC blkD Nat.add].
  f_equal; unmat; f_equal; ring.
Qed.
Lemma inv6_sound M N : inv6 M = Ok N -> forall v, mvec6 M (mvec6 N v) = v.
Proof.
  unfold inv6; destruct (column M 0) as [c1|] eqn:E1; [|discriminate]; destruct (column M 1) as [c2|] eqn:E2; [|discriminate];
  destruct (column M 2) as [c3|] eqn:E3; [|discriminate]; destruct (column M 3) as [c4|] eqn:E4; [|discriminate];
  destruct (column M 4) as [c5|] eqn:E5; [|discriminate]; destruct (column M 5) as [c6|] eqn:E6; [|discriminate].
  intros H; injection H as <-; intros v; rewrite of_columns_mvec, !mvec6_add, !mvec6_scale.
  rewrite (proj2 (column_sat M 0 c1 (V3 1 0 0, V3 0 0 0) E1 eq_refl)), (proj2 (column_sat M 1 c2 (V3 0 1 0, V3 0 0 0) E2 eq_refl)),
    (proj2 (column_sat M 2 c3 (V3 0 0 1, V3 0 0 0) E3 eq_refl)), (proj2 (column_sat M 3 c4 (V3 0 0 0, V3 1 0 0) E4 eq_refl)),
    (proj2 (column_sat M 4 c5 (V3 0 0 0, V3 0 1 0) E5 eq_refl)), (proj2 (column_sat M 5 c6 (V3 0 0 0, V3 0 0 1) E6 eq_refl)).
  destruct v as [[x y z] [u w t]]; unfold vadd6, vscale6; cbn [fst snd]; f_equal; unmat; f_equal; ring.
Qed.
Lemma inv6_regular M N : inv6 M = Ok N -> ~ singular6 M.
Proof.
  unfold inv6; destruct (column M 0) as [c1|] eqn:E1; [|discriminate]; intros _ (x & Nx & Hx).
  apply Nx, (column_some_regular M 0 c1 E1 x Hx).
Qed.
Lemma inv6_singular M : singular6 M -> inv6 M = Err LinAlgError.
Proof.
  intros (x & Nx & Hx); unfold inv6; destruct (column M 0) as [c1|] eqn:E1; [|reflexivity].
  exfalso; apply Nx, (column_some_regular M 0 c1 E1 x Hx).
Qed.
Lemma inv6_total M : ~ singular6 M -> exists N, inv6 M = Ok N.
Proof.
  intros H; unfold inv6.
  assert (K : forall j, exists c, column M j = Some c).
  { intros j; destruct (column M j) as [c|] eqn:E; [eauto|]; exfalso; apply H, (column_none M j E). }
  destruct (K 0%nat) as [? ->], (K 1%nat) as [? ->], (K 2%nat) as [? ->], (K 3%nat) as [? ->], (K 4%nat) as [? ->], (K 5%nat) as [? ->]; eauto.
Qed.
