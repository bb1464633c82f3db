(** The assembly of the coupled matrices as blocks. *)
From Coq Require Import ZArith Arith Lia Bool String.
From Coq Require Import List.
From Verif Require Import M_Py M_Plate M_K S_Plate S_K L_Plate L_K.
Import ListNotations.
Open Scope nat_scope.
Open Scope list_scope.

(** a row of the three index lists *)
Notation triple := ((nat * nat) * ((nat * nat) * (nat * nat)))%type.
Definition tu (t : triple) := fst t. Definition tv (t : triple) := fst (snd t). Definition tw (t : triple) := snd (snd t).
Definition triples (idx : index_sets) : list triple := combine (su_idx idx) (combine (sv_idx idx) (sw_idx idx)).
Lemma combine_fst {X Y} (l : list X) : forall r : list Y, List.length r = List.length l -> map fst (combine l r) = l.
Proof. induction l as [|x l IH]; intros [|y r] H; try discriminate H; [reflexivity|]. cbn. f_equal. apply IH. cbn in H. lia. Qed.
Lemma combine_snd {X Y} (l : list X) : forall r : list Y, List.length r = List.length l -> map snd (combine l r) = r.
Proof. induction l as [|x l IH]; intros [|y r] H; try discriminate H; [reflexivity|]. cbn. f_equal. apply IH. cbn in H. lia. Qed.
Lemma triples_ok c m n idx : compute_constraints c m n = Ok idx ->
  List.length (triples idx) = m * n /\ su_idx idx = map tu (triples idx) /\ sv_idx idx = map tv (triples idx) /\ sw_idx idx = map tw (triples idx).
Proof.
  intros H. destruct (compute_struct _ _ _ _ H) as (L1 & L2 & L3 & _). unfold triples, tu, tv, tw.
  assert (E : List.length (combine (sv_idx idx) (sw_idx idx)) = m * n) by (rewrite combine_length; lia).
  split; [rewrite combine_length; lia|].
  split; [symmetry; apply (combine_fst (su_idx idx)); lia|].
  split; rewrite <- (map_map snd); rewrite combine_snd by lia; symmetry; [apply combine_fst|apply combine_snd]; lia.
Qed.
Lemma prod_map {X Y} (f : X -> Y) (l r : list X) : list_prod (map f l) (map f r) = map (fun p => (f (fst p), f (snd p))) (list_prod l r).
Proof. induction l as [|x l IH]; [reflexivity|]. cbn [map list_prod]. rewrite map_app, IH, !map_map. reflexivity. Qed.
Lemma get_map {X Y} (f : X -> Y) l i : get (map f l) i = match nth_error l i with Some x => Ok (f x) | None => Err IndexError end.
Proof. unfold get. rewrite nth_error_map. destruct (nth_error l i); reflexivity. Qed.
Lemma mapM_get3 {X Y P Q U} (f : X -> P) (g : X -> Q) (h : X -> U) (F : P -> Q -> U -> res Y) (l : list X) :
  mapM (fun i => qu <- get (map f l) i ;; qv <- get (map g l) i ;; qw <- get (map h l) i ;; F qu qv qw) (seq 0 (List.length l))
  = mapM (fun x => F (f x) (g x) (h x)) l.
Proof.
  rewrite <- (mapM_get (fun x => F (f x) (g x) (h x)) l). apply mapM_ext_in. intros i I. apply in_seq in I.
  rewrite !get_map. unfold get. destruct (nth_error l i) eqn:E; [reflexivity|]. apply nth_error_None in E. lia.
Qed.

Section K.
Context {A : arith} (t : tables A).
Definition ent_ABD (M : abd) (a b Nxx Nyy Nxy : num A) (pq : triple * triple) : res entries :=
  loop_ABD t M a b Nxx Nyy Nxy (tu (fst pq), tu (snd pq)) (tv (fst pq), tv (snd pq)) (tw (fst pq), tw (snd pq)).
Definition rows (T : list triple) (k : triple * triple -> num A) : list (list (num A)) := map (fun p => map (fun q => k (p, q)) T) T.
Lemma rows_hstack T f g h : hstack (rows T f) (rows T g) (rows T h) =
  map (fun p => map (fun q => f (p, q)) T ++ map (fun q => g (p, q)) T ++ map (fun q => h (p, q)) T) T.
Proof.
  assert (Q : forall (l : list triple) (F G H : triple -> list (num A)), hstack (map F l) (map G l) (map H l) = map (fun p => F p ++ G p ++ H p) l).
  { intros l F G H. induction l as [|p l IH]; [reflexivity|]. cbn [map hstack]. rewrite IH. reflexivity. }
  apply Q.
Qed.
Lemma repeat_zero (T : list triple) : reshape (List.length T) (List.length T) (repeat (nint A 0) (List.length T * List.length T)) = Ok (rows T (fun _ => nint A 0)).
Proof.
  unfold rows. rewrite <- (reshape_prod (fun _ : triple * triple => nint A 0) T T). f_equal.
  rewrite <- (prod_length T T). induction (list_prod T T); [reflexivity|]. cbn. f_equal. assumption.
Qed.
Lemma K_ABD_ok ABD a b Nxx Nyy Nxy c m n idx (E : triple * triple -> entries) : compute_constraints c m n = Ok idx ->
  (forall p q, In p (triples idx) -> In q (triples idx) -> ent_ABD (unpack_abd ABD) a b Nxx Nyy Nxy (p, q) = Ok (E (p, q))) ->
  let T := triples idx in let bl f := rows T (fun pq => f (E pq)) in let z := rows T (fun _ => nint A 0) in
  calc_K_KG_ABD t ABD a b Nxx Nyy Nxy c m n =
  Ok (hstack (bl n11) (bl n12) (bl n13) ++ hstack (bl n21) (bl n22) (bl n31) ++ hstack (bl n31) (bl n32) (bl n33),
      hstack z z z ++ hstack z z z ++ hstack z z (bl n33g)).
Proof.
  intros H HE T bl z. destruct (compute_struct _ _ _ _ H) as (_ & _ & _ & U & V & W). destruct (triples_ok _ _ _ _ H) as (L & Lu & Lv & Lw).
  unfold calc_K_KG_ABD. rewrite H. cbn [bind]. rewrite U, V, W, Lu, Lv, Lw, !prod_map.
  fold T in L. fold T. rewrite pow_sq, <- L. rewrite <- (prod_length T T).
  rewrite mapM_get3.
  rewrite (mapM_ext_in _ (ent_ABD (unpack_abd ABD) a b Nxx Nyy Nxy) (list_prod T T)) by reflexivity.
  rewrite (mapM_ok _ E).
  2:{ intros [p q] I. apply in_prod_iff in I. apply HE; tauto. }
  cbn [bind]. rewrite !map_map, !reshape_prod. rewrite prod_length, repeat_zero. reflexivity.
Qed.
End K.

(** entries of stacked blocks *)
Lemma nth_error_blocks {X} (x y z : list X) N d r : List.length x = N -> List.length y = N -> List.length z = N -> r < N -> d < 3 ->
  nth_error (x ++ y ++ z) (d * N + r) = match d with 0 => nth_error x r | 1 => nth_error y r | _ => nth_error z r end.
Proof.
  intros X1 Y1 Z1 Hr Hd. destruct d as [|[|[|d]]]; [| | |lia].
  - rewrite nth_error_app1 by lia. reflexivity.
  - rewrite nth_error_app2 by lia. rewrite nth_error_app1 by lia. f_equal. lia.
  - rewrite nth_error_app2 by lia. rewrite nth_error_app2 by lia. f_equal. lia.
Qed.
Lemma entry_blocks {A : arith} T N (f : nat -> nat -> triple * triple -> num A) d e r s p q :
  List.length T = N -> d < 3 -> e < 3 -> nth_error T r = Some p -> nth_error T s = Some q ->
  entry (hstack (rows T (f 0 0)) (rows T (f 0 1)) (rows T (f 0 2)) ++ hstack (rows T (f 1 0)) (rows T (f 1 1)) (rows T (f 1 2))
         ++ hstack (rows T (f 2 0)) (rows T (f 2 1)) (rows T (f 2 2))) (d * N + r) (e * N + s) = Some (f d e (p, q)).
Proof.
  intros L Hd He Hr Hs. rewrite !rows_hstack. unfold entry.
  assert (Rr : r < N) by (rewrite <- L; apply nth_error_Some; congruence). assert (Rs : s < N) by (rewrite <- L; apply nth_error_Some; congruence).
  rewrite nth_error_blocks by (rewrite ?map_length; assumption).
  destruct d as [|[|[|d]]]; [| | |lia]; rewrite nth_error_map, Hr; cbn [option_map]; rewrite nth_error_blocks by (rewrite ?map_length; assumption);
    (destruct e as [|[|[|e]]]; [| | |lia]; rewrite nth_error_map, Hs; reflexivity).
Qed.
