(** The assembly loops as functions of the index lists. *)
From Coq Require Import ZArith Arith Lia Bool String.
From Coq Require Import List.
From Verif Require Import M_Py M_Plate M_K S_Plate S_K L_Plate.
Import ListNotations.
Open Scope nat_scope.
Open Scope list_scope.

Lemma drop_if_inv name e x l r : drop_if name e x l = Ok r -> known e.
Proof. unfold drop_if, contains, known. destruct e; cbn; try discriminate. Qed.
Lemma bind_inv {X Y} (x : res X) (f : X -> res Y) r : bind x f = Ok r -> exists y, x = Ok y /\ f y = Ok r.
Proof. destruct x as [y|]; cbn [bind]; [|discriminate]. intros H. exists y. split; [reflexivity|exact H]. Qed.
Lemma compute_known c m n idx : compute_constraints c m n = Ok idx -> exists e, resolve c = Ok e /\ all_known e.
Proof.
  intros H. apply bind_inv in H. destruct H as (e & R & H). exists e. split; [exact R|]. clear R. cbv zeta in H.
  do 1 (apply bind_inv in H; destruct H as (? & E0 & H); apply drop_if_inv in E0; rename E0 into X0).
  do 5 (apply bind_inv in H; destruct H as (? & _ & H)).
  do 1 (apply bind_inv in H; destruct H as (? & E0 & H); apply drop_if_inv in E0; rename E0 into Xa).
  do 5 (apply bind_inv in H; destruct H as (? & _ & H)).
  do 1 (apply bind_inv in H; destruct H as (? & E0 & H); apply drop_if_inv in E0; rename E0 into Y0).
  do 5 (apply bind_inv in H; destruct H as (? & _ & H)).
  do 1 (apply bind_inv in H; destruct H as (? & E0 & H); apply drop_if_inv in E0; rename E0 into Yb).
  repeat split; assumption.
Qed.
Lemma compute_inv c m n idx : compute_constraints c m n = Ok idx -> exists e, resolve c = Ok e /\ all_known e /\ idx = idx_of e m n.
Proof.
  intros H. destruct (compute_known c m n idx H) as (e & R & K). exists e. split; [exact R|]. split; [exact K|].
  rewrite (compute_ok c m n e R K) in H. congruence.
Qed.
Lemma xs_length t r e0 e1 m : List.length (xs t r e0 e1 m) = m.
Proof. unfold xs. rewrite firstn_length. assert (H := pick_length (mem t e0) (mem r e0) (mem t e1) (mem r e1) m). lia. Qed.

(** what the loops need to know *)
Lemma compute_struct c m n idx : compute_constraints c m n = Ok idx ->
  List.length (su_idx idx) = m * n /\ List.length (sv_idx idx) = m * n /\ List.length (sw_idx idx) = m * n /\
  uidx idx = list_prod (su_idx idx) (su_idx idx) /\ vidx idx = list_prod (sv_idx idx) (sv_idx idx) /\
  widx idx = list_prod (sw_idx idx) (sw_idx idx).
Proof.
  intros H. destruct (compute_inv _ _ _ _ H) as (e & _ & _ & ->). unfold idx_of, product2. cbn [su_idx sv_idx sw_idx uidx vidx widx].
  rewrite !prod_length, !xs_length. repeat split; reflexivity.
Qed.

(** ** loops *)
Lemma mapM_ext_in {X Y} (f g : X -> res Y) l : (forall x, In x l -> f x = g x) -> mapM f l = mapM g l.
Proof. induction l as [|x l IH]; intros H; [reflexivity|]. cbn [mapM]. rewrite H, IH; [reflexivity| |left; reflexivity].
  intros. apply H. right. assumption. Qed.
Lemma mapM_map {X Y Z} (h : X -> Y) (f : Y -> res Z) l : mapM f (map h l) = mapM (fun x => f (h x)) l.
Proof. induction l as [|x l IH]; [reflexivity|]. cbn [mapM map]. rewrite IH. reflexivity. Qed.
Lemma mapM_get {X Y} (f : X -> res Y) (l : list X) : mapM (fun i => q <- get l i ;; f q) (seq 0 (List.length l)) = mapM f l.
Proof.
  induction l as [|x l IH]; [reflexivity|]. cbn [List.length seq mapM get nth_error bind]. unfold get at 1. cbn [nth_error bind].
  rewrite <- seq_shift, mapM_map. unfold get in *. cbn [nth_error]. rewrite IH. reflexivity.
Qed.
Lemma mapM_ok {X Y} (f : X -> res Y) (g : X -> Y) l : (forall x, In x l -> f x = Ok (g x)) -> mapM f l = Ok (map g l).
Proof. induction l as [|x l IH]; intros H; [reflexivity|]. cbn [mapM map]. rewrite H by (left; reflexivity). cbn [bind].
  rewrite IH; [reflexivity|]. intros. apply H. right. assumption. Qed.
Lemma mapM_inv {X Y} (f : X -> res Y) l r : mapM f l = Ok r -> Forall2 (fun x y => f x = Ok y) l r.
Proof. revert r. induction l as [|x l IH]; intros r H; cbn [mapM] in H.
  - injection H as <-. constructor.
  - destruct (f x) as [y|] eqn:E; [|discriminate H]. cbn [bind] in H. destruct (mapM f l) as [t|]; [|discriminate H]. cbn [bind] in H.
    injection H as <-. constructor; [exact E|apply IH; reflexivity]. Qed.
Lemma mapM_err {X Y} (f : X -> res Y) e l : Forall (fun x => (exists y, f x = Ok y) \/ f x = Err e) l ->
  Exists (fun x => f x = Err e) l -> mapM f l = Err e.
Proof. induction 1 as [|x l H _ IH]; intros E; [inversion E|]. cbn [mapM]. destruct H as [[y H]|H]; rewrite H; cbn [bind]; [|reflexivity].
  rewrite IH; [reflexivity|]. inversion E; subst; [congruence|assumption]. Qed.
Lemma mapM_bad {X Y} (f : X -> res Y) l x : In x l -> (forall y, f x <> Ok y) -> forall r, mapM f l <> Ok r.
Proof. intros I N r H. apply mapM_inv in H. revert I. induction H as [|a y l r Hy _ IH]; [intros []|]. intros [<-|I]; [apply (N y Hy)|apply IH, I]. Qed.

(** rows of a product list *)
Lemma reshape_prod {X Y} (g : X * X -> Y) (l : list X) (s : list X) :
  reshape (List.length l) (List.length s) (map g (list_prod l s)) = Ok (map (fun p => map (fun q => g (p, q)) s) l).
Proof.
  unfold reshape. rewrite map_length, prod_length, Nat.eqb_refl. f_equal.
  induction l as [|x l IH]; [reflexivity|]. cbn [List.length seq map list_prod]. rewrite map_app, map_map. f_equal.
  - cbn [Nat.mul skipn]. rewrite firstn_app, map_length, Nat.sub_diag, firstn_O, app_nil_r.
    rewrite firstn_all2 by (rewrite map_length; lia). reflexivity.
  - rewrite <- seq_shift, map_map. rewrite <- IH. apply map_ext. intros i. f_equal.
    change (S i * List.length s) with (List.length s + i * List.length s). rewrite skipn_app, map_length.
    rewrite skipn_all2 by (rewrite map_length; lia). cbn [app]. f_equal. lia.
Qed.
Lemma Forall2_map {X Y} (f : X -> res Y) (g : X -> Y) l r : Forall2 (fun x y => f x = Ok y) l r -> (forall x y, f x = Ok y -> g x = y) -> r = map g l.
Proof. intros H G. induction H as [|x y l r E _ IH]; [reflexivity|]. cbn [map]. rewrite (G x y E), IH. reflexivity. Qed.

Definition val {X} (d : X) (r : res X) : X := match r with Ok v => v | Err _ => d end.

Section K.
Context {A : arith} (t : tables A).

Definition ent_D (D : arr) (a b Nxx Nyy Nxy : num A) (q : idx4) : res (num A * num A) :=
  k <- calc_k33 t a b q (D 0 0) (D 1 0) (D 1 1) (D 2 0) (D 2 1) (D 2 2) ;;
  g <- calc_kG33 t a b q Nxx Nyy Nxy ;;
  Ok (k, g).

Lemma pow_sq m n : m ^ 2 * n ^ 2 = (m * n) * (m * n).
Proof. cbn [Nat.pow]. lia. Qed.

Lemma K_D_loop D a b Nxx Nyy Nxy c m n idx : compute_constraints c m n = Ok idx ->
  calc_K_KG_D t D a b Nxx Nyy Nxy c m n =
  (kk <- mapM (ent_D D a b Nxx Nyy Nxy) (list_prod (sw_idx idx) (sw_idx idx)) ;;
   K <- reshape (m * n) (m * n) (map fst kk) ;; KG <- reshape (m * n) (m * n) (map snd kk) ;; Ok (K, KG)).
Proof.
  intros H. destruct (compute_struct _ _ _ _ H) as (_ & _ & L & _ & _ & W). unfold calc_K_KG_D. rewrite H. cbn [bind]. rewrite W.
  replace (m ^ 2 * n ^ 2) with (List.length (list_prod (sw_idx idx) (sw_idx idx))) by (rewrite prod_length, L, pow_sq; reflexivity).
  rewrite (mapM_get (ent_D D a b Nxx Nyy Nxy)). reflexivity.
Qed.

(** all entries succeed *)
Lemma K_D_ok D a b Nxx Nyy Nxy c m n idx k g : compute_constraints c m n = Ok idx ->
  (forall p q, In p (sw_idx idx) -> In q (sw_idx idx) -> ent_D D a b Nxx Nyy Nxy (p, q) = Ok (k (p, q), g (p, q))) ->
  calc_K_KG_D t D a b Nxx Nyy Nxy c m n =
  Ok (map (fun p => map (fun q => k (p, q)) (sw_idx idx)) (sw_idx idx), map (fun p => map (fun q => g (p, q)) (sw_idx idx)) (sw_idx idx)).
Proof.
  intros H E. rewrite (K_D_loop _ _ _ _ _ _ _ _ _ _ H). destruct (compute_struct _ _ _ _ H) as (_ & _ & L & _ & _ & W).
  rewrite (mapM_ok _ (fun pq => (k pq, g pq))).
  - cbn [bind]. rewrite !map_map. cbn [fst snd]. rewrite <- L.
    rewrite (reshape_prod k), (reshape_prod g). reflexivity.
  - intros [p q] I. apply in_prod_iff in I. apply E; tauto.
Qed.
(** conversely *)
Lemma K_D_inv D a b Nxx Nyy Nxy c m n K KG : calc_K_KG_D t D a b Nxx Nyy Nxy c m n = Ok (K, KG) ->
  exists idx, compute_constraints c m n = Ok idx /\
   let k pq := val (nint A 0) (calc_k33 t a b pq (D 0 0) (D 1 0) (D 1 1) (D 2 0) (D 2 1) (D 2 2)) in
   let g pq := val (nint A 0) (calc_kG33 t a b pq Nxx Nyy Nxy) in
   (forall p q, In p (sw_idx idx) -> In q (sw_idx idx) ->
      calc_k33 t a b (p, q) (D 0 0) (D 1 0) (D 1 1) (D 2 0) (D 2 1) (D 2 2) = Ok (k (p, q)) /\
      calc_kG33 t a b (p, q) Nxx Nyy Nxy = Ok (g (p, q))) /\
   K = map (fun p => map (fun q => k (p, q)) (sw_idx idx)) (sw_idx idx) /\
   KG = map (fun p => map (fun q => g (p, q)) (sw_idx idx)) (sw_idx idx).
Proof.
  intros H. destruct (compute_constraints c m n) as [idx|] eqn:E; [|unfold calc_K_KG_D in H; rewrite E in H; discriminate H].
  exists idx. split; [reflexivity|]. cbv zeta.
  assert (F : forall p q, In p (sw_idx idx) -> In q (sw_idx idx) -> exists y, ent_D D a b Nxx Nyy Nxy (p, q) = Ok y).
  { intros p q Ip Iq. rewrite (K_D_loop _ _ _ _ _ _ _ _ _ _ E) in H. 
    destruct (ent_D D a b Nxx Nyy Nxy (p, q)) as [y|e] eqn:N; [exists y; reflexivity|]. exfalso.
    destruct (mapM (ent_D D a b Nxx Nyy Nxy) (list_prod (sw_idx idx) (sw_idx idx))) as [r|] eqn:M; [|discriminate H].
    revert M. apply mapM_bad with (x := (p, q)); [apply in_prod; assumption|]. intros y. rewrite N. discriminate. }
  assert (G : forall p q, In p (sw_idx idx) -> In q (sw_idx idx) ->
    calc_k33 t a b (p, q) (D 0 0) (D 1 0) (D 1 1) (D 2 0) (D 2 1) (D 2 2) =
      Ok (val (nint A 0) (calc_k33 t a b (p, q) (D 0 0) (D 1 0) (D 1 1) (D 2 0) (D 2 1) (D 2 2))) /\
    calc_kG33 t a b (p, q) Nxx Nyy Nxy = Ok (val (nint A 0) (calc_kG33 t a b (p, q) Nxx Nyy Nxy))).
  { intros p q Ip Iq. destruct (F p q Ip Iq) as [y Y]. unfold ent_D in Y.
    destruct (calc_k33 t a b (p, q) _ _ _ _ _ _); [|discriminate Y]. cbn [bind] in Y.
    destruct (calc_kG33 t a b (p, q) _ _ _); [|discriminate Y]. split; reflexivity. }
  split; [exact G|].
  rewrite (K_D_ok D a b Nxx Nyy Nxy c m n idx
    (fun pq => val (nint A 0) (calc_k33 t a b pq (D 0 0) (D 1 0) (D 1 1) (D 2 0) (D 2 1) (D 2 2)))
    (fun pq => val (nint A 0) (calc_kG33 t a b pq Nxx Nyy Nxy)) E) in H.
  - injection H as <- <-. split; reflexivity.
  - intros p q Ip Iq. destruct (G p q Ip Iq) as [G1 G2]. unfold ent_D. rewrite G1. cbn [bind]. rewrite G2. reflexivity.
Qed.
End K.

Lemma entry_map {X Y} (f : X -> X -> Y) (l : list X) r c : entry (map (fun p => map (f p) l) l) r c =
  match nth_error l r, nth_error l c with Some p, Some q => Some (f p q) | _, _ => None end.
Proof.
  unfold entry. rewrite nth_error_map. destruct (nth_error l r) as [p|]; cbn [option_map]; [|reflexivity].
  rewrite nth_error_map. destruct (nth_error l c); reflexivity.
Qed.
Lemma square_map {X Y} (f : X -> X -> Y) (l : list X) n : List.length l = n -> square n (map (fun p => map (f p) l) l).
Proof. intros L. split; [rewrite map_length; exact L|]. apply Forall_forall. intros row I. apply in_map_iff in I. destruct I as (p & <- & _).
  rewrite map_length. exact L. Qed.
