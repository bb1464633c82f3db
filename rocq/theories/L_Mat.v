(** Lemmas about 3x3 matrices. *)
From Coq Require Import Reals List Lra Psatz Permutation.
From Verif Require Import S_Mat.
Import ListNotations.
Open Scope R_scope.

Ltac unmat := unfold quad, mneg in *; unfold madd, mscale, mmul, mvec, mtrans, mid, mzero, adj3, det3, vadd, vscale, vzero, dot in *;
  cbn [a11 a12 a13 a21 a22 a23 a31 a32 a33 vx vy vz] in *.
Ltac mat_ring := intros; repeat (match goal with M : mat3 |- _ => destruct M | v : vec3 |- _ => destruct v end);
  unmat; first [ ring | f_equal; ring ].

Lemma mat3_ext : forall A B : mat3,
  a11 A = a11 B -> a12 A = a12 B -> a13 A = a13 B ->
  a21 A = a21 B -> a22 A = a22 B -> a23 A = a23 B ->
  a31 A = a31 B -> a32 A = a32 B -> a33 A = a33 B -> A = B.
Proof. intros [] []; simpl; intros; subst; reflexivity. Qed.
Lemma vec3_ext : forall u v : vec3, vx u = vx v -> vy u = vy v -> vz u = vz v -> u = v.
Proof. intros [] []; simpl; intros; subst; reflexivity. Qed.

Lemma madd_comm A B : madd A B = madd B A. Proof. mat_ring. Qed.
Lemma madd_assoc A B C : madd A (madd B C) = madd (madd A B) C. Proof. mat_ring. Qed.
Lemma madd_0_l A : madd mzero A = A. Proof. mat_ring. Qed.
Lemma madd_0_r A : madd A mzero = A. Proof. mat_ring. Qed.
Lemma mscale_0 A : mscale 0 A = mzero. Proof. mat_ring. Qed.
Lemma mscale_1 A : mscale 1 A = A. Proof. mat_ring. Qed.
Lemma mscale_mzero k : mscale k mzero = mzero. Proof. mat_ring. Qed.
Lemma mscale_madd k A B : mscale k (madd A B) = madd (mscale k A) (mscale k B). Proof. mat_ring. Qed.
Lemma mscale_plus k l A : mscale (k + l) A = madd (mscale k A) (mscale l A). Proof. mat_ring. Qed.
Lemma mscale_mscale k l A : mscale k (mscale l A) = mscale (k * l) A. Proof. mat_ring. Qed.
Lemma mmul_assoc A B C : mmul A (mmul B C) = mmul (mmul A B) C. Proof. mat_ring. Qed.
Lemma mmul_mid_l A : mmul mid A = A. Proof. mat_ring. Qed.
Lemma mmul_mid_r A : mmul A mid = A. Proof. mat_ring. Qed.
Lemma mmul_mzero_l A : mmul mzero A = mzero. Proof. mat_ring. Qed.
Lemma mmul_mzero_r A : mmul A mzero = mzero. Proof. mat_ring. Qed.
Lemma mmul_madd_l A B C : mmul (madd A B) C = madd (mmul A C) (mmul B C). Proof. mat_ring. Qed.
Lemma mmul_madd_r A B C : mmul A (madd B C) = madd (mmul A B) (mmul A C). Proof. mat_ring. Qed.
Lemma mmul_mscale_l k A B : mmul (mscale k A) B = mscale k (mmul A B). Proof. mat_ring. Qed.
Lemma mmul_mscale_r k A B : mmul A (mscale k B) = mscale k (mmul A B). Proof. mat_ring. Qed.
Lemma mtrans_madd A B : mtrans (madd A B) = madd (mtrans A) (mtrans B). Proof. mat_ring. Qed.
Lemma mtrans_mscale k A : mtrans (mscale k A) = mscale k (mtrans A). Proof. mat_ring. Qed.
Lemma mtrans_mmul A B : mtrans (mmul A B) = mmul (mtrans B) (mtrans A). Proof. mat_ring. Qed.
Lemma mtrans_invol A : mtrans (mtrans A) = A. Proof. mat_ring. Qed.
Lemma mvec_mmul A B v : mvec (mmul A B) v = mvec A (mvec B v). Proof. mat_ring. Qed.
Lemma mvec_madd A B v : mvec (madd A B) v = vadd (mvec A v) (mvec B v). Proof. mat_ring. Qed.
Lemma mvec_mscale k A v : mvec (mscale k A) v = vscale k (mvec A v). Proof. mat_ring. Qed.
Lemma mvec_vadd A u v : mvec A (vadd u v) = vadd (mvec A u) (mvec A v). Proof. mat_ring. Qed.
Lemma mvec_vscale A k v : mvec A (vscale k v) = vscale k (mvec A v). Proof. mat_ring. Qed.
Lemma mvec_mid v : mvec mid v = v. Proof. mat_ring. Qed.
Lemma mvec_mzero v : mvec mzero v = vzero. Proof. mat_ring. Qed.
Lemma vadd_comm u v : vadd u v = vadd v u. Proof. mat_ring. Qed.
Lemma vadd_assoc u v w : vadd u (vadd v w) = vadd (vadd u v) w. Proof. mat_ring. Qed.
Lemma vadd_0_l v : vadd vzero v = v. Proof. mat_ring. Qed.
Lemma vadd_0_r v : vadd v vzero = v. Proof. mat_ring. Qed.
Lemma dot_comm u v : dot u v = dot v u. Proof. mat_ring. Qed.
Lemma dot_mtrans A u v : dot u (mvec A v) = dot (mvec (mtrans A) u) v. Proof. mat_ring. Qed.
Lemma dot_vadd_r u v w : dot u (vadd v w) = dot u v + dot u w. Proof. mat_ring. Qed.
Lemma dot_vadd_l u v w : dot (vadd u v) w = dot u w + dot v w. Proof. mat_ring. Qed.
Lemma dot_vscale_r k u v : dot u (vscale k v) = k * dot u v. Proof. mat_ring. Qed.
Lemma dot_vscale_l k u v : dot (vscale k u) v = k * dot u v. Proof. mat_ring. Qed.

Lemma adj3_l A : mmul (adj3 A) A = mscale (det3 A) mid. Proof. mat_ring. Qed.
Lemma adj3_r A : mmul A (adj3 A) = mscale (det3 A) mid. Proof. mat_ring. Qed.

Lemma sym_madd A B : symmetric A -> symmetric B -> symmetric (madd A B).
Proof. unfold symmetric; intros HA HB; rewrite mtrans_madd, HA, HB; reflexivity. Qed.
Lemma sym_mscale k A : symmetric A -> symmetric (mscale k A).
Proof. unfold symmetric; intros HA; rewrite mtrans_mscale, HA; reflexivity. Qed.
Lemma sym_mzero : symmetric mzero. Proof. reflexivity. Qed.
Lemma sym_dot A u v : symmetric A -> dot u (mvec A v) = dot v (mvec A u).
Proof. intros H; rewrite dot_mtrans, H, dot_comm; reflexivity. Qed.

Lemma msum_app l1 l2 : msum (l1 ++ l2) = madd (msum l1) (msum l2).
Proof. induction l1 as [|x t IH]; simpl; [now rewrite madd_0_l| now rewrite IH, madd_assoc]. Qed.
Lemma msum_perm l1 l2 : Permutation l1 l2 -> msum l1 = msum l2.
Proof.
  induction 1 as [|x l l' _ IH|x y l|l l' l'' _ IH1 _ IH2]; simpl; [reflexivity|now rewrite IH| |now rewrite IH1].
  rewrite !madd_assoc, (madd_comm y x); reflexivity.
Qed.
Lemma rsum_app l1 l2 : rsum (l1 ++ l2) = rsum l1 + rsum l2.
Proof. induction l1 as [|x t IH]; simpl; [ring | rewrite IH; ring]. Qed.
Lemma rsum_perm l1 l2 : Permutation l1 l2 -> rsum l1 = rsum l2.
Proof. induction 1; simpl; lra. Qed.

Lemma vec3_eq_dec (u v : vec3) : {u = v} + {u <> v}.
Proof.
  destruct u as [x y z], v as [x' y' z'].
  destruct (Req_EM_T x x'); [|right; congruence].
  destruct (Req_EM_T y y'); [|right; congruence].
  destruct (Req_EM_T z z'); [left; subst; reflexivity|right; congruence].
Qed.

Lemma pos_def_semi A : pos_def A -> pos_semidef A.
Proof.
  intros H v; destruct (vec3_eq_dec v vzero) as [->|N].
  - unfold quad, dot, mvec, vzero; simpl; lra.
  - left; apply H, N.
Qed.
Lemma quad_vzero A : quad A vzero = 0.
Proof. unfold quad, dot, mvec, vzero; simpl; ring. Qed.
Lemma quad_madd A B v : quad (madd A B) v = quad A v + quad B v. Proof. mat_ring. Qed.
Lemma quad_mscale k A v : quad (mscale k A) v = k * quad A v. Proof. mat_ring. Qed.
