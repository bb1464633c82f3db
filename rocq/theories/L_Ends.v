(** End values and slopes of the functions, for every index. *)
From Coq Require Import Reals.
From Coquelicot Require Import Coquelicot.
From Verif Require Import S_Bardell S_Shape L_Legendre.
Open Scope R_scope.

Lemma value0 i : i <> 0%nat -> bardell i (-1) = 0.
Proof.
  intros N. assert (E := f_equal (fun t : R * R * R * R => fst (fst (fst t))) (proj2 (bardell_ends i))). cbn [ends fst snd] in E. rewrite E.
  destruct i as [|[|[|[|i]]]]; [..|reflexivity]; first [reflexivity|congruence].
Qed.
Lemma value1 i : i <> 2%nat -> bardell i 1 = 0.
Proof.
  intros N. assert (E := f_equal (fun t : R * R * R * R => snd (fst t)) (proj2 (bardell_ends i))). cbn [ends fst snd] in E. rewrite E.
  destruct i as [|[|[|[|i]]]]; [..|reflexivity]; first [reflexivity|congruence].
Qed.
Lemma slope0 i : i <> 1%nat -> Derive (bardell i) (-1) = 0.
Proof.
  intros N. assert (E := f_equal (fun t : R * R * R * R => snd (fst (fst t))) (proj2 (bardell_ends i))). cbn [ends fst snd] in E. rewrite E.
  destruct i as [|[|[|[|i]]]]; [..|reflexivity]; first [reflexivity|congruence].
Qed.
Lemma slope1 i : i <> 3%nat -> Derive (bardell i) 1 = 0.
Proof.
  intros N. assert (E := f_equal (fun t : R * R * R * R => snd t) (proj2 (bardell_ends i))). cbn [ends fst snd] in E. rewrite E.
  destruct i as [|[|[|[|i]]]]; [..|reflexivity]; first [reflexivity|congruence].
Qed.
