(** Entries of the assembled matrices over the reals as closed formulas. *)
From Coq Require Import Reals ZArith Lra Lia.
From Coq Require Import List.
From Verif Require Import M_Py M_Plate M_K M_RealArith.
Import ListNotations.
Open Scope R_scope.

(** six functions of two indices, one per table *)
Record etab := Etab { e00 : nat -> nat -> R; e10 : nat -> nat -> R; e11 : nat -> nat -> R;
                      e20 : nat -> nat -> R; e21 : nat -> nat -> R; e22 : nat -> nat -> R }.
(** the tables hold these values on indices satisfying P *)
Definition good (P : nat -> Prop) (t : tables RA) (e : etab) : Prop := forall i k, P i -> P k ->
  t_ff t i k = Ok (e00 e i k) /\ t_fxi_f t i k = Ok (e10 e i k) /\ t_fxi_fxi t i k = Ok (e11 e i k) /\
  t_fxixi_f t i k = Ok (e20 e i k) /\ t_fxixi_fxi t i k = Ok (e21 e i k) /\ t_fxixi_fxixi t i k = Ok (e22 e i k).

Section F.
Variable e : etab.
Definition k33f (a b : R) (q : idx4) (D11 D12 D22 D16 D26 D66 : R) : R :=
  let i := fst (fst q) in let j := snd (fst q) in let k := fst (snd q) in let l := snd (snd q) in
  4 * (b / a ^ 3) * D11 * (e22 e i k * e00 e j l)
  + 4 / (a * b) * D12 * (e20 e i k * e20 e l j + e20 e k i * e20 e j l)
  + 4 * (a / b ^ 3) * D22 * (e00 e i k * e22 e j l)
  + 8 / a ^ 2 * D16 * (e21 e i k * e10 e l j + e21 e k i * e10 e j l)
  + 8 / b ^ 2 * D26 * (e10 e i k * e21 e l j + e10 e k i * e21 e j l)
  + 16 / (a * b) * D66 * (e11 e i k * e11 e j l).
Definition kGf (a b : R) (q : idx4) (Nxx Nyy Nxy : R) : R :=
  let i := fst (fst q) in let j := snd (fst q) in let k := fst (snd q) in let l := snd (snd q) in
  Nxx * (b / a) * (e11 e i k * e00 e j l) + Nyy * (a / b) * (e00 e i k * e11 e j l)
  + Nxy * (e10 e k i * e10 e j l + e10 e i k * e10 e l j).
Definition k11f (a b : R) (q : idx4) (A11 A16 A66 : R) : R :=
  let i := fst (fst q) in let j := snd (fst q) in let k := fst (snd q) in let l := snd (snd q) in
  A11 * (b / a) * (e11 e i k * e00 e j l) + A16 * (e10 e i k * e10 e l j + e10 e k i * e10 e j l)
  + A66 * (b / a) * (e00 e i k * e11 e j l).
Definition k12f (a b : R) (q : idx4) (A12 A16 A26 A66 : R) : R :=
  let i := fst (fst q) in let j := snd (fst q) in let k := fst (snd q) in let l := snd (snd q) in
  A12 * (e10 e i k * e10 e l j) + A16 * (b / a) * (e11 e i k * e00 e j l) + A26 * (a / b) * (e00 e i k * e11 e j l)
  + A66 * (e10 e k i * e10 e j l).
Definition k13f (a b : R) (q : idx4) (B11 B12 B16 B26 B66 : R) : R :=
  let i := fst (fst q) in let j := snd (fst q) in let k := fst (snd q) in let l := snd (snd q) in
  - (2 * b / a) * B11 * (e21 e k i * e00 e j l) - 2 / b * B12 * (e10 e i k * e20 e l j)
  - 2 / a * B16 * (2 * (e11 e i k * e10 e l j) + e20 e k i * e10 e j l) - 2 / b ^ 2 * B26 * (e00 e i k * e21 e l j)
  - 4 / b * B66 * (e10 e k i * e11 e j l).
Definition k21f (a b : R) (q : idx4) (A12 A16 A26 A66 : R) : R :=
  let i := fst (fst q) in let j := snd (fst q) in let k := fst (snd q) in let l := snd (snd q) in
  A12 * (e10 e k i * e10 e j l) + A16 * (a / b) * (e11 e i k * e00 e j l) + A26 * (a / b) * (e00 e i k * e11 e j l)
  + A66 * (e10 e i k * e10 e l j).
Definition k22f (a b : R) (q : idx4) (A22 A26 A66 : R) : R :=
  let i := fst (fst q) in let j := snd (fst q) in let k := fst (snd q) in let l := snd (snd q) in
  A22 * (a / b) * (e00 e i k * e11 e j l) + A26 * (e10 e i k * e10 e l j + e10 e k i * e10 e j l)
  + A66 * (b / a) * (e11 e i k * e00 e j l).
Definition k23f (a b : R) (q : idx4) (B12 B16 B22 B26 B66 : R) : R :=
  let i := fst (fst q) in let j := snd (fst q) in let k := fst (snd q) in let l := snd (snd q) in
  - (2 / a) * B12 * (e20 e k i * e10 e j l) - 2 * b / a ^ 2 * B16 * (e21 e k i * e00 e j l)
  - 2 * a / b ^ 2 * B22 * (e00 e i k * e21 e l j) - 2 / b * B26 * (e10 e i k * e20 e l j + 2 * (e10 e k i * e11 e j l))
  - 4 / a * B66 * (e11 e i k * e10 e l j).
Definition k31f (a b : R) (q : idx4) (B11 B12 B16 B26 B66 : R) : R :=
  let i := fst (fst q) in let j := snd (fst q) in let k := fst (snd q) in let l := snd (snd q) in
  - (2 * b / a ^ 2) * B11 * (e21 e k i * e00 e j l) - 2 / b * B12 * (e10 e k i * e20 e j l)
  - 2 * a / b ^ 2 * B26 * (e00 e i k * e21 e j l) - 4 / b * B66 * (e10 e i k * e11 e j l)
  - 2 / a * B16 * (2 * (e11 e i k * e10 e j l) + e20 e i k * e10 e l j).
Definition k32f (a b : R) (q : idx4) (B12 B16 B22 B26 B66 : R) : R :=
  let i := fst (fst q) in let j := snd (fst q) in let k := fst (snd q) in let l := snd (snd q) in
  - (2 / a) * B12 * (e20 e i k * e10 e l j) - 2 * a / b ^ 2 * B22 * (e00 e i k * e21 e j l)
  - 4 / a * B66 * (e11 e i k * e10 e j l) - 2 / b * B26 * (e10 e k i * e20 e j l + 2 * (e10 e i k * e11 e j l))
  - 2 * b / a ^ 2 * B16 * (e21 e i k * e00 e j l).
End F.

Lemma div_ok x y : y <> 0 -> ndiv RA x y = Ok (x / y).
Proof. intros H. cbn. destruct (Req_EM_T y 0); [contradiction|reflexivity]. Qed.

Definition in4 (P : nat -> Prop) (q : idx4) : Prop := P (fst (fst q)) /\ P (snd (fst q)) /\ P (fst (snd q)) /\ P (snd (snd q)).

Section V.
Variables (P : nat -> Prop) (t : tables RA) (e : etab) (G : good P t e) (a b : R) (Ha : a <> 0) (Hb : b <> 0).

Ltac lookups i j k l Hi Hj Hk Hl :=
  destruct (G i k Hi Hk) as (?A1 & ?A2 & ?A3 & ?A4 & ?A5 & ?A6); destruct (G k i Hk Hi) as (?B1 & ?B2 & ?B3 & ?B4 & ?B5 & ?B6);
  destruct (G j l Hj Hl) as (?C1 & ?C2 & ?C3 & ?C4 & ?C5 & ?C6); destruct (G l j Hl Hj) as (?E1 & ?E2 & ?E3 & ?E4 & ?E5 & ?E6).
Ltac go f :=
  intros [[i j] [k l]] (Hi & Hj & Hk & Hl); cbn [fst snd] in *; intros; lookups i j k l Hi Hj Hk Hl;
  unfold f, mul2, ii_ff, ii_fxi_f, ii_f_fxi, ii_fxi_fxi, ii_fxixi_f, ii_f_fxixi, ii_fxixi_fxi, ii_fxi_fxixi, ii_fxixi_fxixi;
  cbn [fst snd];
  repeat match goal with H : _ t _ _ = Ok _ |- _ => rewrite !H; clear H end; cbn [bind];
  repeat (first [rewrite div_ok by (first [assumption|apply Rmult_integral_contrapositive_currified; assumption|apply pow_nonzero; assumption])]; cbn [bind npow RA]);
  cbn [RA nint nmul nadd nsub nneg num].

Lemma k33_ok : forall q, in4 P q -> forall D11 D12 D22 D16 D26 D66,
  calc_k33 t a b q D11 D12 D22 D16 D26 D66 = Ok (k33f e a b q D11 D12 D22 D16 D26 D66).
Proof. go @calc_k33. reflexivity. Qed.
Lemma kG_ok : forall q, in4 P q -> forall Nxx Nyy Nxy, calc_kG33 t a b q Nxx Nyy Nxy = Ok (kGf e a b q Nxx Nyy Nxy).
Proof. go @calc_kG33. reflexivity. Qed.
Lemma k11_ok : forall q, in4 P q -> forall A11 A16 A66, calc_k11 t a b q A11 A16 A66 = Ok (k11f e a b q A11 A16 A66).
Proof. go @calc_k11. reflexivity. Qed.
Lemma k12_ok : forall q, in4 P q -> forall A12 A16 A26 A66, calc_k12 t a b q A12 A16 A26 A66 = Ok (k12f e a b q A12 A16 A26 A66).
Proof. go @calc_k12. reflexivity. Qed.
Lemma k13_ok : forall q, in4 P q -> forall B11 B12 B16 B26 B66,
  calc_k13 t a b q B11 B12 B16 B26 B66 = Ok (k13f e a b q B11 B12 B16 B26 B66).
Proof. go @calc_k13. reflexivity. Qed.
Lemma k21_ok : forall q, in4 P q -> forall A12 A16 A26 A66, calc_k21 t a b q A12 A16 A26 A66 = Ok (k21f e a b q A12 A16 A26 A66).
Proof. go @calc_k21. reflexivity. Qed.
Lemma k22_ok : forall q, in4 P q -> forall A22 A26 A66, calc_k22 t a b q A22 A26 A66 = Ok (k22f e a b q A22 A26 A66).
Proof. go @calc_k22. reflexivity. Qed.
Lemma k23_ok : forall q, in4 P q -> forall B12 B16 B22 B26 B66,
  calc_k23 t a b q B12 B16 B22 B26 B66 = Ok (k23f e a b q B12 B16 B22 B26 B66).
Proof. go @calc_k23. reflexivity. Qed.
Lemma k31_ok : forall q, in4 P q -> forall B11 B12 B16 B26 B66,
  calc_k31 t a b q B11 B12 B16 B26 B66 = Ok (k31f e a b q B11 B12 B16 B26 B66).
Proof. go @calc_k31. reflexivity. Qed.
Lemma k32_ok : forall q, in4 P q -> forall B12 B16 B22 B26 B66,
  calc_k32 t a b q B12 B16 B22 B26 B66 = Ok (k32f e a b q B12 B16 B22 B26 B66).
Proof. go @calc_k32. reflexivity. Qed.
End V.
