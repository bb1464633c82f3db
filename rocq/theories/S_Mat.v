(** 3x3 matrices, 3-vectors over the reals: the mathematical vocabulary shared by model and specifications.
    [mmul], [mvec] are numpy's [@]; [mscale k M] is [k * M]; [madd] is [M + N]. *)
From Coq Require Import Reals List.
Import ListNotations.
Open Scope R_scope.

Record vec3 := V3 { vx : R; vy : R; vz : R }.
Record mat3 := M3 { a11 : R; a12 : R; a13 : R;
                    a21 : R; a22 : R; a23 : R;
                    a31 : R; a32 : R; a33 : R }.

Definition vzero := V3 0 0 0.
Definition vadd (u v : vec3) := V3 (vx u + vx v) (vy u + vy v) (vz u + vz v).
Definition vscale (k : R) (v : vec3) := V3 (k * vx v) (k * vy v) (k * vz v).
Definition dot (u v : vec3) : R := vx u * vx v + vy u * vy v + vz u * vz v.

Definition mzero := M3 0 0 0 0 0 0 0 0 0.
Definition mid := M3 1 0 0 0 1 0 0 0 1.
Definition madd (A B : mat3) :=
  M3 (a11 A + a11 B) (a12 A + a12 B) (a13 A + a13 B)
     (a21 A + a21 B) (a22 A + a22 B) (a23 A + a23 B)
     (a31 A + a31 B) (a32 A + a32 B) (a33 A + a33 B).
Definition mscale (k : R) (A : mat3) :=
  M3 (k * a11 A) (k * a12 A) (k * a13 A)
     (k * a21 A) (k * a22 A) (k * a23 A)
     (k * a31 A) (k * a32 A) (k * a33 A).
Definition mneg (A : mat3) := mscale (-1) A.
Definition mmul (A B : mat3) :=
  M3 (a11 A * a11 B + a12 A * a21 B + a13 A * a31 B)
     (a11 A * a12 B + a12 A * a22 B + a13 A * a32 B)
     (a11 A * a13 B + a12 A * a23 B + a13 A * a33 B)
     (a21 A * a11 B + a22 A * a21 B + a23 A * a31 B)
     (a21 A * a12 B + a22 A * a22 B + a23 A * a32 B)
     (a21 A * a13 B + a22 A * a23 B + a23 A * a33 B)
     (a31 A * a11 B + a32 A * a21 B + a33 A * a31 B)
     (a31 A * a12 B + a32 A * a22 B + a33 A * a32 B)
     (a31 A * a13 B + a32 A * a23 B + a33 A * a33 B).
Definition mvec (A : mat3) (v : vec3) :=
  V3 (a11 A * vx v + a12 A * vy v + a13 A * vz v)
     (a21 A * vx v + a22 A * vy v + a23 A * vz v)
     (a31 A * vx v + a32 A * vy v + a33 A * vz v).
Definition mtrans (A : mat3) :=
  M3 (a11 A) (a21 A) (a31 A) (a12 A) (a22 A) (a32 A) (a13 A) (a23 A) (a33 A).
Definition det3 (A : mat3) : R :=
  a11 A * (a22 A * a33 A - a23 A * a32 A)
  - a12 A * (a21 A * a33 A - a23 A * a31 A)
  + a13 A * (a21 A * a32 A - a22 A * a31 A).
(** transposed cofactor matrix *)
Definition adj3 (A : mat3) :=
  M3 (a22 A * a33 A - a23 A * a32 A) (a13 A * a32 A - a12 A * a33 A) (a12 A * a23 A - a13 A * a22 A)
     (a23 A * a31 A - a21 A * a33 A) (a11 A * a33 A - a13 A * a31 A) (a13 A * a21 A - a11 A * a23 A)
     (a21 A * a32 A - a22 A * a31 A) (a12 A * a31 A - a11 A * a32 A) (a11 A * a22 A - a12 A * a21 A).

Definition symmetric (A : mat3) : Prop := mtrans A = A.
Definition quad (A : mat3) (v : vec3) : R := dot v (mvec A v).
Definition pos_def (A : mat3) : Prop := forall v, v <> vzero -> 0 < quad A v.
Definition pos_semidef (A : mat3) : Prop := forall v, 0 <= quad A v.

(** list sums *)
Fixpoint rsum (l : list R) : R := match l with [] => 0 | x :: t => x + rsum t end.
Fixpoint msum (l : list mat3) : mat3 := match l with [] => mzero | x :: t => madd x (msum t) end.
