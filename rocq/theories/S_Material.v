(** Independent specification of the plane-stress law of an orthotropic lamina. *)
From Coq Require Import Reals.
From Verif Require Import S_Mat M_Material.
Open Scope R_scope.

(** Compliance matrix: (eps1, eps2, gamma12) = compliance (sig1, sig2, tau12) *)
Definition compliance (m : omat) : mat3 :=
  M3 (1 / o_e1 m) (- o_v21 m / o_e2 m) 0
     (- o_v12 m / o_e1 m) (1 / o_e2 m) 0
     0 0 (1 / o_g12 m).
