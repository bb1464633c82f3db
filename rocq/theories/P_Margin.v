(** The sign of the maximum-stress margins and the critical mode
    Statements only: every proof is [exact] a lemma of T_Margin.v with the same statement.
    Below each theorem, Print Assumptions lists the axioms it uses. *)
From Coq Require Import Reals ZArith Bool List String Lia Lra.
From Flocq Require Import Core.Core IEEE754.BinarySingleNaN.
From Verif Require Import M_Py M_Float M_Margin S_Validate S_Margin.
Import ListNotations.
Open Scope string_scope.
Open Scope list_scope.
Open Scope R_scope.
From Verif Require T_Margin.

(** C31. Tension, for every double (NaN, infinities, subnormals included) and every allowable the constructor
    accepts: the margin is negative exactly when the stress exceeds the allowable, or the stress is the negative
    zero and the allowable positive. *)
Theorem C31_tension : forall t sigma, not_below_zero t ->
  (less (margin_t t sigma) fzero <-> (less t sigma \/ (sigma = fnzero /\ less fzero t))).
Proof. exact T_Margin.t_C31_tension. Qed.
Print Assumptions C31_tension.

(** C31. Compression: the margin is negative exactly when the stress is below minus the allowable. *)
Theorem C31_compression : forall c sigma, not_below_zero c ->
  (less (margin_c c sigma) fzero <-> less c (fopp sigma)).
Proof. exact T_Margin.t_C31_compression. Qed.
Print Assumptions C31_compression.

(** C31. Shear: the margin is negative exactly when the magnitude of the shear stress exceeds the allowable. *)
Theorem C31_shear : forall s tau, not_below_zero s ->
  (less (margin_s s tau) fzero <-> less s (fabs tau)).
Proof. exact T_Margin.t_C31_shear. Qed.
Print Assumptions C31_shear.

(** C31. The same for finite numbers, in terms of the reals they denote: with allowables r, p, q >= 0 and stresses
    x, y (not the negative zero in tension), the three margins are negative exactly when x > r, x < -p, |y| > q. *)
Theorem C31_reals : forall t c s sigma tau r p q x y,
  denotes t r -> denotes c p -> denotes s q -> 0 <= r -> 0 <= p -> 0 <= q ->
  denotes sigma x -> denotes tau y -> sigma <> fnzero ->
  (less (margin_t t sigma) fzero <-> x > r) /\
  (less (margin_c c sigma) fzero <-> x < - p) /\
  (less (margin_s s tau) fzero <-> Rabs y > q).
Proof. exact T_Margin.t_C31_reals. Qed.
Print Assumptions C31_reals.

(** C31. No stress in the direction checked gives margin +inf: for a positive (finite or infinite) allowable the
    tension margin is +inf when the stress is negative or +0, the compression margin when it is positive or a zero. *)
Theorem C31_infinite : forall t sigma, less fzero t ->
  ((less sigma fzero \/ sigma = fzero) -> margin_t t sigma = finf) /\
  ((less fzero sigma \/ is_zero sigma) -> margin_c t sigma = finf).
Proof. exact T_Margin.t_C31_infinite. Qed.
Print Assumptions C31_infinite.

(** C31. The exception to the documented meaning: a stress of exactly -0.0 is reported as margin -inf in tension,
    whatever the positive allowable, although +0.0 is reported as +inf. *)
Theorem C31_negative_zero_refuted : forall t, less fzero t ->
  margin_t t fnzero = fninf /\ margin_t t fzero = finf.
Proof. exact T_Margin.t_C31_negative_zero_refuted. Qed.
Print Assumptions C31_negative_zero_refuted.

(** C31. At the allowable itself the margin is exactly zero. *)
Theorem C31_zero_at_allowable : forall t r, denotes t r -> 0 < r ->
  is_zero (margin_t t t) /\ is_zero (margin_c t (fopp t)) /\ is_zero (margin_s t t).
Proof. exact T_Margin.t_C31_zero_at_allowable. Qed.
Print Assumptions C31_zero_at_allowable.

(** C31, example: allowable 2, stresses 3, 2, -0.0 and the next double above 2. *)
Example C31_example :
  flt (margin_t (f_of_Z 2) (f_of_Z 3)) fzero = true /\
  feq (margin_t (f_of_Z 2) (f_of_Z 2)) fzero = true /\
  flt (margin_t (f_of_Z 2) (f_of_Z_exp 4503599627370497 (-51))) fzero = true /\
  not_below_zero (f_of_Z 2).
Proof. exact T_Margin.t_C31_example. Qed.

(** C33. The critical column is missing exactly when all five margins are NaN. *)
Theorem C33_missing : forall a st,
  critical a st = None <-> (forall n v, In (n, v) (margin_columns a st) -> v = fnan).
Proof. exact T_Margin.t_C33_missing. Qed.
Print Assumptions C33_missing.

(** C33. Whenever some margin is neither NaN nor +inf, the critical column names a margin that is not NaN, is not
    greater than any other non-NaN margin of the row, and is strictly smaller than every non-NaN margin before it
    in the order t1, c1, t2, c2, s. *)
Theorem C33_smallest : forall a st n0 v0,
  In (n0, v0) (margin_columns a st) -> v0 <> fnan -> v0 <> finf ->
  exists k n v, critical a st = Some n /\ nth_error (margin_columns a st) k = Some (n, v) /\ v <> fnan /\
    (forall j n' v', nth_error (margin_columns a st) j = Some (n', v') -> ~ less v' v) /\
    (forall j n' v', (j < k)%nat -> nth_error (margin_columns a st) j = Some (n', v') -> v' <> fnan -> less v v').
Proof. exact T_Margin.t_C33_smallest. Qed.
Print Assumptions C33_smallest.

(** C33. In the remaining rows (every non-NaN margin is +inf and there is one) the first column is named, whether
    or not its own margin is NaN. *)
Theorem C33_all_infinite : forall a st n0,
  In (n0, finf) (margin_columns a st) ->
  (forall n v, In (n, v) (margin_columns a st) -> v = fnan \/ v = finf) ->
  critical a st = Some "margin_t1".
Proof. exact T_Margin.t_C33_all_infinite. Qed.
Print Assumptions C33_all_infinite.

(** C33. So a NaN margin can be named critical although a margin that is not NaN exists: a ply with the default
    tension allowable 0 and no stress, but positive other allowables. *)
Theorem C33_nan_named_refuted : exists a st,
  critical a st = Some "margin_t1" /\ In ("margin_t1", fnan) (margin_columns a st) /\ In ("margin_c1", finf) (margin_columns a st).
Proof. exact T_Margin.t_C33_nan_named_refuted. Qed.
Print Assumptions C33_nan_named_refuted.

(** C33. Zero stress with the default zero allowables has no critical mode. *)
Theorem C33_zero_allowables : forall st, is_zero (fs_1 st) -> is_zero (fs_2 st) -> is_zero (fs_12 st) ->
  critical (FAllow fzero fzero fzero fzero fzero) st = None.
Proof. exact T_Margin.t_C33_zero_allowables. Qed.
Print Assumptions C33_zero_allowables.

(** C33, example: sigma1 = 3 against t1 = 2 beats |tau| = 3 against s = 4. *)
Example C33_example :
  critical (FAllow (f_of_Z 2) (f_of_Z 5) (f_of_Z 1) (f_of_Z 1) (f_of_Z 4)) (FStress (f_of_Z 3) fzero (f_of_Z (-3)))
  = Some "margin_t1".
Proof. exact T_Margin.t_C33_example. Qed.

(** C31. Row by row: the row has five margins, under the names margin_t1, margin_c1, margin_t2, margin_c2, margin_s in this order, and each is
    negative exactly when the allowable of that name is exceeded (a stress of -0.0 apart). *)
Theorem C31_columns : forall a st, accepted a -> fs_1 st <> fnzero -> fs_2 st <> fnzero ->
  map fst (margin_columns a st) = ["margin_t1"; "margin_c1"; "margin_t2"; "margin_c2"; "margin_s"] /\
  forall n v, In (n, v) (margin_columns a st) -> (less v fzero <-> exceeds a st n).
Proof. exact T_Margin.t_C31_columns. Qed.
Print Assumptions C31_columns.

(** C33. When some allowable is exceeded, the critical column names one that is. *)
Theorem C33_failure : forall a st n, accepted a -> fs_1 st <> fnzero -> fs_2 st <> fnzero -> exceeds a st n ->
  exists n', critical a st = Some n' /\ exceeds a st n'.
Proof. exact T_Margin.t_C33_failure. Qed.
Print Assumptions C33_failure.

(** C31, C33, example: a row over its second compression allowable only. *)
Example C33_ex2 : let a := FAllow (f_of_Z 9) (f_of_Z 9) (f_of_Z 9) (f_of_Z 2) (f_of_Z 9) in let st := FStress (f_of_Z 1) (f_of_Z (-3)) (f_of_Z 1) in
  accepted a /\ exceeds a st "margin_c2" /\ critical a st = Some "margin_c2".
Proof. exact T_Margin.t_C33_ex2. Qed.
