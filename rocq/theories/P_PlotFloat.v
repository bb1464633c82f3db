(** The theorems on the plotted deflection in double precision
    Statements only: every proof is [exact] a lemma of T_PlotFloat.v with the same statement.
    Below each theorem, Print Assumptions lists the axioms it uses. *)
From Coq Require Import Reals ZArith QArith Qreals Lra Lia Bool String.
From Flocq Require Import Core.Core IEEE754.BinarySingleNaN.
From Coq Require Import List.
From Verif Require Import M_Py M_K M_Tables M_Shape M_Expr M_Float M_FloatArith M_RealArith M_Plot M_PlotFloat S_Mat S_Validate S_Round S_StrengthFloat S_Bardell S_PlotFloat.
Import ListNotations.
Open Scope R_scope.
From Verif Require T_PlotFloat.

(** C101: the stored one-variable functions in doubles, at every double of [-1, 1]: a finite double within i/2 + 8 units of the sum of the magnitudes of the coefficients. *)
Theorem C101_functions : forall pow dec i x, pow_near pow -> dec_close dec -> (i < 50)%nat -> is_finite x = true -> Rabs (B2R x) <= 1 ->
  exists y, fxi (A := FA pow) dec i x = Ok y /\ is_finite y = true /\ Rabs (B2R y - bardell i (B2R x)) <= (INR i / 2 + 8) * unit * bardell_size i.
Proof. exact T_PlotFloat.t_C101_functions. Qed.
Print Assumptions C101_functions.

(** C101: that is 1e-14 for the first ten functions and 1e-11 for the first twenty, but only 2e-8 for the first thirty and a quarter for all fifty. *)
Theorem C101_absolute : forall pow dec i x, pow_near pow -> dec_close dec -> (i < 50)%nat -> is_finite x = true -> Rabs (B2R x) <= 1 ->
  exists y, fxi (A := FA pow) dec i x = Ok y /\ is_finite y = true /\ Rabs (B2R y - bardell i (B2R x)) <=
    (if Nat.ltb i 10 then 1 / 100000000000000 else if Nat.ltb i 20 then 1 / 100000000000 else if Nat.ltb i 30 then 2 / 100000000 else 1 / 4).
Proof. exact T_PlotFloat.t_C101_absolute. Qed.
Print Assumptions C101_absolute.

(** C101: the stored two-variable functions in doubles, at every pair of doubles of [-1, 1]. *)
Theorem C101_product : forall pow dec i j x y, pow_near pow -> dec_close dec -> (i < 50)%nat -> (j < 50)%nat -> is_finite x = true -> is_finite y = true -> Rabs (B2R x) <= 1 -> Rabs (B2R y) <= 1 ->
  exists z, sxieta_ij (A := FA pow) dec (i, j) x y = Ok z /\ is_finite z = true /\
    Rabs (B2R z - bardell i (B2R x) * bardell j (B2R y)) <= (INR i / 2 + INR j / 2 + 18) * unit * (bardell_size i * bardell_size j).
Proof. exact T_PlotFloat.t_C101_product. Qed.
Print Assumptions C101_product.

(** C101: one plotted value: the deflection with the stored coefficients at that point of [-1, 1]^2, up to plot_off. *)
Theorem C101_point : forall pow dec dot idx c x y, pow_near pow -> dec_close dec -> dot_near (List.length idx) dot -> stored_pairs idx -> List.length c = List.length idx -> (List.length idx <= 2500)%nat ->
  Forall (fun z => is_finite z = true) c -> shape_size idx c <= powerRZ 2 800 -> is_finite x = true -> is_finite y = true -> Rabs (B2R x) <= 1 -> Rabs (B2R y) <= 1 ->
  exists v, fplot_point pow dec dot idx c x y = Ok v /\ is_finite v = true /\ Rabs (B2R v - shape_sum idx c (B2R x) (B2R y)) <= plot_off idx c.
Proof. exact T_PlotFloat.t_C101_point. Qed.
Print Assumptions C101_point.

(** C101: the grid. Its points are doubles of [-1, 1], -1 and 1 at the ends, within 6 units of equal distances; the coordinates plotted for them are within 7 units of the side of equal
    distances along the side. *)
Theorem C101_grid : forall a n i, usual a -> (2 <= n)%nat -> (Z.of_nat n <= 1000000)%Z -> (i < n)%nat -> exists t, nth_error (flinspace n) i = Some t /\
  is_finite t = true /\ Rabs (B2R t) <= 1 /\ Rabs (B2R t - equal_point n i) <= 6 * unit /\ (i = 0%nat -> B2R t = -1) /\ (S i = n -> B2R t = 1) /\
  is_finite (fplace a t) = true /\ Rabs (B2R (fplace a t) - B2R a * (INR i / (INR n - 1))) <= 7 * unit * B2R a.
Proof. exact T_PlotFloat.t_C101_grid. Qed.
Print Assumptions C101_grid.

(** C101: the coordinate arrays: one row for each point across and one column for each point along; the entry in row i and column j is j/(gx-1) of the side a and i/(gy-1) of the side b
    up to 7 units of the side. *)
Theorem C101_coordinates : forall a b gx gy, usual a -> usual b -> (2 <= gx)%nat -> (2 <= gy)%nat -> (Z.of_nat gx <= 1000000)%Z -> (Z.of_nat gy <= 1000000)%Z ->
  List.length (fplot_x a gx gy) = gy /\ List.length (fplot_y b gx gy) = gy /\ forall i j, (i < gy)%nat -> (j < gx)%nat -> exists rx ry x y,
    nth_error (fplot_x a gx gy) i = Some rx /\ List.length rx = gx /\ nth_error rx j = Some x /\ is_finite x = true /\ Rabs (B2R x - B2R a * (INR j / (INR gx - 1))) <= 7 * unit * B2R a /\
    nth_error (fplot_y b gx gy) i = Some ry /\ List.length ry = gx /\ nth_error ry j = Some y /\ is_finite y = true /\ Rabs (B2R y - B2R b * (INR i / (INR gy - 1))) <= 7 * unit * B2R b.
Proof. exact T_PlotFloat.t_C101_coordinates. Qed.
Print Assumptions C101_coordinates.

(** C101: the plotted array: on a square grid of at least two points a side every entry is a finite double within plot_off of the deflection, with the last of the stored coefficients, at the
    double the grid has there; on a grid that is not square the call ends in IndexError. *)
Theorem C101_values : forall pow dec dot ev idx nth c cw gx gy, pow_near pow -> dec_close dec -> dot_near (List.length idx) dot -> stored_pairs idx -> (List.length idx <= 2500)%nat ->
  column ev nth = Ok c -> (List.length idx <= List.length c)%nat -> cw = skipn (List.length c - List.length idx) c -> Forall (fun z => is_finite z = true) cw -> shape_size idx cw <= powerRZ 2 800 ->
  (2 <= gx)%nat -> (2 <= gy)%nat -> (Z.of_nat gx <= 1000000)%Z -> (Z.of_nat gy <= 1000000)%Z ->
  (gx <> gy -> fplot_values pow dec dot ev idx nth gx gy = Err IndexError) /\
  (gx = gy -> exists z, fplot_values pow dec dot ev idx nth gx gy = Ok z /\ List.length z = gx /\
     forall i j, (i < gx)%nat -> (j < gy)%nat -> exists row v x y, nth_error z i = Some row /\ List.length row = gy /\ nth_error row j = Some v /\
       nth_error (flinspace gx) j = Some x /\ nth_error (flinspace gy) i = Some y /\ is_finite v = true /\ Rabs (B2R v - shape_sum idx cw (B2R x) (B2R y)) <= plot_off idx cw).
Proof. exact T_PlotFloat.t_C101_values. Qed.
Print Assumptions C101_values.

(** C101: with fewer coefficients than functions the call ends in ValueError. *)
Theorem C101_lengths : forall pow dec dot ev idx nth c gx gy, pow_near pow -> dec_close dec -> stored_pairs idx -> column ev nth = Ok c -> (List.length c < List.length idx)%nat ->
  (2 <= gx)%nat -> (2 <= gy)%nat -> (Z.of_nat gx <= 1000000)%Z -> (Z.of_nat gy <= 1000000)%Z -> fplot_values pow dec dot ev idx nth gx gy = Err ValueError.
Proof. exact T_PlotFloat.t_C101_lengths. Qed.
Print Assumptions C101_lengths.

(** C101: a column number that the eigenvector array does not have is IndexError. *)
Theorem C101_column : forall pow dec dot ev idx nth gx gy, Exists (fun r => (List.length r <= nth)%nat) ev -> fplot_values pow dec dot ev idx nth gx gy = Err IndexError.
Proof. exact T_PlotFloat.t_C101_column. Qed.
Print Assumptions C101_column.

(** C101: that the accuracy is lost is a fact and not an artefact of the bounds. The last function is zero with its slope at the edge xi = 1; with any pow that returns 1 for powers of 1,
    what the code computes there is above 1/2048. So the plotted deflection of a held edge need not be zero. *)
Theorem C101_edge_refuted : forall pow dec, (forall n, pow (f_of_Z 1) n = Ok (f_of_Z 1)) ->
  bardell 49 (B2R (f_of_Z 1)) = 0 /\ exists y, fxi (A := FA pow) dec 49 (f_of_Z 1) = Ok y /\ is_finite y = true /\ 1 / 2048 < B2R y.
Proof. exact T_PlotFloat.t_C101_edge_refuted. Qed.
Print Assumptions C101_edge_refuted.

(** C101: what is assumed of numpy's product of two vectors holds for the plain loop, for vectors of up to a thousand entries. *)
Theorem C101_loop : forall n, (1 <= n <= 1000)%nat -> dot_near n loop_dot.
Proof. exact T_PlotFloat.t_C101_loop. Qed.
Print Assumptions C101_loop.

(** C101: powers and literals rounded to nearest and the plain loop are such a pow, reading and product; with them the pinned plate of two by two functions with coefficients 1 and any eigenvector
    array having that column is plotted on a 20 x 20 grid with errors below 1e-13. *)
Example C101_ex : exists pow dec dot idx cw, pow_near pow /\ dec_close dec /\ dot_near (List.length idx) dot /\ stored_pairs idx /\ (List.length idx <= 2500)%nat /\
  column (map (fun x => [x]) cw) 0 = Ok cw /\ List.length cw = List.length idx /\ Forall (fun z => is_finite z = true) cw /\ shape_size idx cw <= powerRZ 2 800 /\ 0 < shape_size idx cw /\ plot_off idx cw <= 1 / 10000000000000.
Proof. exact T_PlotFloat.t_C101_ex. Qed.
