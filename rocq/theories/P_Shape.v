(** The theorems on the stored tables, the shape functions and the plotted deflection.
    Statements only: every proof is [exact] a lemma of T_Shape.v with the same statement.
    Below each theorem, Print Assumptions lists the axioms it uses. *)
From Coq Require Import Reals ZArith QArith Qreals Lra Lia Bool String.
From Coquelicot Require Import Coquelicot.
From Coq Require Import List.
From Verif Require Import M_Py M_Plate M_K M_Tables M_Shape M_Expr M_RealArith M_Plot S_Mat S_Plate S_Bardell S_Energy S_Shape.
Import ListNotations.
Open Scope R_scope.
From Verif Require T_Shape.

(** C63: the 50 stored one-variable texts evaluate to Bardell's functions at every point; a larger index is KeyError. *)
Theorem C63_bardell : forall i x, fxi (A := RA) Rdec i x = if Nat.ltb i 50 then Ok (bardell i x) else Err KeyError.
Proof. exact T_Shape.t_C63_bardell. Qed.
Print Assumptions C63_bardell.

(** C46: the 2500 stored two-variable texts evaluate to the product of Bardell functions at every point; any other key is
    KeyError. *)
Theorem C46_product : forall i j xi eta,
  sxieta_ij (A := RA) Rdec (i, j) xi eta
  = if Nat.ltb i 50 && Nat.ltb j 50 then Ok (bardell i xi * bardell j eta) else Err KeyError.
Proof. exact T_Shape.t_C46_product. Qed.
Print Assumptions C46_product.

(** C46: hence the two-variable function is the product of the one-variable ones. *)
Theorem C46_fxi : forall i j xi eta, (i < 50)%nat -> (j < 50)%nat ->
  sxieta_ij (A := RA) Rdec (i, j) xi eta
  = (p <- fxi (A := RA) Rdec i xi ;; q <- fxi (A := RA) Rdec j eta ;; Ok (p * q)).
Proof. exact T_Shape.t_C46_fxi. Qed.
Print Assumptions C46_fxi.

(** C46: a stored text and what it means. *)
Example C46_ex : S_text 4 1 = Ok "(0.125*eta**3 - 0.125*eta**2 - 0.125*eta + 0.125)*(xi**4/8 - xi**2/4 + 1/8)"%string \/
  S_text 4 1 = Ok "(xi**4/8 - xi**2/4 + 1/8)*(0.125*eta**3 - 0.125*eta**2 - 0.125*eta + 0.125)"%string.
Proof. exact T_Shape.t_C46_ex. Qed.

(** C45: every stored integral is within 1e-8 of the exact integral of the product of the derivatives it names. *)
Theorem C45_accuracy : forall i k, (i < 30)%nat -> (k < 30)%nat ->
  exists v00 v10 v11 v20 v21 v22,
    t_ff stored_R i k = Ok v00 /\ within (1/100000000) v00 (exact_int 0 0 i k) /\
    t_fxi_f stored_R i k = Ok v10 /\ within (1/100000000) v10 (exact_int 1 0 i k) /\
    t_fxi_fxi stored_R i k = Ok v11 /\ within (1/100000000) v11 (exact_int 1 1 i k) /\
    t_fxixi_f stored_R i k = Ok v20 /\ within (1/100000000) v20 (exact_int 2 0 i k) /\
    t_fxixi_fxi stored_R i k = Ok v21 /\ within (1/100000000) v21 (exact_int 2 1 i k) /\
    t_fxixi_fxixi stored_R i k = Ok v22 /\ within (1/100000000) v22 (exact_int 2 2 i k).
Proof. exact T_Shape.t_C45_accuracy. Qed.
Print Assumptions C45_accuracy.

(** C45: an index of 30 or more is KeyError in each table, whatever the arithmetic. *)
Theorem C45_keys : forall (A : arith) (dec : Z -> Z -> num A) i k, (30 <= i)%nat \/ (30 <= k)%nat ->
  t_ff (stored A dec) i k = Err KeyError /\ t_fxi_f (stored A dec) i k = Err KeyError /\
  t_fxi_fxi (stored A dec) i k = Err KeyError /\ t_fxixi_f (stored A dec) i k = Err KeyError /\
  t_fxixi_fxi (stored A dec) i k = Err KeyError /\ t_fxixi_fxixi (stored A dec) i k = Err KeyError.
Proof. exact T_Shape.t_C45_keys. Qed.
Print Assumptions C45_keys.

(** C45: the tables of equal derivative orders are symmetric as texts, so also after evaluation in any arithmetic. *)
Theorem C45_symmetric : forall (A : arith) (dec : Z -> Z -> num A) i k,
  t_ff (stored A dec) i k = t_ff (stored A dec) k i /\ t_fxi_fxi (stored A dec) i k = t_fxi_fxi (stored A dec) k i /\
  t_fxixi_fxixi (stored A dec) i k = t_fxixi_fxixi (stored A dec) k i.
Proof. exact T_Shape.t_C45_symmetric. Qed.
Print Assumptions C45_symmetric.

(** C43: end values and slopes of the stored functions: 0 and 2 carry a unit end value, 1 and 3 an end slope of one half,
    all others vanish with their slope at both ends. *)
Theorem C43_ends : forall i, (i < 50)%nat -> exists f,
  (forall x, fxi (A := RA) Rdec i x = Ok (f x)) /\ (forall x, ex_derive f x) /\ ends f = expected_ends i.
Proof. exact T_Shape.t_C43_ends. Qed.
Print Assumptions C43_ends.

(** C43: the deflection plotted for any coefficient vector is zero on pinned and clamped edges and has zero normal slope
    on clamped edges, for all named edge conditions and all sizes for which the functions are stored. *)
Theorem C43_deflection : forall c c0 ca d0 db m n idx cw,
  specifies c c0 ca d0 db -> compute_constraints c m n = Ok idx -> List.length cw = (m * n)%nat ->
  (m + taken c0 + taken ca <= 50)%nat -> (n + taken d0 + taken db <= 50)%nat ->
  exists w, (forall xi eta, plot_point (sw_idx idx) cw xi eta = Ok (w xi eta)) /\
    respects c0 w (-1) /\ respects ca w 1 /\ respects d0 (fun eta xi => w xi eta) (-1) /\ respects db (fun eta xi => w xi eta) 1.
Proof. exact T_Shape.t_C43_deflection. Qed.
Print Assumptions C43_deflection.

(** C43: a plate clamped on x0, simply supported on xa and yb, free on y0 meets the hypotheses. *)
Example C43_ex : specifies (CDict (Some (EStr "Clamped")) (Some (EStr "pinned")) (Some (EStr "FREE")) (Some (EStr "simply_supported")))
  Clamped Pinned Free Pinned /\ (7 + taken Clamped + taken Pinned <= 50)%nat.
Proof. exact T_Shape.t_C43_ex. Qed.

(** C44: with as many stored coefficients as shape functions, the plotted array is computed on every square grid, its
    entry (i, j) being the deflection at the j-th grid point in xi and the i-th in eta; on every other non-empty grid
    the call ends in IndexError. *)
Theorem C44_grid : forall ev idx nth c gx gy, column ev nth = Ok c -> List.length c = List.length idx ->
  Forall (fun ij => (fst ij < 50)%nat /\ (snd ij < 50)%nat) idx -> (0 < gx)%nat -> (0 < gy)%nat ->
  (gx <> gy -> plot_values ev idx nth gx gy = Err IndexError) /\
  (gx = gy -> exists z, plot_values ev idx nth gx gy = Ok z /\ List.length z = gx /\
     forall i j, (i < gx)%nat -> (j < gy)%nat -> exists row v, nth_error z i = Some row /\ List.length row = gy /\ nth_error row j = Some v /\
       plot_point idx c (-1 + INR j * (2 / (INR gx - 1))) (-1 + INR i * (2 / (INR gy - 1))) = Ok v).
Proof. exact T_Shape.t_C44_grid. Qed.
Print Assumptions C44_grid.

(** C44: an eigenvector array of four rows and two columns and the index list of a 2 by 2 plate meet the hypotheses. *)
Example C44_ex : exists idx, compute_constraints (CStr "PINNED") 2 2 = Ok idx /\
  column [[1; 0]; [0; 1]; [1; 1]; [1; -1]] 1 = Ok [0; 1; 1; -1] /\ List.length [0; 1; 1; -1] = List.length (sw_idx idx) /\
  Forall (fun ij => (fst ij < 50)%nat /\ (snd ij < 50)%nat) (sw_idx idx).
Proof. exact T_Shape.t_C44_ex. Qed.

(** C44: a column number that the eigenvector array does not have is IndexError. *)
Theorem C44_column : forall ev idx nth gx gy, Exists (fun r => (List.length r <= nth)%nat) ev -> plot_values ev idx nth gx gy = Err IndexError.
Proof. exact T_Shape.t_C44_column. Qed.
Print Assumptions C44_column.
