(** composipy/pre_integrated_component/build_k.py, functions.py and the assembly in composipy/core/structure.py, over an
    arbitrary arithmetic, so that the same model serves exact reals and binary64. *)
From Coq Require Import ZArith Arith List.
From Verif Require Import M_Py M_Plate.
Import ListNotations.

(** Division and powers may raise (ZeroDivisionError, OverflowError). *)
Record arith := Arith {
  num : Type;
  nadd : num -> num -> num; nsub : num -> num -> num; nmul : num -> num -> num; nneg : num -> num;
  ndiv : num -> num -> res num; npow : num -> nat -> res num; nint : Z -> num }.

(** functions.py:14-50 : the six stored tables, each lookup followed by eval; a missing key is KeyError *)
Record tables (A : arith) := Tables {
  t_ff : nat -> nat -> res (num A);
  t_fxi_f : nat -> nat -> res (num A);
  t_fxi_fxi : nat -> nat -> res (num A);
  t_fxixi_f : nat -> nat -> res (num A);
  t_fxixi_fxi : nat -> nat -> res (num A);
  t_fxixi_fxixi : nat -> nat -> res (num A) }.
Arguments t_ff {A}. Arguments t_fxi_f {A}. Arguments t_fxi_fxi {A}.
Arguments t_fxixi_f {A}. Arguments t_fxixi_fxi {A}. Arguments t_fxixi_fxixi {A}.

Notation idx4 := ((nat * nat) * (nat * nat))%type.

Section K.
Context {A : arith} (t : tables A).
Notation "x +! y" := (nadd A x y) (at level 50, left associativity).
Notation "x -! y" := (nsub A x y) (at level 50, left associativity).
Notation "x *! y" := (nmul A x y) (at level 40, left associativity).
Notation "# z" := (nint A z) (at level 1).

(** functions.py:14-50 *)
Definition ii_ff (ik : nat * nat) := t_ff t (fst ik) (snd ik).
Definition ii_fxi_f (ik : nat * nat) := t_fxi_f t (fst ik) (snd ik).
Definition ii_f_fxi (ik : nat * nat) := t_fxi_f t (snd ik) (fst ik).
Definition ii_fxi_fxi (ik : nat * nat) := t_fxi_fxi t (fst ik) (snd ik).
Definition ii_fxixi_f (ik : nat * nat) := t_fxixi_f t (fst ik) (snd ik).
Definition ii_f_fxixi (ik : nat * nat) := t_fxixi_f t (snd ik) (fst ik).
Definition ii_fxixi_fxi (ik : nat * nat) := t_fxixi_fxi t (fst ik) (snd ik).
Definition ii_fxi_fxixi (ik : nat * nat) := t_fxixi_fxi t (snd ik) (fst ik).
Definition ii_fxixi_fxixi (ik : nat * nat) := t_fxixi_fxixi t (fst ik) (snd ik).

(** a product of two lookups *)
Definition mul2 (x y : res (num A)) : res (num A) := p <- x ;; q <- y ;; Ok (p *! q).

(** build_k.py:157-178 : calc_k33_ijkl *)
Definition calc_k33 (a b : num A) (q : idx4) (D11 D12 D22 D16 D26 D66 : num A) : res (num A) :=
  let ik := (fst (fst q), fst (snd q)) in
  let jl := (snd (fst q), snd (snd q)) in
  xx_xx <- mul2 (ii_fxixi_fxixi ik) (ii_ff jl) ;;
  xx_yy <- mul2 (ii_fxixi_f ik) (ii_f_fxixi jl) ;;
  yy_xx <- mul2 (ii_f_fxixi ik) (ii_fxixi_f jl) ;;
  yy_yy <- mul2 (ii_ff ik) (ii_fxixi_fxixi jl) ;;
  xx_xy <- mul2 (ii_fxixi_fxi ik) (ii_f_fxi jl) ;;
  xy_xx <- mul2 (ii_fxi_fxixi ik) (ii_fxi_f jl) ;;
  xy_yy <- mul2 (ii_fxi_f ik) (ii_fxi_fxixi jl) ;;
  yy_xy <- mul2 (ii_f_fxi ik) (ii_fxixi_fxi jl) ;;
  xy_xy <- mul2 (ii_fxi_fxi ik) (ii_fxi_fxi jl) ;;
  c11 <- (a3 <- npow A a 3 ;; ndiv A b a3) ;;
  c12 <- ndiv A #4 (a *! b) ;;
  c22 <- (b3 <- npow A b 3 ;; ndiv A a b3) ;;
  c16 <- (a2 <- npow A a 2 ;; ndiv A #8 a2) ;;
  c26 <- (b2 <- npow A b 2 ;; ndiv A #8 b2) ;;
  c66 <- ndiv A #16 (a *! b) ;;
  Ok (#4 *! c11 *! D11 *! xx_xx
      +! c12 *! D12 *! (xx_yy +! yy_xx)
      +! #4 *! c22 *! D22 *! yy_yy
      +! c16 *! D16 *! (xx_xy +! xy_xx)
      +! c26 *! D26 *! (xy_yy +! yy_xy)
      +! c66 *! D66 *! xy_xy).

(** build_k.py:181-194 : calc_kG33_ijkl *)
Definition calc_kG33 (a b : num A) (q : idx4) (Nxx Nyy Nxy : num A) : res (num A) :=
  let ik := (fst (fst q), fst (snd q)) in
  let jl := (snd (fst q), snd (snd q)) in
  x_x <- mul2 (ii_fxi_fxi ik) (ii_ff jl) ;;
  y_y <- mul2 (ii_ff ik) (ii_fxi_fxi jl) ;;
  y_x <- mul2 (ii_f_fxi ik) (ii_fxi_f jl) ;;
  x_y <- mul2 (ii_fxi_f ik) (ii_f_fxi jl) ;;
  ba <- ndiv A b a ;;
  ab <- ndiv A a b ;;
  Ok (Nxx *! ba *! x_x +! Nyy *! ab *! y_y +! Nxy *! (y_x +! x_y)).

(** numpy reshape(r, c) of a flat array *)
Definition reshape {X} (r c : nat) (l : list X) : res (list (list X)) :=
  if Nat.eqb (length l) (r * c) then Ok (map (fun i => firstn c (skipn (i * c) l)) (seq 0 r)) else Err ValueError.

(** A 3x3 numpy array read by row and column. *)
Definition arr := nat -> nat -> num A.

(** structure.py:333-365 : calc_K_KG_D. Lines 344-346 bind D12, D16 and D26 twice, the last binding counts. The list
    [widx] is that of [compute_constraints]. *)
Definition calc_K_KG_D (D : arr) (a b Nxx Nyy Nxy : num A) (c : constraints) (m n : nat)
  : res (list (list (num A)) * list (list (num A))) :=
  let D11 := D 0 0 in let D12 := D 1 0 in let D22 := D 1 1 in
  let D16 := D 2 0 in let D26 := D 2 1 in let D66 := D 2 2 in
  idx <- compute_constraints c m n ;;
  kk <- mapM (fun i => q <- get (widx idx) i ;;
                       k <- calc_k33 a b q D11 D12 D22 D16 D26 D66 ;;
                       g <- calc_kG33 a b q Nxx Nyy Nxy ;;
                       Ok (k, g)) (seq 0 (m ^ 2 * n ^ 2)) ;;
  K <- reshape (m * n) (m * n) (map fst kk) ;;
  KG <- reshape (m * n) (m * n) (map snd kk) ;;
  Ok (K, KG).

(** build_k.py:6-18 : calc_K11_ijkl *)
Definition calc_k11 (a b : num A) (q : idx4) (A11 A16 A66 : num A) : res (num A) :=
  let ik := (fst (fst q), fst (snd q)) in
  let jl := (snd (fst q), snd (snd q)) in
  ux_ux <- mul2 (ii_fxi_fxi ik) (ii_ff jl) ;;
  ux_uy <- mul2 (ii_fxi_f ik) (ii_f_fxi jl) ;;
  uy_ux <- mul2 (ii_f_fxi ik) (ii_fxi_f jl) ;;
  uy_uy <- mul2 (ii_ff ik) (ii_fxi_fxi jl) ;;
  ba <- ndiv A b a ;;
  Ok (A11 *! ba *! ux_ux +! A16 *! (ux_uy +! uy_ux) +! A66 *! ba *! uy_uy).

(** build_k.py:21-35 : calc_k12_ijkl *)
Definition calc_k12 (a b : num A) (q : idx4) (A12 A16 A26 A66 : num A) : res (num A) :=
  let ik := (fst (fst q), fst (snd q)) in
  let jl := (snd (fst q), snd (snd q)) in
  ux_vy <- mul2 (ii_fxi_f ik) (ii_f_fxi jl) ;;
  ux_vx <- mul2 (ii_fxi_fxi ik) (ii_ff jl) ;;
  uy_vy <- mul2 (ii_ff ik) (ii_fxi_fxi jl) ;;
  uy_vx <- mul2 (ii_f_fxi ik) (ii_fxi_f jl) ;;
  ba <- ndiv A b a ;;
  ab <- ndiv A a b ;;
  Ok (A12 *! ux_vy +! A16 *! ba *! ux_vx +! A26 *! ab *! uy_vy +! A66 *! uy_vx).

(** build_k.py:38-58 : calc_k13_ijkl. Lines 47-48 look up two further products that are not used but may raise. *)
Definition calc_k13 (a b : num A) (q : idx4) (B11 B12 B16 B26 B66 : num A) : res (num A) :=
  let ik := (fst (fst q), fst (snd q)) in
  let jl := (snd (fst q), snd (snd q)) in
  ux_wxx <- mul2 (ii_fxi_fxixi ik) (ii_ff jl) ;;
  ux_wyy <- mul2 (ii_fxi_f ik) (ii_f_fxixi jl) ;;
  ux_wxy <- mul2 (ii_fxi_fxi ik) (ii_f_fxi jl) ;;
  uy_wxx <- mul2 (ii_f_fxixi ik) (ii_fxi_f jl) ;;
  uy_wyy <- mul2 (ii_ff ik) (ii_fxi_fxixi jl) ;;
  uy_wxy <- mul2 (ii_f_fxi ik) (ii_fxi_fxi jl) ;;
  _ <- mul2 (ii_fxi_f ik) (ii_ff jl) ;;
  _ <- mul2 (ii_ff ik) (ii_fxi_f jl) ;;
  c11 <- ndiv A (#2 *! b) a ;;
  c12 <- ndiv A #2 b ;;
  c16 <- ndiv A #2 a ;;
  c26 <- (b2 <- npow A b 2 ;; ndiv A #2 b2) ;;
  c66 <- ndiv A #4 b ;;
  Ok (nneg A c11 *! B11 *! ux_wxx
      -! c12 *! B12 *! ux_wyy
      -! c16 *! B16 *! (#2 *! ux_wxy +! uy_wxx)
      -! c26 *! B26 *! uy_wyy
      -! c66 *! B66 *! uy_wxy).

(** build_k.py:61-75 : calc_k21_ijkl *)
Definition calc_k21 (a b : num A) (q : idx4) (A12 A16 A26 A66 : num A) : res (num A) :=
  let ik := (fst (fst q), fst (snd q)) in
  let jl := (snd (fst q), snd (snd q)) in
  vy_ux <- mul2 (ii_f_fxi ik) (ii_fxi_f jl) ;;
  vx_ux <- mul2 (ii_fxi_fxi ik) (ii_ff jl) ;;
  vy_uy <- mul2 (ii_ff ik) (ii_fxi_fxi jl) ;;
  vx_uy <- mul2 (ii_fxi_f ik) (ii_f_fxi jl) ;;
  ab <- ndiv A a b ;;
  Ok (A12 *! vy_ux +! A16 *! ab *! vx_ux +! A26 *! ab *! vy_uy +! A66 *! vx_uy).

(** build_k.py:78-91 : calc_k22_ijkl *)
Definition calc_k22 (a b : num A) (q : idx4) (A22 A26 A66 : num A) : res (num A) :=
  let ik := (fst (fst q), fst (snd q)) in
  let jl := (snd (fst q), snd (snd q)) in
  vy_vy <- mul2 (ii_ff ik) (ii_fxi_fxi jl) ;;
  vx_vy <- mul2 (ii_fxi_f ik) (ii_f_fxi jl) ;;
  vy_vx <- mul2 (ii_f_fxi ik) (ii_fxi_f jl) ;;
  vx_vx <- mul2 (ii_fxi_fxi ik) (ii_ff jl) ;;
  ab <- ndiv A a b ;;
  ba <- ndiv A b a ;;
  Ok (A22 *! ab *! vy_vy +! A26 *! (vx_vy +! vy_vx) +! A66 *! ba *! vx_vx).

(** build_k.py:94-112 : calc_k23_ijkl *)
Definition calc_k23 (a b : num A) (q : idx4) (B12 B16 B22 B26 B66 : num A) : res (num A) :=
  let ik := (fst (fst q), fst (snd q)) in
  let jl := (snd (fst q), snd (snd q)) in
  vy_wxx <- mul2 (ii_f_fxixi ik) (ii_fxi_f jl) ;;
  vx_wxx <- mul2 (ii_fxi_fxixi ik) (ii_ff jl) ;;
  vy_wyy <- mul2 (ii_ff ik) (ii_fxi_fxixi jl) ;;
  vx_wyy <- mul2 (ii_fxi_f ik) (ii_f_fxixi jl) ;;
  vy_wxy <- mul2 (ii_f_fxi ik) (ii_fxi_fxi jl) ;;
  vx_wxy <- mul2 (ii_fxi_fxi ik) (ii_f_fxi jl) ;;
  c12 <- ndiv A #2 a ;;
  c16 <- (a2 <- npow A a 2 ;; ndiv A (#2 *! b) a2) ;;
  c22 <- (b2 <- npow A b 2 ;; ndiv A (#2 *! a) b2) ;;
  c26 <- ndiv A #2 b ;;
  c66 <- ndiv A #4 a ;;
  Ok (nneg A c12 *! B12 *! vy_wxx
      -! c16 *! B16 *! vx_wxx
      -! c22 *! B22 *! vy_wyy
      -! c26 *! B26 *! (vx_wyy +! #2 *! vy_wxy)
      -! c66 *! B66 *! vx_wxy).

(** build_k.py:115-133 : calc_k31_ijkl *)
Definition calc_k31 (a b : num A) (q : idx4) (B11 B12 B16 B26 B66 : num A) : res (num A) :=
  let ik := (fst (fst q), fst (snd q)) in
  let jl := (snd (fst q), snd (snd q)) in
  wxx_ux <- mul2 (ii_fxi_fxixi ik) (ii_ff jl) ;;
  wyy_ux <- mul2 (ii_f_fxi ik) (ii_fxixi_f jl) ;;
  wyy_uy <- mul2 (ii_ff ik) (ii_fxixi_fxi jl) ;;
  wxy_uy <- mul2 (ii_fxi_f ik) (ii_fxi_fxi jl) ;;
  wxy_ux <- mul2 (ii_fxi_fxi ik) (ii_fxi_f jl) ;;
  wxx_uy <- mul2 (ii_fxixi_f ik) (ii_f_fxi jl) ;;
  c11 <- (a2 <- npow A a 2 ;; ndiv A (#2 *! b) a2) ;;
  c12 <- ndiv A #2 b ;;
  c26 <- (b2 <- npow A b 2 ;; ndiv A (#2 *! a) b2) ;;
  c66 <- ndiv A #4 b ;;
  c16 <- ndiv A #2 a ;;
  Ok (nneg A c11 *! B11 *! wxx_ux
      -! c12 *! B12 *! wyy_ux
      -! c26 *! B26 *! wyy_uy
      -! c66 *! B66 *! wxy_uy
      -! c16 *! B16 *! (#2 *! wxy_ux +! wxx_uy)).

(** build_k.py:136-154 : calc_k32_ijkl (the argument B11 is not used) *)
Definition calc_k32 (a b : num A) (q : idx4) (B12 B16 B22 B26 B66 : num A) : res (num A) :=
  let ik := (fst (fst q), fst (snd q)) in
  let jl := (snd (fst q), snd (snd q)) in
  wxx_vy <- mul2 (ii_fxixi_f ik) (ii_f_fxi jl) ;;
  wyy_vy <- mul2 (ii_ff ik) (ii_fxixi_fxi jl) ;;
  wxy_vx <- mul2 (ii_fxi_fxi ik) (ii_fxi_f jl) ;;
  wyy_vx <- mul2 (ii_f_fxi ik) (ii_fxixi_f jl) ;;
  wxy_vy <- mul2 (ii_fxi_f ik) (ii_fxi_fxi jl) ;;
  wxx_vx <- mul2 (ii_fxixi_fxi ik) (ii_ff jl) ;;
  c12 <- ndiv A #2 a ;;
  c22 <- (b2 <- npow A b 2 ;; ndiv A (#2 *! a) b2) ;;
  c66 <- ndiv A #4 a ;;
  c26 <- ndiv A #2 b ;;
  c16 <- (a2 <- npow A a 2 ;; ndiv A (#2 *! b) a2) ;;
  Ok (nneg A c12 *! B12 *! wxx_vy
      -! c22 *! B22 *! wyy_vy
      -! c66 *! B66 *! wxy_vx
      -! c26 *! B26 *! (wyy_vx +! #2 *! wxy_vy)
      -! c16 *! B16 *! wxx_vx).

(** The nine entries computed in one iteration of the loop of structure.py:291-305, and the geometric one. *)
Record entries := Entries { n11 : num A; n12 : num A; n13 : num A; n21 : num A; n22 : num A; n23 : num A;
                            n31 : num A; n32 : num A; n33 : num A; n33g : num A }.

(** structure.py:279-284 : names of the 6x6 array; the last binding of a name counts: A12 of row 1, A16 and A26 of row 2,
    B11, B12, B16 of rows 3, 4, 5 (columns 0-2), D12 of row 4, D16 and D26 of row 5 *)
Record abd := Abd { cA11 : num A; cA12 : num A; cA16 : num A; cA22 : num A; cA26 : num A; cA66 : num A;
                    cB11 : num A; cB12 : num A; cB16 : num A; cB22 : num A; cB26 : num A; cB66 : num A;
                    cD11 : num A; cD12 : num A; cD16 : num A; cD22 : num A; cD26 : num A; cD66 : num A }.
Definition unpack_abd (M : arr) : abd :=
  Abd (M 0 0) (M 1 0) (M 2 0) (M 1 1) (M 2 1) (M 2 2)
      (M 3 0) (M 4 0) (M 5 0) (M 4 1) (M 5 1) (M 5 2)
      (M 3 3) (M 4 3) (M 5 3) (M 4 4) (M 5 4) (M 5 5).

(** structure.py:291-305 : one iteration; [qu], [qv], [qw] are the entries of uidx, vidx, widx *)
Definition loop_ABD (M : abd) (a b Nxx Nyy Nxy : num A) (qu qv qw : idx4) : res entries :=
  k11 <- calc_k11 a b qu (cA11 M) (cA16 M) (cA66 M) ;;
  k12 <- calc_k12 a b (fst qu, snd qv) (cA12 M) (cA16 M) (cA26 M) (cA66 M) ;;
  k13 <- calc_k13 a b (fst qu, snd qw) (cB11 M) (cB12 M) (cB16 M) (cB26 M) (cB66 M) ;;
  k21 <- calc_k21 a b (fst qv, snd qu) (cA12 M) (cA16 M) (cA26 M) (cA66 M) ;;
  k22 <- calc_k22 a b qv (cA22 M) (cA26 M) (cA66 M) ;;
  k23 <- calc_k23 a b (fst qv, snd qw) (cB12 M) (cB16 M) (cB22 M) (cB26 M) (cB66 M) ;;
  k31 <- calc_k31 a b (fst qw, snd qu) (cB11 M) (cB12 M) (cB16 M) (cB26 M) (cB66 M) ;;
  k32 <- calc_k32 a b (fst qw, snd qv) (cB12 M) (cB16 M) (cB22 M) (cB26 M) (cB66 M) ;;
  k33 <- calc_k33 a b qw (cD11 M) (cD12 M) (cD22 M) (cD16 M) (cD26 M) (cD66 M) ;;
  k33g <- calc_kG33 a b qw Nxx Nyy Nxy ;;
  Ok (Entries k11 k12 k13 k21 k22 k23 k31 k32 k33 k33g).

(** numpy hstack of three arrays with equally many rows, vstack *)
Fixpoint hstack {X} (x y z : list (list X)) : list (list X) :=
  match x, y, z with
  | r :: x', s :: y', u :: z' => (r ++ s ++ u) :: hstack x' y' z'
  | _, _, _ => []
  end.

(** structure.py:268-331 : calc_K_KG_ABD; line 321 uses k31 where k23 belongs *)
Definition calc_K_KG_ABD (ABD : arr) (a b Nxx Nyy Nxy : num A) (c : constraints) (m n : nat)
  : res (list (list (num A)) * list (list (num A))) :=
  let M := unpack_abd ABD in
  idx <- compute_constraints c m n ;;
  es <- mapM (fun i => qu <- get (uidx idx) i ;; qv <- get (vidx idx) i ;; qw <- get (widx idx) i ;;
                       loop_ABD M a b Nxx Nyy Nxy qu qv qw) (seq 0 (m ^ 2 * n ^ 2)) ;;
  let rs f := reshape (m * n) (m * n) (map f es) in
  k11 <- rs n11 ;; k12 <- rs n12 ;; k13 <- rs n13 ;; k21 <- rs n21 ;; k22 <- rs n22 ;; k23 <- rs n23 ;;
  k31 <- rs n31 ;; k32 <- rs n32 ;; k33 <- rs n33 ;;
  k00 <- reshape (m * n) (m * n) (repeat (#0) (m ^ 2 * n ^ 2)) ;;
  k33g <- rs n33g ;;
  Ok (hstack k11 k12 k13 ++ hstack k21 k22 k31 ++ hstack k31 k32 k33,
      hstack k00 k00 k00 ++ hstack k00 k00 k00 ++ hstack k00 k00 k33g).
End K.
