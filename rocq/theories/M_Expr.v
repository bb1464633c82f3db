(** Python's eval on the arithmetic texts stored in _ii_F.py and _S.py: numbers, xi, eta, + - * / ** and parentheses.
    Precedence as in the Python grammar: ** binds tighter than unary minus on its left, unary minus tighter than * and /.
    The exponent of ** is an integer literal in every stored text and nothing else is accepted here. *)
From Coq Require Import ZArith Bool Arith String Ascii List.
From Verif Require Import M_Py M_K M_Tables M_Shape.
Import ListNotations.
Open Scope string_scope.
Open Scope list_scope.

Inductive token := TInt (z : Z) | TDec (m e : Z) | TXi | TEta | TPlus | TMinus | TMul | TDiv | TPow | TL | TR.

(** A decimal literal stands for m * 10^e. *)
Inductive expr :=
| EInt (z : Z) | EDec (m e : Z) | EXi | EEta
| ENeg (x : expr) | EAdd (x y : expr) | ESub (x y : expr) | EMul (x y : expr) | EDiv (x y : expr)
| EPow (x : expr) (n : nat).

Definition digit (c : ascii) : option Z :=
  let n := nat_of_ascii c in if Nat.leb 48 n && Nat.leb n 57 then Some (Z.of_nat n - 48)%Z else None.

(** digits read from the front: value, how many, rest *)
Fixpoint digits (acc : Z) (k : Z) (s : string) : Z * Z * string :=
  match s with
  | String c t => match digit c with Some d => digits (acc * 10 + d)%Z (k + 1)%Z t | None => (acc, k, s) end
  | EmptyString => (acc, k, s)
  end.

(** an exponent part e12, e-12 or e+12; 0 when absent *)
Definition exponent (s : string) : Z * string :=
  match s with
  | String c t =>
      if Ascii.eqb c "e" then
        match t with
        | String d u =>
            if Ascii.eqb d "-" then let '(z, _, r) := digits 0 0 u in ((- z)%Z, r)
            else if Ascii.eqb d "+" then let '(z, _, r) := digits 0 0 u in (z, r)
            else let '(z, _, r) := digits 0 0 t in (z, r)
        | EmptyString => (0%Z, t)
        end
      else (0%Z, s)
  | EmptyString => (0%Z, s)
  end.

(** a number starting with a digit: 12, 1.5, 1.5e-9, 1e9 *)
Definition number (s : string) : token * string :=
  let '(z, _, r) := digits 0 0 s in
  match r with
  | String c t =>
      if Ascii.eqb c "." then let '(m, k, r') := digits z 0 t in let '(e, r'') := exponent r' in (TDec m (e - k), r'')
      else if Ascii.eqb c "e" then let '(e, r') := exponent r in (TDec z e, r')
      else (TInt z, r)
  | EmptyString => (TInt z, r)
  end.

(** one-character tokens *)
Definition single (c : ascii) : option token :=
  if Ascii.eqb c "+" then Some TPlus else if Ascii.eqb c "-" then Some TMinus else if Ascii.eqb c "/" then Some TDiv
  else if Ascii.eqb c "(" then Some TL else if Ascii.eqb c ")" then Some TR else None.
(** the first token and the rest, for a text starting with [c], not a space *)
Definition token1 (c : ascii) (t : string) : option (token * string) :=
  match single c with
  | Some k => Some (k, t)
  | None =>
    if Ascii.eqb c "*" then
      match t with String d u => if Ascii.eqb d "*" then Some (TPow, u) else Some (TMul, t) | EmptyString => Some (TMul, t) end
    else if Ascii.eqb c "x" then
      match t with String d u => if Ascii.eqb d "i" then Some (TXi, u) else None | EmptyString => None end
    else if Ascii.eqb c "e" then
      match t with
      | String d (String d' u) => if (Ascii.eqb d "t" && Ascii.eqb d' "a")%bool then Some (TEta, u) else None
      | _ => None
      end
    else match digit c with Some _ => Some (number (String c t)) | None => None end
  end.
(** tokens, front first; the fuel bounds the length of the text *)
Fixpoint lex (fuel : nat) (s : string) : option (list token) :=
  match fuel with
  | O => None
  | S f =>
    match s with
    | EmptyString => Some []
    | String c t =>
        if Ascii.eqb c " " then lex f t
        else match token1 c t with
             | Some (k, r) => match lex f r with Some l => Some (k :: l) | None => None end
             | None => None
             end
    end
  end.

(** Recursive descent. Each function returns the expression and the remaining tokens; [p_sum_rest] and [p_prod_rest]
    take the left operand read so far. *)
Fixpoint p_sum (fuel : nat) (l : list token) {struct fuel} : option (expr * list token) :=
  match fuel with
  | O => None
  | S f => match p_prod f l with Some (x, r) => p_sum_rest f x r | None => None end
  end
with p_sum_rest (fuel : nat) (x : expr) (l : list token) {struct fuel} : option (expr * list token) :=
  match fuel with
  | O => None
  | S f =>
    match l with
    | TPlus :: r => match p_prod f r with Some (y, r') => p_sum_rest f (EAdd x y) r' | None => None end
    | TMinus :: r => match p_prod f r with Some (y, r') => p_sum_rest f (ESub x y) r' | None => None end
    | _ => Some (x, l)
    end
  end
with p_prod (fuel : nat) (l : list token) {struct fuel} : option (expr * list token) :=
  match fuel with
  | O => None
  | S f => match p_unary f l with Some (x, r) => p_prod_rest f x r | None => None end
  end
with p_prod_rest (fuel : nat) (x : expr) (l : list token) {struct fuel} : option (expr * list token) :=
  match fuel with
  | O => None
  | S f =>
    match l with
    | TMul :: r => match p_unary f r with Some (y, r') => p_prod_rest f (EMul x y) r' | None => None end
    | TDiv :: r => match p_unary f r with Some (y, r') => p_prod_rest f (EDiv x y) r' | None => None end
    | _ => Some (x, l)
    end
  end
with p_unary (fuel : nat) (l : list token) {struct fuel} : option (expr * list token) :=
  match fuel with
  | O => None
  | S f =>
    match l with
    | TMinus :: r => match p_unary f r with Some (x, r') => Some (ENeg x, r') | None => None end
    | TPlus :: r => p_unary f r
    | _ => match p_atom f l with
           | Some (x, TPow :: TInt z :: r) => Some (EPow x (Z.to_nat z), r)
           | Some (_, TPow :: _) => None
           | o => o
           end
    end
  end
with p_atom (fuel : nat) (l : list token) {struct fuel} : option (expr * list token) :=
  match fuel with
  | O => None
  | S f =>
    match l with
    | TInt z :: r => Some (EInt z, r)
    | TDec m e :: r => Some (EDec m e, r)
    | TXi :: r => Some (EXi, r)
    | TEta :: r => Some (EEta, r)
    | TL :: r => match p_sum f r with Some (x, TR :: r') => Some (x, r') | _ => None end
    | _ => None
    end
  end.

(** The syntax tree of a text. *)
Definition parse (s : string) : option expr :=
  match lex (S (String.length s)) s with
  | Some l => match p_sum (6 * S (List.length l)) l with Some (x, []) => Some x | _ => None end
  | None => None
  end.

Section Eval.
Context {A : arith} (dec : Z -> Z -> num A) (xi eta : num A).
(** Evaluation, left operand first. [dec m e] is the value of a decimal literal. *)
Fixpoint eval_expr (x : expr) : res (num A) :=
  match x with
  | EInt z => Ok (nint A z)
  | EDec m e => Ok (dec m e)
  | EXi => Ok xi
  | EEta => Ok eta
  | ENeg x => v <- eval_expr x ;; Ok (nneg A v)
  | EAdd x y => v <- eval_expr x ;; w <- eval_expr y ;; Ok (nadd A v w)
  | ESub x y => v <- eval_expr x ;; w <- eval_expr y ;; Ok (nsub A v w)
  | EMul x y => v <- eval_expr x ;; w <- eval_expr y ;; Ok (nmul A v w)
  | EDiv x y => v <- eval_expr x ;; w <- eval_expr y ;; ndiv A v w
  | EPow x n => v <- eval_expr x ;; npow A v n
  end.
(** Python's eval; a text outside the grammar above would be an error of another class, which does not occur: see C45_accuracy, C46_product and C63_bardell. *)
Definition eval (s : string) : res (num A) :=
  match parse s with Some x => eval_expr x | None => Err ValueError end.
End Eval.

(** [d[key]] on a dictionary given by rows *)
Definition lookup (t : list (list string)) (i k : nat) : res string :=
  match nth_error t i with
  | Some r => match nth_error r k with Some s => Ok s | None => Err KeyError end
  | None => Err KeyError
  end.

(** functions.py:14-50 on the stored dictionaries; the texts contain no variable *)
Definition stored (A : arith) (dec : Z -> Z -> num A) : tables A :=
  let at_ t i k := s <- lookup t i k ;; eval (A := A) dec (nint A 0) (nint A 0) s in
  Tables A (at_ ii_FF) (at_ ii_FXI_F) (at_ ii_FXI_FXI) (at_ ii_FXIXI_F) (at_ ii_FXIXI_FXI) (at_ ii_FXIXI_FXIXI).

(** functions.py:53-54 : fxi *)
Definition fxi {A : arith} (dec : Z -> Z -> num A) (i : nat) (xi : num A) : res (num A) :=
  s <- match nth_error FXI i with Some s => Ok s | None => Err KeyError end ;; eval dec xi xi s.

(** the text of FXI[j] with xi replaced by eta *)
Fixpoint xi_to_eta (s : string) : string :=
  match s with
  | String "x" (String "i" t) => String "e" (String "t" (String "a" (xi_to_eta t)))
  | String c t => String c (xi_to_eta t)
  | EmptyString => EmptyString
  end.
(** _S.py:60-2561 : the text stored under the key (i, j) *)
Definition S_text (i j : nat) : res string :=
  match nth_error FXI i, nth_error FXI j, nth_error xi_first i with
  | Some f, Some g, Some row =>
      let fx := "(" ++ f ++ ")" in
      let fe := "(" ++ xi_to_eta g ++ ")" in
      match String.get j row with
      | Some "1"%char => Ok (fx ++ "*" ++ fe)
      | Some _ => Ok (fe ++ "*" ++ fx)
      | None => Err KeyError
      end
  | _, _, _ => Err KeyError
  end%string.

(** functions.py:57-58 : sxieta_ij *)
Definition sxieta_ij {A : arith} (dec : Z -> Z -> num A) (ij : nat * nat) (xi eta : num A) : res (num A) :=
  s <- S_text (fst ij) (snd ij) ;; eval dec xi eta s.

(** functions.py:61-69 : sxieta *)
Definition sxieta {A : arith} (dec : Z -> Z -> num A) (s_idx : list (nat * nat)) (xi eta : num A) : res (list (num A)) :=
  mapM (fun ij => sxieta_ij dec ij xi eta) s_idx.
