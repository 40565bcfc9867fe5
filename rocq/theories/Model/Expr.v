(* Scalar symbolic expressions: the part of casadi::SXElem used by the code.
   Numbers are idealised as reals. *)
From Coq Require Import Reals String List Bool Arith.
Import ListNotations.
Open Scope R_scope.

(* element i of the vector created by casadi::SX::sym(name, n) *)
Definition sym : Type := (string * nat)%type.
Definition sym_eqb (a b : sym) : bool := String.eqb (fst a) (fst b) && Nat.eqb (snd a) (snd b).

Inductive expr : Type :=
| Cst (r : R)
| Var (s : sym)
| Add (a b : expr)
| Sub (a b : expr)
| Mul (a b : expr)
| Div (a b : expr)
| Opp (a : expr)
| Sin (a : expr)
| Cos (a : expr)
| Sqrt (a : expr)
| Pow (a : expr) (n : nat).

(* numeric evaluation: what casadi::Function::call computes for one output element *)
Fixpoint eval (env : sym -> R) (e : expr) : R :=
  match e with
  | Cst r => r
  | Var s => env s
  | Add a b => eval env a + eval env b
  | Sub a b => eval env a - eval env b
  | Mul a b => eval env a * eval env b
  | Div a b => eval env a / eval env b
  | Opp a => - eval env a
  | Sin a => sin (eval env a)
  | Cos a => cos (eval env a)
  | Sqrt a => sqrt (eval env a)
  | Pow a n => eval env a ^ n
  end.

Fixpoint occurs (v : sym) (e : expr) : bool :=
  match e with
  | Cst _ => false
  | Var s => sym_eqb v s
  | Add a b | Sub a b | Mul a b | Div a b => occurs v a || occurs v b
  | Opp a | Sin a | Cos a | Sqrt a => occurs v a
  | Pow a _ => occurs v a
  end.

(* casadi::SX::is_constant: CasADi folds operations on constants, so an expression is constant
   when it mentions no symbol. (Products by a structural zero, which CasADi would also fold, are
   never arguments of the is_constant test of kinematics.cpp:12.) *)
Fixpoint is_constant (e : expr) : bool :=
  match e with
  | Cst _ => true
  | Var _ => false
  | Add a b | Sub a b | Mul a b | Div a b => is_constant a && is_constant b
  | Opp a | Sin a | Cos a | Sqrt a => is_constant a
  | Pow a _ => is_constant a
  end.

(* static_cast<double>(x) of a constant expression *)
Definition const_value (e : expr) : R := eval (fun _ => 0) e.

(* Partial derivative as computed by casadi::SX::jacobian / jtimes. Subexpressions that do not
   mention the variable are structurally zero in CasADi's dependency-driven differentiation and
   produce no term. *)
Fixpoint diff (v : sym) (e : expr) : expr :=
  match e with
  | Cst _ => Cst 0
  | Var s => if sym_eqb v s then Cst 1 else Cst 0
  | Add a b =>
      if occurs v a then (if occurs v b then Add (diff v a) (diff v b) else diff v a)
      else (if occurs v b then diff v b else Cst 0)
  | Sub a b =>
      if occurs v a then (if occurs v b then Sub (diff v a) (diff v b) else diff v a)
      else (if occurs v b then Opp (diff v b) else Cst 0)
  | Mul a b =>
      if occurs v a then
        (if occurs v b then Add (Mul (diff v a) b) (Mul a (diff v b)) else Mul (diff v a) b)
      else (if occurs v b then Mul a (diff v b) else Cst 0)
  | Div a b =>
      if occurs v b then
        (if occurs v a then Div (Sub (Mul (diff v a) b) (Mul a (diff v b))) (Mul b b)
         else Div (Opp (Mul a (diff v b))) (Mul b b))
      else (if occurs v a then Div (diff v a) b else Cst 0)
  | Opp a => if occurs v a then Opp (diff v a) else Cst 0
  | Sin a => if occurs v a then Mul (Cos a) (diff v a) else Cst 0
  | Cos a => if occurs v a then Opp (Mul (Sin a) (diff v a)) else Cst 0
  | Sqrt a => if occurs v a then Div (diff v a) (Mul (Cst 2) (Sqrt a)) else Cst 0
  | Pow a n =>
      if occurs v a then Mul (Mul (Cst (INR n)) (Pow a (Nat.pred n))) (diff v a) else Cst 0
  end.

(* finite sum of expressions, as accumulated by a matrix product *)
Fixpoint esum (n : nat) (f : nat -> expr) : expr :=
  match n with
  | O => Cst 0
  | S k => Add (esum k f) (f k)
  end.
