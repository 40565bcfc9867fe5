(* When a formula has a value, and when it has one that changes little. *)
From Coq Require Import Reals List.
From Verif.Model Require Import Expr.
Open Scope R_scope.

(* nowhere a division by zero or the root of a negative number *)
Fixpoint has_value (env : sym -> R) (e : expr) : Prop :=
  match e with
  | Cst _ | Var _ => True
  | Add a b | Sub a b | Mul a b => has_value env a /\ has_value env b
  | Div a b => has_value env a /\ has_value env b /\ eval env b <> 0
  | Opp a | Sin a | Cos a | Pow a _ => has_value env a
  | Sqrt a => has_value env a /\ 0 <= eval env a
  end.
