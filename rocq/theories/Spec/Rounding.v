(* Evaluation of a formula in floating point. Every operation may return any number close to the exact result of the
   operation on the numbers it was given; u measures how close. For IEEE double precision u is 2^-53, more if the
   library's sin and cos are less accurate than the elementary operations. Overflow is not covered. *)
From Coq Require Import Reals List String Arith.
From Verif.Model Require Import Base Expr SX Robot.
Open Scope R_scope.

(* relative error u, or absolute error u: the latter covers underflow and then some *)
Definition close (u x v : R) : Prop := Rabs (v - x) <= u * (1 + Rabs x).
(* v is a possible result of computing e *)
Fixpoint rounded (u : R) (env : sym -> R) (e : expr) (v : R) : Prop :=
  match e with
  | Cst r => Rabs (v - r) <= u * Rabs r
  | Var s => v = env s
  | Add a b => exists x y, rounded u env a x /\ rounded u env b y /\ close u (x + y) v
  | Sub a b => exists x y, rounded u env a x /\ rounded u env b y /\ close u (x - y) v
  | Mul a b => exists x y, rounded u env a x /\ rounded u env b y /\ close u (x * y) v
  | Div a b => exists x y, rounded u env a x /\ rounded u env b y /\ close u (x / y) v
  | Opp a => exists x, rounded u env a x /\ close u (- x) v
  | Sin a => exists x, rounded u env a x /\ close u (sin x) v
  | Cos a => exists x, rounded u env a x /\ close u (cos x) v
  | Sqrt a => exists x, rounded u env a x /\ close u (sqrt x) v
  (* a power that is not negative is not computed as a negative number; underflow is at most u^2 *)
  | Pow a n => exists x, rounded u env a x /\ Rabs (v - x ^ n) <= u * Rabs (x ^ n) + u ^ 2 /\ (0 <= x ^ n -> 0 <= v)
  end.
(* the computation may divide by zero or take the root of a negative number *)
Fixpoint fault (u : R) (env : sym -> R) (e : expr) : Prop :=
  match e with
  | Cst _ | Var _ => False
  | Add a b | Sub a b | Mul a b => fault u env a \/ fault u env b
  | Div a b => fault u env a \/ fault u env b \/ rounded u env b 0
  | Opp a | Sin a | Cos a | Pow a _ => fault u env a
  | Sqrt a => fault u env a \/ exists x, rounded u env a x /\ x < 0
  end.

(* floating point arithmetic of one machine: each operation rounded, sin and cos of its library, constants as they are *)
Fixpoint compute (rnd sn cs : R -> R) (env : sym -> R) (e : expr) : R :=
  match e with
  | Cst r => r
  | Var s => env s
  | Add a b => rnd (compute rnd sn cs env a + compute rnd sn cs env b)
  | Sub a b => rnd (compute rnd sn cs env a - compute rnd sn cs env b)
  | Mul a b => rnd (compute rnd sn cs env a * compute rnd sn cs env b)
  | Div a b => rnd (compute rnd sn cs env a / compute rnd sn cs env b)
  | Opp a => rnd (- compute rnd sn cs env a)
  | Sin a => sn (compute rnd sn cs env a)
  | Cos a => cs (compute rnd sn cs env a)
  | Sqrt a => rnd (sqrt (compute rnd sn cs env a))
  | Pow a n => rnd (compute rnd sn cs env a ^ n)
  end.
(* relative error u, underflow at most u^2, signs kept; u is 2^-53 for doubles *)
Record arithmetic (u : R) (rnd sn cs : R -> R) : Prop := {
  ar_unit : 0 <= u <= / 2;
  ar_round : forall x, Rabs (rnd x - x) <= u * Rabs x + u ^ 2;
  ar_sign : forall x, 0 <= x -> 0 <= rnd x;
  ar_sin : forall x, Rabs (sn x - sin x) <= u * (1 + Rabs (sin x));
  ar_cos : forall x, Rabs (cs x - cos x) <= u * (1 + Rabs (cos x)) }.

(* the formula of an entry of a published function, and the numbers an object gives to its inputs *)
Definition entry_of (r' : robot) (fo : fun_obj) (i j : nat) (e : expr) (env : sym -> R) : Prop :=
  exists cf l, mfind (fo_name fo) (casadi_fun r') = Some cf /\ e = el (f_out cf) i j /\
    bind_inputs (f_inputs cf) (map (arg r') (fo_args fo)) = Ok l /\ env = env_of l.
(* all arguments of the function are at most L *)
Definition within_limits (r' : robot) (ks : list string) (L : R) : Prop :=
  forall k l, In k ks -> Rabs (nth l (arg r' k) 0) <= L.
(* the arguments ks of two objects differ by at most d *)
Definition differ (r1 r2 : robot) (ks : list string) (d : R) : Prop :=
  0 <= d /\ forall k l, In k ks -> Rabs (nth l (arg r1 k) 0 - nth l (arg r2 k) 0) <= d.
