(* Symbolic matrices: the casadi::SX operations used by the code.
   [ok = false] records that CasADi raised an error (dimension mismatch, index out of range, or
   differentiation with respect to something that is not a symbol) while the matrix was computed. *)
From Coq Require Import Reals String List Bool Arith.
From Verif.Model Require Import Expr.
Import ListNotations.
Open Scope nat_scope.

Record sx := mkSX { rows : nat; cols : nat; ok : bool; el : nat -> nat -> expr }.

(* casadi::SX(r, c) and casadi::SX::zeros(r, c): same values (sparsity is not modelled) *)
Definition zeros (r c : nat) : sx := mkSX r c true (fun _ _ => Cst 0).
(* casadi::SX() *)
Definition empty_sx : sx := zeros 0 0.
(* casadi::SX::eye(n) *)
Definition eye (n : nat) : sx :=
  mkSX n n true (fun i j => if Nat.eqb i j then Cst 1 else Cst 0).
(* casadi::SX::sym(name, n, 1) *)
Definition sym_vec (name : string) (n : nat) : sx :=
  mkSX n 1 true (fun i _ => Var (name, i)).
(* scalar as 1x1 matrix, and back *)
Definition scal (e : expr) : sx := mkSX 1 1 true (fun _ _ => e).
Definition sc (m : sx) : expr := el m 0 0.

(* m(i) on a column vector: 1x1 result, error when out of range *)
Definition vat (m : sx) (i : nat) : sx :=
  mkSX 1 1 (ok m && Nat.ltb i (rows m) && Nat.eqb (cols m) 1) (fun _ _ => el m i 0).
(* m(i,j) *)
Definition mat_at (m : sx) (i j : nat) : sx :=
  mkSX 1 1 (ok m && Nat.ltb i (rows m) && Nat.ltb j (cols m)) (fun _ _ => el m i j).
(* m(Slice(r0,r1), Slice(c0,c1)) *)
Definition sub (m : sx) (r0 r1 c0 c1 : nat) : sx :=
  mkSX (r1 - r0) (c1 - c0) (ok m && Nat.leb r1 (rows m) && Nat.leb c1 (cols m))
       (fun i j => el m (r0 + i) (c0 + j)).
(* m(Slice(r0,r1)) on a column vector *)
Definition vsub (m : sx) (r0 r1 : nat) : sx :=
  mkSX (r1 - r0) 1 (ok m && Nat.leb r1 (rows m) && Nat.eqb (cols m) 1) (fun i _ => el m (r0 + i) 0).
(* m(i,j) = e (e scalar) *)
Definition set_at (m : sx) (i j : nat) (e : sx) : sx :=
  mkSX (rows m) (cols m) (ok m && ok e && Nat.ltb i (rows m) && Nat.ltb j (cols m))
       (fun a b => if Nat.eqb a i && Nat.eqb b j then sc e else el m a b).
(* m(Slice(r0,r0+rows b), Slice(c0,c0+cols b)) = b *)
Definition set_block (m : sx) (r0 c0 : nat) (b : sx) : sx :=
  mkSX (rows m) (cols m)
       (ok m && ok b && Nat.leb (r0 + rows b) (rows m) && Nat.leb (c0 + cols b) (cols m))
       (fun i j => if Nat.leb r0 i && Nat.ltb i (r0 + rows b) && Nat.leb c0 j && Nat.ltb j (c0 + cols b)
                   then el b (i - r0) (j - c0) else el m i j).

Definition same_dims (a b : sx) : bool := Nat.eqb (rows a) (rows b) && Nat.eqb (cols a) (cols b).

(* a + b and a - b of equal dimensions. CasADi's scalar expansion is modelled by [scale] where the
   code relies on it. *)
Definition madd (a b : sx) : sx :=
  mkSX (rows a) (cols a) (ok a && ok b && same_dims a b) (fun i j => Add (el a i j) (el b i j)).
Definition msub (a b : sx) : sx :=
  mkSX (rows a) (cols a) (ok a && ok b && same_dims a b) (fun i j => Sub (el a i j) (el b i j)).
Definition mneg (a : sx) : sx := mkSX (rows a) (cols a) (ok a) (fun i j => Opp (el a i j)).
(* s * m with s a 1x1 SX *)
Definition scale (s m : sx) : sx :=
  mkSX (rows m) (cols m) (ok s && ok m && Nat.eqb (rows s) 1 && Nat.eqb (cols s) 1)
       (fun i j => Mul (sc s) (el m i j)).
(* m * s with s a 1x1 SX or a double *)
Definition scale_r (m s : sx) : sx :=
  mkSX (rows m) (cols m) (ok s && ok m && Nat.eqb (rows s) 1 && Nat.eqb (cols s) 1)
       (fun i j => Mul (el m i j) (sc s)).
(* m / r with r a number *)
Definition mdivc (m : sx) (r : R) : sx :=
  mkSX (rows m) (cols m) (ok m) (fun i j => Div (el m i j) (Cst r)).
(* casadi::SX::mtimes(a, b) *)
Definition mtimes (a b : sx) : sx :=
  mkSX (rows a) (cols b) (ok a && ok b && Nat.eqb (cols a) (rows b))
       (fun i j => esum (cols a) (fun k => Mul (el a i k) (el b k j))).
(* casadi::SX::mtimes({a, b, c, ...}): left fold *)
Definition mtimes3 (a b c : sx) : sx := mtimes (mtimes a b) c.
Definition mtimes4 (a b c d : sx) : sx := mtimes (mtimes3 a b c) d.
Definition mtimes5 (a b c d e : sx) : sx := mtimes (mtimes4 a b c d) e.
(* m.T() *)
Definition mT (a : sx) : sx := mkSX (cols a) (rows a) (ok a) (fun i j => el a j i).
(* vertcat({a, b}), horzcat(a, b) *)
Definition vertcat2 (a b : sx) : sx :=
  mkSX (rows a + rows b) (cols a) (ok a && ok b && Nat.eqb (cols a) (cols b))
       (fun i j => if Nat.ltb i (rows a) then el a i j else el b (i - rows a) j).
Definition horzcat2 (a b : sx) : sx :=
  mkSX (rows a) (cols a + cols b) (ok a && ok b && Nat.eqb (rows a) (rows b))
       (fun i j => if Nat.ltb j (cols a) then el a i j else el b i (j - cols a)).
Definition horzcat3 (a b c : sx) : sx := horzcat2 (horzcat2 a b) c.
(* vertcat of a std::vector of 1x1 SX *)
Definition vertcat_list (l : list sx) : sx :=
  mkSX (List.length l) (if Nat.eqb (List.length l) 0 then 0 else 1)
       (forallb (fun s => ok s && Nat.eqb (rows s) 1 && Nat.eqb (cols s) 1) l)
       (fun i _ => sc (nth i l (zeros 1 1))).
(* reshape(m, r, c), column major *)
Definition reshape (m : sx) (r c : nat) : sx :=
  mkSX r c (ok m && Nat.eqb (r * c) (rows m * cols m))
       (fun i j => let p := j * r + i in el m (p mod rows m) (p / rows m)).

Definition sym_of (e : expr) : option sym := match e with Var s => Some s | _ => None end.
Definition is_sym (e : expr) : bool := match e with Var _ => true | _ => false end.
Definition diff_wrt (x : expr) (e : expr) : expr :=
  match sym_of x with Some s => diff s e | None => Cst 0 end.
Definition all_syms (x : sx) : bool :=
  forallb (fun i => is_sym (el x i 0)) (seq 0 (rows x)).

(* jacobian(e, x): e taken column-major, x a column of symbols *)
Definition jacobian (e x : sx) : sx :=
  mkSX (rows e * cols e) (rows x) (ok e && ok x && Nat.eqb (cols x) 1 && all_syms x)
       (fun i j => diff_wrt (el x j 0) (el e (i mod rows e) (i / rows e))).
(* casadi::SX::jtimes(e, x, v): directional derivative, same shape as e *)
Definition jtimes (e x v : sx) : sx :=
  mkSX (rows e) (cols e)
       (ok e && ok x && ok v && Nat.eqb (cols x) 1 && Nat.eqb (cols v) 1 &&
        Nat.eqb (rows x) (rows v) && all_syms x)
       (fun i j => esum (rows x) (fun k => Mul (diff_wrt (el x k 0) (el e i j)) (el v k 0))).

(* hat(v): cross-product matrix (src/utils.cpp:435-447) *)
Definition hat (v : sx) : sx :=
  mkSX 3 3 (ok v && Nat.leb 3 (rows v) && Nat.eqb (cols v) 1)
    (fun i j => match i, j with
     | 0, 1 => Opp (el v 2 0)
     | 0, 2 => el v 1 0
     | 1, 0 => el v 2 0
     | 1, 2 => Opp (el v 0 0)
     | 2, 0 => Opp (el v 1 0)
     | 2, 1 => el v 0 0
     | _, _ => Cst 0
     end).

(* numeric value of an element under an assignment of the symbols *)
Definition ev (env : sym -> R) (m : sx) (i j : nat) : R := eval env (el m i j).

(* casadi::SX::inv(m): modelled by cofactors over the determinant (CasADi's inv_minor); any exact
   algorithm returns this value whenever the determinant is non-zero. *)
Definition skip (k i : nat) : nat := if Nat.ltb i k then i else S i.
Definition minor (f : nat -> nat -> expr) (r c : nat) : nat -> nat -> expr :=
  fun i j => f (skip r i) (skip c j).
Definition esign (k : nat) (e : expr) : expr := if Nat.even k then e else Opp e.
Fixpoint edet (n : nat) (f : nat -> nat -> expr) : expr :=
  match n with
  | O => Cst 1
  | S k => esum (S k) (fun j => esign j (Mul (f 0 j) (edet k (minor f 0 j))))
  end.
Definition inv (m : sx) : sx :=
  mkSX (rows m) (cols m) (ok m && Nat.eqb (rows m) (cols m))
    (fun i j => Div (esign (i + j) (edet (pred (rows m)) (minor (el m) j i))) (edet (rows m) (el m))).
