(* Damped least squares. *)
From Coq Require Import Reals.
From Verif.Spec Require Import Math.
Open Scope R_scope.

(* |J x - v|^2 + mu |x|^2 for a 6 x n matrix J *)
Definition damped_cost (mu : R) (n : nat) (J : rmat) (v x : rvec) : R :=
  rsum 6 (fun a => (rmv n J x a - v a) ^ 2) + mu * rsum n (fun i => x i ^ 2).

(* J J^T + mu I *)
Definition damped_gram (mu : R) (n : nat) (J : rmat) : rmat :=
  fun a b => rmul n J (rtr J) a b + mu * rid a b.
