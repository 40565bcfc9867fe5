(* Friction and elastic laws. *)
From Coq Require Import Reals List String Arith.
From Verif.Model Require Import Base Robot.
From Verif.Spec Require Import Math Setup Config.
Open Scope R_scope.

(* order-o friction characteristic |v|^o v *)
Definition fric_shape (o : nat) (v : R) : R := Rabs v ^ o * v.
(* friction of element i with velocity v: coefficients i*order, ..., i*order+order-1 of c *)
Definition fric_law (order : nat) (c : rvec) (i : nat) (v : R) : R :=
  rsum order (fun o => c (i * order + o)%nat * fric_shape o v).
(* hardening spring: odd powers of the deflection *)
Definition spring_law (order : nat) (c : rvec) (i : nat) (v : R) : R :=
  rsum order (fun o => c (i * order + o)%nat * v ^ (2 * o + 1)).

(* the joints of elastic type, in the order of the chain *)
Definition sea_joints (r0 : robot) : list nat :=
  filter (fun j => elastic_type (nth j (jointsType r0) EmptyString)) (seq 0 (numJoints r0)).
(* the i-th of them *)
Definition sea_joint (r0 : robot) (i : nat) : nat := nth i (sea_joints r0) 0%nat.

(* the coefficients of element i push back: none is negative, at least one is positive *)
Definition pushes_back (order : nat) (c : rvec) (i : nat) : Prop :=
  (forall o, (o < order)%nat -> 0 <= c (i * order + o)%nat) /\ exists o, (o < order)%nat /\ 0 < c (i * order + o)%nat.
