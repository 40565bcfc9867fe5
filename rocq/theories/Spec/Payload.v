(* A robot whose links carry further bodies. *)
From Coq Require Import Reals List String Arith.
From Verif.Model Require Import Base Robot Bodies.
From Verif.Spec Require Import Math Setup Kinematics Dynamics Api Bodies.
Import ListNotations.
Open Scope string_scope.
Open Scope R_scope.

(* link i (1-based) of a robot as a rigid body in the axes of its frame *)
Definition link_body (r0 r' : robot) (i : nat) : body :=
  let p := dyn r0 r' i in
  mkBody ("link" ++ to_string i) (p 0%nat) [p 4%nat; p 5%nat; p 6%nat; p 7%nat; p 8%nat; p 9%nat] [p 1%nat; p 2%nat; p 3%nat] [0; 0; 0] [].
(* no body at all *)
Definition nothing (b : body) : Prop :=
  b_mass b = 0 /\ forall i j, (i < 3)%nat -> (j < 3)%nat -> Bodies.inertia b i j = 0.
(* two robots with the same geometry and friction, in the same state *)
Definition same_but_bodies (r0 r' s0 s' : robot) : Prop :=
  same_shape r0 s0 /\ forall k len, In (k, len) (state_sizes r0 ++ par_sizes r0)%list -> k <> "par_DYN" ->
    forall i, (i < len)%nat -> param r0 r' k i = param s0 s' k i.
(* every link of t' is the link of r' and the link of s' united by mergeBodyInertial, or the link of r' if that of s' is nothing *)
Definition united (r0 r' s0 s' t0 t' : robot) : Prop := forall i, (1 <= i <= numJoints r0)%nat ->
  let a := link_body r0 r' i in let b := link_body s0 s' i in let c := link_body t0 t' i in
  (b_mass a + b_mass b <> 0 /\ same_body c (mergeBodyInertial a b a)) \/ (nothing b /\ same_body c a).
