(* The control law that follows a reference velocity with the exact model, and what the bounds of its success range over. *)
From Coq Require Import Reals List String Arith.
From Verif.Model Require Import Base Robot.
From Verif.Spec Require Import Math Setup Kinematics Dynamics Bounds Control.
Open Scope string_scope.
Open Scope R_scope.

(* M ddqr + C dqr + G - Kd (dq - dqr), with the published M, C and G *)
Definition tracking_torque (r0 x : robot) (Kd : rmat) : rvec := fun i =>
  rmv (numJoints r0) (out x "M") (state x "ddqr") i + rmv (numJoints r0) (out x "C") (state x "dqr") i + out x "G" i 0%nat
  - rmv (numJoints r0) Kd (velocity_error x) i.

(* The robot's geometry and inertia stay within L, its bodies are physical, and what each joint moves at least is m0:
   mass of the link of a prismatic joint, inertia of the link of a revolute one. *)
Definition sturdy (r0 x : robot) (L m0 : R) : Prop :=
  limited r0 x body_pars L /\
  (forall i, (1 <= i <= numJoints r0)%nat -> 0 <= mass r0 x i /\ psd3 (inertia r0 x i)) /\
  (forall i, (1 <= i <= numJoints r0)%nat -> if prism r0 (i - 1) then m0 <= mass r0 x i
     else forall v, m0 * rdot 3 v v <= rquad 3 (inertia r0 x i) v v).
