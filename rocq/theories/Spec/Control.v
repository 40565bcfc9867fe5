(* Control laws computed from the published functions of a robot, and the functions that measure their
   success.  rho is a motion (state and time), s the difference between actual and reference velocity. *)
From Coq Require Import Reals Arith String.
From Verif.Model Require Import Robot.
From Verif.Spec Require Import Math Setup Kinematics Dynamics.
Open Scope R_scope.
Open Scope string_scope.

(* the velocity error s = dq - dqr *)
Definition velocity_error (x : robot) : rvec := fun i => state x "dq" i - state x "dqr" i.
(* x^T A x >= 0 for every x of size n *)
Definition nonneg_form (n : nat) (A : rmat) : Prop := forall x, 0 <= rquad n A x x.

(* computed torque: M v + C dq + G, with v the commanded acceleration *)
Definition computed_torque (r0 x : robot) (v : rvec) : rvec := fun i =>
  rmv (numJoints r0) (out x "M") v i + rmv (numJoints r0) (out x "C") (state x "dq") i + out x "G" i 0%nat.
(* position control with gravity compensation: G - Kp (q - qd) - Kd dq *)
Definition gravity_pd (r0 x : robot) (Kp Kd : rmat) (qd : rvec) : rvec := fun i =>
  out x "G" i 0%nat - rmv (numJoints r0) Kp (fun j => state x "q" j - qd j) i - rmv (numJoints r0) Kd (state x "dq") i.
Definition pd_energy (r0 : robot) (Kp : rmat) (qd : rvec) (x : robot) : R :=
  kinetic r0 x + / 2 * rquad (numJoints r0) Kp (fun j => state x "q" j - qd j) (fun j => state x "q" j - qd j).
(* adaptive control: the regressor applied to the estimated parameters, minus Kd s *)
Definition adaptive_torque (r0 x : robot) (Kd : rmat) (est : rvec) : rvec := fun i =>
  rmv (10 * numJoints r0) (out x "Yr") est i - rmv (numJoints r0) Kd (velocity_error x) i.
(* 1/2 s^T M s + 1/2 (est - th)^T P (est - th) *)
Definition adaptive_energy (r0 : robot) (P : rmat) (th est : rvec) (x : robot) : R :=
  / 2 * rquad (numJoints r0) (out x "M") (velocity_error x) (velocity_error x) +
  / 2 * rquad (10 * numJoints r0) P (fun c => est c - th c) (fun c => est c - th c).
