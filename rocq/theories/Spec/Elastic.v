(* A robot with elastic joints, seen as links driven through springs by motors: the equations of motion built from the
   published functions, and the energy stored in links, springs and motors. *)
From Coq Require Import Reals Arith String.
From Coquelicot Require Import Coquelicot.
From Verif.Model Require Import Robot.
From Verif.Spec Require Import Math Setup Kinematics Dynamics Friction.
Open Scope R_scope.
Open Scope string_scope.

(* torque i of a published law; a law of order 0 is not published and gives no torque *)
Definition law (order : nat) (x : robot) (f : string) (i : nat) : R :=
  if Nat.ltb 0 order then out x f i 0%nat else 0.
Definition spring (r0 x : robot) : rvec := law (K_order r0) x "k".
Definition coupling (r0 x : robot) : rvec := law (D_order r0) x "d".
Definition motor_friction (r0 x : robot) : rvec := law (Dm_order r0) x "dm".
Definition link_friction (r0 x : robot) : rvec := law (Dl_order r0) x "dl".
(* what the motors transmit to joint j: motor i drives the i-th elastic joint *)
Definition on_joint (r0 : robot) (v : rvec) (j : nat) : R :=
  rsum (numElasticJoints r0) (fun i => if Nat.eqb (sea_joint r0 i) j then v i else 0).
(* deflection of spring i and its rate *)
Definition deflection (r0 x : robot) (i : nat) : R := state x "x" i - state x "q" (sea_joint r0 i).
Definition deflection_rate (r0 x : robot) (i : nat) : R := state x "dx" i - state x "dq" (sea_joint r0 i).

(* Newton's law for links and motors, with torques ext on the joints and u on the motors *)
Record elastic_equations (r0 x : robot) (ext u : rvec) : Prop := {
  ee_links : forall j, (j < numJoints r0)%nat ->
    torque r0 x j = ext j + on_joint r0 (fun i => spring r0 x i + coupling r0 x i) j - link_friction r0 x j;
  ee_motors : forall i, (i < numElasticJoints r0)%nat ->
    rmv (numElasticJoints r0) (out x "Mm") (state x "ddx") i
    = u i - spring r0 x i - coupling r0 x i - motor_friction r0 x i
}.

(* energy of the springs, of the motors, of everything *)
Definition spring_energy (r0 x : robot) : R :=
  rsum (numElasticJoints r0) (fun i => rsum (K_order r0) (fun o =>
    param r0 x "par_K" (i * K_order r0 + o) * (deflection r0 x i ^ (2 * o + 2) / INR (2 * o + 2)))).
Definition motor_energy (r0 x : robot) : R :=
  / 2 * rquad (numElasticJoints r0) (out x "Mm") (state x "dx") (state x "dx").
Definition elastic_energy (r0 x : robot) : R :=
  kinetic r0 x + potential r0 x + (motor_energy r0 x + spring_energy r0 x).
(* power supplied from outside, and power lost in friction *)
Definition supplied (r0 x : robot) (ext u : rvec) : R :=
  rdot (numJoints r0) (state x "dq") ext + rdot (numElasticJoints r0) (state x "dx") u.
Definition lost (r0 x : robot) : R :=
  rdot (numJoints r0) (state x "dq") (link_friction r0 x)
  + rdot (numElasticJoints r0) (deflection_rate r0 x) (coupling r0 x)
  + rdot (numElasticJoints r0) (state x "dx") (motor_friction r0 x).

(* motor vector dk is the derivative of motor vector k at time t *)
Definition motors_follow_at (r0 : robot) (rho : R -> robot) (k dk : string) (t : R) : Prop :=
  forall i, (i < numElasticJoints r0)%nat -> is_derive (fun s => state (rho s) k i) t (state (rho t) dk i).
(* no friction coefficient is negative *)
Definition friction_nonneg (r0 x : robot) : Prop :=
  (forall j, (j < numJoints r0 * Dl_order r0)%nat -> 0 <= param r0 x "par_Dl" j) /\
  (forall j, (j < numElasticJoints r0 * D_order r0)%nat -> 0 <= param r0 x "par_D" j) /\
  (forall j, (j < numElasticJoints r0 * Dm_order r0)%nat -> 0 <= param r0 x "par_Dm" j).
