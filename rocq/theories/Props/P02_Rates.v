(* C07, C17: the published time derivatives. *)
From Coq Require Import Reals Lra Lia Arith List String Bool ZArith.
From Coquelicot Require Import Coquelicot.
From Verif.Model Require Import Base Robot Yaml Build.
From Verif.Spec Require Import Math Setup Kinematics Sample.
From Verif.Proofs Require Import Rates Sample.
Import ListNotations.
Open Scope nat_scope.
Open Scope string_scope.

(* C07: along any motion, J_ee_dot is the time derivative of J_ee and J_ee_ddot that of J_ee_dot *)
Theorem C07_jacobian_rates name cfg r0 r rho t : motion name cfg r0 r rho -> follows_at r0 rho "q" "dq" t ->
  let n := numJoints r0 in
  (answers (rho t) "J_ee" 6 n /\ answers (rho t) "J_ee_dot" 6 n /\ answers (rho t) "J_ee_ddot" 6 n) /\
  (forall i j, i < 6 -> j < n -> is_derive (fun s => out (rho s) "J_ee" i j) t (out (rho t) "J_ee_dot" i j)) /\
  (follows_at r0 rho "dq" "ddq" t -> forall i j, i < 6 -> j < n ->
     is_derive (fun s => out (rho s) "J_ee_dot" i j) t (out (rho t) "J_ee_ddot" i j)).
Proof. exact (fun Hm H1 => Jee_rates name cfg r0 r rho t Hm H1). Qed.
Print Assumptions C07_jacobian_rates.

(* C17: the same for M, C and G *)
Theorem C17_inertia_rates name cfg r0 r rho t : motion name cfg r0 r rho -> follows_at r0 rho "q" "dq" t ->
  let n := numJoints r0 in
  (answers (rho t) "M" n n /\ answers (rho t) "M_dot" n n /\ answers (rho t) "M_ddot" n n) /\
  (forall i j, i < n -> j < n -> is_derive (fun s => out (rho s) "M" i j) t (out (rho t) "M_dot" i j)) /\
  (follows_at r0 rho "dq" "ddq" t -> forall i j, i < n -> j < n ->
     is_derive (fun s => out (rho s) "M_dot" i j) t (out (rho t) "M_ddot" i j)).
Proof. exact (fun Hm H1 => M_rates name cfg r0 r rho t Hm H1). Qed.
Print Assumptions C17_inertia_rates.
Theorem C17_coriolis_rates name cfg r0 r rho t : motion name cfg r0 r rho ->
  follows_at r0 rho "q" "dq" t -> follows_at r0 rho "dq" "ddq" t ->
  let n := numJoints r0 in
  (answers (rho t) "C" n n /\ answers (rho t) "C_dot" n n /\ answers (rho t) "C_ddot" n n) /\
  (forall i j, i < n -> j < n -> is_derive (fun s => out (rho s) "C" i j) t (out (rho t) "C_dot" i j)) /\
  (follows_at r0 rho "ddq" "d3q" t -> forall i j, i < n -> j < n ->
     is_derive (fun s => out (rho s) "C_dot" i j) t (out (rho t) "C_ddot" i j)).
Proof. exact (fun Hm H1 H2 => C_rates name cfg r0 r rho t Hm H1 H2). Qed.
Print Assumptions C17_coriolis_rates.
Theorem C17_gravity_rates name cfg r0 r rho t : motion name cfg r0 r rho -> follows_at r0 rho "q" "dq" t ->
  let n := numJoints r0 in
  (answers (rho t) "G" n 1 /\ answers (rho t) "G_dot" n 1 /\ answers (rho t) "G_ddot" n 1) /\
  (forall i, i < n -> is_derive (fun s => out (rho s) "G" i 0) t (out (rho t) "G_dot" i 0)) /\
  (follows_at r0 rho "dq" "ddq" t -> forall i, i < n ->
     is_derive (fun s => out (rho s) "G_dot" i 0) t (out (rho t) "G_ddot" i 0)).
Proof. exact (fun Hm H1 => G_rates name cfg r0 r rho t Hm H1). Qed.
Print Assumptions C17_gravity_rates.

(* Non-vacuity: the sample robot with q = (t, t^2, t^3) and dq, ddq, d3q its derivatives *)
Example rates_hypotheses_met : exists r rho,
  motion "toy" (toy_cfg (PI / 2)) (toy0 (PI / 2)) r rho /\
  (forall t, follows_at (toy0 (PI / 2)) rho "q" "dq" t) /\
  (forall t, follows_at (toy0 (PI / 2)) rho "dq" "ddq" t) /\
  (forall t, follows_at (toy0 (PI / 2)) rho "ddq" "d3q" t).
Proof.
  destruct (toy_built (PI / 2)) as [r Hr]. exists r, (toy_rho r (PI / 2)).
  split; [exact (toy_motion (PI / 2) r Hr)|].
  destruct (toy_follows (PI / 2) r Hr) as (A & B & C). split; [exact A|split; [exact B|exact C]].
Qed.
