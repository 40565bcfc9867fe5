(* C10-C16: mass matrix, Coriolis matrix, gravity vector, equations of motion. *)
From Coq Require Import Reals Lra Lia Arith List String Bool ZArith.
From Coquelicot Require Import Coquelicot.
From Verif.Model Require Import Base Robot Yaml Build.
From Verif.Spec Require Import Math Setup Kinematics Dynamics Sample.
From Verif.Proofs Require Import Get Motion KinMain Coriolis DynMain Energy Lagrange Sample.
Import ListNotations.
Open Scope nat_scope.
Open Scope string_scope.

(* C10: M is symmetric, at every state and for all parameter values *)
Theorem C10_mass_symmetric name cfg r0 r r' : session name cfg r0 r r' ->
  let n := numJoints r0 in
  answers r' "M" n n /\ forall i j, i < n -> j < n -> out r' "M" i j = out r' "M" j i.
Proof.
  intros Hs n. destruct (session_built _ _ _ _ _ Hs) as [b HB].
  exact (conj (ansM name cfg r0 r b r' Hs HB) (M_symm name cfg r0 r b r' Hs HB)).
Qed.
Print Assumptions C10_mass_symmetric.

(* C11: 1/2 dq' M dq is the kinetic energy of the links, computed from the velocities they really have *)
Theorem C11_kinetic_energy name cfg r0 r rho t : motion name cfg r0 r rho -> exact_angles r0 ->
  follows_at r0 rho "q" "dq" t ->
  let n := numJoints r0 in
  (forall i, 1 <= i <= n -> exists v w, link_moves r0 rho t i v w) /\
  forall v w, (forall i, 1 <= i <= n -> link_moves r0 rho t i (v i) (w i)) ->
    kinetic r0 (rho t) = links r0 (fun i => link_energy r0 (rho t) i (fwd r0 (rho t) i) (v i) (w i)).
Proof. exact (fun Hm HX H1 => kinetic_energy name cfg r0 r rho t Hm HX H1). Qed.
Print Assumptions C11_kinetic_energy.

(* C12: M is positive semidefinite for physically meaningful parameters, and positive definite (hence with
   trivial kernel) when every prismatic joint moves a positive mass and every revolute joint a positive
   definite inertia *)
Theorem C12_mass_semidefinite name cfg r0 r r' : session name cfg r0 r r' ->
  let n := numJoints r0 in
  (forall i, 1 <= i <= n -> (0 <= mass r0 r' i)%R /\ psd3 (inertia r0 r' i)) ->
  forall x, (0 <= rquad n (out r' "M") x x)%R.
Proof.
  intros Hs n HP x. destruct (session_built _ _ _ _ _ Hs) as [b HB].
  exact (M_semi name cfg r0 r b r' Hs HB x HP).
Qed.
Print Assumptions C12_mass_semidefinite.
Theorem C12_mass_definite name cfg r0 r r' : session name cfg r0 r r' ->
  let n := numJoints r0 in
  (forall i, 1 <= i <= n -> (0 <= mass r0 r' i)%R /\ psd3 (inertia r0 r' i)) ->
  (forall i, 1 <= i <= n -> if prism r0 (i - 1) then (0 < mass r0 r' i)%R else pd3 (inertia r0 r' i)) ->
  (forall x, (exists j, j < n /\ x j <> 0%R) -> (0 < rquad n (out r' "M") x x)%R) /\
  (forall x, (forall i, i < n -> rmv n (out r' "M") x i = 0%R) -> forall j, j < n -> x j = 0%R).
Proof.
  intros Hs n HP HQ. destruct (session_built _ _ _ _ _ Hs) as [b HB].
  pose proof (fun x => M_def name cfg r0 r b r' Hs HB x HP HQ) as D.
  exact (conj D (fun x => pd_kernel n (out r' "M") x D)).
Qed.
Print Assumptions C12_mass_definite.

(* C13: C is built from the Christoffel symbols of M, and C_std is the same matrix *)
Theorem C13_coriolis_christoffel name cfg r0 r r' : session name cfg r0 r r' ->
  let n := numJoints r0 in
  answers r' "C" n n /\ answers r' "C_std" n n /\
  exists dM : nat -> nat -> nat -> R,
    (forall i j k, i < n -> j < n -> k < n -> is_partial (fun x => out x "M" i j) "q" k r' (dM i j k)) /\
    forall i j, i < n -> j < n ->
      out r' "C" i j = rsum n (fun k => (dM i j k + dM i k j - dM j k i) / 2 * state r' "dq" k)%R /\
      out r' "C_std" i j = out r' "C" i j.
Proof.
  intros Hs n. destruct (session_built _ _ _ _ _ Hs) as [b HB].
  split; [exact (ansC name cfg r0 r b r' Hs HB)|]. split; [exact (ansCs name cfg r0 r b r' Hs HB)|].
  exists (fun i j k => dM (Pure.Mx b) (renv r0 r') i j k). split.
  - exact (M_partial name cfg r0 r b r' Hs HB).
  - intros i j Hi Hj. destruct (C_chr name cfg r0 r b r' Hs HB i j Hi Hj) as [A B].
    exact (conj A (eq_trans B (eq_sym A))).
Qed.
Print Assumptions C13_coriolis_christoffel.

(* C14: M_dot - 2C is skew-symmetric *)
Theorem C14_skew name cfg r0 r r' : session name cfg r0 r r' ->
  let n := numJoints r0 in
  let N := fun i j => (out r' "M_dot" i j - 2 * out r' "C" i j)%R in
  (answers r' "M_dot" n n /\ answers r' "C" n n) /\
  (forall i j, i < n -> j < n -> N i j = (- N j i)%R) /\ (forall x, rquad n N x x = 0%R).
Proof.
  intros Hs n N. destruct (session_built _ _ _ _ _ Hs) as [b HB].
  pose proof (skew_entries name cfg r0 r b r' Hs HB) as D.
  exact (conj (conj (ansMd name cfg r0 r b r' Hs HB) (ansC name cfg r0 r b r' Hs HB)) (conj D (skew_form r0 N D))).
Qed.
Print Assumptions C14_skew.

(* C15: G is the gradient of the potential energy *)
Theorem C15_gravity_gradient name cfg r0 r r' : session name cfg r0 r r' -> exact_angles r0 ->
  let n := numJoints r0 in
  answers r' "G" n 1 /\ forall k, k < n -> is_partial (potential r0) "q" k r' (out r' "G" k 0).
Proof.
  intros Hs HX n. destruct (session_built _ _ _ _ _ Hs) as [b HB].
  exact (conj (ansG name cfg r0 r b r' Hs HB) (G_grad name cfg r0 r r' Hs HX)).
Qed.
Print Assumptions C15_gravity_gradient.

(* C16: the torques M ddq + C dq + G satisfy the Euler-Lagrange equations of L = kinetic - potential:
   with P the momentum dT/d(dq_k) along the motion, dP/dt = torque_k + dT/dq_k - dU/dq_k *)
Theorem C16_euler_lagrange name cfg r0 r rho t : motion name cfg r0 r rho -> exact_angles r0 ->
  follows_at r0 rho "q" "dq" t -> follows_at r0 rho "dq" "ddq" t ->
  forall k, k < numJoints r0 -> exists (P : R -> R) (Tq Uq : R),
    (forall s, is_partial (kinetic r0) "dq" k (rho s) (P s)) /\
    is_partial (kinetic r0) "q" k (rho t) Tq /\ is_partial (potential r0) "q" k (rho t) Uq /\
    is_derive P t (torque r0 (rho t) k + Tq - Uq)%R.
Proof. exact (fun Hm HX H1 H2 => euler_lagrange name cfg r0 r rho t Hm HX H1 H2). Qed.
Print Assumptions C16_euler_lagrange.
(* and the energy changes at the rate at which the torques work *)
Theorem C16_power_balance name cfg r0 r rho t : motion name cfg r0 r rho -> exact_angles r0 ->
  follows_at r0 rho "q" "dq" t -> follows_at r0 rho "dq" "ddq" t ->
  is_derive (fun s => kinetic r0 (rho s) + potential r0 (rho s))%R t
    (rdot (numJoints r0) (state (rho t) "dq") (torque r0 (rho t))).
Proof. exact (fun Hm HX H1 H2 => power_balance name cfg r0 r rho t Hm HX H1 H2). Qed.
Print Assumptions C16_power_balance.

(* Non-vacuity: the sample robot, moving, with unit masses and inertias *)
Example dynamics_hypotheses_met : exists r rho, let r0 := toy0 (PI / 2) in
  motion "toy" (toy_cfg (PI / 2)) r0 r rho /\ exact_angles r0 /\
  (forall t, follows_at r0 rho "q" "dq" t) /\ (forall t, follows_at r0 rho "dq" "ddq" t) /\
  (forall t i, 1 <= i <= numJoints r0 -> (0 < mass r0 (rho t) i)%R /\ psd3 (inertia r0 (rho t) i) /\ pd3 (inertia r0 (rho t) i)) /\
  prism r0 0 = false /\ prism r0 1 = true.
Proof.
  destruct (toy_built (PI / 2)) as [r Hr]. exists r, (toy_rho r (PI / 2)).
  split; [exact (toy_motion (PI / 2) r Hr)|]. split; [exact toy_exact|].
  destruct (toy_follows (PI / 2) r Hr) as (A & B & C). split; [exact A|split; [exact B|]].
  split; [|split; reflexivity].
  intros t i Hi. destruct (toy_pd (PI / 2) r t i Hr Hi) as (M & P). split; [rewrite M; lra|exact P].
Qed.
