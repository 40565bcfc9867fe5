(* C77: energy of a robot with elastic joints. *)
From Coq Require Import Reals Lra Lia Arith List String Bool ZArith.
From Coquelicot Require Import Coquelicot.
From Verif.Model Require Import Base Robot Yaml Build.
From Verif.Spec Require Import Math Setup Kinematics Dynamics Sample Friction Elastic.
From Verif.Proofs Require Import Load Final Sample FrictionToy Elastic ElasticToy.
Import ListNotations.
Open Scope nat_scope.
Open Scope string_scope.

(* The elastic joints come first (the case of C24 in which k and d belong to the elastic joints).  Whatever torques ext
   and u act on joints and motors, the energy of links, springs and motors changes by the power they supply, minus the
   power lost in the three friction laws *)
Theorem C77_balance name cfg r0 r rho t ext u : motion name cfg r0 r rho -> ELASTIC r0 = true ->
  (forall i, i < numElasticJoints r0 -> sea_joint r0 i = i) -> exact_angles r0 ->
  follows_at r0 rho "q" "dq" t -> follows_at r0 rho "dq" "ddq" t ->
  motors_follow_at r0 rho "x" "dx" t -> motors_follow_at r0 rho "dx" "ddx" t ->
  elastic_equations r0 (rho t) ext u ->
  is_derive (fun s => elastic_energy r0 (rho s)) t (supplied r0 (rho t) ext u - lost r0 (rho t))%R.
Proof. exact (fun Hm He F => elastic_balance name cfg r0 r rho t Hm He F ext u). Qed.
Print Assumptions C77_balance.
(* the published spring torque is the slope of the spring energy *)
Theorem C77_springs name cfg r0 r rho t : motion name cfg r0 r rho -> ELASTIC r0 = true ->
  (forall i, i < numElasticJoints r0 -> sea_joint r0 i = i) ->
  follows_at r0 rho "q" "dq" t -> motors_follow_at r0 rho "x" "dx" t ->
  is_derive (fun s => spring_energy r0 (rho s)) t (rdot (numElasticJoints r0) (deflection_rate r0 (rho t)) (spring r0 (rho t))).
Proof. exact (spring_rate name cfg r0 r rho t). Qed.
Print Assumptions C77_springs.
(* friction never supplies power, and springs and motors never owe energy *)
Theorem C77_signs name cfg r0 r rho t : motion name cfg r0 r rho -> ELASTIC r0 = true ->
  (forall i, i < numElasticJoints r0 -> sea_joint r0 i = i) ->
  (friction_nonneg r0 (rho t) -> (0 <= lost r0 (rho t))%R) /\
  ((forall j, j < numElasticJoints r0 * K_order r0 -> (0 <= param r0 (rho t) "par_K" j)%R) ->
   (forall i, i < numElasticJoints r0 -> (0 <= param r0 (rho t) "par_Mm" i)%R) ->
   (0 <= spring_energy r0 (rho t))%R /\ (0 <= motor_energy r0 (rho t))%R).
Proof. exact (fun Hm He F => conj (lost_nonneg name cfg r0 r rho t Hm He F) (stored_nonneg name cfg r0 r rho t Hm He)). Qed.
Print Assumptions C77_signs.
(* so over any stretch of time the energy grows at most by the work W supplied from outside *)
Theorem C77_passive name cfg r0 r rho a b ext u W : motion name cfg r0 r rho -> ELASTIC r0 = true ->
  (forall i, i < numElasticJoints r0 -> sea_joint r0 i = i) -> exact_angles r0 -> (a <= b)%R ->
  (forall t, (a <= t <= b)%R ->
    follows_at r0 rho "q" "dq" t /\ follows_at r0 rho "dq" "ddq" t /\
    motors_follow_at r0 rho "x" "dx" t /\ motors_follow_at r0 rho "dx" "ddx" t /\
    elastic_equations r0 (rho t) (ext t) (u t) /\ friction_nonneg r0 (rho t) /\
    is_derive W t (supplied r0 (rho t) (ext t) (u t))) ->
  (elastic_energy r0 (rho b) - elastic_energy r0 (rho a) <= W b - W a)%R.
Proof. exact (elastic_passive name cfg r0 r rho a b ext u W). Qed.
Print Assumptions C77_passive.

(* Non-vacuity: a robot with an elastic first joint; all joints and the motor turn at constant speed, the spring being
   wound up, driven by the torques this needs *)
Example C77_met : exists r rho ext u W, let r0 := toy2_0 (PI / 2) in
  motion "toy" (toy2_cfg (PI / 2)) r0 r rho /\ ELASTIC r0 = true /\ numElasticJoints r0 = 1 /\
  (forall i, i < numElasticJoints r0 -> sea_joint r0 i = i) /\ exact_angles r0 /\
  (forall t, follows_at r0 rho "q" "dq" t /\ follows_at r0 rho "dq" "ddq" t /\
    motors_follow_at r0 rho "x" "dx" t /\ motors_follow_at r0 rho "dx" "ddx" t /\
    elastic_equations r0 (rho t) (ext t) (u t) /\ friction_nonneg r0 (rho t) /\
    is_derive W t (supplied r0 (rho t) (ext t) (u t)) /\
    forall k, In k ["par_K"; "par_Mm"] -> forall j, (0 <= param r0 (rho t) k j)%R) /\
  deflection r0 (rho 1%R) 0 = 2%R /\ deflection_rate r0 (rho 1%R) 0 = 2%R /\ K_order r0 = 2 /\ D_order r0 = 2 /\ Dm_order r0 = 1 /\ Dl_order r0 = 2.
Proof.
  destruct (built_file _ _ _ (toy2_loads (PI / 2)) (toy2_wf (PI / 2))) as [r Hr].
  pose proof (glide_motion (PI / 2) r Hr) as Hm. pose proof (glide_follows (PI / 2) r Hr) as HF.
  destruct (work_exists _ _ _ _ (glide_rho (PI / 2) r) Hm eq_refl (glide_first (PI / 2)) toy2_exact) as [W HW].
  - intros s t i. rewrite !(glide_state (PI / 2) r Hr) by (simpl; auto). reflexivity.
  - intros s t i. rewrite !(glide_state (PI / 2) r Hr) by (simpl; auto 10). reflexivity.
  - exact HF.
  - exists r, (glide_rho (PI / 2) r), (fun t => need_ext (toy2_0 (PI / 2)) (glide_rho (PI / 2) r t)),
      (fun t => need_u (toy2_0 (PI / 2)) (glide_rho (PI / 2) r t)), W. cbv zeta.
    split; [exact Hm|]. split; [reflexivity|]. split; [reflexivity|]. split; [exact (glide_first (PI / 2))|]. split; [exact toy2_exact|].
    split.
    + intros t. destruct (HF t) as (F1 & F2 & F3 & F4). do 4 (split; [assumption|]). split; [apply need_ok|].
      split; [|split; [apply HW|]].
      * split; [|split]; intros j _; apply (glide_params (PI / 2) r Hr); simpl; auto.
      * intros k Hk j. apply (glide_params (PI / 2) r Hr). simpl in *. intuition auto.
    + destruct (glide_stretch (PI / 2) r Hr) as [A B]. split; [exact A|]. split; [exact B|]. do 3 (split; [reflexivity|]). reflexivity.
Qed.
