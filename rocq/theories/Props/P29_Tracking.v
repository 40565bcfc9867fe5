(* C80, C81: what the bounds of the model mean for a robot that is controlled with it. *)
From Coq Require Import Reals Lra Lia Arith List String Bool ZArith.
From Coquelicot Require Import Coquelicot.
From Verif.Model Require Import Base Robot Yaml Build.
From Verif.Spec Require Import Math Setup Kinematics Dynamics Regressor Sample Bounds Control Tracking.
From Verif.Proofs Require Import Load Final Get Sample Control Bounds Tracking TrackingToy.
From Verif.Props Require Import P18_Control.
Import ListNotations.
Open Scope nat_scope.
Open Scope string_scope.

(* Under the law M ddqr + C dqr + G - Kd (dq - dqr) the velocity error dies out exponentially, at a rate proportional to
   the gain. The factor and the rate depend on the robot and on the limits only: not on the posture, the reference or
   the duration. *)
Theorem C80_decay name cfg r0 r r1 L m0 : session name cfg r0 r r1 -> (0 < m0)%R -> let n := numJoints r0 in
  exists A lam, (0 < lam)%R /\ forall rho a b Kd k, motion name cfg r0 r rho -> (a <= b)%R -> (0 <= k)%R ->
    (forall t, (a <= t <= b)%R ->
       follows_at r0 rho "q" "dq" t /\ follows_at r0 rho "dq" "ddq" t /\ follows_at r0 rho "dqr" "ddqr" t /\ sturdy r0 (rho t) L m0 /\
       (forall i, i < n -> torque r0 (rho t) i = tracking_torque r0 (rho t) (Kd t) i) /\
       (k * rdot n (velocity_error (rho t)) (velocity_error (rho t)) <= rquad n (Kd t) (velocity_error (rho t)) (velocity_error (rho t)))%R) ->
    (rdot n (velocity_error (rho b)) (velocity_error (rho b)) <=
     A * exp (- (lam * k * (b - a))) * rdot n (velocity_error (rho a)) (velocity_error (rho a)))%R.
Proof. intros Hs. destruct (session_built _ _ _ _ _ Hs) as (b & B). exact (decay name cfg r0 r b B L m0). Qed.
Print Assumptions C80_decay.

(* With estimated parameters the velocity error stays within a multiple, the same in every posture, of the energy the
   adaptive controller starts with. *)
Theorem C80_adaptive name cfg r0 r r1 L m0 : session name cfg r0 r r1 -> (0 < m0)%R -> exact_angles r0 ->
  let n := numJoints r0 in let m := 10 * n in
  exists K, forall rho a b Kd P th est dest, motion name cfg r0 r rho -> (a <= b)%R ->
  (forall i j, i < m -> j < m -> P i j = P j i) -> nonneg_form m P -> sturdy r0 (rho b) L m0 ->
  (forall t, (a <= t <= b)%R ->
    follows_at r0 rho "q" "dq" t /\ follows_at r0 rho "dq" "ddq" t /\ follows_at r0 rho "dqr" "ddqr" t /\
    describes r0 (rho t) th /\ nonneg_form n (Kd t) /\
    (forall i, i < n -> torque r0 (rho t) i = adaptive_torque r0 (rho t) (Kd t) (est t) i) /\
    (forall c, c < m -> is_derive (fun u => est u c) t (dest t c)) /\
    (forall c, c < m -> rmv m P (dest t) c = (- rsum n (fun i => out (rho t) "Yr" i c * velocity_error (rho t) i))%R)) ->
  (rdot n (velocity_error (rho b)) (velocity_error (rho b)) <= K * adaptive_energy r0 P th (est a) (rho a))%R.
Proof.
  intros Hs Hm0 HX n m. destruct (session_built _ _ _ _ _ Hs) as (b & B).
  destruct (inertia_below name cfg r0 r b B L m0 Hm0) as (c & Hc & HC). exists (2 / c)%R.
  intros rho a e Kd P th est dest Hm Hae PS PN (SL & P1 & P2) H.
  destruct (C69_bounded name cfg r0 r rho a e Kd P th est dest Hm HX Hae PS PN H) as [_ E].
  pose proof (HC (rho e) (mo_session _ _ _ _ _ Hm e) SL P1 P2 (velocity_error (rho e))) as Q. fold n in E, Q.
  apply Rmult_le_reg_l with c; [exact Hc|]. replace (c * (2 / c * adaptive_energy r0 P th (est a) (rho a)))%R with (2 * adaptive_energy r0 P th (est a) (rho a))%R by (field; lra). lra.
Qed.
Print Assumptions C80_adaptive.

(* Under position control with gravity compensation the speed stays within a multiple of the energy at the start. *)
Theorem C80_speed name cfg r0 r r1 L m0 : session name cfg r0 r r1 -> (0 < m0)%R -> let n := numJoints r0 in
  exists K, forall rho a b Kp Kd qd, motion name cfg r0 r rho -> (a <= b)%R ->
  (forall i j, i < n -> j < n -> Kp i j = Kp j i) -> nonneg_form n Kp -> nonneg_form n Kd -> sturdy r0 (rho b) L m0 ->
  (forall t, (a <= t <= b)%R -> follows_at r0 rho "q" "dq" t /\ follows_at r0 rho "dq" "ddq" t /\
    forall i, i < n -> torque r0 (rho t) i = gravity_pd r0 (rho t) Kp Kd qd i) ->
  (rdot n (state (rho b) "dq") (state (rho b) "dq") <= K * pd_energy r0 Kp qd (rho a))%R.
Proof.
  intros Hs Hm0 n. destruct (session_built _ _ _ _ _ Hs) as (b & B).
  destruct (inertia_below name cfg r0 r b B L m0 Hm0) as (c & Hc & HC). exists (2 / c)%R.
  intros rho a e Kp Kd qd Hm Hae KS KN DN (SL & P1 & P2) H.
  pose proof (C69_settles name cfg r0 r rho a e Kp Kd qd Hm Hae KS DN H) as E.
  pose proof (HC (rho e) (mo_session _ _ _ _ _ Hm e) SL P1 P2 (state (rho e) "dq")) as Q. fold n in Q.
  unfold pd_energy at 1 in E. fold n in E. specialize (KN (fun j => state (rho e) "q" j - qd j)%R).
  unfold kinetic at 1 in E. fold n in E.
  apply Rmult_le_reg_l with c; [exact Hc|]. replace (c * (2 / c * pd_energy r0 Kp qd (rho a)))%R with (2 * pd_energy r0 Kp qd (rho a))%R by (field; lra). lra.
Qed.
Print Assumptions C80_speed.

(* Non-vacuity: the sample robot moves at speed (1, 2, 3) for a second while the reference velocity comes from twice
   that speed. *)
Example C80_met : exists r L rho Kd, let r0 := toy0 (PI / 2) in
  motion "toy" (toy_cfg (PI / 2)) r0 r rho /\
  (forall t, (0 <= t <= 1)%R ->
     follows_at r0 rho "q" "dq" t /\ follows_at r0 rho "dq" "ddq" t /\ follows_at r0 rho "dqr" "ddqr" t /\ sturdy r0 (rho t) L 1 /\
     (forall i, i < 3 -> torque r0 (rho t) i = tracking_torque r0 (rho t) (Kd t) i) /\
     (1 * rdot 3 (velocity_error (rho t)) (velocity_error (rho t)) <= rquad 3 (Kd t) (velocity_error (rho t)) (velocity_error (rho t)))%R /\
     state (rho t) "dq" 1 = 2%R) /\
  velocity_error (rho 0%R) 1 = (-2)%R.
Proof. exact tracking_met. Qed.

(* No posture lets moderate torques and speeds cause large accelerations. *)
Theorem C81_acceleration name cfg r0 r r1 L m0 : session name cfg r0 r r1 -> (0 < m0)%R -> let n := numJoints r0 in
  exists K, forall r', session name cfg r0 r r' -> sturdy r0 r' L m0 ->
    (forall l, (Rabs (nth l (arg r' "par_gravity") 0) <= L)%R) ->
    forall i, i < n -> (Rabs (state r' "ddq" i) <=
      K * (1 + rsum n (fun k => Rabs (torque r0 r' k)) + rsum n (fun k => Rabs (state r' "dq" k)) ^ 2))%R.
Proof. intros Hs. destruct (session_built _ _ _ _ _ Hs) as (b & B). exact (acceleration name cfg r0 r b B L m0). Qed.
Print Assumptions C81_acceleration.

(* Non-vacuity: a state of the sample robot in motion. *)
Example C81_met : exists r L r', let r0 := toy0 (PI / 2) in session "toy" (toy_cfg (PI / 2)) r0 r r' /\ sturdy r0 r' L 1 /\ (forall l, (Rabs (nth l (arg r' "par_gravity") 0) <= L)%R) /\ state r' "dq" 1 = 2%R /\ state r' "ddq" 1 = 0%R.
Proof. exact acceleration_met. Qed.
