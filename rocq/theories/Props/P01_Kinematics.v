(* C01, C02, C04, C05, C06, C09: transforms and geometric Jacobians. *)
From Coq Require Import Reals Lra Lia Arith List String Bool ZArith.
From Coquelicot Require Import Coquelicot.
From Verif.Model Require Import Base Robot Yaml Build.
From Verif.Spec Require Import Math Setup Kinematics Sample.
From Verif.Proofs Require Import KinMain Near Sample.
Import ListNotations.
Open Scope nat_scope.
Open Scope string_scope.

(* The literal matrices of Spec/Math.v are the usual products of elementary transforms. *)
Theorem DH_is_elementary_product a alpha d theta : agree 4 4 (DHmat a alpha d theta)
  (rmul 4 (rmul 4 (hrotx alpha) (htrans a 0 0)) (rmul 4 (hrotz theta) (htrans 0 0 d))).
Proof.
  intros i j Hi Hj. destruct i as [|[|[|[|i]]]]; try lia; destruct j as [|[|[|[|j]]]]; try lia; cbn; ring.
Qed.
Theorem frame_is_elementary_product x y z yaw pitch roll : agree 4 4 (framemat x y z yaw pitch roll)
  (rmul 4 (htrans x y z) (rmul 4 (hrotz yaw) (rmul 4 (hroty pitch) (hrotx roll)))).
Proof.
  intros i j Hi Hj. destruct i as [|[|[|[|i]]]]; try lia; destruct j as [|[|[|[|j]]]]; try lia; cbn; ring.
Qed.

(* C01: the published transforms are the modified Denavit-Hartenberg chain between base and tool frames. *)
Theorem C01_forward_kinematics name cfg r0 r r' : session name cfg r0 r r' -> exact_angles r0 ->
  (forall i, 1 <= i <= numJoints r0 -> answers r' ("T_" ++ to_string i) 4 4 /\
     agree 4 4 (out r' ("T_" ++ to_string i)) (joint_frame r0 r' (i - 1))) /\
  (answers r' "T_0" 4 4 /\ agree 4 4 (out r' "T_0") (fwd r0 r' 0)) /\
  (forall i, i <= numJoints r0 -> answers r' ("T_0_" ++ to_string i) 4 4 /\
     agree 4 4 (out r' ("T_0_" ++ to_string i)) (fwd r0 r' i)) /\
  (forall nm, nm = "T_0_ee" \/ nm = "T_0_" ++ to_string (numJoints r0 + 1) -> answers r' nm 4 4 /\
     agree 4 4 (out r' nm) (fwd_ee r0 r')).
Proof. exact (fk_exact name cfg r0 r r'). Qed.
Print Assumptions C01_forward_kinematics.

(* C01 with no condition on the angles: the same chain with the code's rounding of tiny constant cosines
   and sines to 0. *)
Theorem C01_forward_kinematics_any_angle name cfg r0 r r' : session name cfg r0 r r' ->
  (forall i, 1 <= i <= numJoints r0 -> answers r' ("T_" ++ to_string i) 4 4 /\
     agree 4 4 (out r' ("T_" ++ to_string i)) (joint_frame_snap r0 r' (i - 1))) /\
  (answers r' "T_0" 4 4 /\ agree 4 4 (out r' "T_0") (fwd_snap r0 r' 0)) /\
  (forall i, i <= numJoints r0 -> answers r' ("T_0_" ++ to_string i) 4 4 /\
     agree 4 4 (out r' ("T_0_" ++ to_string i)) (fwd_snap r0 r' i)) /\
  (forall nm, nm = "T_0_ee" \/ nm = "T_0_" ++ to_string (numJoints r0 + 1) -> answers r' nm 4 4 /\
     agree 4 4 (out r' nm) (rmul 4 (fwd_snap r0 r' (numJoints r0)) (frame_snap r0 r' "par_Ln2EE"))).
Proof. exact (fk_snap name cfg r0 r r'). Qed.
Print Assumptions C01_forward_kinematics_any_angle.

(* C02 *)
Theorem C02_transforms_rigid name cfg r0 r r' : session name cfg r0 r r' -> exact_angles r0 ->
  (forall i, 1 <= i <= numJoints r0 -> rigid (out r' ("T_" ++ to_string i))) /\
  (forall i, i <= numJoints r0 + 1 -> rigid (out r' ("T_0_" ++ to_string i))) /\
  rigid (out r' "T_0") /\ rigid (out r' "T_0_ee").
Proof. exact (transforms_rigid name cfg r0 r r'). Qed.
Print Assumptions C02_transforms_rigid.
Theorem C02_lengths_any_angle name cfg r0 r r' : session name cfg r0 r r' ->
  (forall i, 1 <= i <= numJoints r0 -> keeps_length 2 (out r' ("T_" ++ to_string i))) /\
  (forall i, i <= numJoints r0 -> keeps_length (2 * i + 3) (out r' ("T_0_" ++ to_string i))) /\
  keeps_length (2 * numJoints r0 + 6) (out r' "T_0_ee").
Proof. exact (lengths name cfg r0 r r'). Qed.
Print Assumptions C02_lengths_any_angle.

(* C04: the linear rows of J_i times the joint velocities are the velocity of the origin of frame i *)
Theorem C04_link_velocity name cfg r0 r rho t : motion name cfg r0 r rho -> exact_angles r0 ->
  follows_at r0 rho "q" "dq" t ->
  forall i, 1 <= i <= numJoints r0 -> answers (rho t) ("J_" ++ to_string i) 6 (numJoints r0) /\
    forall a, a < 3 -> is_derive (fun s => out (rho s) ("T_0_" ++ to_string i) a 3) t
      (rmv (numJoints r0) (out (rho t) ("J_" ++ to_string i)) (state (rho t) "dq") a).
Proof.
  intros Hm HX Hq i Hi. split; [|intros a Ha; exact (link_velocity name cfg r0 r rho t Hm HX Hq i a Hi Ha)].
  exact (J_answers _ _ _ _ _ (mo_session _ _ _ _ _ Hm t) i ltac:(lia)).
Qed.
Print Assumptions C04_link_velocity.

(* C05: the angular rows times the joint velocities are the angular velocity of frame i *)
Theorem C05_link_angular_velocity name cfg r0 r rho t : motion name cfg r0 r rho -> exact_angles r0 ->
  follows_at r0 rho "q" "dq" t ->
  forall i a c, 1 <= i <= numJoints r0 -> a < 3 -> c < 3 ->
    is_derive (fun s => out (rho s) ("T_0_" ++ to_string i) a c) t
      (rmul 3 (rhat (fun k => rmv (numJoints r0) (out (rho t) ("J_" ++ to_string i)) (state (rho t) "dq") (3 + k)))
              (out (rho t) ("T_0_" ++ to_string i)) a c).
Proof. exact (fun Hm HX Hq => link_spin name cfg r0 r rho t Hm HX Hq). Qed.
Print Assumptions C05_link_angular_velocity.

(* C06: J_ee, also published as J_(n+1), does the same for the tool frame *)
Theorem C06_tool_velocity name cfg r0 r rho t J : motion name cfg r0 r rho -> exact_angles r0 ->
  follows_at r0 rho "q" "dq" t -> J = "J_ee" \/ J = "J_" ++ to_string (numJoints r0 + 1) ->
  answers (rho t) J 6 (numJoints r0) /\
  (forall a, a < 3 -> is_derive (fun s => out (rho s) "T_0_ee" a 3) t
     (rmv (numJoints r0) (out (rho t) J) (state (rho t) "dq") a)) /\
  (forall a c, a < 3 -> c < 3 -> is_derive (fun s => out (rho s) "T_0_ee" a c) t
     (rmul 3 (rhat (fun k => rmv (numJoints r0) (out (rho t) J) (state (rho t) "dq") (3 + k)))
             (out (rho t) "T_0_ee") a c)).
Proof.
  intros Hm HX Hq HJ. split; [|split].
  - exact (Jee_answers _ _ _ _ _ (mo_session _ _ _ _ _ Hm t) J HJ).
  - exact (fun a => tool_velocity name cfg r0 r rho t Hm HX Hq J a HJ).
  - exact (fun a c => tool_spin name cfg r0 r rho t Hm HX Hq J a c HJ).
Qed.
Print Assumptions C06_tool_velocity.

(* C09: J_cm_i is the Jacobian of the centre of mass of link i; its angular rows are those of J_i *)
Theorem C09_com_velocity name cfg r0 r rho t : motion name cfg r0 r rho -> exact_angles r0 ->
  follows_at r0 rho "q" "dq" t ->
  forall i, 1 <= i <= numJoints r0 -> answers (rho t) ("J_cm_" ++ to_string i) 6 (numJoints r0) /\
    (forall a, a < 3 -> is_derive (fun s => com_point r0 (rho s) i a) t
       (rmv (numJoints r0) (out (rho t) ("J_cm_" ++ to_string i)) (state (rho t) "dq") a)) /\
    (forall a c, a < 3 -> c < numJoints r0 ->
       out (rho t) ("J_cm_" ++ to_string i) (3 + a) c = out (rho t) ("J_" ++ to_string i) (3 + a) c).
Proof.
  intros Hm HX Hq i Hi. split; [|split].
  - exact (Jcm_answers _ _ _ _ _ (mo_session _ _ _ _ _ Hm t) i Hi).
  - exact (fun a => com_velocity name cfg r0 r rho t Hm HX Hq i a Hi).
  - exact (fun a c => com_spin name cfg r0 r rho t Hm i a c Hi).
Qed.
Print Assumptions C09_com_velocity.

(* Non-vacuity: a 3-joint robot (revolute, prismatic, elastic revolute) with q = (t, t^2, t^3) meets every
   hypothesis above, at every time. *)
Example kinematics_hypotheses_met : exists r rho,
  motion "toy" (toy_cfg (PI / 2)) (toy0 (PI / 2)) r rho /\ exact_angles (toy0 (PI / 2)) /\
  (forall t, follows_at (toy0 (PI / 2)) rho "q" "dq" t) /\
  (forall t, session "toy" (toy_cfg (PI / 2)) (toy0 (PI / 2)) r (rho t)) /\ numJoints (toy0 (PI / 2)) = 3 /\
  (forall t, state (rho t) "q" 1 = (t ^ 2)%R).
Proof.
  destruct (toy_built (PI / 2)) as [r Hr]. exists r, (toy_rho r (PI / 2)).
  pose proof (toy_motion (PI / 2) r Hr) as Hm.
  split; [exact Hm|]. split; [exact toy_exact|]. split; [|split; [exact (mo_session _ _ _ _ _ Hm)|split; [reflexivity|]]].
  - intros t. exact (proj1 (toy_follows (PI / 2) r Hr) t).
  - intros t. exact (toy_q1 (PI / 2) r Hr t).
Qed.
