(* C76: bounds of the model that hold in every posture. *)
From Coq Require Import Reals Lra Lia Arith List String Bool ZArith.
From Verif.Model Require Import Base Expr SX Robot Yaml Build.
From Verif.Spec Require Import Math Setup Kinematics Dynamics Api Sample Bounds.
From Verif.Proofs Require Import Sums Load Final Get Turns Catalogue Sample Api Bounds BoundsToy.
Import ListNotations.
Open Scope nat_scope.
Open Scope string_scope.

(* Every published function other than the force of the springs and its regressor stays within a bound as long as its
   arguments other than the positions of revolute joints do. *)
Theorem C76_bounded name cfg r0 r r1 fo L : session name cfg r0 r r1 -> In fo (get_functions r) -> fo_name fo <> "k" -> fo_name fo <> "reg_k" ->
  exists B, forall r', session name cfg r0 r r' -> limited r0 r' (fo_args fo) L ->
    forall i j, i < fo_rows fo -> j < fo_cols fo -> (Rabs (out r' (fo_name fo) i j) <= B)%R.
Proof.
  intros Hs H N1 N2. destruct (session_built _ _ _ _ _ Hs) as (b & B). apply (fun_obj_iff _ _ _ B) in H. destruct H as (f & He & ->).
  refine (out_bounded name cfg r0 r b B f L He _). destruct f; try reflexivity; exfalso; auto.
Qed.
Print Assumptions C76_bounded.

(* The Coriolis matrix is bounded by a multiple of the speed. *)
Theorem C76_coriolis name cfg r0 r r1 L : session name cfg r0 r r1 ->
  exists B, forall r', session name cfg r0 r r' -> limited r0 r' body_pars L ->
    forall i j, i < numJoints r0 -> j < numJoints r0 ->
      (Rabs (out r' "C" i j) <= B * rsum (numJoints r0) (fun k => Rabs (state r' "dq" k)))%R.
Proof.
  intros Hs. destruct (session_built _ _ _ _ _ Hs) as (b & B). exact (coriolis_bounded name cfg r0 r b B L).
Qed.
Print Assumptions C76_coriolis.

(* The mass matrix is bounded away from zero. *)
Theorem C76_inertia name cfg r0 r r1 L m0 : session name cfg r0 r r1 -> (0 < m0)%R -> let n := numJoints r0 in
  exists c, (0 < c)%R /\ forall r', session name cfg r0 r r' -> limited r0 r' body_pars L ->
    (forall i, 1 <= i <= n -> (0 <= mass r0 r' i)%R /\ psd3 (inertia r0 r' i)) ->
    (forall i, 1 <= i <= n -> if prism r0 (i - 1) then (m0 <= mass r0 r' i)%R else forall x, (m0 * rdot 3 x x <= rquad 3 (inertia r0 r' i) x x)%R) ->
    forall x, (c * rdot n x x <= rquad n (out r' "M") x x)%R.
Proof.
  intros Hs. destruct (session_built _ _ _ _ _ Hs) as (b & B). exact (inertia_below name cfg r0 r b B L m0).
Qed.
Print Assumptions C76_inertia.

(* Whatever the parameters and the posture, singular or not, the joint velocity that J_ee_pinv gives for a velocity of
   the tool is at most 1 / (2 sqrt 0.02) times as long. *)
Theorem C76_pinv name cfg r0 r r' : session name cfg r0 r r' -> forall v,
  (rsum (numJoints r0) (fun i => rmv 6 (out r' "J_ee_pinv") v i ^ 2) <= 1 / (4 * 0.02) * rsum 6 (fun a => v a ^ 2))%R.
Proof.
  intros Hs v. replace (1 / (4 * 0.02))%R with (25 / 2)%R by lra. exact (pinv_gain name cfg r0 r r' Hs v).
Qed.
Print Assumptions C76_pinv.

(* Non-vacuity: the sample robot, whose first joint may be turned without limit. *)
Example C76_met : exists r L, let r0 := toy0 (PI / 2) in forall t, exists r', session "toy" (toy_cfg (PI / 2)) r0 r r' /\
  limited r0 r' body_pars L /\ state r' "q" 0 = t /\ prism r0 0 = false /\ prism r0 1 = true /\
  (forall i, 1 <= i <= numJoints r0 -> (0 <= mass r0 r' i)%R /\ psd3 (inertia r0 r' i)) /\
  (forall i, 1 <= i <= numJoints r0 -> if prism r0 (i - 1) then (1 <= mass r0 r' i)%R else forall x, (1 * rdot 3 x x <= rquad 3 (inertia r0 r' i) x x)%R).
Proof.
  destruct (toy_built (PI / 2)) as [r Hr]. pose proof (toy_session (PI / 2) r 0 Hr) as [S _].
  pose proof (fun i => toy_inertial (PI / 2) r 0 i Hr) as T.
  assert (N : numJoints (toy0 (PI / 2)) = 3) by (vm_compute; reflexivity).
  assert (P0 : prism (toy0 (PI / 2)) 0 = false) by (vm_compute; reflexivity).
  assert (P1 : prism (toy0 (PI / 2)) 1 = true) by (vm_compute; reflexivity).
  destruct (limit_exists (toy0 (PI / 2)) (toy_rho r (PI / 2) 0) body_pars) as [L HL].
  exists r, L. revert S T N P0 P1 HL. generalize (toy_rho r (PI / 2) 0) (toy0 (PI / 2)). intros x r0 S T N P0 P1 HL. cbv zeta. intros t.
  destruct (turn_limits _ _ _ _ _ L t S ltac:(lia) P0 HL) as (A & B & C & D). exists (set_entry x "q" 0 t).
  revert A B C D. generalize (set_entry x "q" 0 t). intros y A B C D.
  assert (Q : forall i w, 1 <= i <= numJoints r0 -> rquad 3 (inertia r0 y i) w w = rdot 3 w w).
  { intros i w Hi. destruct (T i ltac:(lia)) as [_ E]. unfold rquad, rdot, rmv. cbn [rsum].
    rewrite !(proj2 (D i)), !E by lia. simpl. ring. }
  assert (M : forall i, 1 <= i <= numJoints r0 -> mass r0 y i = 1%R).
  { intros i Hi. rewrite (proj1 (D i)). apply T. lia. }
  repeat (split; [assumption|]). split.
  - intros i Hi. rewrite M by exact Hi. split; [lra|]. intros w. rewrite Q by exact Hi. unfold rdot. apply rsum_nonneg. intros; apply Rle_0_sqr.
  - intros i Hi. destruct (prism r0 (i - 1)); [rewrite M by exact Hi; lra|]. intros w. rewrite Q by exact Hi. lra.
Qed.
