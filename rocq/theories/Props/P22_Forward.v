(* C73: the equations of motion written with the published M, C and G can be solved for the accelerations. *)
From Coq Require Import Reals Lra Lia Arith List String Bool ZArith.
From Verif.Model Require Import Base Robot Yaml Build.
From Verif.Spec Require Import Math Setup Kinematics Dynamics Sample.
From Verif.Proofs Require Import Sums Get Motion Determinant DynMain Sample ControlToy Forward ForwardToy.
Import ListNotations.
Open Scope nat_scope.
Open Scope string_scope.

(* Whatever torques act, there is one and only one vector of accelerations to set_ddq for which the equations of motion
   give those torques. *)
Theorem C73_forward name cfg r0 r r' tau : session name cfg r0 r r' ->
  let n := numJoints r0 in
  (forall i, 1 <= i <= n -> (0 <= mass r0 r' i)%R /\ psd3 (inertia r0 r' i)) ->
  (forall i, 1 <= i <= n -> if prism r0 (i - 1) then (0 < mass r0 r' i)%R else pd3 (inertia r0 r' i)) ->
  exists v, List.length v = n /\ (forall i, i < n -> torque r0 (fst (set_arg r' "ddq" v)) i = tau i) /\
    forall u, List.length u = n -> (forall i, i < n -> torque r0 (fst (set_arg r' "ddq" u)) i = tau i) -> u = v.
Proof. exact (fun HS HP HQ => forward name cfg r0 r r' HS HP HQ tau). Qed.
Print Assumptions C73_forward.

(* A wrench f on the tool changes the joint accelerations by x with M x = J_ee^T f; the acceleration J_ee x it gives
   the tool never points against f, and points along f if any joint feels f. *)
Theorem C73_pushed name cfg r0 r r' f x : session name cfg r0 r r' ->
  let n := numJoints r0 in
  (forall i, 1 <= i <= n -> (0 <= mass r0 r' i)%R /\ psd3 (inertia r0 r' i)) ->
  (forall i, 1 <= i <= n -> if prism r0 (i - 1) then (0 < mass r0 r' i)%R else pd3 (inertia r0 r' i)) ->
  (forall i, i < n -> rmv n (out r' "M") x i = rsum 6 (fun a => out r' "J_ee" a i * f a)%R) ->
  (0 <= rdot 6 f (rmv n (out r' "J_ee") x))%R /\
  ((exists i, i < n /\ rsum 6 (fun a => out r' "J_ee" a i * f a)%R <> 0%R) -> (0 < rdot 6 f (rmv n (out r' "J_ee") x))%R).
Proof. exact (fun HS HP HQ => pushed name cfg r0 r r' HS HP HQ f x). Qed.
Print Assumptions C73_pushed.

(* Non-vacuity: the sample robot in motion, with a wrench its first joint feels. *)
Example C73_met : exists r r' f x, let r0 := toy0 (PI / 2) in session "toy" (toy_cfg (PI / 2)) r0 r r' /\ numJoints r0 = 3 /\
  (forall i, 1 <= i <= 3 -> (0 <= mass r0 r' i)%R /\ psd3 (inertia r0 r' i)) /\
  (forall i, 1 <= i <= 3 -> if prism r0 (i - 1) then (0 < mass r0 r' i)%R else pd3 (inertia r0 r' i)) /\
  state r' "dq" 1 = 2%R /\
  (forall i, i < 3 -> rmv 3 (out r' "M") x i = rsum 6 (fun a => out r' "J_ee" a i * f a)%R) /\
  exists i, i < 3 /\ rsum 6 (fun a => out r' "J_ee" a i * f a)%R <> 0%R.
Proof.
  destruct (toy_built (PI / 2)) as [r Hr]. destruct (ctl_session (PI / 2) 1 r Hr 1) as [S _].
  pose proof (ctl_pd (PI / 2) r Hr 1) as PD. cbv zeta in PD.
  assert (D : state (ctl_rho r (PI / 2) 1 1) "dq" 1 = 2%R).
  { rewrite (ctl_state (PI / 2) 1 r Hr 1 "dq" 3 1) by (vm_compute; tauto). change (2 * 1 = 2)%R. ring. }
  exists r, (ctl_rho r (PI / 2) 1 1). revert S PD D. generalize (ctl_rho r (PI / 2) 1 1). intros r' S PD D.
  assert (N : numJoints (toy0 (PI / 2)) = 3) by (vm_compute; reflexivity).
  assert (P : prism (toy0 (PI / 2)) 0 = false) by (vm_compute; reflexivity).
  pose proof toy_exact as HX. revert S PD N P HX. generalize (toy0 (PI / 2)). intros r0 S PD N P HX.
  assert (HP : forall i, 1 <= i <= 3 -> (0 <= mass r0 r' i)%R /\ psd3 (inertia r0 r' i)).
  { intros i Hi. destruct (PD i Hi) as (A & B & _). split; [apply Rlt_le, A|exact B]. }
  assert (HQ : forall i, 1 <= i <= 3 -> if prism r0 (i - 1) then (0 < mass r0 r' i)%R else pd3 (inertia r0 r' i)).
  { intros i Hi. destruct (PD i Hi) as (A & _ & C). destruct (prism r0 (i - 1)); assumption. }
  set (f := fun a : nat => out r' "J_ee" a 0).
  assert (MP : symm 3 (out r' "M") /\ pd 3 (out r' "M")).
  { rewrite <- N. apply (mass_pd _ _ _ _ _ S); rewrite N; assumption. }
  destruct (pd_solve 3 (out r' "M") (fun i => rsum 6 (fun a => out r' "J_ee" a i * f a)%R) (proj1 MP) (proj2 MP)) as [x Hx].
  exists f, x. cbv zeta. split; [exact S|]. split; [exact N|]. split; [exact HP|]. split; [exact HQ|]. split; [exact D|]. split; [exact Hx|].
  exists 0. split; [lia|]. apply (felt _ _ _ _ _ S HX); [lia|exact P].
Qed.
