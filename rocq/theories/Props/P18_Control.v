(* C69: controllers written with the published M, C, G and Yr. *)
From Coq Require Import Reals Lra Lia Arith List String Bool ZArith.
From Coquelicot Require Import Coquelicot.
From Verif.Model Require Import Base Robot Yaml Build.
From Verif.Spec Require Import Math Setup Kinematics Dynamics Regressor Sample Control.
From Verif.Proofs Require Import Sums Get Motion DynMain RegMain Sample Control ControlToy.
Import ListNotations.
Open Scope nat_scope.
Open Scope string_scope.

(* computed torque: the arm accelerates as commanded, exactly when the torques are M v + C dq + G *)
Theorem C69_computed name cfg r0 r rho t v : motion name cfg r0 r rho ->
  let n := numJoints r0 in
  (forall i, 1 <= i <= n -> (0 <= mass r0 (rho t) i)%R /\ psd3 (inertia r0 (rho t) i)) ->
  (forall i, 1 <= i <= n -> if prism r0 (i - 1) then (0 < mass r0 (rho t) i)%R else pd3 (inertia r0 (rho t) i)) ->
  (forall i, i < n -> torque r0 (rho t) i = computed_torque r0 (rho t) v i) <->
  (forall i, i < n -> state (rho t) "ddq" i = v i).
Proof. exact (fun Hm => computed name cfg r0 r rho t Hm v). Qed.
Print Assumptions C69_computed.

(* position control with gravity compensation: kinetic energy plus spring energy is lost at the rate of the damping *)
Theorem C69_position name cfg r0 r rho t Kp Kd qd : motion name cfg r0 r rho ->
  follows_at r0 rho "q" "dq" t -> follows_at r0 rho "dq" "ddq" t ->
  let n := numJoints r0 in
  (forall i j, i < n -> j < n -> Kp i j = Kp j i) ->
  (forall i, i < n -> torque r0 (rho t) i = gravity_pd r0 (rho t) Kp Kd qd i) ->
  is_derive (fun u => pd_energy r0 Kp qd (rho u)) t (- rquad n Kd (state (rho t) "dq") (state (rho t) "dq"))%R.
Proof. exact (fun Hm H1 H2 => pd_rate name cfg r0 r rho t Hm H1 H2 Kp Kd qd). Qed.
Print Assumptions C69_position.

(* adaptive control: with the torques Yr est - Kd (dq - dqr) and the estimates moving by P est' = - Yr^T (dq - dqr),
   the energy of the error is lost at the rate of the damping, whatever the true parameters th *)
Theorem C69_adaptive name cfg r0 r rho t Kd P th est dest : motion name cfg r0 r rho -> exact_angles r0 ->
  follows_at r0 rho "q" "dq" t -> follows_at r0 rho "dq" "ddq" t -> follows_at r0 rho "dqr" "ddqr" t ->
  describes r0 (rho t) th ->
  let n := numJoints r0 in let m := 10 * n in
  (forall i j, i < m -> j < m -> P i j = P j i) ->
  (forall i, i < n -> torque r0 (rho t) i = adaptive_torque r0 (rho t) Kd (est t) i) ->
  (forall c, c < m -> is_derive (fun u => est u c) t (dest c)) ->
  (forall c, c < m -> rmv m P dest c = (- rsum n (fun i => out (rho t) "Yr" i c * velocity_error (rho t) i))%R) ->
  is_derive (fun u => adaptive_energy r0 P th (est u) (rho u)) t
    (- rquad n Kd (velocity_error (rho t)) (velocity_error (rho t)))%R.
Proof. exact (fun Hm HX H1 H2 H3 => adaptive_rate name cfg r0 r rho t Hm H1 H2 HX H3 Kd P th est dest). Qed.
Print Assumptions C69_adaptive.

(* so over any stretch of time the error stays within what the energy at its start allows *)
Theorem C69_bounded name cfg r0 r rho a b Kd P th est dest : motion name cfg r0 r rho -> exact_angles r0 -> (a <= b)%R ->
  let n := numJoints r0 in let m := 10 * n in
  (forall i j, i < m -> j < m -> P i j = P j i) -> nonneg_form m P ->
  (forall t, (a <= t <= b)%R ->
    follows_at r0 rho "q" "dq" t /\ follows_at r0 rho "dq" "ddq" t /\ follows_at r0 rho "dqr" "ddqr" t /\
    describes r0 (rho t) th /\ nonneg_form n (Kd t) /\
    (forall i, i < n -> torque r0 (rho t) i = adaptive_torque r0 (rho t) (Kd t) (est t) i) /\
    (forall c, c < m -> is_derive (fun u => est u c) t (dest t c)) /\
    (forall c, c < m -> rmv m P (dest t) c = (- rsum n (fun i => out (rho t) "Yr" i c * velocity_error (rho t) i))%R)) ->
  (adaptive_energy r0 P th (est b) (rho b) <= adaptive_energy r0 P th (est a) (rho a))%R /\
  (/ 2 * rquad n (out (rho b) "M") (velocity_error (rho b)) (velocity_error (rho b)) <= adaptive_energy r0 P th (est a) (rho a))%R.
Proof.
  intros Hm HX Hab n m PS PN H.
  assert (E : (adaptive_energy r0 P th (est b) (rho b) <= adaptive_energy r0 P th (est a) (rho a))%R).
  { apply (decreasing (fun u => adaptive_energy r0 P th (est u) (rho u))
      (fun t => - rquad n (Kd t) (velocity_error (rho t)) (velocity_error (rho t)))%R a b Hab).
    - intros t Ht. destruct (H t Ht) as (H1 & H2 & H3 & HT & _ & T & D & A).
      exact (C69_adaptive name cfg r0 r rho t (Kd t) P th est (dest t) Hm HX H1 H2 H3 HT PS T D A).
    - intros t Ht. destruct (H t Ht) as (_ & _ & _ & _ & N & _). specialize (N (velocity_error (rho t))). lra. }
  split; [exact E|]. eapply Rle_trans; [|exact E]. unfold adaptive_energy. fold n. fold m.
  specialize (PN (fun c => est b c - th c)%R). lra.
Qed.
Print Assumptions C69_bounded.
(* the same for position control *)
Theorem C69_settles name cfg r0 r rho a b Kp Kd qd : motion name cfg r0 r rho -> (a <= b)%R ->
  let n := numJoints r0 in
  (forall i j, i < n -> j < n -> Kp i j = Kp j i) -> nonneg_form n Kd ->
  (forall t, (a <= t <= b)%R -> follows_at r0 rho "q" "dq" t /\ follows_at r0 rho "dq" "ddq" t /\
    forall i, i < n -> torque r0 (rho t) i = gravity_pd r0 (rho t) Kp Kd qd i) ->
  (pd_energy r0 Kp qd (rho b) <= pd_energy r0 Kp qd (rho a))%R.
Proof.
  intros Hm Hab n KS KN H.
  apply (decreasing (fun u => pd_energy r0 Kp qd (rho u)) (fun t => - rquad n Kd (state (rho t) "dq") (state (rho t) "dq"))%R a b Hab).
  - intros t Ht. destruct (H t Ht) as (H1 & H2 & T). exact (C69_position name cfg r0 r rho t Kp Kd qd Hm H1 H2 KS T).
  - intros t _. specialize (KN (state (rho t) "dq")). lra.
Qed.
Print Assumptions C69_settles.

(* Non-vacuity: the sample robot starts from rest with acceleration (1, 2, 3).  Its mass matrix serves as the gain of
   both controllers: as spring towards the position q + (1, 2, 3), and as damping of the error dq - dqr = - (1, 2, 3),
   with the true parameters as estimates that begin to move *)
Example C69_met : exists r rho est dest, let r0 := toy0 (PI / 2) in let x := rho 0%R in let M := out x "M" in
  let qd := fun j => (state x "q" j + state x "ddq" j)%R in let th := est 0%R in
  motion "toy" (toy_cfg (PI / 2)) r0 r rho /\ exact_angles r0 /\
  follows r0 rho "q" "dq" /\ follows r0 rho "dq" "ddq" /\ follows r0 rho "dqr" "ddqr" /\ describes r0 x th /\
  (forall i, 1 <= i <= 3 -> (0 < mass r0 x i)%R /\ psd3 (inertia r0 x i) /\ pd3 (inertia r0 x i)) /\
  (forall i j, i < 3 -> j < 3 -> M i j = M j i) /\ nonneg_form 3 M /\
  (forall i, i < 3 -> torque r0 x i = gravity_pd r0 x M (fun _ _ => 0%R) qd i) /\
  (forall i, i < 3 -> torque r0 x i = adaptive_torque r0 x M th i) /\
  (forall c, c < 30 -> is_derive (fun u => est u c) 0%R (dest c)) /\
  (forall c, c < 30 -> rmv 30 rid dest c = (- rsum 3 (fun i => out x "Yr" i c * velocity_error x i))%R) /\
  velocity_error x 1 = (- 2)%R.
Proof.
  destruct (toy_built (PI / 2)) as [r Hr]. pose proof (ctl_motion (PI / 2) 1 r Hr) as Hm.
  destruct (ctl_follows (PI / 2) 1 r Hr) as (F1 & F2 & F3). destruct (ctl_start (PI / 2) r Hr) as (Z & V & V' & E).
  pose proof (ctl_pd (PI / 2) r Hr 0) as PD. cbv zeta in PD.
  exists r, (ctl_rho r (PI / 2) 1). revert Hm F1 F2 F3 Z V V' E PD. generalize (ctl_rho r (PI / 2) 1). intros rho Hm F1 F2 F3 Z V V' E PD.
  pose proof (mo_session _ _ _ _ _ Hm 0%R) as Hs.
  set (x := rho 0%R) in *. pose (dest := fun c => (- rsum 3 (fun i => out x "Yr" i c * velocity_error x i))%R).
  exists (fun u c => (own (toy0 (PI / 2)) x c + u * dest c)%R), dest. cbv zeta.
  destruct (session_built _ _ _ _ _ Hs) as [b HB].
  assert (HT : describes (toy0 (PI / 2)) x (fun c => own (toy0 (PI / 2)) x c + 0 * dest c)%R).
  { apply (describes_ext _ _ (own (toy0 (PI / 2)) x)); [intros; ring|apply own_describes]. }
  destruct (start_law _ _ _ _ _ _ Hs toy_exact HT Z V V') as [L1 L2].
  split; [exact Hm|]. split; [exact toy_exact|]. split; [exact F1|]. split; [exact F2|]. split; [exact F3|].
  split; [exact HT|]. split; [exact PD|]. split; [exact (M_symm _ _ _ _ b _ Hs HB)|].
  split. { intros y. refine (M_semi _ _ _ _ b _ Hs HB y _). intros i Hi. destruct (PD i Hi) as (A & B & _). split; [apply Rlt_le, A|exact B]. }
  split; [exact L1|]. split; [exact L2|].
  split; [intros c _; apply line_rate|].
  split; [intros c Hc; apply (id_mv 30 dest c Hc)|exact E].
Qed.
