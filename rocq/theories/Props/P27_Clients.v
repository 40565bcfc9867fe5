(* C78: the test programs shipped with the library, run as a user would run them. *)
From Coq Require Import Reals List String Arith Bool ZArith.
From Verif.Model Require Import Base Robot Yaml Build Template Clients.
From Verif.Spec Require Import Math Setup Kinematics Api State Template Sample Clients.
From Verif.Proofs Require Import Clients ClientsToy.
Import ListNotations.
Open Scope nat_scope.
Open Scope string_scope.

(* The test of the library prints what get returns in the state it has set, and a difference between the two ways of
   computing the torques that is zero, whatever the state. Missing: the hypotheses on the inertial parameters and on the
   motors, both refuted below; and under the label par_DHtable the program prints a single zero, not the table. *)
Theorem C78_library_partial name cfg r0 r q dq dqr ddqr x dx ddx : session name cfg r0 r r -> exact_angles r0 ->
  symbolic r0 "par_DYN" = 10 * numJoints r0 -> has_motors r0 ->
  (forall v, In v [q; dq; dqr; ddqr] -> List.length v = numJoints r0) -> (forall v, In v [x; dx; ddx] -> List.length v = numElasticJoints r0) ->
  exists r' first shown err, session name cfg r0 r r' /\
    map (arg r') test_keys = [q; dq; dqr; ddqr; x; dx; ddx] /\ (forall k, ~ In k test_keys -> arg r' k = arg r k) /\
    robot_test name cfg q dq dqr ddqr x dx ddx = Ok (first ++ shown ++ [("err_dyn_reg", err)])%list /\
    map fst first = ["par_DHtable"; "par_DYN"; "par_REG"; "par_Dl"; "par_K"; "par_D"; "par_Dm"; "par_Mm"] /\
    (exists m, nth_error first 0 = Some ("par_DHtable", m) /\ m_rows m = 1 /\ m_cols m = 1 /\ m_val m 0 0 = 0%R) /\
    (forall k m, In (k, m) first -> k <> "par_DHtable" -> m = mtranspose (column (arg r k))) /\
    map fst shown = map fst (test_prints r0) /\
    (forall i lbl nm, nth_error (test_prints r0) i = Some (lbl, nm) -> exists m, get r' nm = Ok m /\ nth_error shown i = Some (lbl, m)) /\
    zero_vector (numJoints r0) err.
Proof. exact (robot_test_ok name cfg r0 r q dq dqr ddqr x dx ddx). Qed.
Print Assumptions C78_library_partial.
(* with a single numeric inertial parameter, the program prints doubles that were never written *)
Theorem C78_numeric name cfg r0 r q dq dqr ddqr x dx ddx : session name cfg r0 r r -> symbolic r0 "par_DYN" < 10 * numJoints r0 ->
  robot_test name cfg q dq dqr ddqr x dx ddx = UB "indeterminate value".
Proof. exact (robot_test_numeric name cfg r0 r q dq dqr ddqr x dx ddx). Qed.
Print Assumptions C78_numeric.
Theorem C78_refuted : exists cfg r0 r, session "toy" cfg r0 r r /\ forall q dq dqr ddqr x dx ddx, exists m, robot_test "toy" cfg q dq dqr ddqr x dx ddx = UB m.
Proof.
  destruct (numeric_toy (PI / 2)) as (r & S & H). exists (toy_cfg (PI / 2)), (toy0 (PI / 2)), r. split; [exact S|].
  intros. eexists. exact (robot_test_numeric _ _ _ _ q dq dqr ddqr x dx ddx S H).
Qed.
Print Assumptions C78_refuted.
(* the motor setters of a robot with series elastic joints and no elastic model raise on the vectors they ask for *)
Theorem C29_motors_raise name cfg r0 r v : session name cfg r0 r r -> ELASTIC r0 = false -> List.length v = numElasticJoints r0 -> 0 < List.length v ->
  set_x r v = Throw "casadi: index out of range" /\ set_dx r v = Throw "casadi: index out of range" /\
  set_ddx r v = Throw "casadi: index out of range" /\ set_ddxr r v = Throw "casadi: index out of range".
Proof. exact (motor_set_raises name cfg r0 r v). Qed.
Print Assumptions C29_motors_raise.
Theorem C29_motors_refuted : exists name cfg r0 r, session name cfg r0 r r /\ numElasticJoints r0 = 1 /\ forall a, exists m, set_x r [a] = Throw m.
Proof.
  destruct (rigid_toy (PI / 2)) as (r & S & E & N). exists "toy", (rigid_cfg (PI / 2)), (rigid0 (PI / 2)), r. split; [exact S|]. split; [exact N|].
  intros a. eexists. exact (proj1 (motor_set_raises _ _ _ _ [a] S E (eq_sym N) (Nat.lt_0_succ 0))).
Qed.
Print Assumptions C29_motors_refuted.

(* The test of the generated class, with the configuration file written beside it: the printed matrices are those of the
   robot the class was generated from, in the same state and with its parameters, and the difference is zero. Missing: as
   for C45, parameters of the dynamics of which some are symbolic and some are not; and links that are not complete. *)
Theorem C78_generated_partial junk name cfg r0 r q dq dqr ddqr : session name cfg r0 r r -> exact_angles r0 ->
  complete_links inertial_keys (numJoints r0) cfg ->
  (forall k len, In (k, len) (par_sizes r0) -> ~ In k compacted -> uniform (flags r0 k)) ->
  (forall v, In v [q; dq; dqr; ddqr] -> List.length v = numJoints r0) ->
  exists r' log, session name cfg r0 r r' /\ map (arg r') ["q"; "dq"; "dqr"; "ddqr"] = [q; dq; dqr; ddqr] /\
    (forall k len, In (k, len) (par_sizes r0) -> arg r' k = arg r k) /\
    generated_test junk r (Some cfg) q dq dqr ddqr = Ok log /\
    (forall lbl nm, In (lbl, nm) generated_prints -> exists m, In (lbl, m) log /\ get r' nm = Ok m) /\
    In ("par_DYN", mtranspose (column (arg r0 "par_DYN"))) log /\
    exists e, In ("diff tau_cmd", e) log /\ zero_vector (numJoints r0) e.
Proof. exact (generated_test_ok junk name cfg r0 r q dq dqr ddqr). Qed.
Print Assumptions C78_generated_partial.
Example C78_met : exists r, let r0 := toy0_flags 1 (PI / 2) in let cfg := resymb 1 (toy_cfg (PI / 2)) in
  session "toy" cfg r0 r r /\ exact_angles r0 /\ symbolic r0 "par_DYN" = 10 * numJoints r0 /\ has_motors r0 /\
  complete_links inertial_keys (numJoints r0) cfg /\
  (forall k len, In (k, len) (par_sizes r0) -> ~ In k compacted -> uniform (flags r0 k)) /\
  numJoints r0 = 3 /\ numElasticJoints r0 = 1 /\ List.length (test_prints r0) = 23.
Proof. exact (full_toy (PI / 2)). Qed.
Example C78_motors_met : exists r, session "toy" (rigid_cfg (PI / 2)) (rigid0 (PI / 2)) r r /\ ELASTIC (rigid0 (PI / 2)) = false /\ numElasticJoints (rigid0 (PI / 2)) = 1.
Proof. exact (rigid_toy (PI / 2)). Qed.
