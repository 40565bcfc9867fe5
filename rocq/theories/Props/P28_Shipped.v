(* C79: the robot configurations shipped with the project. Spec/Shipped.v has them as trees; h is the number their anchor
   PI_2 stands for, so each theorem holds for the decimal in the files, and those about geometry for pi/2. *)
From Coq Require Import Reals List String Arith Bool ZArith.
From Verif.Model Require Import Base Robot Yaml Build Template Clients.
From Verif.Spec Require Import Math Setup Kinematics Dynamics State Template Shipped Clients.
From Verif.Spec Require Api.
From Verif.Proofs Require Import Shipped.
Import ListNotations.
Open Scope nat_scope.
Open Scope string_scope.

(* Every shipped file loads into a consistent robot whose functions are all built. Missing: two files in an old format. *)
Theorem C79_loads_partial h name cfg : In (name, cfg) (shipped h) -> ~ In name outdated -> exists r0 r, session name cfg r0 r r.
Proof. exact (shipped_session h name cfg). Qed.
Print Assumptions C79_loads_partial.
(* those two are refused, whether or not the functions are asked for *)
Theorem C79_refuted h name cfg b : In (name, cfg) (shipped h) -> In name outdated ->
  robot_from_file name cfg b = Throw "configuration could not be parsed".
Proof. exact (fun H N => old_throws h name cfg H N b). Qed.
Print Assumptions C79_refuted.

(* Read with its exact angles, every shipped robot meets the conditions of the theorems on geometry, energy and motion
   (C01-C16), of the generated class (C45) and of the test programs (C78). *)
Theorem C79_conditions h name cfg r0 r r' : In (name, cfg) (shipped h) -> session name cfg r0 r r' ->
  (h = (PI / 2)%R -> exact_angles r0) /\ has_motors r0 /\ complete_links inertial_keys (numJoints r0) cfg /\
  (forall k len, In (k, len) (par_sizes r0) -> ~ In k compacted -> uniform (flags r0 k)) /\
  Api.symbolic r0 "par_DYN" = (if existsb (String.eqb name) numeric_inertia then 0 else 10 * numJoints r0).
Proof. exact (shipped_meets h name cfg r0 r r'). Qed.
Print Assumptions C79_conditions.

(* With the shipped inertial parameters the mass matrix is positive semidefinite in every state, and for the arms it is
   positive definite and the equations of motion have exactly one acceleration for any torques. *)
Theorem C79_semidefinite h name cfg r0 r r' : In (name, cfg) (shipped h) -> session name cfg r0 r r' -> arg r' "par_DYN" = arg r "par_DYN" ->
  forall x, (0 <= rquad (numJoints r0) (out r' "M") x x)%R.
Proof. exact (shipped_semidefinite h name cfg r0 r r'). Qed.
Print Assumptions C79_semidefinite.
Theorem C79_arms h name cfg r0 r r' : In (name, cfg) (shipped h) -> In name arms -> session name cfg r0 r r' -> arg r' "par_DYN" = arg r "par_DYN" ->
  let n := numJoints r0 in
  (forall x, (exists j, j < n /\ x j <> 0%R) -> (0 < rquad n (out r' "M") x x)%R) /\
  forall tau, exists v, List.length v = n /\ (forall i, i < n -> torque r0 (fst (set_arg r' "ddq" v)) i = tau i) /\
    forall u, List.length u = n -> (forall i, i < n -> torque r0 (fst (set_arg r' "ddq" u)) i = tau i) -> u = v.
Proof. exact (arms_forward h name cfg r0 r r'). Qed.
Print Assumptions C79_arms.

(* The class generated for a shipped robot, once it has loaded the same file, answers like the robot, whatever setters are
   called as long as both are given the same vectors. *)
Theorem C79_generated junk h name cfg r0 r r' upd : In (name, cfg) (shipped h) -> session name cfg r0 r r' ->
  exists t, t_load_conf junk (new_class r) (Some cfg) upd = Ok t /\
  forall calls, (forall c, In c calls -> In (fst c) tsetters) -> let t1 := t_run calls t in
  (forall k len, In (k, len) (state_sizes r0) -> member t1 k = arg r' k) ->
  (forall k len, In (k, len) (par_sizes r0) -> (member t1 k = member t k /\ arg r' k = arg r k) \/ member t1 k = arg r' k) ->
  forall nm, Api.published r nm -> t_get r t1 nm = get r' nm.
Proof. exact (shipped_generated junk h name cfg r0 r r' upd). Qed.
Print Assumptions C79_generated.

(* The test program of the library, on any shipped robot and in any state: a zero difference, except on the three robots
   without symbolic inertial parameters, where it prints doubles that were never written. The file named in the program,
   seaRRR.yaml, is one of the three. *)
Theorem C79_test name cfg r0 r q dq dqr ddqr x dx ddx : In (name, cfg) (shipped (PI / 2)) -> session name cfg r0 r r ->
  (forall v, In v [q; dq; dqr; ddqr] -> List.length v = numJoints r0) -> (forall v, In v [x; dx; ddx] -> List.length v = numElasticJoints r0) ->
  if existsb (String.eqb name) numeric_inertia then robot_test name cfg q dq dqr ddqr x dx ddx = UB "indeterminate value"
  else exists out err, robot_test name cfg q dq dqr ddqr x dx ddx = Ok (out ++ [("err_dyn_reg", err)])%list /\ zero_vector (numJoints r0) err.
Proof. exact (shipped_test name cfg r0 r q dq dqr ddqr x dx ddx). Qed.
Print Assumptions C79_test.

(* Non-vacuity: the Franka arm, seven joints. *)
Example C79_met : exists cfg r0 r, In ("franka", cfg) (shipped (PI / 2)) /\ session "franka" cfg r0 r r /\ numJoints r0 = 7 /\
  In "franka" arms /\ ~ In "franka" outdated /\ nth 0 (arg r0 "par_DYN") 0%R = (4970684 * / 1000000)%R.
Proof. exact franka_met. Qed.
