(* C03, C34: joint types and configuration files. *)
From Coq Require Import Reals List Arith String Bool Lia ZArith.
From Verif.Model Require Import Base Expr SX Robot Kinematics Dynamics Yaml Build.
From Verif.Spec Require Import Setup Config Sample.
From Verif.Proofs Require Import Sample Types Parse LoadSafe ParseToy.
Import ListNotations.
Open Scope nat_scope.
Open Scope string_scope.

(* C03: whatever the configuration, a robot that was built has only known joint types ... *)
Theorem C03_built name cfg r : robot_from_file name cfg true = Ok r ->
  exists r0, robot_from_file name cfg false = Ok r0 /\ forall t, In t (jointsType r0) -> In t ["R"; "P"; "R_SEA"; "P_SEA"].
Proof. exact (built_known name cfg r). Qed.
Print Assumptions C03_built.
(* ... and each computation that looks at the types succeeds only on known ones, from any state of the robot *)
Theorem C03_functions r : (exists r1, compute_chain r = Ok r1) \/ (exists r1, compute_jacobians r = Ok r1) \/ (exists r1, DHJacCM r = Ok r1) ->
  forall i, i < numJoints r -> exists t, nth_error (jointsType r) i = Some t /\ In t ["R"; "P"; "R_SEA"; "P_SEA"].
Proof.
  intros [[r1 H]|[[r1 H]|[r1 H]]]; [exact (proj2 (chain_known r r1 H))|exact (jac_known r r1 H)|exact (jaccm_known r r1 H)].
Qed.
Print Assumptions C03_functions.
(* a configuration consistent in everything else raises *)
Theorem C03_raises name cfg r0 : robot_from_file name cfg false = Ok r0 -> identifier (robotName r0) -> 1 <= numJoints r0 ->
  (forall k len, In (k, len) (par_sizes r0) -> List.length (flags r0 k) = len /\ List.length (arg r0 k) = len) ->
  (exists t, In t (jointsType r0) /\ ~ In t ["R"; "P"; "R_SEA"; "P_SEA"]) ->
  robot_from_file name cfg true = Throw "DHTemplate: Error joint type".
Proof. exact (unknown_throws name cfg r0). Qed.
Print Assumptions C03_raises.
Example C03_met : robot_from_file "odd" (odd_type (PI / 2)) false = Ok (odd0 (PI / 2)) /\ identifier (robotName (odd0 (PI / 2))) /\ 1 <= numJoints (odd0 (PI / 2)) /\
  (forall k len, In (k, len) (par_sizes (odd0 (PI / 2))) -> List.length (flags (odd0 (PI / 2)) k) = len /\ List.length (arg (odd0 (PI / 2)) k) = len) /\
  exists t, In t (jointsType (odd0 (PI / 2))) /\ ~ In t ["R"; "P"; "R_SEA"; "P_SEA"].
Proof. exact (odd_met (PI / 2)). Qed.

(* C34: what a successful parse reports, for every YAML tree *)
Theorem C34_reports name cfg r : parse_config name cfg = POk r -> reports cfg r.
Proof. exact (parse_reports name cfg r). Qed.
Print Assumptions C34_reports.
(* sufficient conditions to stay inside the buffers while parsing, and while loading the values *)
Theorem C34_parse_safe_partial name cfg : fits cfg -> forall m, parse_config name cfg <> PUB m.
Proof. exact (fun F m => parse_safe name cfg m F). Qed.
Print Assumptions C34_parse_safe_partial.
Theorem C34_load_safe_partial name cfg : fits cfg -> (forall r, reports cfg r -> fills r cfg) ->
  forall m, robot_from_file name cfg false <> UB m.
Proof. exact (fun F L m => load_safe name cfg m F L). Qed.
Print Assumptions C34_load_safe_partial.
Example C34_met : fits (toy_cfg (PI / 2)) /\ (forall r, reports (toy_cfg (PI / 2)) r -> fills r (toy_cfg (PI / 2))) /\
  robot_from_file "toy" (toy_cfg (PI / 2)) false = Ok (toy0 (PI / 2)).
Proof. exact (conj (toy_fits (PI / 2)) (conj (toy_fills (PI / 2)) (toy_loads (PI / 2)))). Qed.
(* not every configuration is handled safely: too many links, too few joint types, too few coefficients *)
Theorem C34_refuted :
  (exists name cfg m, parse_config name cfg = PUB m) /\
  (forall h name, parse_config name (four_links h) = PUB "std::copy past the end of the symbolic flags" /\
    parse_config name (two_types h) = PUB "jointsType out of range" /\
    robot_from_file name (short_friction h) false = UB "vector index out of range").
Proof.
  split; [exact (ex_intro _ "" (ex_intro _ _ (ex_intro _ _ (four_links_ub (PI / 2) ""))))|].
  exact (fun h name => conj (four_links_ub h name) (conj (two_types_ub h name) (short_friction_ub h name))).
Qed.
Print Assumptions C34_refuted.
