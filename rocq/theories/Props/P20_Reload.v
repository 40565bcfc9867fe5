(* C71: a robot can be given its configuration again (Robot::load_conf_par, robot.cpp:637-723, is public): the
   inertial, friction and elastic parameters take the values of the file, everything else stays, and the robot
   computes what it computed when it was built. False as soon as one inertial parameter is numeric. *)
From Coq Require Import Reals Lia Arith List String Bool ZArith.
From Verif.Model Require Import Base Expr SX Robot Yaml Build.
From Verif.Spec Require Import Math Setup Api State Sample Reload.
From Verif.Proofs Require Import Reload ReloadToy.
Import ListNotations.
Open Scope nat_scope.
Open Scope string_scope.

(* what a reload writes and what it leaves, for every robot built from a configuration and whatever its state is *)
Theorem C71_values name cfg r0 r r' : session name cfg r0 r r' ->
  List.length (get_arg r' "par_REG") = 10 * numJoints r0 ->
  exists r1, load_conf_par r' cfg true = Ok r1 /\ r1 = with_args r' (args r1) /\
    (forall k, In k (file_parameters r0) -> get_arg r1 k = get_arg r0 k) /\
    (forall k, ~ In k (file_parameters r0) -> get_arg r1 k = get_arg r' k).
Proof. exact (reload name cfg r0 r r'). Qed.
Print Assumptions C71_values.

(* With all of these parameters symbolic the robot stays a usable one ... *)
Theorem C71_usable_partial name cfg r0 r r' r1 : session name cfg r0 r r' ->
  (forall k len, In (k, len) (par_sizes r0) -> In k (file_parameters r0) -> symbolic r0 k = len) ->
  List.length (get_arg r' "par_REG") = 10 * numJoints r0 ->
  load_conf_par r' cfg true = Ok r1 -> session name cfg r0 r r1.
Proof. exact (reload_usable name cfg r0 r r' r1). Qed.
Print Assumptions C71_usable_partial.
(* ... and if only they had been changed, it reads and computes what it did when it was built. *)
Theorem C71_restores_partial name cfg r0 r r' r1 : session name cfg r0 r r' ->
  (forall k len, In (k, len) (par_sizes r0) -> In k (file_parameters r0) -> symbolic r0 k = len) ->
  List.length (get_arg r' "par_REG") = 10 * numJoints r0 ->
  (forall k, ~ In k (file_parameters r0) -> get_arg r' k = get_arg r k) ->
  load_conf_par r' cfg true = Ok r1 ->
  (forall k, get_arg r1 k = get_arg r k) /\ forall nm, get r1 nm = get r nm.
Proof. exact (reload_restores name cfg r0 r r' r1). Qed.
Print Assumptions C71_restores_partial.

(* With some inertial parameters symbolic and some numeric, every reload leaves a robot whose mass matrix can no
   longer be evaluated ... *)
Theorem C71_breaks name cfg r0 r r' : session name cfg r0 r r' ->
  0 < symbolic r0 "par_DYN" < 10 * numJoints r0 ->
  List.length (get_arg r' "par_REG") = 10 * numJoints r0 ->
  exists r1 m, load_conf_par r' cfg true = Ok r1 /\ get r1 "M" = Throw m.
Proof. exact (reload_breaks name cfg r0 r r'). Qed.
Print Assumptions C71_breaks.
(* ... although it could before. *)
Theorem C71_refuted : exists name cfg r0 r r1 m, session name cfg r0 r r /\
  (exists M, get r "M" = Ok M) /\ load_conf_par r cfg true = Ok r1 /\ get r1 "M" = Throw m.
Proof. exists "toy", (toy_cfg 0), (toy0 0). exact (toy_breaks 0). Qed.
Print Assumptions C71_refuted.

Example C71_met : exists r r', session "toy" (resymb 1 (toy_cfg (PI / 2))) (toy0_flags 1 (PI / 2)) r r' /\
  (forall k len, In (k, len) (par_sizes (toy0_flags 1 (PI / 2))) -> In k (file_parameters (toy0_flags 1 (PI / 2))) ->
     symbolic (toy0_flags 1 (PI / 2)) k = len) /\
  List.length (get_arg r' "par_REG") = 10 * numJoints (toy0_flags 1 (PI / 2)) /\
  (forall k, ~ In k (file_parameters (toy0_flags 1 (PI / 2))) -> get_arg r' k = get_arg r k) /\
  get_arg r' "par_DYN" <> get_arg r "par_DYN" /\
  file_parameters (toy0_flags 1 (PI / 2)) = ["par_DYN"; "par_REG"; "par_Dl"; "par_K"; "par_D"; "par_Dm"; "par_Mm"].
Proof. exact (toy1_reload (PI / 2)). Qed.
