(* C50, C51: the numbers and flags a robot holds are those of its configuration file. *)
From Coq Require Import Reals List Arith String Bool Lia ZArith.
From Verif.Model Require Import Base Expr SX Robot Yaml Build.
From Verif.Spec Require Import Setup Config Sample Values.
From Verif.Proofs Require Import Sample Parse ParseToy Values ValuesToy.
Import ListNotations.
Open Scope nat_scope.
Open Scope string_scope.

(* C50: for every YAML tree that loads *)
Theorem C50_as_written name cfg r0 : robot_from_file name cfg false = Ok r0 -> as_written cfg r0.
Proof. exact (loaded_as_written name cfg r0). Qed.
Print Assumptions C50_as_written.
Example C50_met : let cfg := toy_cfg (PI / 2) in
  robot_from_file "toy" cfg false = Ok (toy0 (PI / 2)) /\
  (exists dyn, entry cfg "dynamics" = Some dyn /\ List.length (ychildren dyn) = 3 /\ first_ones readable_link 3 (ychildren dyn)) /\
  (exists js, entry2 cfg "elastic" "joints" = Some js /\ List.length (ychildren js) = 1 /\
     first_ones (readable_joint (toy0 (PI / 2))) 1 (ychildren js)).
Proof. exact (conj (toy_loads (PI / 2)) (conj (toy_links_readable (PI / 2)) (toy_joints_readable (PI / 2) (toy0 (PI / 2))))). Qed.

(* C51: a missing or unreadable kinematic section is never replaced by other numbers: no robot is returned ... *)
Theorem C51_sections_partial name cfg sec key :
  In (sec, key) [("kinematics", "DH"); ("Base_to_L0", "tr"); ("Base_to_L0", "ypr"); ("Ln_to_EE", "tr"); ("Ln_to_EE", "ypr")] ->
  (forall n v, entry2 cfg sec key = Some n -> ~ lists n v) -> forall b r, robot_from_file name cfg b <> Ok r.
Proof. exact (unreadable_fails name cfg sec key). Qed.
Print Assumptions C51_sections_partial.
Example C51_met : let cfg := alter "kinematics" (YMap [("DH", YSeq [YStr "one"])]) (toy_cfg (PI / 2)) in
  exists n, entry2 cfg "kinematics" "DH" = Some n /\ forall v, ~ lists n v.
Proof. exact bad_DH. Qed.
(* ... but an unreadable number of a link is: the robot is returned with zeros for the links that follow *)
Theorem C51_refuted : exists name cfg r0, robot_from_file name cfg false = Ok r0 /\
  exists dyn k nd, entry cfg "dynamics" = Some dyn /\ nth_error (ychildren dyn) 1 = Some (k, nd) /\ readable_link nd /\
    entry2 nd "inertial" "mass" = Some (YDbl 2%R) /\ nth_error (arg r0 "par_DYN") 10 = Some 0%R.
Proof. exact hole_refutes. Qed.
Print Assumptions C51_refuted.
