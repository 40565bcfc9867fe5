(* The test programs on the sample configurations. *)
From Coq Require Import Reals List String Arith ZArith Bool Lia Lra.
From Verif.Model Require Import Base Robot Yaml Build Template Clients.
From Verif.Spec Require Import Math Setup Kinematics Api State Template Config Sample Clients.
From Verif.Proofs Require Import Names Load Final Get Sample Api Sample1 MainFiles RobotName TToy Clients.
Import ListNotations.
Open Scope nat_scope.
Open Scope string_scope.

(* the sample configuration, every parameter symbolic, with one entry replaced *)
Definition set_entry (k : string) (v : ynode) (n : ynode) : ynode :=
  match n with YMap l => YMap (map (fun kv => if String.eqb (fst kv) k then (fst kv, v) else kv) l) | _ => n end.
(* a series elastic joint, and ELASTIC_MODEL false *)
Definition rigid_cfg (h : R) : ynode := set_entry "ELASTIC_MODEL" (YBool false) (resymb 1 (toy_cfg h)).
Definition rigid0 (h : R) : robot := match robot_from_file "toy" (rigid_cfg h) false with Ok r => r | _ => no_robot end.
Lemma rigid_loads h : robot_from_file "toy" (rigid_cfg h) false = Ok (rigid0 h).
Proof. vm_compute. reflexivity. Qed.
Lemma rigid_wf h : well_formed (rigid0 h).
Proof.
  constructor.
  - apply identifier_check. reflexivity.
  - vm_compute. repeat constructor.
  - intros t. vm_compute. tauto.
  - intros k len Hk. vm_compute in Hk. decompose [or] Hk; try contradiction;
      match goal with E : _ = _ |- _ => injection E as <- <- end; vm_compute; auto.
Qed.
Lemma rigid_toy h : exists r, session "toy" (rigid_cfg h) (rigid0 h) r r /\ ELASTIC (rigid0 h) = false /\ numElasticJoints (rigid0 h) = 1.
Proof.
  destruct (built_file _ _ _ (rigid_loads h) (rigid_wf h)) as [r Hr]. exists r.
  split; [exact (fresh_session _ _ _ _ (rigid_loads h) (rigid_wf h) Hr)|]. split; vm_compute; reflexivity.
Qed.
Lemma full_toy h : exists r, let r0 := toy0_flags 1 h in let cfg := resymb 1 (toy_cfg h) in
  session "toy" cfg r0 r r /\ exact_angles r0 /\ symbolic r0 "par_DYN" = 10 * numJoints r0 /\ has_motors r0 /\
  complete_links inertial_keys (numJoints r0) cfg /\
  (forall k len, In (k, len) (par_sizes r0) -> ~ In k compacted -> uniform (flags r0 k)) /\
  numJoints r0 = 3 /\ numElasticJoints r0 = 1 /\ List.length (test_prints r0) = 23.
Proof.
  destruct (toy1_meets h (fun _ => 0%R)) as (r & r' & t & S & A & B & _). exists r. cbv zeta.
  split; [exact (fresh_session _ _ _ _ (se_load _ _ _ _ _ S) (se_wf _ _ _ _ _ S) (se_build _ _ _ _ _ S))|].
  split; [apply toy1_exact|]. split; [vm_compute; reflexivity|]. split; [left; vm_compute; reflexivity|].
  split; [exact A|]. split; [exact B|]. repeat split; vm_compute; reflexivity.
Qed.
Lemma numeric_toy h : exists r, session "toy" (toy_cfg h) (toy0 h) r r /\ symbolic (toy0 h) "par_DYN" < 10 * numJoints (toy0 h).
Proof.
  destruct (toy_built h) as [r Hr]. exists r. split; [exact (fresh_session _ _ _ _ (toy_loads h) (toy_wf h) Hr)|]. vm_compute. lia.
Qed.
