(* C74: a body fixed to a link adds its own dynamics to those of the robot. *)
From Coq Require Import Reals Lra Lia Arith List String Bool ZArith.
From Verif.Model Require Import Base Robot Yaml Build Bodies.
From Verif.Spec Require Import Math Setup Kinematics Dynamics Api Sample Bodies Payload.
From Verif.Proofs Require Import Load Final Get Sample Sample1 Payload PayloadToy.
Import ListNotations.
Open Scope nat_scope.
Open Scope string_scope.

(* Three robots with one geometry in one state: r' is the arm, s' carries only the further bodies, and each link of t'
   is the union, by the program's own merging of bodies, of the links of r' and s'.  Then M, C, G and the torques of t'
   are the sums of those of r' and s'. *)
Theorem C74_added n1 n2 n3 c1 c2 c3 r0 r r' s0 s s' t0 t t' :
  session n1 c1 r0 r r' -> session n2 c2 s0 s s' -> session n3 c3 t0 t t' ->
  exact_angles r0 -> exact_angles s0 -> exact_angles t0 ->
  same_but_bodies r0 r' s0 s' -> same_but_bodies r0 r' t0 t' -> united r0 r' s0 s' t0 t' ->
  let n := numJoints r0 in
  (forall i j, i < n -> j < n -> out t' "M" i j = (out r' "M" i j + out s' "M" i j)%R) /\
  (forall i j, i < n -> j < n -> out t' "C" i j = (out r' "C" i j + out s' "C" i j)%R) /\
  (forall i, i < n -> out t' "G" i 0 = (out r' "G" i 0%nat + out s' "G" i 0%nat)%R) /\
  (forall i, i < n -> torque t0 t' i = (torque r0 r' i + torque s0 s' i)%R).
Proof. exact (added n1 n2 n3 c1 c2 c3 r0 r r' s0 s s' t0 t t'). Qed.
Print Assumptions C74_added.

(* Non-vacuity: the sample robot with unit links, and a unit ball one unit along x in the frame of its last link. *)
Example C74_met : exists name cfg r0 r r' s' t', session name cfg r0 r r' /\ session name cfg r0 r s' /\ session name cfg r0 r t' /\
  exact_angles r0 /\ same_but_bodies r0 r' r0 s' /\ same_but_bodies r0 r' r0 t' /\ united r0 r' r0 s' r0 t' /\
  numJoints r0 = 3 /\ mass r0 t' 3 = 2%R.
Proof.
  destruct (built_file _ _ _ (toy1_loads (PI / 2)) (toy1_wf (PI / 2))) as [r Hr].
  destruct (loads (PI / 2) r Hr) as (A & B & C & D & E & F & G).
  exists "toy", (resymb 1 (toy_cfg (PI / 2))), (toy0_flags 1 (PI / 2)), r. eexists _, _, _.
  split; [exact A|]. split; [exact B|]. split; [exact C|]. split; [apply toy1_exact|]. split; [exact D|]. split; [exact E|].
  split; [exact F|]. split; [apply flags1|exact G].
Qed.
