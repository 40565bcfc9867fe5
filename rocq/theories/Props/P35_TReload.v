(* C88: loading its configuration again restores an object of the generated class. *)
From Coq Require Import Reals List Arith String Bool ZArith.
From Verif.Model Require Import Base Expr SX Robot Yaml Inertia Build Template.
From Verif.Spec Require Import Math Setup Kinematics State Config Template TReload Sample.
From Verif.Spec Require Api.
From Verif.Proofs Require Import TReload TReloadOk TReloadToy.
Import ListNotations.
Open Scope nat_scope.
Open Scope string_scope.

(* Whatever methods were called before: after load_conf of the file the class was generated from, the parameters are those of
   the file (of the kinematic ones, the symbolic elements, which the built robot keeps), the two inertial descriptions agree if this was asked for, and the state is the one the object had.
   Missing: files that describe fewer links than there are joints, or not all coefficients of the elastic joints. *)
Theorem C88_restores_partial junk name cfg r0 r r' t t1 upd : session name cfg r0 r r' -> reached r t ->
  complete_links inertial_keys (numJoints r0) cfg -> links_given (numJoints r0) cfg ->
  (ELASTIC r0 = true -> elastic_given (numElasticJoints r0) cfg) ->
  t_load_conf junk t (Some cfg) upd = Ok t1 ->
  (forall k len, In (k, len) (state_sizes r0) -> member t1 k = member t k) /\
  (forall k len, In (k, len) (par_sizes r0) -> In k compacted -> firstn (List.length (arg r k)) (member t1 k) = arg r k) /\
  (forall k len, In (k, len) (par_sizes r0) -> ~ In k compacted -> member t1 k = arg r0 k) /\
  (upd = true -> same_links (numJoints r0) (arg r0 "par_DYN") (member t1 "par_REG")).
Proof. exact (load_restores_built junk name cfg r0 r r' t t1 upd). Qed.
Print Assumptions C88_restores_partial.
(* and the call returns normally, if the file says which kinematic elements are symbolic *)
Theorem C88_returns_partial junk name cfg r0 r r' t upd : session name cfg r0 r r' -> reached r t ->
  complete_links inertial_keys (numJoints r0) cfg -> flags_given cfg ->
  exists t1, t_load_conf junk t (Some cfg) upd = Ok t1.
Proof. exact (load_returns junk name cfg r0 r r' t upd). Qed.
Print Assumptions C88_returns_partial.
(* otherwise the flags of a file loaded before are used, and may be too few: an access out of range *)
Theorem C88_flags_refuted junk : exists name cfg r0 r t m,
  robot_from_file name cfg false = Ok r0 /\ well_formed r0 /\ robot_from_file name cfg true = Ok r /\ reached r t /\
  complete_links inertial_keys (numJoints r0) cfg /\ t_load_conf junk t (Some cfg) true = UB m.
Proof.
  destruct (silent_crashes junk (PI / 2)) as (r & t & m & H). exists "toy", (silent_cfg (PI / 2)), (silent0 (PI / 2)), r, t, m. exact H.
Qed.
Print Assumptions C88_flags_refuted.
(* so its functions answer like those of the robot of the file, in the state the object had *)
Theorem C88_answers_partial junk name cfg r0 r r' t t1 upd : session name cfg r0 r r' -> reached r t ->
  complete_links inertial_keys (numJoints r0) cfg -> links_given (numJoints r0) cfg ->
  (ELASTIC r0 = true -> elastic_given (numElasticJoints r0) cfg) ->
  (forall k len, In (k, len) (par_sizes r0) -> ~ In k compacted -> uniform (flags r0 k)) ->
  t_load_conf junk t (Some cfg) upd = Ok t1 ->
  (forall k len, In (k, len) (state_sizes r0) -> arg r' k = member t k) ->
  (forall k len, In (k, len) (par_sizes r0) -> arg r' k = arg r k) ->
  forall nm, Api.published r nm -> t_get r t1 nm = get r' nm.
Proof. exact (load_answers junk name cfg r0 r r' t t1 upd). Qed.
Print Assumptions C88_answers_partial.
(* a link that the file does not describe keeps what it was given before: mass 5 instead of 0 *)
Theorem C88_refuted junk : exists name cfg r0 r r' t t1,
  session name cfg r0 r r' /\ reached r t /\ complete_links inertial_keys (numJoints r0) cfg /\
  elastic_given (numElasticJoints r0) cfg /\ t_load_conf junk t (Some cfg) true = Ok t1 /\
  nth 20 (arg r0 "par_DYN") 1%R = 0%R /\ nth 20 (member t1 "par_DYN") 1%R = 5%R.
Proof.
  destruct (two_keeps junk (PI / 2)) as (r & r' & t & t1 & H). exists "toy", (two_links_cfg (PI / 2)), (two_links0 (PI / 2)), r, r', t, t1. exact H.
Qed.
Print Assumptions C88_refuted.
Example C88_met junk : exists r r' t t1, let r0 := toy0_flags 1 (PI / 2) in let cfg := resymb 1 (toy_cfg (PI / 2)) in
  session "toy" cfg r0 r r' /\ reached r t /\ complete_links inertial_keys (numJoints r0) cfg /\ links_given (numJoints r0) cfg /\
  flags_given cfg /\ elastic_given (numElasticJoints r0) cfg /\ 0 < Dl_order r0 /\ ELASTIC r0 = true /\
  (forall k len, In (k, len) (par_sizes r0) -> ~ In k compacted -> uniform (flags r0 k)) /\
  t_load_conf junk t (Some cfg) true = Ok t1 /\
  (forall k len, In (k, len) (state_sizes r0) -> arg r' k = member t k) /\
  (forall k len, In (k, len) (par_sizes r0) -> arg r' k = arg r k) /\
  (forall k, In k ["par_Mm"; "par_Dl"; "par_gravity"; "par_DYN"] -> member t k <> arg r0 k) /\ Api.published r "M".
Proof.
  destruct (toy1_reloads junk (PI / 2)) as (r & r' & t & t1 & A & B & C & D & H). exists r, r', t, t1. cbv zeta.
  split; [exact A|]. split; [exact B|]. split; [exact C|]. split; [exact D|]. split; [apply toy1_flags|exact H].
Qed.
