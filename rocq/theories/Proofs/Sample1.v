(* The sample configuration with every parameter symbolic. *)
From Coq Require Import Reals Lra Lia Arith List String Bool ZArith.
From Verif.Model Require Import Base Expr SX Robot Yaml Build.
From Verif.Spec Require Import Math Setup Kinematics Dynamics Api Sample.
From Verif.Proofs Require Import Names Load Final Get Sample Api.
Import ListNotations.
Open Scope nat_scope.
Open Scope string_scope.

Lemma toy1_loads h : robot_from_file "toy" (resymb 1 (toy_cfg h)) false = Ok (toy0_flags 1 h).
Proof. vm_compute. reflexivity. Qed.
Lemma toy1_wf h : well_formed (toy0_flags 1 h).
Proof.
  constructor.
  - apply identifier_check. reflexivity.
  - vm_compute. repeat constructor.
  - intros t. vm_compute. tauto.
  - intros k len Hk. vm_compute in Hk. decompose [or] Hk; try contradiction;
      match goal with E : _ = _ |- _ => injection E as <- <- end; vm_compute; auto.
Qed.
Lemma toy1_exact h : exact_angles (toy0_flags 1 h).
Proof.
  intros k i [[-> (j & Hj & Hi)]|[Hk Hi]] Hf; exfalso.
  - change (numJoints (toy0_flags 1 h)) with 3 in Hj.
    destruct j as [|[|[|j]]]; try lia; destruct Hi as [-> |[-> _]]; vm_compute in Hf; discriminate Hf.
  - destruct Hk as [-> | ->]; destruct i as [|[|[|[|[|[|i]]]]]]; try lia; vm_compute in Hf; discriminate Hf.
Qed.
Lemma toy1_session h s : robot_from_file "toy" (resymb 1 (toy_cfg h)) true = Ok s ->
  session "toy" (resymb 1 (toy_cfg h)) (toy0_flags 1 h) s s.
Proof.
  intros Hs.
  pose (A := fun k => if existsb (fun p => String.eqb k (fst p)) (state_sizes (toy0_flags 1 h)) then repeat 0%R (mget 0 k (state_sizes (toy0_flags 1 h)))
       else repeat 0%R (selected (flags (toy0_flags 1 h) k))).
  destruct (session_any _ _ _ s A (toy1_loads h) (toy1_wf h) Hs) as [B _].
  - intros k len Hk. unfold A. clear A Hs. vm_compute in Hk. decompose [or] Hk; try contradiction;
      match goal with E : _ = _ |- _ => injection E as <- <- end; vm_compute; reflexivity.
  - intros k len Hk. unfold A. clear A Hs. vm_compute in Hk. decompose [or] Hk; try contradiction;
      match goal with E : _ = _ |- _ => injection E as <- <- end; vm_compute; reflexivity.
  - eapply session_r. exact B.
Qed.
Lemma same_flag_values n1 n2 c1 c2 r0 r s0 s : session n1 c1 r0 r r -> session n2 c2 s0 s s ->
  (forall k len, In (k, len) (state_sizes r0) -> In (k, len) (state_sizes s0) /\ flags r0 k = flags s0 k /\ arg r0 k = arg s0 k) ->
  (forall k len, In (k, len) (par_sizes r0) -> In (k, len) (par_sizes s0) /\ arg r0 k = arg s0 k) ->
  same_values_of r0 r s0 s.
Proof.
  intros S1 S2 HA HB k len Hk i Hi. apply in_app_iff in Hk. destruct Hk as [Hk|Hk].
  - destruct (HA k len Hk) as (Hk2 & F & A). unfold param.
    rewrite (arg_state_init _ _ _ _ _ S1 k len Hk), (arg_state_init _ _ _ _ _ S2 k len Hk2), F, A. reflexivity.
  - destruct (HB k len Hk) as (Hk2 & A). rewrite (param_built _ _ _ _ _ S1 k len i Hk), (param_built _ _ _ _ _ S2 k len i Hk2), A. reflexivity.
Qed.
Lemma toy_flag_values h :
  (forall k len, In (k, len) (state_sizes (toy0 h)) ->
     In (k, len) (state_sizes (toy0_flags 1 h)) /\ flags (toy0 h) k = flags (toy0_flags 1 h) k /\ arg (toy0 h) k = arg (toy0_flags 1 h) k) /\
  (forall k len, In (k, len) (par_sizes (toy0 h)) -> In (k, len) (par_sizes (toy0_flags 1 h)) /\ arg (toy0 h) k = arg (toy0_flags 1 h) k).
Proof.
  split; intros k len Hk; vm_compute in Hk; decompose [or] Hk; try contradiction;
    match goal with E : _ = _ |- _ => injection E as <- <- end; vm_compute; repeat split; auto 20.
Qed.
Lemma toy_shape h : same_shape (toy0 h) (toy0_flags 1 h).
Proof. constructor; vm_compute; reflexivity. Qed.
Lemma toy_counts h : symbolic (toy0 h) "par_DHtable" = 3 /\ symbolic (toy0_flags 1 h) "par_DHtable" = 12 /\
  In ("reg_Jdq", (6, 7)) (catalogue (toy0 h)) /\ In ("k", (1, 1)) (catalogue (toy0 h)).
Proof. split; [|split; [|split]]; vm_compute; repeat (first [reflexivity|left; reflexivity|right]). Qed.
