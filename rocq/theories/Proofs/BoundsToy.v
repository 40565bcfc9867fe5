(* Limits that hold for a robot and for all turns of its first joint. *)
From Coq Require Import Reals Lra Lia Arith List String Bool ZArith.
From Verif.Model Require Import Base Expr SX Robot Yaml Build.
From Verif.Spec Require Import Math Setup Kinematics Dynamics Bounds.
From Verif.Proofs Require Import Sums Load Final Get Partial.
Import ListNotations.
Open Scope nat_scope.
Open Scope string_scope.

Lemma list_limit (u : list R) : exists L, (0 <= L)%R /\ forall l, (Rabs (nth l u 0) <= L)%R.
Proof.
  induction u as [|x u (L & H0 & H)]; [exists 0%R; split; [lra|intros [|l]; simpl; rewrite Rabs_R0; lra]|].
  exists (Rmax (Rabs x) L). split; [eapply Rle_trans; [exact H0|apply Rmax_r]|].
  intros [|l]; simpl; [apply Rmax_l|]. eapply Rle_trans; [apply H|apply Rmax_r].
Qed.
Lemma limit_exists r0 r' ks : exists L, limited r0 r' ks L.
Proof.
  assert (A : exists L, forall k l, In k ks -> (Rabs (nth l (arg r' k) 0) <= L)%R).
  { induction ks as [|k ks (L & H)]; [exists 0%R; simpl; tauto|]. destruct (list_limit (arg r' k)) as (L1 & _ & H1).
    exists (Rmax L1 L). intros k' l [<-|I].
    - eapply Rle_trans; [apply H1|apply Rmax_l].
    - eapply Rle_trans; [apply H; exact I|apply Rmax_r]. }
  destruct A as [L1 H1]. destruct (list_limit (arg r' "q")) as (L2 & _ & H2). exists (Rmax L1 L2). split.
  - intros k l I _. eapply Rle_trans; [apply H1; exact I|apply Rmax_l].
  - intros i _ _. eapply Rle_trans; [apply H2|apply Rmax_r].
Qed.
Lemma turn_limits name cfg r0 r x L t : session name cfg r0 r x -> 0 < numJoints r0 -> prism r0 0 = false -> limited r0 x body_pars L ->
  let y := set_entry x "q" 0 t in session name cfg r0 r y /\ limited r0 y body_pars L /\ state y "q" 0 = t /\
  forall i, mass r0 y i = mass r0 x i /\ forall a c, inertia r0 y i a c = inertia r0 x i a c.
Proof.
  intros S N P [L1 L2] y. unfold y. destruct (session_built _ _ _ _ _ S) as [b B].
  assert (E : forall j, state (set_entry x "q" 0 t) "q" j = if Nat.eqb 0 j then t else state x "q" j).
  { intros j. apply (set_state name cfg r0 r x S); [simpl; auto|exact N]. }
  split; [now apply set_session|]. split; [split|split].
  - intros k l I Q. rewrite set_arg_ne by exact Q. now apply L1.
  - intros i Hi Pi. rewrite E. destruct i as [|i]; [congruence|]. now apply L2.
  - rewrite E. reflexivity.
  - assert (D : forall i c, dyn r0 (set_entry x "q" 0 t) i c = dyn r0 x i c).
    { intros i c. unfold dyn, param. rewrite set_arg_ne by discriminate. reflexivity. }
    intros i. split; [apply D|]. intros a c. unfold inertia. rewrite !D. reflexivity.
Qed.
