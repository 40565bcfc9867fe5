(* C83: errors in the state and in the parameters cause errors of the same order in every published function. *)
From Coq Require Import Reals Lra Lia Arith List String Bool ZArith.
From Verif.Model Require Import Base Expr SX Robot Yaml Build.
From Verif.Spec Require Import Math Setup Kinematics Dynamics Api Sample Bounds Rounding.
From Verif.Proofs Require Import Load Final Get Partial Sample Api BoundsToy Sensitivity.
Import ListNotations.
Open Scope nat_scope.
Open Scope string_scope.

(* For every published function and every limit L there is one constant K: two objects of one robot whose arguments are
   within the limit and differ by at most d answer with numbers that differ by at most K d. Except for the force of the
   springs and its regressor, the positions of revolute joints need not be limited. *)
Theorem C83_sensitivity name cfg r0 r r1 fo L : session name cfg r0 r r1 -> In fo (get_functions r) ->
  exists K, forall r' r2 d, session name cfg r0 r r' -> session name cfg r0 r r2 -> differ r' r2 (fo_args fo) d ->
    (within_limits r' (fo_args fo) L /\ within_limits r2 (fo_args fo) L \/
     fo_name fo <> "k" /\ fo_name fo <> "reg_k" /\ limited r0 r' (fo_args fo) L /\ limited r0 r2 (fo_args fo) L) ->
    forall i j, i < fo_rows fo -> j < fo_cols fo -> (Rabs (out r' (fo_name fo) i j - out r2 (fo_name fo) i j) <= K * d)%R.
Proof. exact (sensitivity name cfg r0 r r1 fo L). Qed.
Print Assumptions C83_sensitivity.
(* Measured with an error of d and computed with an error of u in every operation, an entry is off by at most K (d + u). *)
Theorem C83_measured name cfg r0 r r1 fo i j L : session name cfg r0 r r1 -> In fo (get_functions r) -> i < fo_rows fo -> j < fo_cols fo ->
  exists K u0, (0 < u0)%R /\ forall r' r2 d, session name cfg r0 r r' -> session name cfg r0 r r2 -> differ r' r2 (fo_args fo) d ->
    within_limits r' (fo_args fo) L -> within_limits r2 (fo_args fo) L ->
    forall e env u v, entry_of r' fo i j e env -> (0 <= u <= u0)%R -> rounded u env e v ->
      (Rabs (v - out r2 (fo_name fo) i j) <= K * (d + u))%R.
Proof. exact (noisy name cfg r0 r r1 fo i j L). Qed.
Print Assumptions C83_measured.

(* Non-vacuity: the sample robot and the same robot with its first joint turned by any angle a. *)
Example C83_met a : (0 < a)%R -> exists r x y L, let r0 := toy0 (PI / 2) in
  session "toy" (toy_cfg (PI / 2)) r0 r x /\ session "toy" (toy_cfg (PI / 2)) r0 r y /\ state y "q" 0 = (state x "q" 0 + a)%R /\
  exists fo, In fo (get_functions r) /\ fo_name fo = "M" /\ fo_rows fo = 3 /\ differ y x (fo_args fo) a /\ limited r0 y (fo_args fo) L /\ limited r0 x (fo_args fo) L.
Proof.
  intros Ha. destruct (toy_built (PI / 2)) as [r Hr]. destruct (toy_session (PI / 2) r 1%R Hr) as [S _].
  assert (C : In ("M", (3, 3)) (catalogue (toy0 (PI / 2)))) by (vm_compute; tauto).
  apply (proj1 (catalogue_published _ _ _ _ _ S)) in C. destruct C as (fo & F & FN & FR & _).
  assert (N : 0 < numJoints (toy0 (PI / 2))) by (vm_compute; lia).
  assert (P0 : prism (toy0 (PI / 2)) 0 = false) by (vm_compute; reflexivity).
  assert (Q : exists w, In ("q", w) (state_sizes (toy0 (PI / 2))) /\ w = numJoints (toy0 (PI / 2))) by (eexists; split; [left; reflexivity|vm_compute; reflexivity]).
  exists r, (toy_rho r (PI / 2) 1). revert S N P0 Q. generalize (toy_rho r (PI / 2) 1) (toy0 (PI / 2)). intros x r0 S N P0 Q.
  set (y := set_entry x "q" 0 (state x "q" 0 + a)). exists y.
  destruct (limit_exists r0 x (fo_args fo)) as [L1 H1]. destruct (limit_exists r0 y (fo_args fo)) as [L2 H2]. exists (Rmax L1 L2).
  assert (E : forall j, state y "q" j = if Nat.eqb 0 j then (state x "q" 0 + a)%R else state x "q" j).
  { intros j. apply (set_state "toy" (toy_cfg (PI / 2)) r0 r x S); [simpl; auto|exact N]. }
  cbv zeta. split; [exact S|]. split; [now apply set_session|]. split; [rewrite E; reflexivity|]. exists fo. split; [exact F|]. split; [exact FN|]. split; [exact FR|].
  split; [|split].
  - split; [lra|]. intros k l _. destruct (string_dec k "q") as [->|Nk].
    + change (Rabs (state y "q" l - state x "q" l) <= a)%R. rewrite E. destruct l as [|l]; cbn [Nat.eqb].
      * replace (state x "q" 0 + a - state x "q" 0)%R with a by ring. rewrite Rabs_pos_eq; lra.
      * replace (state x "q" (Datatypes.S l) - state x "q" (Datatypes.S l))%R with 0%R by ring. rewrite Rabs_R0. lra.
    + unfold y. rewrite set_arg_ne by exact Nk. replace (nth l (arg x k) 0 - nth l (arg x k) 0)%R with 0%R by ring. rewrite Rabs_R0. lra.
  - destruct H2 as [A1 A2]. split; [intros k l I Nq; eapply Rle_trans; [apply A1; auto|apply Rmax_r]|intros i Hi Hp; eapply Rle_trans; [apply A2; auto|apply Rmax_r]].
  - destruct H1 as [A1 A2]. split; [intros k l I Nq; eapply Rle_trans; [apply A1; auto|apply Rmax_l]|intros i Hi Hp; eapply Rle_trans; [apply A2; auto|apply Rmax_l]].
Qed.
