(* C82: evaluated in floating point, every published function is as accurate as the arithmetic, up to a constant. *)
From Coq Require Import Reals Lra Lia Arith List String Bool ZArith.
From Verif.Model Require Import Base Expr SX Robot Yaml Build.
From Verif.Spec Require Import Math Setup Kinematics Dynamics Api Sample Rounding.
From Verif.Proofs Require Import Load Final Get Sample Api Rounding RoundingToy.
Import ListNotations.
Open Scope nat_scope.
Open Scope string_scope.

(* For every entry of every published function and every limit L on its arguments there is a constant K: in all states
   and for all parameters within the limit, if every operation of the formula is carried out with an error of u, no
   operation divides by zero or takes the root of a negative number, and the result differs from the exact value by at
   most K u. For all functions but the pseudo-inverse this holds up to u = 1/2, so for every floating point format. *)
Theorem C82_rounding name cfg r0 r r1 fo i j L : session name cfg r0 r r1 -> In fo (get_functions r) -> i < fo_rows fo -> j < fo_cols fo ->
  exists K u0, (0 < u0 <= / 2)%R /\ (fo_name fo <> "J_ee_pinv" -> u0 = (/ 2)%R) /\
    forall r', session name cfg r0 r r' -> within_limits r' (fo_args fo) L -> exists e env, entry_of r' fo i j e env /\
      forall u, (0 <= u <= u0)%R -> ~ fault u env e /\ rounded u env e (out r' (fo_name fo) i j) /\
        forall v, rounded u env e v -> (Rabs (v - out r' (fo_name fo) i j) <= K * u)%R.
Proof. exact (entry_error name cfg r0 r r1 fo i j L). Qed.
Print Assumptions C82_rounding.
(* The same for the arithmetic of a machine, given as a rounding function and the functions sin and cos of its library. *)
Theorem C82_machine name cfg r0 r r1 fo i j L : session name cfg r0 r r1 -> In fo (get_functions r) -> i < fo_rows fo -> j < fo_cols fo ->
  exists K u0, (0 < u0 <= / 2)%R /\ (fo_name fo <> "J_ee_pinv" -> u0 = (/ 2)%R) /\
    forall r', session name cfg r0 r r' -> within_limits r' (fo_args fo) L ->
      forall e env, entry_of r' fo i j e env -> forall u rnd sn cs, arithmetic u rnd sn cs -> (u <= u0)%R ->
        (Rabs (compute rnd sn cs env e - out r' (fo_name fo) i j) <= K * u)%R.
Proof. exact (machine_error name cfg r0 r r1 fo i j L). Qed.
Print Assumptions C82_machine.

(* Non-vacuity: IEEE doubles are such an arithmetic; and on the sample robot the kinetic matrix is within the limits of
   some L, with an entry that is computed. *)
Lemma some_limit r' ks : exists L, within_limits r' ks L.
Proof.
  assert (V : forall v : list R, exists L, (0 <= L)%R /\ forall l, (Rabs (nth l v 0) <= L)%R).
  { induction v as [|x v (L & HL & H)]; [exists 0%R; split; [lra|]; intros [|l]; simpl; rewrite Rabs_R0; lra|].
    exists (Rmax (Rabs x) L). split; [eapply Rle_trans; [exact HL|apply Rmax_r]|]. intros [|l]; simpl; [apply Rmax_l|].
    eapply Rle_trans; [apply H|apply Rmax_r]. }
  induction ks as [|k ks [L H]]; [exists 0%R; intros k l []|]. destruct (V (arg r' k)) as (L1 & _ & H1). exists (Rmax L1 L).
  intros k' l [<-|I]; [eapply Rle_trans; [apply H1|apply Rmax_l]|eapply Rle_trans; [apply H, I|apply Rmax_r]].
Qed.
Example C82_met : arithmetic unit53 double (fun x => double (sin x)) (fun x => double (cos x)) /\
  exists r r' L, session "toy" (toy_cfg (PI / 2)) (toy0 (PI / 2)) r r' /\ exists fo, In fo (get_functions r) /\ fo_name fo = "M" /\ fo_rows fo = 3 /\ fo_cols fo = 3 /\
    within_limits r' (fo_args fo) L /\ exists K u0, (0 < K)%R /\ (unit53 <= u0)%R /\ exists e env, entry_of r' fo 0 0 e env /\
      (Rabs (compute double (fun x => double (sin x)) (fun x => double (cos x)) env e - out r' "M" 0%nat 0%nat) <= K * unit53)%R.
Proof.
  split; [apply double_arithmetic|].
  destruct (toy_built (PI / 2)) as [r Hr]. destruct (toy_session (PI / 2) r 1%R Hr) as [S _].
  assert (C : In ("M", (3, 3)) (catalogue (toy0 (PI / 2)))) by (vm_compute; tauto).
  apply (proj1 (catalogue_published _ _ _ _ _ S)) in C. destruct C as (fo & F & FN & FR & FC).
  destruct (some_limit (toy_rho r (PI / 2) 1) (fo_args fo)) as [L W].
  exists r, (toy_rho r (PI / 2) 1), L. split; [exact S|]. exists fo. split; [exact F|]. split; [exact FN|]. split; [exact FR|]. split; [exact FC|]. split; [exact W|].
  destruct (entry_error _ _ _ _ _ fo 0 0 L S F ltac:(lia) ltac:(lia)) as (K & u0 & U & E & G).
  rewrite FN in E. specialize (E ltac:(discriminate)). destruct (G _ S W) as (e & env & EN & _).
  destruct (machine_error _ _ _ _ _ fo 0 0 L S F ltac:(lia) ltac:(lia)) as (K' & u1 & U1 & E1 & G1).
  rewrite FN in E1. specialize (E1 ltac:(discriminate)).
  pose proof (ar_unit _ _ _ _ double_arithmetic) as UU.
  exists (Rabs K' + 1)%R, u0. split; [pose proof (Rabs_pos K'); lra|]. split; [lra|]. exists e, env. split; [exact EN|].
  eapply Rle_trans; [rewrite <- FN; apply (G1 _ S W e env EN unit53 double _ _ double_arithmetic); lra|].
  apply Rmult_le_compat_r; [lra|]. pose proof (Rle_abs K'). lra.
Qed.
