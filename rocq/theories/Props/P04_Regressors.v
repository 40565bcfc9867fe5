(* C18-C20: the dynamics regressors. *)
From Coq Require Import Reals Lra Lia Arith List String Bool ZArith.
From Coquelicot Require Import Coquelicot.
From Verif.Model Require Import Base Robot Yaml Build.
From Verif.Spec Require Import Math Setup Kinematics Dynamics Regressor Sample.
From Verif.Proofs Require Import RegMain Sample.
Import ListNotations.
Open Scope nat_scope.
Open Scope string_scope.

(* C18: Yr times the inertial parameters is M ddqr + C dqr + G, for every th describing the links *)
Theorem C18_regressor_identity name cfg r0 r r' : session name cfg r0 r r' -> exact_angles r0 ->
  let n := numJoints r0 in
  answers r' "Yr" n (10 * n) /\
  forall th, describes r0 r' th -> forall i, i < n ->
    rmv (10 * n) (out r' "Yr") th i =
    (rmv n (out r' "M") (state r' "ddqr") i + rmv n (out r' "C") (state r' "dqr") i + out r' "G" i 0%nat)%R.
Proof.
  exact (fun Hs HX => conj (ans_reg name cfg r0 r r' Hs Pure.fYr ltac:(simpl; auto)) (fun th HT => Yr_id name cfg r0 r r' Hs th HT HX)).
Qed.
Print Assumptions C18_regressor_identity.

(* C19: the three parts, and Yr is their sum *)
Theorem C19_partial_regressors name cfg r0 r r' : session name cfg r0 r r' -> exact_angles r0 ->
  let n := numJoints r0 in
  (answers r' "reg_M" n (10 * n) /\ answers r' "reg_C" n (10 * n) /\ answers r' "reg_G" n (10 * n)) /\
  forall th, describes r0 r' th -> forall i, i < n ->
    rmv (10 * n) (out r' "reg_M") th i = rmv n (out r' "M") (state r' "ddqr") i /\
    rmv (10 * n) (out r' "reg_C") th i = rmv n (out r' "C") (state r' "dqr") i /\
    rmv (10 * n) (out r' "reg_G") th i = out r' "G" i 0.
Proof.
  exact (fun Hs HX => conj (conj (ans_reg name cfg r0 r r' Hs Pure.fRM ltac:(simpl; auto))
    (conj (ans_reg name cfg r0 r r' Hs Pure.fRC ltac:(simpl; auto)) (ans_reg name cfg r0 r r' Hs Pure.fRG ltac:(simpl; auto))))
    (fun th HT => reg_ids name cfg r0 r r' Hs th HT HX)).
Qed.
Print Assumptions C19_partial_regressors.
Theorem C19_sum_of_parts name cfg r0 r r' : session name cfg r0 r r' ->
  forall i j, i < numJoints r0 -> j < 10 * numJoints r0 ->
    out r' "Yr" i j = (out r' "reg_M" i j + out r' "reg_C" i j + out r' "reg_G" i j)%R.
Proof. exact (Yr_parts name cfg r0 r r'). Qed.
Print Assumptions C19_sum_of_parts.

(* C20: the regressors do not depend on the inertial parameters *)
Theorem C20_independent name cfg r0 r r1 r2 : session name cfg r0 r r1 -> session name cfg r0 r r2 ->
  (forall k, k <> "par_DYN" -> k <> "par_REG" -> arg r1 k = arg r2 k) ->
  forall nm, In nm ["Yr"; "reg_M"; "reg_C"; "reg_G"] ->
  forall i j, i < numJoints r0 -> j < 10 * numJoints r0 -> out r1 nm i j = out r2 nm i j.
Proof.
  intros H1 H2 HA nm Hn. assert (E : exists f, nm = Pure.name_of f /\ In f [Pure.fYr; Pure.fRM; Pure.fRC; Pure.fRG]).
  { destruct Hn as [<-|[<-|[<-|[<-|[]]]]]; [exists Pure.fYr|exists Pure.fRM|exists Pure.fRC|exists Pure.fRG]; (split; [reflexivity|simpl; auto]). }
  destruct E as (f & -> & Hf). exact (reg_indep name cfg r0 r r1 r2 f H1 H2 Hf HA).
Qed.
Print Assumptions C20_independent.

(* Non-vacuity: the sample robot with its described parameters; inertial parameters can differ between
   two sessions that agree elsewhere *)
Example regressor_hypotheses_met : exists r r' th, let r0 := toy0 (PI / 2) in
  session "toy" (toy_cfg (PI / 2)) r0 r r' /\ exact_angles r0 /\ describes r0 r' th /\ th 0%nat <> 0%R.
Proof.
  destruct (toy_built (PI / 2)) as [r Hr]. pose (r' := toy_rho r (PI / 2) 0%R).
  pose (r0 := toy0 (PI / 2)).
  pose (th := fun k : nat => let i := S (k / 10) in let J := origin_inertia r0 r' i in
    match k mod 10 with 0 => mass r0 r' i | 1 => (mass r0 r' i * com_of r0 r' i 0%nat)%R | 2 => (mass r0 r' i * com_of r0 r' i 1%nat)%R
    | 3 => (mass r0 r' i * com_of r0 r' i 2%nat)%R | 4 => J 0 0 | 5 => J 0 1 | 6 => J 0 2 | 7 => J 1 1 | 8 => J 1 2 | _ => J 2 2 end).
  exists r, r', th. split; [exact (mo_session _ _ _ _ _ (toy_motion (PI / 2) r Hr) 0%R)|]. split; [exact toy_exact|].
  split.
  - intros i Hi. fold r0.
    assert (DM : forall c, c < 10 -> (10 * (i - 1) + c) mod 10 = c /\ S ((10 * (i - 1) + c) / 10) = i).
    { intros c Hc. rewrite (Nat.mul_comm 10), Nat.add_comm, Nat.mod_add, Nat.div_add, Nat.mod_small, Nat.div_small by lia. lia. }
    assert (T : forall c, c < 10 -> th (10 * (i - 1) + c) = let J := origin_inertia r0 r' i in
      match c with 0 => mass r0 r' i | 1 => (mass r0 r' i * com_of r0 r' i 0%nat)%R | 2 => (mass r0 r' i * com_of r0 r' i 1%nat)%R
      | 3 => (mass r0 r' i * com_of r0 r' i 2%nat)%R | 4 => J 0 0 | 5 => J 0 1 | 6 => J 0 2 | 7 => J 1 1 | 8 => J 1 2 | _ => J 2 2 end).
    { intros c Hc. unfold th. destruct (DM c Hc) as [-> ->]. reflexivity. }
    cbv beta zeta. rewrite !T by lia. repeat match goal with |- _ /\ _ => split end; try reflexivity.
    intros a Ha. cbv beta. rewrite T by lia. destruct a as [|[|[|a]]]; [reflexivity..|lia].
  - destruct (toy_pd (PI / 2) r 0%R 1%nat Hr ltac:(simpl; lia)) as (M & _). unfold th. cbn [Nat.modulo Nat.div].
    change (mass r0 r' 1 <> 0%R). unfold r0, r'. rewrite M. lra.
Qed.
