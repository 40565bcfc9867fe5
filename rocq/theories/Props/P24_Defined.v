(* C75: every published function has a value for all inputs and changes little when its inputs change little. *)
From Coq Require Import Reals Lra Lia Arith List String Bool ZArith.
From Verif.Model Require Import Base Expr SX Robot Yaml Build.
From Verif.Spec Require Import Math Setup Kinematics Dynamics Api Sample Defined.
From Verif.Proofs Require Import Load Final Get Sample Api Sample1 Defined.
Import ListNotations.
Open Scope nat_scope.
Open Scope string_scope.

(* For all numbers put in place of its inputs, no division by zero and no root of a negative number occurs anywhere in
   the formula of a published function: at rest, in singular configurations, with masses zero or negative. *)
Theorem C75_defined name cfg r0 r r' fo cf : session name cfg r0 r r' ->
  In fo (get_functions r) -> mfind (fo_name fo) (casadi_fun r) = Some cf ->
  forall i j, i < fo_rows fo -> j < fo_cols fo -> forall env, has_value env (el (f_out cf) i j).
Proof. exact (published_has name cfg r0 r r' fo cf). Qed.
Print Assumptions C75_defined.

(* Two objects of one robot whose arguments are close, in all the arguments get_functions reports for the function,
   answer with numbers that are close. *)
Theorem C75_continuous name cfg r0 r r' fo i j : session name cfg r0 r r' ->
  In fo (get_functions r) -> i < fo_rows fo -> j < fo_cols fo ->
  forall eps, (0 < eps)%R -> exists delta, (0 < delta)%R /\ forall r1, session name cfg r0 r r1 ->
    (forall k l, In k (fo_args fo) -> (Rabs (nth l (arg r1 k) 0 - nth l (arg r' k) 0) < delta)%R) ->
    (Rabs (out r1 (fo_name fo) i j - out r' (fo_name fo) i j) < eps)%R.
Proof. exact (published_continuous name cfg r0 r r' fo i j). Qed.
Print Assumptions C75_continuous.

(* Non-vacuity: the sample robot publishes the damped pseudo-inverse, the link friction and its regressor *)
Example C75_met : exists r, session "toy" (toy_cfg (PI / 2)) (toy0 (PI / 2)) r r /\
  forall nm, In nm ["J_ee_pinv"; "dl"; "reg_dl"; "reg_Jdq"] -> exists fo, In fo (get_functions r) /\ fo_name fo = nm /\ 0 < fo_rows fo /\ 0 < fo_cols fo.
Proof.
  destruct (toy_built (PI / 2)) as [r Hr].
  pose proof (session_r _ _ _ _ _ (proj1 (toy_session (PI / 2) r 0%R Hr))) as S.
  exists r. split; [exact S|]. pose proof (proj1 (catalogue_published _ _ _ _ _ S)) as C.
  assert (G : forall nm rr cc, 0 < rr -> 0 < cc -> In (nm, (rr, cc)) (catalogue (toy0 (PI / 2))) ->
    exists fo, In fo (get_functions r) /\ fo_name fo = nm /\ 0 < fo_rows fo /\ 0 < fo_cols fo).
  { intros nm rr cc A B I. destruct (proj1 (C nm rr cc) I) as (fo & F & <- & <- & <-). exists fo. auto. }
  clear C S Hr. intros nm [<-|[<-|[<-|[<-|[]]]]].
  - apply (G _ 3 6); [lia|lia|vm_compute; tauto].
  - apply (G _ 3 1); [lia|lia|vm_compute; tauto].
  - apply (G _ 3 3); [lia|lia|vm_compute; tauto].
  - apply (G _ 6 7); [lia|lia|vm_compute; tauto].
Qed.
