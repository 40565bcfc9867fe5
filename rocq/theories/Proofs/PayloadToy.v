(* The sample robot with a further body on its last link. *)
From Coq Require Import Reals Lra Lia Arith List String Bool ZArith.
From Verif.Model Require Import Base Expr SX Robot Yaml Build Inertia Bodies.
From Verif.Spec Require Import Math Setup Kinematics Dynamics Regressor Api Sample Bodies Payload.
From Verif.Proofs Require Import Maps Pure Names Load Final Get Sample Api Sample1 StateToy ReloadToy Payload.
Import ListNotations.
Open Scope nat_scope.
Open Scope string_scope.

Definition ball (m c i1 i2 : R) : list R := [m; c; 0; 0; i1; 0; 0; i2; 0; i2]%R.
Definition arm_dyn : list R := (ball 1 0 1 1 ++ ball 1 0 1 1 ++ ball 1 0 1 1)%list.
Definition load_dyn : list R := (ball 0 0 0 0 ++ ball 0 0 0 0 ++ ball 1 1 1 1)%list.
Definition both_dyn : list R := (ball 1 0 1 1 ++ ball 1 0 1 1 ++ ball 2 (1/2) 2 (5/2))%list.

Lemma flags1 h : flags (toy0_flags 1 h) "par_DYN" = repeat 1%Z 30 /\ List.length (arg (toy0_flags 1 h) "par_DYN") = 30 /\ numJoints (toy0_flags 1 h) = 3.
Proof. split; [vm_compute; reflexivity|]. split; vm_compute; reflexivity. Qed.
Lemma merge_ones n : forall c v, List.length c = n -> List.length v = n -> merge (repeat 1%Z n) c v = v.
Proof.
  induction n as [|n IH]; intros [|a c] [|x v] H1 H2; try discriminate; [reflexivity|]. cbn [repeat merge flag_set Z.eqb negb].
  change (flag_set 1) with true. cbv iota. f_equal. apply IH; [now injection H1|now injection H2].
Qed.
Lemma given h x v i c : List.length v = 30 -> dyn (toy0_flags 1 h) (fst (set_arg x "par_DYN" v)) i c = nth (10 * (i - 1) + c) v 0%R.
Proof.
  intros L. destruct (flags1 h) as (A & B & _). unfold dyn, param. revert A B. generalize (toy0_flags 1 h). intros r0 A B. rewrite A.
  change (arg (fst (set_arg x "par_DYN" v)) "par_DYN") with (get_arg (fst (set_arg x "par_DYN" v)) "par_DYN"). rewrite get_set.
  now rewrite merge_ones.
Qed.
Lemma loads h r : robot_from_file "toy" (resymb 1 (toy_cfg h)) true = Ok r ->
  let r0 := toy0_flags 1 h in let x v := fst (set_arg r "par_DYN" v) in
  session "toy" (resymb 1 (toy_cfg h)) r0 r (x arm_dyn) /\ session "toy" (resymb 1 (toy_cfg h)) r0 r (x load_dyn) /\
  session "toy" (resymb 1 (toy_cfg h)) r0 r (x both_dyn) /\
  same_but_bodies r0 (x arm_dyn) r0 (x load_dyn) /\ same_but_bodies r0 (x arm_dyn) r0 (x both_dyn) /\
  united r0 (x arm_dyn) r0 (x load_dyn) r0 (x both_dyn) /\ mass r0 (x both_dyn) 3 = 2%R.
Proof.
  intros Hr. pose proof (toy1_session h r Hr) as S. cbv zeta.
  assert (LD : List.length (arg r "par_DYN") = 30).
  { rewrite (se_par _ _ _ _ _ S "par_DYN" 30) by (vm_compute; tauto). vm_compute. reflexivity. }
  assert (SS : forall v, List.length v = 30 -> session "toy" (resymb 1 (toy_cfg h)) (toy0_flags 1 h) r (fst (set_arg r "par_DYN" v))).
  { intros v L. apply session_set; [exact S|]. rewrite LD. exact L. }
  pose proof (SS arm_dyn eq_refl) as S1. pose proof (SS load_dyn eq_refl) as S2. pose proof (SS both_dyn eq_refl) as S3.
  pose proof (fun v => given h r v) as GV. destruct (flags1 h) as (_ & _ & N).
  clear S LD SS Hr. revert S1 S2 S3 GV N. generalize (toy0_flags 1 h). intros r0 S1 S2 S3 GV N.
  split; [exact S1|]. split; [exact S2|]. split; [exact S3|].
  assert (SB : forall v w, same_but_bodies r0 (fst (set_arg r "par_DYN" v)) r0 (fst (set_arg r "par_DYN" w))).
  { intros v w. split; [constructor; reflexivity|]. intros k len Hk Nk i Hi. now rewrite !other_param. }
  split; [apply SB|]. split; [apply SB|]. split.
  - intros i Hi. rewrite N in Hi. cbv zeta. unfold link_body. rewrite !(GV arm_dyn _ _ eq_refl), !(GV load_dyn _ _ eq_refl), !(GV both_dyn _ _ eq_refl).
    destruct i as [|[|[|[|i]]]]; try lia; [right|right|left].
    + split; [split; [reflexivity|]|split; [reflexivity|split]]; intros; repeat (match goal with a : nat |- _ => destruct a as [|a]; try lia end); try reflexivity.
    + split; [split; [reflexivity|]|split; [reflexivity|split]]; intros; repeat (match goal with a : nat |- _ => destruct a as [|a]; try lia end); try reflexivity.
    + split; [cbn; lra|]. split; [cbn; ring|]. split.
      * intros a Ha. destruct a as [|[|[|a]]]; try lia; cbn; field.
      * intros a c Ha Hc. destruct a as [|[|[|a]]]; try lia; destruct c as [|[|[|c]]]; try lia; cbn; unfold m3add, m3mul, m3sc, m3tr, hat, hatR, createI, sum3; cbn; unfold p_at; cbn; field.
  - unfold mass. rewrite (GV both_dyn _ _ eq_refl). reflexivity.
Qed.
