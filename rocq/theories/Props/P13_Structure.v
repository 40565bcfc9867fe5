(* C53-C56, C63, C64: what each published quantity depends on. *)
From Coq Require Import Reals Lra Lia Arith List String Bool ZArith.
From Coquelicot Require Import Coquelicot.
From Verif.Model Require Import Base Robot Yaml Build.
From Verif.Spec Require Import Math Setup Api Kinematics Dynamics Sample Tail.
From Verif.Proofs Require Import Shape Dims Get KinMain DynMain Partial Catalogue Tail Turns Velocity TailToy.
Import ListNotations.
Open Scope nat_scope.
Open Scope string_scope.

(* C53: the block of M of the last k joints does not depend on what comes before them: base frame, earlier
   joints, placement and position of the first of the k joints; nor on tool and gravity. *)
Theorem C53_mass n1 f1 r1 q1 r1' n2 f2 r2 q2 r2' k s1 s2 : session n1 f1 r1 q1 r1' -> session n2 f2 r2 q2 r2' ->
  exact_angles r1 -> exact_angles r2 -> same_tail k s1 r1 r1' s2 r2 r2' ->
  forall i j, i < k -> j < k -> out r1' "M" (s1 + i) (s1 + j) = out r2' "M" (s2 + i) (s2 + j).
Proof.
  intros S1 S2 X1 X2 HT. destruct (session_built _ _ _ _ _ S1) as [b1 B1]. destruct (session_built _ _ _ _ _ S2) as [b2 B2].
  exact (tail_M n1 f1 r1 q1 b1 r1' n2 f2 r2 q2 b2 r2' S1 S2 B1 B2 X1 X2 k s1 s2 HT).
Qed.
Print Assumptions C53_mass.
(* with the earlier joints not moving, the same holds of C, C_std and M_dot *)
Theorem C53_coriolis n1 f1 r1 q1 r1' n2 f2 r2 q2 r2' k s1 s2 : session n1 f1 r1 q1 r1' -> session n2 f2 r2 q2 r2' ->
  exact_angles r1 -> exact_angles r2 -> same_tail k s1 r1 r1' s2 r2 r2' ->
  at_rest s1 r1' "dq" -> at_rest s2 r2' "dq" -> same_on_tail "dq" k s1 r1' s2 r2' ->
  forall i j, i < k -> j < k ->
    out r1' "C" (s1 + i) (s1 + j) = out r2' "C" (s2 + i) (s2 + j) /\
    out r1' "C_std" (s1 + i) (s1 + j) = out r2' "C_std" (s2 + i) (s2 + j) /\
    out r1' "M_dot" (s1 + i) (s1 + j) = out r2' "M_dot" (s2 + i) (s2 + j).
Proof.
  intros S1 S2 X1 X2 HT Z1 Z2 HV i j Hi Hj. destruct (session_built _ _ _ _ _ S1) as [b1 B1]. destruct (session_built _ _ _ _ _ S2) as [b2 B2].
  destruct (tail_C n1 f1 r1 q1 b1 r1' n2 f2 r2 q2 b2 r2' S1 S2 B1 B2 X1 X2 k s1 s2 HT Z1 Z2 HV i j Hi Hj) as [A B].
  exact (conj A (conj B (tail_Md n1 f1 r1 q1 b1 r1' n2 f2 r2 q2 b2 r2' S1 S2 B1 B2 X1 X2 k s1 s2 HT Z1 Z2 HV i j Hi Hj))).
Qed.
Print Assumptions C53_coriolis.
(* G and the joint torques of the last k joints depend on what comes before only through the direction of gravity
   in the axes of the first of their links *)
Theorem C53_gravity n1 f1 r1 q1 r1' n2 f2 r2 q2 r2' k s1 s2 : session n1 f1 r1 q1 r1' -> session n2 f2 r2 q2 r2' ->
  exact_angles r1 -> exact_angles r2 -> same_tail k s1 r1 r1' s2 r2 r2' ->
  (forall a, a < 3 -> gravity_in r1 r1' (s1 + 1) a = gravity_in r2 r2' (s2 + 1) a) ->
  forall i, i < k -> out r1' "G" (s1 + i) 0 = out r2' "G" (s2 + i) 0.
Proof.
  intros S1 S2 X1 X2 HT HG i Hi. destruct (session_built _ _ _ _ _ S1) as [b1 B1]. destruct (session_built _ _ _ _ _ S2) as [b2 B2].
  exact (tail_G n1 f1 r1 q1 b1 r1' n2 f2 r2 q2 b2 r2' S1 S2 B1 B2 X1 X2 k s1 s2 HT i Hi HG).
Qed.
Print Assumptions C53_gravity.
Theorem C53_torques n1 f1 r1 q1 r1' n2 f2 r2 q2 r2' k s1 s2 : session n1 f1 r1 q1 r1' -> session n2 f2 r2 q2 r2' ->
  exact_angles r1 -> exact_angles r2 -> same_tail k s1 r1 r1' s2 r2 r2' ->
  (forall v, In v ["dq"; "ddq"] -> at_rest s1 r1' v /\ at_rest s2 r2' v /\ same_on_tail v k s1 r1' s2 r2') ->
  (forall a, a < 3 -> gravity_in r1 r1' (s1 + 1) a = gravity_in r2 r2' (s2 + 1) a) ->
  forall i, i < k -> torque r1 r1' (s1 + i) = torque r2 r2' (s2 + i).
Proof.
  intros S1 S2 X1 X2 HT HV HG i Hi. destruct (session_built _ _ _ _ _ S1) as [b1 B1]. destruct (session_built _ _ _ _ _ S2) as [b2 B2].
  destruct (HV "dq") as (Z1 & Z2 & V); [simpl; auto|]. destruct (HV "ddq") as (W1 & W2 & W); [simpl; auto|].
  exact (tail_torque n1 f1 r1 q1 b1 r1' n2 f2 r2 q2 b2 r2' S1 S2 B1 B2 X1 X2 k s1 s2 HT Z1 Z2 V i W1 W2 W HG Hi).
Qed.
Print Assumptions C53_torques.
(* Non-vacuity: a three-joint and a two-joint SCARA arm, on different bases, first common joint in different positions *)
Example C53_met : exists r1 r1' r2 r2',
  session "scara" scara3 sc3 r1 r1' /\ session "scara" scara2 sc2 r2 r2' /\ exact_angles sc3 /\ exact_angles sc2 /\
  same_tail 2 1 sc3 r1' 0 sc2 r2' /\
  (forall v, In v ["dq"; "ddq"] -> at_rest 1 r1' v /\ at_rest 0 r2' v /\ same_on_tail v 2 1 r1' 0 r2') /\
  (forall a, a < 3 -> gravity_in sc3 r1' (1 + 1) a = gravity_in sc2 r2' (0 + 1) a) /\
  param sc3 r1' "par_world2L0" 3 <> param sc2 r2' "par_world2L0" 3 /\ state r1' "q" 1 <> state r2' "q" 0 /\
  param sc3 r1' "par_gravity" 2 = (-10)%R.
Proof.
  destruct (sc3_session (-10)) as (r1 & x3 & S1 & H3). destruct (sc2_session (-10)) as (r2 & x2 & S2 & H2).
  exists r1, x3, r2, x2. split; [exact S1|]. split; [exact S2|]. split; [exact sc3_exact|]. split; [exact sc2_exact|].
  split; [exact (sc_tail (-10) x3 x2 H3 H2)|]. destruct (sc_vel (-10) x3 x2 H3 H2) as (V1 & V2 & V3 & V4).
  split; [|split; [exact (sc_grav (-10) x3 x2 H3 H2)|exact (sc_differ (-10) x3 x2 H3 H2)]].
  intros v [<-|[<-|[]]]; (split; [assumption|split; [intros j Hj; lia|assumption]]).
Qed.

(* C54: frames and Jacobians of the first m links depend only on the base frame and the first m joints *)
Theorem C54_head n1 f1 r1 q1 r1' n2 f2 r2 q2 r2' m : session n1 f1 r1 q1 r1' -> session n2 f2 r2 q2 r2' ->
  exact_angles r1 -> exact_angles r2 -> same_head m r1 r1' r2 r2' ->
  (forall i, i <= m -> agree 4 4 (out r1' ("T_0_" ++ to_string i)) (out r2' ("T_0_" ++ to_string i))) /\
  (forall i a c, 1 <= i <= m -> a < 6 -> c < m ->
     out r1' ("J_" ++ to_string i) a c = out r2' ("J_" ++ to_string i) a c) /\
  (forall i a c, 1 <= i <= m -> same_com i r1 r1' r2 r2' -> a < 6 -> c < m ->
     out r1' ("J_cm_" ++ to_string i) a c = out r2' ("J_cm_" ++ to_string i) a c).
Proof.
  intros S1 S2 X1 X2 HH. destruct (session_built _ _ _ _ _ S1) as [b1 B1]. destruct (session_built _ _ _ _ _ S2) as [b2 B2].
  pose proof (sh_n1 _ _ _ _ _ HH). pose proof (sh_n2 _ _ _ _ _ HH).
  split; [exact (head_T n1 f1 r1 q1 b1 r1' n2 f2 r2 q2 b2 r2' S1 S2 B1 B2 X1 X2 m HH)|]. split.
  - intros i a c Hi Ha Hc. exact (head_J n1 f1 r1 q1 b1 r1' n2 f2 r2 q2 b2 r2' S1 S2 B1 B2 X1 X2 m HH i a c Hi Ha ltac:(lia) ltac:(lia)).
  - intros i a c Hi HC Ha Hc. exact (head_Jcm n1 f1 r1 q1 b1 r1' n2 f2 r2 q2 b2 r2' S1 S2 B1 B2 X1 X2 m HH i a c Hi HC Ha ltac:(lia) ltac:(lia)).
Qed.
Print Assumptions C54_head.
(* and later joints do not move them *)
Theorem C54_beyond name cfg r0 r r' : session name cfg r0 r r' ->
  forall i a c, 1 <= i <= numJoints r0 -> i <= c < numJoints r0 -> a < 6 ->
    out r' ("J_" ++ to_string i) a c = 0%R /\ out r' ("J_cm_" ++ to_string i) a c = 0%R.
Proof.
  intros S i a c Hi Hc Ha. destruct (session_built _ _ _ _ _ S) as [b B].
  exact (J_beyond r0 b r' i a c (built_sess _ _ _ _ _ _ S B) Hi Hc Ha).
Qed.
Print Assumptions C54_beyond.

(* C55: G is linear in the gravity vector (that M and C do not depend on it is C53 with s1 = s2 = 0) *)
Theorem C55_linear n1 f1 r1 q1 r1' n2 f2 r2 q2 r2' n3 f3 r3 q3 r3' u v :
  session n1 f1 r1 q1 r1' -> session n2 f2 r2 q2 r2' -> session n3 f3 r3 q3 r3' ->
  exact_angles r1 -> exact_angles r2 -> exact_angles r3 ->
  same_but_gravity r1 r1' r2 r2' -> same_but_gravity r1 r1' r3 r3' ->
  (forall a, a < 3 -> param r3 r3' "par_gravity" a = (u * param r1 r1' "par_gravity" a + v * param r2 r2' "par_gravity" a)%R) ->
  forall i, i < numJoints r1 -> out r3' "G" i 0 = (u * out r1' "G" i 0%nat + v * out r2' "G" i 0%nat)%R.
Proof.
  intros S1 S2 S3 X1 X2 X3 H2 H3 HG i Hi.
  destruct (session_built _ _ _ _ _ S1) as [b1 B1]. destruct (session_built _ _ _ _ _ S2) as [b2 B2]. destruct (session_built _ _ _ _ _ S3) as [b3 B3].
  exact (grav_linear n1 f1 r1 q1 b1 r1' n2 f2 r2 q2 b2 r2' n3 f3 r3 q3 b3 r3' S1 S2 S3 B1 B2 B3 X1 X2 X3 u v i H2 H3 HG Hi).
Qed.
Print Assumptions C55_linear.
Theorem C55_weightless name cfg r0 r r' : session name cfg r0 r r' ->
  (forall a, a < 3 -> param r0 r' "par_gravity" a = 0%R) -> forall i, i < numJoints r0 -> out r' "G" i 0 = 0%R.
Proof.
  intros S. destruct (session_built _ _ _ _ _ S) as [b B]. exact (grav_zero name cfg r0 r b r' S B).
Qed.
Print Assumptions C55_weightless.
Example C55_met : exists r1 x1 r2 x2 r3 x3,
  session "scara" scara3 sc3 r1 x1 /\ session "scara" scara3 sc3 r2 x2 /\ session "scara" scara3 sc3 r3 x3 /\ exact_angles sc3 /\
  same_but_gravity sc3 x1 sc3 x2 /\ same_but_gravity sc3 x1 sc3 x3 /\
  (forall a, a < 3 -> param sc3 x3 "par_gravity" a = (2 * param sc3 x1 "par_gravity" a + 3 * param sc3 x2 "par_gravity" a)%R) /\
  param sc3 x1 "par_gravity" 2 = 1%R /\ same_head 3 sc3 x1 sc3 x2 /\ same_com 2 sc3 x1 sc3 x2.
Proof.
  destruct (sc3_session 1) as (r1 & x1 & S1 & H1). destruct (sc3_session 2) as (r2 & x2 & S2 & H2). destruct (sc3_session 8) as (r3 & x3 & S3 & H3).
  exists r1, x1, r2, x2, r3, x3. destruct (sc3_gravity 1 2 x1 x2 H1 H2) as (A & G1 & G2). destruct (sc3_gravity 1 8 x1 x3 H1 H3) as (B & _ & G3).
  split; [exact S1|]. split; [exact S2|]. split; [exact S3|]. split; [exact sc3_exact|]. split; [exact A|]. split; [exact B|].
  split; [|split; [exact (G1 2 ltac:(lia))|split]].
  - intros a Ha. rewrite (G1 a Ha), (G2 a Ha), (G3 a Ha). destruct (Nat.eqb a 2); lra.
  - exact (proj1 (proj2 A)).
  - intros c Hc. exact (proj2 (proj2 A) 2 c ltac:(change (numJoints sc3) with 3; lia) ltac:(lia)).
Qed.

(* C56: M and G are those of the bodies whose Jacobians and frames the library publishes: with J the Jacobian J_cm_l,
   A the rotation of T_0_l, m and I mass and inertia of link l,
   M = sum_l m Jv'Jv + (A'Jw)' I (A'Jw) and G = - sum_l m Jv' g *)
Theorem C56_mass name cfg r0 r r' : session name cfg r0 r r' ->
  forall i j, i < numJoints r0 -> j < numJoints r0 ->
    out r' "M" i j = links r0 (fun l =>
      let J := out r' ("J_cm_" ++ to_string l) in let A := out r' ("T_0_" ++ to_string l) in
      let wi := rmv 3 (rtr A) (fun a => J (3 + a) i) in let wj := rmv 3 (rtr A) (fun a => J (3 + a) j) in
      (mass r0 r' l * rdot 3 (fun a => J a i) (fun a => J a j) + rquad 3 (inertia r0 r' l) wi wj)%R).
Proof.
  intros S. destruct (session_built _ _ _ _ _ S) as [b B]. exact (M_formula name cfg r0 r b r' S B).
Qed.
Print Assumptions C56_mass.
Theorem C56_gravity name cfg r0 r r' : session name cfg r0 r r' ->
  forall i, i < numJoints r0 ->
    out r' "G" i 0 = (- links r0 (fun l => mass r0 r' l *
       rdot 3 (param r0 r' "par_gravity") (fun a => out r' ("J_cm_" ++ to_string l) a i)))%R.
Proof.
  intros S. destruct (session_built _ _ _ _ _ S) as [b B]. exact (G_formula name cfg r0 r b r' S B).
Qed.
Print Assumptions C56_gravity.

(* C63: whole turns of revolute joints cannot be seen: every published function, except the spring force k and its
   regressor, has the same value at two positions that differ by whole turns of revolute joints *)
Theorem C63_turns name cfg r0 r r1 r2 : session name cfg r0 r r1 -> session name cfg r0 r r2 ->
  (forall k, k <> "q" -> arg r1 k = arg r2 k) ->
  (forall j, j < numJoints r0 -> same_place (prism r0 j) (state r1 "q" j) (state r2 "q" j)) ->
  forall nm rr cc, In (nm, (rr, cc)) (catalogue r0) -> nm <> "k" -> nm <> "reg_k" -> agree rr cc (out r1 nm) (out r2 nm).
Proof.
  intros S1 S2 HA HT nm rr cc Hin Hk Hr. destruct (session_built _ _ _ _ _ S1) as [b B].
  destruct (cat_inv r0 b r1 (built_sess _ _ _ _ _ _ S1 B) nm rr cc Hin) as (f & He & -> & -> & ->).
  apply (turns_out name cfg r0 r b r1 r2 S1 S2 B HA HT f He). destruct f; try reflexivity; exfalso; auto.
Qed.
Print Assumptions C63_turns.
(* C64: C is linear in the joint velocities, and symmetric in the two velocities of C(q, u) v *)
Theorem C64_linear name cfg r0 r r1 r2 r3 u v : session name cfg r0 r r1 -> session name cfg r0 r r2 -> session name cfg r0 r r3 ->
  (forall k, k <> "dq" -> arg r1 k = arg r3 k) -> (forall k, k <> "dq" -> arg r2 k = arg r3 k) ->
  (forall k, k < numJoints r0 -> state r3 "dq" k = (u * state r1 "dq" k + v * state r2 "dq" k)%R) ->
  forall i j, i < numJoints r0 -> j < numJoints r0 -> out r3 "C" i j = (u * out r1 "C" i j + v * out r2 "C" i j)%R.
Proof.
  intros S1 S2 S3. destruct (session_built _ _ _ _ _ S1) as [b B]. exact (C_linear name cfg r0 r b B r1 r2 r3 u v S1 S2 S3).
Qed.
Print Assumptions C64_linear.
Theorem C64_swap name cfg r0 r r1 r2 : session name cfg r0 r r1 -> session name cfg r0 r r2 ->
  (forall k, k <> "dq" -> arg r1 k = arg r2 k) ->
  forall i, i < numJoints r0 ->
    rsum (numJoints r0) (fun j => out r1 "C" i j * state r2 "dq" j)%R = rsum (numJoints r0) (fun j => out r2 "C" i j * state r1 "dq" j)%R.
Proof.
  intros S1 S2. destruct (session_built _ _ _ _ _ S1) as [b B]. exact (C_swap name cfg r0 r b B r1 r2 S1 S2).
Qed.
Print Assumptions C64_swap.
Example C63_met : exists r x y, session "scara" scara3 sc3 r x /\ session "scara" scara3 sc3 r y /\
  (forall k, k <> "q" -> arg x k = arg y k) /\
  (forall j, j < numJoints sc3 -> same_place (prism sc3 j) (state x "q" j) (state y "q" j)) /\ state x "q" 1 <> state y "q" 1.
Proof.
  destruct (sc3_session 1) as (r & x & S & _). exists r, x, (set_entry x "q" 1 (state x "q" 1 + 2 * PI)).
  assert (E : forall j, state (set_entry x "q" 1 (state x "q" 1 + 2 * PI)) "q" j = if Nat.eqb 1 j then (state x "q" 1 + 2 * PI)%R else state x "q" j).
  { intros j. apply (set_state "scara" scara3 sc3 r x S); [simpl; auto|]. change (numJoints sc3) with 3. lia. }
  split; [exact S|]. split; [apply set_session, S|]. split; [|split].
  - intros k Hk. symmetry. apply set_arg_ne, Hk.
  - intros j Hj. rewrite E. destruct (Nat.eqb_spec 1 j) as [<-|]; [|apply same_place_eq; reflexivity].
    assert (Hp : prism sc3 1 = false) by (vm_compute; reflexivity). rewrite Hp. unfold same_place. exists (-1)%Z. lra.
  - rewrite E. simpl Nat.eqb. pose proof PI_RGT_0. cbv iota. lra.
Qed.
Example C64_met : exists r x y z, session "scara" scara3 sc3 r x /\ session "scara" scara3 sc3 r y /\ session "scara" scara3 sc3 r z /\
  (forall k, k <> "dq" -> arg x k = arg z k) /\ (forall k, k <> "dq" -> arg y k = arg z k) /\
  (forall k, k < numJoints sc3 -> state z "dq" k = (2 * state x "dq" k + -1 * state y "dq" k)%R) /\ state x "dq" 1 <> state z "dq" 1.
Proof.
  destruct (sc3_session 1) as (r & x & S & _).
  set (Y := set_entry x "dq" 1 (state x "dq" 1 + 1)). set (Z := set_entry x "dq" 1 (state x "dq" 1 - 1)). exists r, x, Y, Z.
  assert (E : forall v j, state (set_entry x "dq" 1 v) "dq" j = if Nat.eqb 1 j then v else state x "dq" j).
  { intros v j. apply (set_state "scara" scara3 sc3 r x S); [simpl; auto|]. change (numJoints sc3) with 3. lia. }
  split; [exact S|]. split; [apply set_session, S|]. split; [apply set_session, S|]. split; [|split; [|split]].
  - intros k Hk. symmetry. apply set_arg_ne, Hk.
  - intros k Hk. unfold Y, Z. rewrite !set_arg_ne by exact Hk. reflexivity.
  - intros k Hk. unfold Y, Z. rewrite !E. destruct (Nat.eqb_spec 1 k) as [<-|]; lra.
  - unfold Z. rewrite E. simpl Nat.eqb. cbv iota. lra.
Qed.
