(* C08, C22-C25, C48: damped pseudo-inverse, friction, elasticity, and their regressors. *)
From Coq Require Import Reals Lra Lia Arith List String Bool ZArith.
From Coquelicot Require Import Coquelicot.
From Verif.Model Require Import Base Robot Yaml Build.
From Verif.Spec Require Import Math Setup Kinematics Dynamics Api Sample Damped Friction KinReg.
From Verif.Proofs Require Import Get Sample Sample1 Damped FrictionMain FrictionToy RegJ SpringExact.
Import ListNotations.
Open Scope nat_scope.
Open Scope string_scope.

(* C08: the damped Gram matrix is regular at every posture, and J_ee_pinv v is the unique minimiser *)
Theorem C08_damped_pinv name cfg r0 r r' : session name cfg r0 r r' ->
  let n := numJoints r0 in let J := out r' "J_ee" in
  answers r' "J_ee_pinv" n 6 /\
  (forall z, (exists a, a < 6 /\ z a <> 0%R) -> (0 < rquad 6 (damped_gram 0.02 n J) z z)%R) /\
  forall v x, let p := rmv 6 (out r' "J_ee_pinv") v in
    (damped_cost 0.02 n J v p <= damped_cost 0.02 n J v x)%R /\
    ((damped_cost 0.02 n J v x <= damped_cost 0.02 n J v p)%R -> forall i, i < n -> x i = p i).
Proof.
  exact (fun Hs => conj (pinv_answers name cfg r0 r r' Hs)
    (conj (gram_regular r0 r') (pinv_minimiser name cfg r0 r r' Hs))).
Qed.
Print Assumptions C08_damped_pinv.

(* C22 *)
Theorem C22_friction_laws name cfg r0 r r' : session name cfg r0 r r' ->
  let n := numJoints r0 in let e := numElasticJoints r0 in
  (0 < Dl_order r0 -> answers r' "dl" n 1 /\ forall i, i < n ->
     out r' "dl" i 0 = fric_law (Dl_order r0) (param r0 r' "par_Dl") i (state r' "dq" i)) /\
  (ELASTIC r0 = true -> 0 < D_order r0 -> answers r' "d" e 1 /\ forall i, i < e ->
     out r' "d" i 0 = fric_law (D_order r0) (param r0 r' "par_D") i (state r' "dx" i - state r' "dq" i)%R) /\
  (ELASTIC r0 = true -> 0 < Dm_order r0 -> answers r' "dm" e 1 /\ forall i, i < e ->
     out r' "dm" i 0 = fric_law (Dm_order r0) (param r0 r' "par_Dm") i (state r' "dx" i)).
Proof. exact (fric_closed name cfg r0 r r'). Qed.
Print Assumptions C22_friction_laws.
Theorem C22_odd name cfg r0 r r1 r2 : session name cfg r0 r r1 -> session name cfg r0 r r2 ->
  let n := numJoints r0 in let e := numElasticJoints r0 in
  (0 < Dl_order r0 -> arg r1 "par_Dl" = arg r2 "par_Dl" ->
   (forall i, i < n -> state r2 "dq" i = (- state r1 "dq" i)%R) ->
   forall i, i < n -> out r2 "dl" i 0 = (- out r1 "dl" i 0%nat)%R) /\
  (ELASTIC r0 = true -> 0 < D_order r0 -> arg r1 "par_D" = arg r2 "par_D" ->
   (forall i, i < e -> (state r2 "dx" i - state r2 "dq" i = - (state r1 "dx" i - state r1 "dq" i))%R) ->
   forall i, i < e -> out r2 "d" i 0 = (- out r1 "d" i 0%nat)%R) /\
  (ELASTIC r0 = true -> 0 < Dm_order r0 -> arg r1 "par_Dm" = arg r2 "par_Dm" ->
   (forall i, i < e -> state r2 "dx" i = (- state r1 "dx" i)%R) ->
   forall i, i < e -> out r2 "dm" i 0 = (- out r1 "dm" i 0%nat)%R).
Proof.
  exact (fun H1 H2 => conj (odd_dl name cfg r0 r r1 r2 H1 H2) (conj (odd_d name cfg r0 r r1 r2 H1 H2) (odd_dm name cfg r0 r r1 r2 H1 H2))).
Qed.
Print Assumptions C22_odd.
Theorem C22_dissipative name cfg r0 r r' : session name cfg r0 r r' ->
  let n := numJoints r0 in let e := numElasticJoints r0 in
  (0 < Dl_order r0 -> (forall j, j < n * Dl_order r0 -> (0 <= param r0 r' "par_Dl" j)%R) ->
   (0 <= rsum n (fun i => state r' "dq" i * out r' "dl" i 0%nat))%R) /\
  (ELASTIC r0 = true -> 0 < D_order r0 -> (forall j, j < e * D_order r0 -> (0 <= param r0 r' "par_D" j)%R) ->
   (0 <= rsum e (fun i => (state r' "dx" i - state r' "dq" i) * out r' "d" i 0%nat))%R) /\
  (ELASTIC r0 = true -> 0 < Dm_order r0 -> (forall j, j < e * Dm_order r0 -> (0 <= param r0 r' "par_Dm" j)%R) ->
   (0 <= rsum e (fun i => state r' "dx" i * out r' "dm" i 0%nat))%R).
Proof.
  exact (fun H => conj (power_dl name cfg r0 r r' H) (conj (power_d name cfg r0 r r' H) (power_dm name cfg r0 r r' H))).
Qed.
Print Assumptions C22_dissipative.

(* C23: r2 is the same robot in the same state with the symbolic coefficients set to zero *)
Theorem C23_regressors name cfg r0 r r1 r2 : session name cfg r0 r r1 -> session name cfg r0 r r2 ->
  (forall k len, In (k, len) (state_sizes r0) -> arg r2 k = arg r1 k) ->
  let n := numJoints r0 in let e := numElasticJoints r0 in
  let zeroed k := forall j, j < symbolic r0 k -> state r2 k j = 0%R in
  (forall i, 0 < Dl_order r0 -> i < n -> zeroed "par_Dl" ->
     out r1 "dl" i 0 = (rmv (symbolic r0 "par_Dl") (out r1 "reg_dl") (state r1 "par_Dl") i + out r2 "dl" i 0%nat)%R) /\
  (forall i, ELASTIC r0 = true -> 0 < K_order r0 -> i < e -> zeroed "par_K" ->
     out r1 "k" i 0 = (rmv (symbolic r0 "par_K") (out r1 "reg_k") (state r1 "par_K") i + out r2 "k" i 0%nat)%R) /\
  (forall i, ELASTIC r0 = true -> 0 < D_order r0 -> i < e -> zeroed "par_D" ->
     out r1 "d" i 0 = (rmv (symbolic r0 "par_D") (out r1 "reg_d") (state r1 "par_D") i + out r2 "d" i 0%nat)%R) /\
  (forall i, ELASTIC r0 = true -> 0 < Dm_order r0 -> i < e -> zeroed "par_Dm" ->
     out r1 "dm" i 0 = (rmv (symbolic r0 "par_Dm") (out r1 "reg_dm") (state r1 "par_Dm") i + out r2 "dm" i 0%nat)%R) /\
  (forall i, ELASTIC r0 = true -> i < e -> zeroed "par_Mm" ->
     rmv e (out r1 "Mm") (state r1 "ddx") i
     = (rmv (symbolic r0 "par_Mm") (out r1 "reg_Mm") (state r1 "par_Mm") i + rmv e (out r2 "Mm") (state r2 "ddx") i)%R).
Proof.
  exact (fun H1 H2 S => conj (regr_dl name cfg r0 r r1 r2 H1 H2 S) (conj (regr_k name cfg r0 r r1 r2 H1 H2 S)
    (conj (regr_d name cfg r0 r r1 r2 H1 H2 S) (conj (regr_dm name cfg r0 r r1 r2 H1 H2 S) (regr_Mm name cfg r0 r r1 r2 H1 H2 S))))).
Qed.
Print Assumptions C23_regressors.

(* C24: k_i and d_i should use the i-th elastic joint. They do when the elastic joints come first ... *)
Theorem C24_elastic_first_partial name cfg r0 r r' : session name cfg r0 r r' -> ELASTIC r0 = true ->
  let e := numElasticJoints r0 in (forall i, i < e -> sea_joint r0 i = i) ->
  (0 < K_order r0 -> answers r' "k" e 1 /\ forall i, i < e ->
     out r' "k" i 0 = spring_law (K_order r0) (param r0 r' "par_K") i (state r' "x" i - state r' "q" (sea_joint r0 i))%R) /\
  (0 < D_order r0 -> answers r' "d" e 1 /\ forall i, i < e ->
     out r' "d" i 0 = fric_law (D_order r0) (param r0 r' "par_D") i (state r' "dx" i - state r' "dq" (sea_joint r0 i))%R).
Proof.
  intros Hs He e Hf. split.
  - intros Hk. destruct (k_closed _ _ _ _ _ Hs He Hk) as [A V]. split; [exact A|]. intros i Hi. rewrite (Hf i Hi). exact (V i Hi).
  - intros Hd. destruct (fric_closed _ _ _ _ _ Hs) as (_ & W & _). destruct (W He Hd) as [A V]. split; [exact A|].
    intros i Hi. rewrite (Hf i Hi). exact (V i Hi).
Qed.
Print Assumptions C24_elastic_first_partial.
(* on every elastic robot they use joint i, whichever joints are elastic *)
Theorem C24_as_computed_partial name cfg r0 r r' : session name cfg r0 r r' -> ELASTIC r0 = true ->
  let e := numElasticJoints r0 in e <= numJoints r0 /\
  (0 < K_order r0 -> answers r' "k" e 1 /\ forall i, i < e ->
     out r' "k" i 0 = spring_law (K_order r0) (param r0 r' "par_K") i (state r' "x" i - state r' "q" i)%R) /\
  (0 < D_order r0 -> answers r' "d" e 1 /\ forall i, i < e ->
     out r' "d" i 0 = fric_law (D_order r0) (param r0 r' "par_D") i (state r' "dx" i - state r' "dq" i)%R).
Proof.
  intros Hs He e. split; [|split].
  - destruct (session_sess _ _ _ _ _ Hs) as (b & S & _). pose proof (Shape.bs_e _ _ (ss_base _ _ _ S)) as H. rewrite (ss_b _ _ _ S) in H. exact H.
  - exact (k_closed _ _ _ _ _ Hs He).
  - destruct (fric_closed _ _ _ _ _ Hs) as (_ & W & _). exact (W He).
Qed.
Print Assumptions C24_as_computed_partial.
(* so, when the coefficients push back, k_i and d_i are the torques of the i-th elastic joint exactly when joint i and
   that joint happen to have the same position (speed) ... *)
Theorem C24_exact_partial name cfg r0 r r' : session name cfg r0 r r' -> ELASTIC r0 = true ->
  forall i, i < numElasticJoints r0 ->
  (0 < K_order r0 -> pushes_back (K_order r0) (param r0 r' "par_K") i ->
     out r' "k" i 0 = spring_law (K_order r0) (param r0 r' "par_K") i (state r' "x" i - state r' "q" (sea_joint r0 i))%R
     <-> state r' "q" i = state r' "q" (sea_joint r0 i)) /\
  (0 < D_order r0 -> pushes_back (D_order r0) (param r0 r' "par_D") i ->
     out r' "d" i 0 = fric_law (D_order r0) (param r0 r' "par_D") i (state r' "dx" i - state r' "dq" (sea_joint r0 i))%R
     <-> state r' "dq" i = state r' "dq" (sea_joint r0 i)).
Proof.
  intros Hs He i Hi. split; intros Ho Hp.
  - exact (k_exact _ _ _ _ _ Hs He i Ho Hi Hp).
  - exact (d_exact _ _ _ _ _ Hs He i Ho Hi Hp).
Qed.
Print Assumptions C24_exact_partial.
(* ... and they are right at every posture (at every speed) exactly when the i-th elastic joint is joint i *)
Theorem C24_always_partial name cfg r0 r r' : session name cfg r0 r r' -> ELASTIC r0 = true ->
  forall i, i < numElasticJoints r0 ->
  (0 < K_order r0 -> pushes_back (K_order r0) (param r0 r' "par_K") i ->
     (forall v, List.length v = numJoints r0 -> let x := fst (set_arg r' "q" v) in
        out x "k" i 0 = spring_law (K_order r0) (param r0 x "par_K") i (state x "x" i - state x "q" (sea_joint r0 i))%R)
     <-> sea_joint r0 i = i) /\
  (0 < D_order r0 -> pushes_back (D_order r0) (param r0 r' "par_D") i ->
     (forall v, List.length v = numJoints r0 -> let x := fst (set_arg r' "dq" v) in
        out x "d" i 0 = fric_law (D_order r0) (param r0 x "par_D") i (state x "dx" i - state x "dq" (sea_joint r0 i))%R)
     <-> sea_joint r0 i = i).
Proof.
  intros Hs He i Hi. destruct (C24_as_computed_partial _ _ _ _ _ Hs He) as (Hn & _). split; intros Ho Hp.
  - exact (k_always _ _ _ _ _ Hs He Hn i Ho Hi Hp).
  - exact (d_always _ _ _ _ _ Hs He Hn i Ho Hi Hp).
Qed.
Print Assumptions C24_always_partial.
Example C24_exact_met : exists r r', let r0 := toy0 (PI / 2) in session "toy" (toy_cfg (PI / 2)) r0 r r' /\ ELASTIC r0 = true /\
  0 < K_order r0 /\ 0 < D_order r0 /\ 0 < numElasticJoints r0 /\
  pushes_back (K_order r0) (param r0 r' "par_K") 0 /\ pushes_back (D_order r0) (param r0 r' "par_D") 0 /\
  sea_joint r0 0 = 2.
Proof. exact (toy_exact (PI / 2)). Qed.
(* ... and not otherwise: only joint 3 is elastic here, and k and d change although the motor and joint 3 do not move *)
Theorem C24_elastic_joint_refuted : exists name cfg r0 r r1 r2,
  session name cfg r0 r r1 /\ session name cfg r0 r r2 /\
  ELASTIC r0 = true /\ 0 < K_order r0 /\ 0 < D_order r0 /\ numElasticJoints r0 = 1 /\ sea_joints r0 = [2] /\
  (forall k len, In (k, len) (state_sizes r0 ++ par_sizes r0)%list -> k <> "q" -> k <> "dq" -> arg r1 k = arg r2 k) /\
  (forall k, k = "q" \/ k = "dq" -> state r1 k 1 = state r2 k 1 /\ state r1 k 2 = state r2 k 2) /\
  out r1 "k" 0 0 <> out r2 "k" 0 0 /\ out r1 "d" 0 0 <> out r2 "d" 0 0.
Proof. exists "toy", (toy_cfg (PI / 2)), (toy0 (PI / 2)). exact (toy_elastic_wrong (PI / 2)). Qed.
Print Assumptions C24_elastic_joint_refuted.

(* C25: columns of the kinematic regressors *)
Theorem C25_kinematic_regressors_partial name cfg r0 r r' : session name cfg r0 r r' ->
  let n := numJoints r0 in
  (0 < kin_symbolic r0 -> answers r' "reg_Jdq" 6 (kin_symbolic r0) /\ answers r' "reg_JTw" n (kin_symbolic r0)) /\
  forall k off i, kin_block r0 k off -> i < symbolic r0 k ->
    (forall a, a < 6 ->
       is_partial (fun x => rmv n (out x "J_ee") (state x "dq") a) k i r' (out r' "reg_Jdq" a (off + i))) /\
    (forall a, a < n ->
       is_partial (fun x => rmv 6 (rtr (out x "J_ee")) (state x "w") a) k i r' (out r' "reg_JTw" a (off + i))).
Proof.
  intros Hs. destruct (session_built _ _ _ _ _ Hs) as [b HB]. split.
  - exact (reg_Jdq_out name cfg r0 r b r' Hs HB).
  - intros k off i HK Hi. split.
    + intros a. exact (reg_Jdq_col name cfg r0 r b r' Hs HB k off i a HK Hi).
    + intros a. exact (reg_JTw_col name cfg r0 r b r' Hs HB k off i a HK Hi).
Qed.
Print Assumptions C25_kinematic_regressors_partial.
(* they are not regressors: times the parameters they do not give J_ee dq *)
Theorem C25_linear_refuted : exists name cfg r0 r r', session name cfg r0 r r' /\ exists a, a < 6 /\
  rmv (kin_symbolic r0) (out r' "reg_Jdq") (kin_values r') a <> rmv (numJoints r0) (out r' "J_ee") (state r' "dq") a.
Proof.
  destruct (toy1_turns (PI / 2)) as (r & r' & S & Z & a & Ha & N).
  exists "toy", (resymb 1 (toy_cfg (PI / 2))), (toy0_flags 1 (PI / 2)), r, r'. split; [exact S|]. exists a. split; [exact Ha|].
  unfold rmv at 1. rewrite Sums.rsum_0 by (intros j Hj; rewrite Z; ring). intros E. apply N. now symmetry.
Qed.
Print Assumptions C25_linear_refuted.

(* C48: the published coefficient matrices rebuild the laws *)
Theorem C48_coefficient_matrices name cfg r0 r r' : session name cfg r0 r r' ->
  let n := numJoints r0 in let e := numElasticJoints r0 in
  ((forall o, o < Dl_order r0 -> answers r' ("Dl" ++ to_string (o + 1)) n n) /\
   forall i, 0 < Dl_order r0 -> i < n -> out r' "dl" i 0
     = rsum (Dl_order r0) (fun o => rmv n (out r' ("Dl" ++ to_string (o + 1))) (fun j => fric_shape o (state r' "dq" j)) i)) /\
  (ELASTIC r0 = true -> (forall o, o < D_order r0 -> answers r' ("D" ++ to_string (o + 1)) e e) /\
   forall i, 0 < D_order r0 -> i < e -> out r' "d" i 0
     = rsum (D_order r0) (fun o => rmv e (out r' ("D" ++ to_string (o + 1))) (fun j => fric_shape o (state r' "dx" j - state r' "dq" j)) i)) /\
  (ELASTIC r0 = true -> (forall o, o < Dm_order r0 -> answers r' ("Dm" ++ to_string (o + 1)) e e) /\
   forall i, 0 < Dm_order r0 -> i < e -> out r' "dm" i 0
     = rsum (Dm_order r0) (fun o => rmv e (out r' ("Dm" ++ to_string (o + 1))) (fun j => fric_shape o (state r' "dx" j)) i)) /\
  (ELASTIC r0 = true -> (forall o, o < K_order r0 -> answers r' ("K" ++ to_string (2 * o + 1)) e e) /\
   forall i, 0 < K_order r0 -> i < e -> out r' "k" i 0
     = rsum (K_order r0) (fun o => rmv e (out r' ("K" ++ to_string (2 * o + 1))) (fun j => (state r' "x" j - state r' "q" j) ^ (2 * o + 1))%R i)).
Proof.
  exact (fun H => conj (dl_sum name cfg r0 r r' H) (conj (d_sum name cfg r0 r r' H) (conj (dm_sum name cfg r0 r r' H) (k_sum name cfg r0 r r' H)))).
Qed.
Print Assumptions C48_coefficient_matrices.

(* Non-vacuity: the sample robot has friction of order 2, elasticity, symbolic coefficients and kinematic parameters;
   two sessions with the same state, the second with the symbolic coefficients zero. *)
Example friction_hypotheses_met : exists r r1 r2, let r0 := toy0 (PI / 2) in
  session "toy" (toy_cfg (PI / 2)) r0 r r1 /\ session "toy" (toy_cfg (PI / 2)) r0 r r2 /\
  Dl_order r0 = 2 /\ ELASTIC r0 = true /\ K_order r0 = 2 /\ D_order r0 = 2 /\ Dm_order r0 = 1 /\
  symbolic r0 "par_Dl" = 3 /\ symbolic r0 "par_K" = 2 /\ symbolic r0 "par_D" = 1 /\ symbolic r0 "par_Dm" = 1 /\ symbolic r0 "par_Mm" = 1 /\
  kin_symbolic r0 = 7 /\
  (forall k len, In (k, len) (state_sizes r0) -> arg r2 k = arg r1 k) /\
  (forall k, In k ["par_Dl"; "par_K"; "par_D"; "par_Dm"; "par_Mm"] -> (forall j, state r2 k j = 0%R) /\ state r1 k 0 = 1%R) /\
  state r1 "dq" 0 = 1%R.
Proof.
  destruct (toy_built (PI / 2)) as [r Hr].
  destruct (toy_over (PI / 2) r [] Hr) as [S1 A1]; [lens|lens|].
  destruct (toy_over (PI / 2) r [("par_Dl", [0; 0; 0]%R); ("par_K", [0; 0]%R); ("par_D", [0]%R); ("par_Dm", [0]%R); ("par_Mm", [0]%R)] Hr) as [S2 A2]; [lens|lens|].
  set (r1 := with_args r _) in S1, A1. set (r2 := with_args r _) in S2, A2. clearbody r1 r2.
  exists r, r1, r2. cbv zeta. split; [exact S1|]. split; [exact S2|].
  do 11 (split; [vm_compute; reflexivity|]).
  split; [|split].
  - intros k len Hk. assert (Hk' : In (k, len) (Shape.keys (toy0 (PI / 2)))) by (unfold Shape.keys; apply in_or_app; auto).
    rewrite (A1 k len Hk'), (A2 k len Hk'). clear A1 A2 Hk' S1 S2. vm_compute in Hk. decompose [or] Hk; try contradiction;
    match goal with E : _ = _ |- _ => injection E as <- <- end; vm_compute; reflexivity.
  - intros k Hk. assert (Hk' : exists len, In (k, len) (Shape.keys (toy0 (PI / 2)))).
    { simpl in Hk. decompose [or] Hk; try contradiction; subst; eexists; inkeys. }
    destruct Hk' as [len Hk']. unfold state. rewrite (A1 k len Hk'), (A2 k len Hk').
    simpl in Hk. decompose [or] Hk; try contradiction; subst; (split; [intros j; change (nth j (repeat 0%R _) 0%R = 0%R) || idtac; destruct j as [|[|[|j]]]; try reflexivity; destruct j; reflexivity|reflexivity]).
  - unfold state. rewrite (A1 "dq" 3) by inkeys. reflexivity.
Qed.
(* opposite velocities, non-negative coefficients *)
Example friction_signs_met : exists r r1 r2, let r0 := toy0 (PI / 2) in
  session "toy" (toy_cfg (PI / 2)) r0 r r1 /\ session "toy" (toy_cfg (PI / 2)) r0 r r2 /\
  (forall k, In k ["par_Dl"; "par_D"; "par_Dm"] -> arg r1 k = arg r2 k /\ forall j, (0 <= param r0 r1 k j)%R) /\
  (forall i, state r2 "dq" i = (- state r1 "dq" i)%R) /\ (forall i, state r2 "dx" i = (- state r1 "dx" i)%R) /\
  state r1 "dq" 0 = 1%R /\ state r1 "dx" 0 = 2%R.
Proof. exact (toy_signs (PI / 2)). Qed.
(* an elastic joint in first place *)
Example elastic_first_met : exists r r', session "toy" (toy2_cfg (PI / 2)) (toy2_0 (PI / 2)) r r' /\
  ELASTIC (toy2_0 (PI / 2)) = true /\ 0 < K_order (toy2_0 (PI / 2)) /\ 0 < D_order (toy2_0 (PI / 2)) /\
  numElasticJoints (toy2_0 (PI / 2)) = 1 /\ sea_joint (toy2_0 (PI / 2)) 0 = 0.
Proof. exact (toy2_session (PI / 2)). Qed.
