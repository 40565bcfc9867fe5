(* Concrete sessions for the friction, elasticity and kinematic regressor theorems. *)
From Coq Require Import Reals Lra Lia Arith List String Bool ZArith.
From Verif.Model Require Import Base Expr SX Robot Yaml Build.
From Verif.Spec Require Import Math Setup Kinematics Dynamics Api Sample Friction KinReg.
From Verif.Proofs Require Import Sums Lin3 Frames Rel Pure PureRel Maps Names Shape Dims Sizes Deps Load Final Get Kin KinThm KinMain Sample Sample1 Friction FrictionMain.
Import ListNotations.
Open Scope nat_scope.
Open Scope string_scope.

(* arguments: those of the sample motion at t = 0, except where ov says otherwise *)
Definition over (ov : list (string * list R)) (base : string -> list R) (k : string) : list R :=
  match mfind k ov with Some v => v | None => base k end.

Lemma toy_over h r ov : robot_from_file "toy" (toy_cfg h) true = Ok r ->
  (forall k len, In (k, len) (state_sizes (toy0 h)) -> List.length (over ov (toy_args 0) k) = len) ->
  (forall k len, In (k, len) (par_sizes (toy0 h)) -> List.length (over ov (toy_args 0) k) = selected (flags (toy0 h) k)) ->
  let r' := with_args r (argmap (toy0 h) (over ov (toy_args 0))) in
  session "toy" (toy_cfg h) (toy0 h) r r' /\ forall k len, In (k, len) (keys (toy0 h)) -> arg r' k = over ov (toy_args 0) k.
Proof. intros E A B. apply session_any; auto using toy_loads, toy_wf. Qed.

Ltac lens := intros k len Hk; vm_compute in Hk; decompose [or] Hk; try contradiction;
    match goal with E : _ = _ |- _ => injection E as <- <- end; vm_compute; reflexivity.
Ltac inkeys := vm_compute; repeat (first [left; reflexivity | right]).

(* two sessions that differ only in the position of the first joint, which is not elastic *)
Lemma toy_elastic_wrong h : exists r r1 r2, let r0 := toy0 h in
  session "toy" (toy_cfg h) r0 r r1 /\ session "toy" (toy_cfg h) r0 r r2 /\
  ELASTIC r0 = true /\ 0 < K_order r0 /\ 0 < D_order r0 /\ numElasticJoints r0 = 1 /\ sea_joints r0 = [2] /\
  (forall k len, In (k, len) (state_sizes r0 ++ par_sizes r0)%list -> k <> "q" -> k <> "dq" -> arg r1 k = arg r2 k) /\
  (forall k, k = "q" \/ k = "dq" -> state r1 k 1 = state r2 k 1 /\ state r1 k 2 = state r2 k 2) /\
  out r1 "k" 0 0 <> out r2 "k" 0 0 /\ out r1 "d" 0 0 <> out r2 "d" 0 0.
Proof.
  destruct (toy_built h) as [r Hr].
  destruct (toy_over h r [] Hr) as [S1 A1]; [lens|lens|].
  destruct (toy_over h r [("q", [1; 0; 0]%R); ("dq", [0; 0; 0]%R)] Hr) as [S2 A2]; [lens|lens|].
  set (r1 := with_args r _) in S1, A1. set (r2 := with_args r _) in S2, A2.
  clearbody r1 r2.
  assert (Q1 : forall k i, In k ["q"; "dq"; "x"; "dx"] -> state r1 k i = nth i (toy_args 0 k) 0%R).
  { intros k i Hk. unfold state. rewrite (A1 k (if existsb (String.eqb k) ["x"; "dx"] then 1 else 3)); [|simpl in Hk; decompose [or] Hk; try contradiction; subst; inkeys].
    reflexivity. }
  assert (Q2 : forall k i, In k ["q"; "dq"; "x"; "dx"] -> state r2 k i = nth i (over [("q", [1; 0; 0]%R); ("dq", [0; 0; 0]%R)] (toy_args 0) k) 0%R).
  { intros k i Hk. unfold state. rewrite (A2 k (if existsb (String.eqb k) ["x"; "dx"] then 1 else 3)); [|simpl in Hk; decompose [or] Hk; try contradiction; subst; inkeys].
    reflexivity. }
  assert (P : forall k i, In k ["par_K"; "par_D"] -> param (toy0 h) r1 k i = param (toy0 h) r2 k i /\ param (toy0 h) r1 k 0 = 1%R /\ param (toy0 h) r1 k 1 = 1%R).
  { intros k i Hk. assert (Hin : In (k, 2) (keys (toy0 h))) by (simpl in Hk; decompose [or] Hk; try contradiction; subst; inkeys).
    unfold param. rewrite (A1 k 2 Hin), (A2 k 2 Hin). simpl in Hk. decompose [or] Hk; try contradiction; subst; split; try reflexivity; vm_compute; split; reflexivity. }
  exists r, r1, r2. cbv zeta.
  split; [exact S1|]. split; [exact S2|]. split; [reflexivity|]. split; [vm_compute; lia|]. split; [vm_compute; lia|].
  split; [reflexivity|]. split; [vm_compute; reflexivity|].
  split; [|split; [|split]].
  - intros k len Hk N1 N2. assert (Hk' : In (k, len) (keys (toy0 h))) by exact Hk. rewrite (A1 k len Hk'), (A2 k len Hk').
    unfold over. cbn [mfind]. destruct (String.eqb_spec k "q"); [congruence|]. destruct (String.eqb_spec k "dq"); [congruence|reflexivity].
  - intros k Hk. rewrite !Q1, !Q2 by (destruct Hk as [-> | ->]; simpl; auto).
    destruct Hk as [-> | ->]; vm_compute; split; ring.
  - destruct (k_closed _ _ _ _ _ S1 eq_refl ltac:(vm_compute; lia)) as [_ V1].
    destruct (k_closed _ _ _ _ _ S2 eq_refl ltac:(vm_compute; lia)) as [_ V2].
    rewrite (V1 0 ltac:(vm_compute; lia)), (V2 0 ltac:(vm_compute; lia)).
    rewrite !Q1, !Q2 by (simpl; auto). unfold spring_law. change (K_order (toy0 h)) with 2. cbn [rsum Nat.mul Nat.add].
    destruct (P "par_K" 0 ltac:(simpl; auto)) as (E0 & K0 & K1). destruct (P "par_K" 1 ltac:(simpl; auto)) as (E1 & _).
    rewrite <- E0, <- E1, K0, K1. cbn. lra.
  - destruct (fric_closed _ _ _ _ _ S1) as (_ & V1 & _). specialize (V1 eq_refl ltac:(vm_compute; lia)). destruct V1 as [_ V1].
    destruct (fric_closed _ _ _ _ _ S2) as (_ & V2 & _). specialize (V2 eq_refl ltac:(vm_compute; lia)). destruct V2 as [_ V2].
    rewrite (V1 0 ltac:(vm_compute; lia)), (V2 0 ltac:(vm_compute; lia)).
    rewrite !Q1, !Q2 by (simpl; auto). unfold fric_law, fric_shape. change (D_order (toy0 h)) with 2. cbn [rsum Nat.mul Nat.add].
    destruct (P "par_D" 0 ltac:(simpl; auto)) as (E0 & K0 & K1). destruct (P "par_D" 1 ltac:(simpl; auto)) as (E1 & _).
    rewrite <- E0, <- E1, K0, K1. cbn. replace (0 - 1)%R with (-(1))%R by ring. replace (0 - 0)%R with 0%R by ring. rewrite Rabs_Ropp, Rabs_R1, Rabs_R0. lra.
Qed.

(* the same robot with its elastic joint first *)
Definition toy2_cfg (h : R) : ynode :=
  match toy_cfg h with
  | YMap l => YMap (map (fun kv => if String.eqb (fst kv) "type_joints" then (fst kv, YSeq [YStr "R_SEA"; YStr "P"; YStr "R"]) else kv) l)
  | n => n
  end.
Definition toy2_0 (h : R) : robot := match robot_from_file "toy" (toy2_cfg h) false with Ok r => r | _ => no_robot end.
Lemma toy2_loads h : robot_from_file "toy" (toy2_cfg h) false = Ok (toy2_0 h).
Proof. vm_compute. reflexivity. Qed.
Lemma toy2_wf h : well_formed (toy2_0 h).
Proof.
  constructor.
  - apply identifier_check. reflexivity.
  - vm_compute. repeat constructor.
  - intros t. vm_compute. tauto.
  - intros k len Hk. vm_compute in Hk. decompose [or] Hk; try contradiction;
      match goal with E : _ = _ |- _ => injection E as <- <- end; vm_compute; auto.
Qed.
Lemma toy2_session h : exists r r', session "toy" (toy2_cfg h) (toy2_0 h) r r' /\
  ELASTIC (toy2_0 h) = true /\ 0 < K_order (toy2_0 h) /\ 0 < D_order (toy2_0 h) /\
  numElasticJoints (toy2_0 h) = 1 /\ sea_joint (toy2_0 h) 0 = 0.
Proof.
  destruct (built_file _ _ _ (toy2_loads h) (toy2_wf h)) as [r Hr].
  destruct (session_any "toy" (toy2_cfg h) (toy2_0 h) r (toy_args 0)) as [S _]; auto using toy2_loads, toy2_wf; [lens|lens|].
  exists r, (with_args r (argmap (toy2_0 h) (toy_args 0))). split; [exact S|].
  split; [reflexivity|]. split; [vm_compute; lia|]. split; [vm_compute; lia|]. split; vm_compute; reflexivity.
Qed.

(* every symbolic kinematic parameter zero, yet the end effector turns *)
Definition zero_args (h : R) (k : string) : list R :=
  if String.eqb k "dq" then [1; 0; 0]%R else
  if existsb (fun p => String.eqb k (fst p)) (state_sizes (toy0_flags 1 h)) then repeat 0%R (mget 0 k (state_sizes (toy0_flags 1 h)))
  else repeat 0%R (selected (flags (toy0_flags 1 h) k)).
Lemma nth_zeros m j : nth j (repeat 0%R m) 0%R = 0%R.
Proof. revert j. induction m as [|m IH]; destruct j; simpl; auto. Qed.

Lemma toy1_turns h : exists r r', let r0 := toy0_flags 1 h in
  session "toy" (resymb 1 (toy_cfg h)) r0 r r' /\ (forall j, kin_values r' j = 0%R) /\
  exists a, a < 6 /\ rmv (numJoints r0) (out r' "J_ee") (state r' "dq") a <> 0%R.
Proof.
  destruct (built_file _ _ _ (toy1_loads h) (toy1_wf h)) as [r Hr].
  destruct (session_any _ _ _ r (zero_args h) (toy1_loads h) (toy1_wf h) Hr) as [S A]; [lens|lens|].
  set (r' := with_args r _) in S, A. clearbody r'.
  exists r, r'. cbv zeta. split; [exact S|]. split.
  - intros j. unfold kin_values.
    rewrite (A "par_DHtable" 12), (A "par_world2L0" 6), (A "par_Ln2EE" 6) by inkeys.
    change (nth j (repeat 0%R 12 ++ repeat 0%R 6 ++ repeat 0%R 6)%list 0%R = 0%R). rewrite <- !repeat_app. apply nth_zeros.
  - destruct (session_sess _ _ _ _ _ S) as (b & SS & _).
    assert (Q : forall i, state r' "dq" i = nth i [1; 0; 0]%R 0%R) by (intros i; unfold state; rewrite (A "dq" 3) by inkeys; reflexivity).
    assert (E : forall a, a < 3 -> rmv 3 (out r' "J_ee") (state r' "dq") (3 + a) = vcomp (axis (chain_of b (renv (toy0_flags 1 h) r')) 0) a).
    { intros a Ha. unfold rmv. cbn [rsum]. rewrite !Q. cbn [nth].
      rewrite (Jee_a _ _ _ SS a 0 Ha) by (vm_compute; lia). unfold jw, wcol.
      rewrite (prism_b _ _ _ SS). change (prism (toy0_flags 1 h) 0) with false. change (Nat.ltb 0 (numJoints (toy0_flags 1 h))) with true. cbn match. ring. }
    assert (U : dot (axis (chain_of b (renv (toy0_flags 1 h) r')) 0) (axis (chain_of b (renv (toy0_flags 1 h) r')) 0) = 1%R).
    { unfold axis. rewrite rot_dot; [unfold dot, ez; cbn; ring|]. apply (FR_is_rot _ _ _ SS (toy1_exact h)). vm_compute. lia. }
    set (u := axis _ 0) in *. clearbody u. change (numJoints (toy0_flags 1 h)) with 3.
    destruct (Req_dec (vx u) 0) as [X|X]; [destruct (Req_dec (vy u) 0) as [Y|Y]|].
    + exists (3 + 2). split; [lia|]. rewrite (E 2) by lia. intros Z. change (vz u = 0%R) in Z. unfold dot in U. rewrite X, Y, Z in U. lra.
    + exists (3 + 1). split; [lia|]. rewrite (E 1) by lia. exact Y.
    + exists (3 + 0). split; [lia|]. rewrite (E 0) by lia. exact X.
Qed.

(* opposite velocities, and non-negative coefficients *)
Lemma toy_signs h : exists r r1 r2, let r0 := toy0 h in
  session "toy" (toy_cfg h) r0 r r1 /\ session "toy" (toy_cfg h) r0 r r2 /\
  (forall k, In k ["par_Dl"; "par_D"; "par_Dm"] -> arg r1 k = arg r2 k /\ forall j, (0 <= param r0 r1 k j)%R) /\
  (forall i, state r2 "dq" i = (- state r1 "dq" i)%R) /\ (forall i, state r2 "dx" i = (- state r1 "dx" i)%R) /\
  state r1 "dq" 0 = 1%R /\ state r1 "dx" 0 = 2%R.
Proof.
  destruct (toy_built h) as [r Hr].
  destruct (toy_over h r [("dx", [2]%R)] Hr) as [S1 A1]; [lens|lens|].
  destruct (toy_over h r [("dq", [-1; - (2 * 0); - (3 * 0 ^ 2)]%R); ("dx", [-2]%R)] Hr) as [S2 A2]; [lens|lens|].
  set (r1 := with_args r _) in S1, A1. set (r2 := with_args r _) in S2, A2. clearbody r1 r2.
  exists r, r1, r2. cbv zeta. split; [exact S1|]. split; [exact S2|]. split; [|split; [|split; [|split]]].
  - intros k Hk. assert (Hk' : exists len, In (k, len) (keys (toy0 h))).
    { simpl in Hk. decompose [or] Hk; try contradiction; subst; eexists; inkeys. }
    destruct Hk' as [len Hk']. unfold param. rewrite (A1 k len Hk'), (A2 k len Hk').
    simpl in Hk. decompose [or] Hk; try contradiction; subst; (split; [reflexivity|]); intros j.
    + change (0 <= nth j [1; 1; 1; 1; 1; 1]%R 0)%R. do 7 (destruct j as [|j]; [simpl; lra|]). simpl. lra.
    + change (0 <= nth j [1; 1]%R 0)%R. do 3 (destruct j as [|j]; [simpl; lra|]). simpl. lra.
    + change (0 <= nth j [1]%R 0)%R. do 2 (destruct j as [|j]; [simpl; lra|]). simpl. lra.
  - intros i. unfold state. rewrite (A1 "dq" 3), (A2 "dq" 3) by inkeys. do 3 (destruct i as [|i]; [cbn; lra|]). destruct i; cbn; lra.
  - intros i. unfold state. rewrite (A1 "dx" 1), (A2 "dx" 1) by inkeys. destruct i as [|[|i]]; cbn; lra.
  - unfold state. rewrite (A1 "dq" 3) by inkeys. reflexivity.
  - unfold state. rewrite (A1 "dx" 1) by inkeys. reflexivity.
Qed.
