(* Two SCARA-like robots sharing their last two joints. *)
From Coq Require Import Reals Lra Lia Arith List String Bool ZArith.
From Verif.Model Require Import Base Expr SX Robot Yaml Build.
From Verif.Spec Require Import Math Setup Kinematics Dynamics Sample Tail.
From Verif.Proofs Require Import Names Shape Dims Load Final Get Sample Tail.
Import ListNotations.
Open Scope nat_scope.
Open Scope string_scope.

(* three joints R, R, P with vertical axes, and two joints R, P; other base, other first row, other flags *)
Definition scara_cfg (n : Z) (types : list string) (dhs : list R) (fl : list Z) (base : list R) (g : R) (masses : list (string * R)) : ynode :=
  YMap [("num_joints", YInt n);
        ("type_joints", YSeq (map YStr types));
        ("kinematics", YMap [("symb", yi fl); ("DH", ys dhs)]);
        ("gravity", YMap [("symb", yi [0; 0; 1]%Z); ("value", ys [0; 0; g]%R)]);
        ("Base_to_L0", YMap [("symb", yi [0; 0; 0; 1; 0; 0]%Z); ("tr", ys base); ("ypr", ys [0; 0; 0]%R)]);
        ("Ln_to_EE", YMap [("symb", yi [1; 1; 1; 0; 0; 0]%Z); ("tr", ys [0; 1; 0]%R); ("ypr", ys [0; 0; 0]%R)]);
        ("dynamics", YMap (map (fun p => (fst p, toy_link (snd p))) masses))].
Definition scara3 : ynode :=
  scara_cfg 3 ["R"; "R"; "P"] [0; 0; 1; 0;  2; 0; 0; 0;  3; 0; 0; 0]%R [0; 0; 0; 0;  1; 0; 0; 0;  0; 0; 1; 0]%Z [0; 0; 1]%R (-10)%R
    [("link1", 1); ("link2", 2); ("link3", 3)]%R.
Definition scara2 : ynode :=
  scara_cfg 2 ["R"; "P"] [7; 0; 5; 1;  3; 0; 0; 0]%R [0; 0; 0; 1;  0; 0; 0; 0]%Z [4; 4; 4]%R (-10)%R
    [("link1", 2); ("link2", 3)]%R.
Definition load (c : ynode) : robot := match robot_from_file "scara" c false with Ok r => r | _ => no_robot end.
Definition sc3 : robot := load scara3.
Definition sc2 : robot := load scara2.
Lemma sc3_loads : robot_from_file "scara" scara3 false = Ok sc3.
Proof. vm_compute. reflexivity. Qed.
Lemma sc2_loads : robot_from_file "scara" scara2 false = Ok sc2.
Proof. vm_compute. reflexivity. Qed.
Lemma sc3_wf : well_formed sc3.
Proof.
  constructor.
  - apply identifier_check. reflexivity.
  - vm_compute. repeat constructor.
  - intros t. vm_compute. tauto.
  - intros k len Hk. vm_compute in Hk. decompose [or] Hk; try contradiction;
      match goal with E : _ = _ |- _ => injection E as <- <- end; vm_compute; auto.
Qed.
Lemma sc2_wf : well_formed sc2.
Proof.
  constructor.
  - apply identifier_check. reflexivity.
  - vm_compute. repeat constructor.
  - intros t. vm_compute. tauto.
  - intros k len Hk. vm_compute in Hk. decompose [or] Hk; try contradiction;
      match goal with E : _ = _ |- _ => injection E as <- <- end; vm_compute; auto.
Qed.
Lemma zero_angle a : a = 0%R -> (Rabs (cos a) < / 10 ^ 15 -> cos a = 0)%R /\ (Rabs (sin a) < / 10 ^ 15 -> sin a = 0)%R.
Proof. intros ->. apply small_angle. auto. Qed.
Lemma sc3_exact : exact_angles sc3.
Proof.
  intros k i [[-> (j & Hj & Hi)]|[Hk Hi]] Hf; cbv zeta; apply zero_angle.
  - change (numJoints sc3) with 3 in Hj.
    destruct j as [|[|[|j]]]; try lia; destruct Hi as [-> |[-> Hp]]; vm_compute; auto.
  - destruct Hk as [-> | ->]; destruct i as [|[|[|[|[|[|i]]]]]]; try lia; vm_compute; auto.
Qed.
Lemma sc2_exact : exact_angles sc2.
Proof.
  intros k i [[-> (j & Hj & Hi)]|[Hk Hi]] Hf; cbv zeta; apply zero_angle.
  - change (numJoints sc2) with 2 in Hj.
    destruct j as [|[|j]]; try lia; destruct Hi as [-> |[-> Hp]]; vm_compute; auto; vm_compute in Hp; discriminate Hp.
  - destruct Hk as [-> | ->]; destruct i as [|[|[|[|[|[|i]]]]]]; try lia; vm_compute; auto.
Qed.

Definition sc_args (n : nat) (q dq ddq dy dhp base : list R) (g : R) (k : string) : list R :=
  if String.eqb k "q" then q else if String.eqb k "dq" then dq else if String.eqb k "ddq" then ddq else
  if String.eqb k "par_DYN" then dy else if String.eqb k "par_DHtable" then dhp else
  if String.eqb k "par_world2L0" then base else if String.eqb k "par_gravity" then [g] else
  if String.eqb k "par_Ln2EE" then [0; 0; 0]%R else if String.eqb k "w" then repeat 0%R 6 else repeat 1%R n.
Definition A3 (g : R) := sc_args 3 [5; 7; 1/2]%R [0; 2; 3]%R [0; 1; 4]%R [1; 0; 2; 2; 0; 2; 3; 0; 2]%R [2; 0]%R [1/2]%R g.
Definition A2 (g : R) := sc_args 2 [9; 1/2]%R [2; 3]%R [1; 4]%R [2; 0; 2; 3; 0; 2]%R [1]%R [2]%R g.
Lemma sc3_lens g :
  (forall k len, In (k, len) (state_sizes sc3) -> List.length (A3 g k) = len) /\
  (forall k len, In (k, len) (par_sizes sc3) -> List.length (A3 g k) = selected (flags sc3 k)).
Proof.
  split; intros k len Hk; vm_compute in Hk; decompose [or] Hk; try contradiction;
    match goal with E : _ = _ |- _ => injection E as <- <- end; vm_compute; auto.
Qed.
Lemma sc2_lens g :
  (forall k len, In (k, len) (state_sizes sc2) -> List.length (A2 g k) = len) /\
  (forall k len, In (k, len) (par_sizes sc2) -> List.length (A2 g k) = selected (flags sc2 k)).
Proof.
  split; intros k len Hk; vm_compute in Hk; decompose [or] Hk; try contradiction;
    match goal with E : _ = _ |- _ => injection E as <- <- end; vm_compute; auto.
Qed.
Lemma sc3_key k : In k ["q"; "dq"; "ddq"; "par_DYN"; "par_DHtable"; "par_world2L0"; "par_gravity"] -> exists len, In (k, len) (keys sc3).
Proof. intros Hk. simpl in Hk. decompose [or] Hk; subst; try contradiction; eexists; vm_compute; auto 20. Qed.
Lemma sc2_key k : In k ["q"; "dq"; "ddq"; "par_DYN"; "par_DHtable"; "par_world2L0"; "par_gravity"] -> exists len, In (k, len) (keys sc2).
Proof. intros Hk. simpl in Hk. decompose [or] Hk; subst; try contradiction; eexists; vm_compute; auto 20. Qed.

(* values of the parameters and states, computed from the argument vectors *)
Definition pv (r0 : robot) (A : string -> list R) (k : string) (i : nat) : R := nth i (merge (flags r0 k) (arg r0 k) (A k)) 0%R.
Lemma pv_eq r0 r' A k i : arg r' k = A k -> param r0 r' k i = pv r0 A k i.
Proof. intros E. unfold param, pv. now rewrite E. Qed.
Section Two.
  Variables (g : R) (x3 x2 : robot).
  Hypothesis H3 : forall k len, In (k, len) (keys sc3) -> arg x3 k = A3 g k.
  Hypothesis H2 : forall k len, In (k, len) (keys sc2) -> arg x2 k = A2 g k.
  Let K := ["q"; "dq"; "ddq"; "par_DYN"; "par_DHtable"; "par_world2L0"; "par_gravity"].
  Lemma a3 k : In k K -> arg x3 k = A3 g k.
  Proof. intros Hk. destruct (sc3_key k Hk) as [len L]. eauto. Qed.
  Lemma a2 k : In k K -> arg x2 k = A2 g k.
  Proof. intros Hk. destruct (sc2_key k Hk) as [len L]. eauto. Qed.
  Lemma sc_tail : same_tail 2 1 sc3 x3 0 sc2 x2.
  Proof.
    constructor; [reflexivity|reflexivity| | | |].
    - intros j Hj. destruct j as [|[|j]]; try lia; reflexivity.
    - intros j c Hj Hc. unfold dh. rewrite (pv_eq sc3 x3 (A3 g)), (pv_eq sc2 x2 (A2 g)) by (first [apply a3|apply a2]; simpl; auto 10).
      destruct j as [|[|j]]; try lia. destruct c as [|[|[|[|c]]]]; try lia; vm_compute; reflexivity.
    - intros j Hj. unfold state. rewrite a3, a2 by (simpl; auto). destruct j as [|[|j]]; try lia; apply same_place_eq; reflexivity.
    - intros j c Hj Hc. unfold dyn. rewrite (pv_eq sc3 x3 (A3 g)), (pv_eq sc2 x2 (A2 g)) by (first [apply a3|apply a2]; simpl; auto 10).
      destruct j as [|[|j]]; try lia; do 10 (destruct c as [|c]; [vm_compute; reflexivity|]); lia.
  Qed.
  Lemma sc_vel : at_rest 1 x3 "dq" /\ at_rest 1 x3 "ddq" /\ same_on_tail "dq" 2 1 x3 0 x2 /\ same_on_tail "ddq" 2 1 x3 0 x2.
  Proof.
    unfold at_rest, same_on_tail, state. rewrite !a3, !a2 by (simpl; auto).
    repeat split; intros j Hj; destruct j as [|[|j]]; try lia; reflexivity.
  Qed.
  (* vertical axes: the third row of every frame is (0, 0, 1) *)
  Definition upright (A : rmat) : Prop := A 2 0 = 0%R /\ A 2 1 = 0%R /\ A 2 2 = 1%R.
  Lemma upright_mul A B : upright A -> B 3 0 = 0%R -> B 3 1 = 0%R -> B 3 2 = 0%R -> upright B -> upright (rmul 4 A B).
  Proof.
    intros (A0 & A1 & A2) B0 B1 B2 (C0 & C1 & C2). unfold upright, rmul. cbn [rsum].
    rewrite A0, A1, A2, B0, B1, B2, C0, C1, C2. repeat split; ring.
  Qed.
  Lemma upright_joint r0 r' i : dh r0 r' i 1 = 0%R -> upright (joint_frame r0 r' i).
  Proof.
    intros E. unfold joint_frame, DHmat, upright. rewrite E, cos_0, sin_0. unfold DHcs. cbn. repeat split; ring.
  Qed.
  Lemma joint_last r0 r' i : joint_frame r0 r' i 3 0 = 0%R /\ joint_frame r0 r' i 3 1 = 0%R /\ joint_frame r0 r' i 3 2 = 0%R.
  Proof. unfold joint_frame, DHmat, DHcs. cbn. auto. Qed.
  Lemma upright_base r0 r' : param r0 r' "par_world2L0" 4 = 0%R -> param r0 r' "par_world2L0" 5 = 0%R -> upright (frame_par r0 r' "par_world2L0").
  Proof.
    intros E4 E5. unfold frame_par, framemat, upright. rewrite E4, E5, cos_0, sin_0. unfold framecs. cbn. repeat split; ring.
  Qed.
  Lemma upright_fwd r0 r' : param r0 r' "par_world2L0" 4 = 0%R -> param r0 r' "par_world2L0" 5 = 0%R ->
    forall i, (forall j, j < i -> dh r0 r' j 1 = 0%R) -> upright (fwd r0 r' i).
  Proof.
    intros E4 E5. induction i as [|i IH]; intros Hd; cbn [fwd].
    - apply upright_base; auto.
    - destruct (joint_last r0 r' i) as (L0 & L1 & L2). apply upright_mul; auto. apply upright_joint; auto.
  Qed.
  Lemma upright_grav r0 r' i a : upright (fwd r0 r' i) -> param r0 r' "par_gravity" 0 = 0%R -> param r0 r' "par_gravity" 1 = 0%R -> a < 3 ->
    gravity_in r0 r' i a = (if Nat.eqb a 2 then param r0 r' "par_gravity" 2 else 0)%R.
  Proof.
    intros (U0 & U1 & U2) G0 G1 Ha. unfold gravity_in. cbn [rsum]. rewrite G0, G1.
    destruct a as [|[|[|a]]]; try lia; cbn [Nat.eqb]; rewrite ?U0, ?U1, ?U2; ring.
  Qed.
  Lemma p3 k i : In k K -> param sc3 x3 k i = pv sc3 (A3 g) k i.
  Proof. intros Hk. apply pv_eq, a3, Hk. Qed.
  Lemma p2 k i : In k K -> param sc2 x2 k i = pv sc2 (A2 g) k i.
  Proof. intros Hk. apply pv_eq, a2, Hk. Qed.
  Lemma sc3_up : upright (fwd sc3 x3 2).
  Proof.
    apply upright_fwd.
    - rewrite p3 by (simpl; auto 10). vm_compute. reflexivity.
    - rewrite p3 by (simpl; auto 10). vm_compute. reflexivity.
    - intros j Hj. unfold dh. rewrite p3 by (simpl; auto 10). destruct j as [|[|j]]; [| |lia]; vm_compute; reflexivity.
  Qed.
  Lemma sc2_up : upright (fwd sc2 x2 1).
  Proof.
    apply upright_fwd.
    - rewrite p2 by (simpl; auto 10). vm_compute. reflexivity.
    - rewrite p2 by (simpl; auto 10). vm_compute. reflexivity.
    - intros j Hj. unfold dh. rewrite p2 by (simpl; auto 10). destruct j as [|j]; [|lia]; vm_compute; reflexivity.
  Qed.
  Lemma sc_grav a : a < 3 -> gravity_in sc3 x3 2 a = gravity_in sc2 x2 1 a.
  Proof.
    intros Ha. rewrite (upright_grav sc3 x3 2 a sc3_up), (upright_grav sc2 x2 1 a sc2_up); try exact Ha.
    - rewrite p3, p2 by (simpl; auto 10). vm_compute. reflexivity.
    - rewrite p2 by (simpl; auto 10). vm_compute. reflexivity.
    - rewrite p2 by (simpl; auto 10). vm_compute. reflexivity.
    - rewrite p3 by (simpl; auto 10). vm_compute. reflexivity.
    - rewrite p3 by (simpl; auto 10). vm_compute. reflexivity.
  Qed.
  Lemma sc_differ : param sc3 x3 "par_world2L0" 3 <> param sc2 x2 "par_world2L0" 3 /\ state x3 "q" 1 <> state x2 "q" 0 /\
    param sc3 x3 "par_gravity" 2 = g.
  Proof.
    assert (E1 : param sc3 x3 "par_world2L0" 3 = (1 / 2)%R) by (rewrite p3 by (simpl; auto 10); vm_compute; reflexivity).
    assert (E2 : param sc2 x2 "par_world2L0" 3 = 2%R) by (rewrite p2 by (simpl; auto 10); vm_compute; reflexivity).
    assert (E3 : param sc3 x3 "par_gravity" 2 = g) by (rewrite p3 by (simpl; auto 10); vm_compute; reflexivity).
    split; [rewrite E1, E2; lra|]. split; [|exact E3].
    unfold state. rewrite a3, a2 by (simpl; auto 10). cbn. lra.
  Qed.
End Two.
Lemma sc3_session g : exists r x, session "scara" scara3 sc3 r x /\ forall k len, In (k, len) (keys sc3) -> arg x k = A3 g k.
Proof.
  destruct (built_file _ _ _ sc3_loads sc3_wf) as [r Hr]. destruct (sc3_lens g). 
  exists r, (with_args r (argmap sc3 (A3 g))). apply session_any; auto using sc3_loads, sc3_wf.
Qed.
Lemma sc2_session g : exists r x, session "scara" scara2 sc2 r x /\ forall k len, In (k, len) (keys sc2) -> arg x k = A2 g k.
Proof.
  destruct (built_file _ _ _ sc2_loads sc2_wf) as [r Hr]. destruct (sc2_lens g). 
  exists r, (with_args r (argmap sc2 (A2 g))). apply session_any; auto using sc2_loads, sc2_wf.
Qed.
(* the same robot with other gravity *)
Lemma sc3_gravity g h x y : (forall k len, In (k, len) (keys sc3) -> arg x k = A3 g k) -> (forall k len, In (k, len) (keys sc3) -> arg y k = A3 h k) ->
  same_but_gravity sc3 x sc3 y /\
  (forall a, a < 3 -> param sc3 x "par_gravity" a = if Nat.eqb a 2 then g else 0%R) /\
  (forall a, a < 3 -> param sc3 y "par_gravity" a = if Nat.eqb a 2 then h else 0%R).
Proof.
  intros HX HY.
  assert (EQ : forall k, In k ["q"; "par_DYN"; "par_DHtable"; "par_world2L0"] -> arg x k = arg y k).
  { intros k Hk. assert (Hk' : In k ["q"; "dq"; "ddq"; "par_DYN"; "par_DHtable"; "par_world2L0"; "par_gravity"]) by (clear - Hk; simpl in Hk |- *; tauto).
    destruct (sc3_key k Hk') as [len L]. rewrite (HX _ _ L), (HY _ _ L).
    clear - Hk. simpl in Hk. decompose [or] Hk; subst; try contradiction; reflexivity. }
  split; [|split].
  - split; [reflexivity|]. split.
    + constructor; [apply le_n|apply le_n| |reflexivity| |]; intros; unfold dh, param, state; rewrite EQ by (simpl; auto); try apply same_place_eq; reflexivity.
    + intros. unfold dyn, param. rewrite EQ by (simpl; auto). reflexivity.
  - intros a Ha. destruct (sc3_key "par_gravity") as [len L]; [simpl; auto 10|].
    rewrite (pv_eq sc3 x (A3 g)) by eauto. destruct a as [|[|[|a]]]; [| | |lia]; vm_compute; reflexivity.
  - intros a Ha. destruct (sc3_key "par_gravity") as [len L]; [simpl; auto 10|].
    rewrite (pv_eq sc3 y (A3 h)) by eauto. destruct a as [|[|[|a]]]; [| | |lia]; vm_compute; reflexivity.
Qed.
