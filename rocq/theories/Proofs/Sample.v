(* The hypotheses of the theorems are met by the sample configuration. *)
From Coq Require Import Reals Lra Lia Arith List String Bool ZArith.
From Coquelicot Require Import Coquelicot.
From Verif.Model Require Import Base Expr SX Robot Yaml Build.
From Verif.Spec Require Import Math Setup Kinematics Dynamics Sample.
From Verif.Proofs Require Import Names Lin3 Shape Dims Load Final Get.
Import ListNotations.
Open Scope nat_scope.
Open Scope string_scope.

Lemma built_file name cfg r0 : robot_from_file name cfg false = Ok r0 -> well_formed r0 ->
  exists r, robot_from_file name cfg true = Ok r.
Proof.
  intros L W. destruct (build_ok r0 (file_loaded _ _ _ L) W) as (b & r & E & _).
  exists r. now rewrite (file_build _ _ _ L).
Qed.

Definition argmap (r0 : robot) (A : string -> list R) : smap (list R) := map (fun kl => (fst kl, A (fst kl))) (keys r0).
Lemma argmap_get r0 A k len : In (k, len) (keys r0) -> mget [] k (argmap r0 A) = A k.
Proof.
  unfold argmap. induction (keys r0) as [|[k' l'] t IH]; simpl; [tauto|]. intros Hk. unfold mget. simpl.
  destruct (String.eqb_spec k k') as [->|N]; auto. destruct Hk as [[= -> _]|Hk]; [congruence|]. apply IH; auto.
Qed.
(* any contents of the argument vectors, of the right lengths, can occur *)
Lemma session_any name cfg r0 r A : robot_from_file name cfg false = Ok r0 -> well_formed r0 ->
  robot_from_file name cfg true = Ok r ->
  (forall k len, In (k, len) (state_sizes r0) -> List.length (A k) = len) ->
  (forall k len, In (k, len) (par_sizes r0) -> List.length (A k) = selected (flags r0 k)) ->
  session name cfg r0 r (with_args r (argmap r0 A)) /\
  forall k len, In (k, len) (keys r0) -> arg (with_args r (argmap r0 A)) k = A k.
Proof.
  intros L W B HS HP.
  assert (HA : forall k len, In (k, len) (keys r0) -> arg (with_args r (argmap r0 A)) k = A k).
  { intros k len Hk. unfold arg. simpl. eapply argmap_get; eauto. }
  split; auto. constructor; auto.
  - intros k len Hk. rewrite (HA k len); [eapply HS; eauto|]. unfold keys. apply in_or_app. auto.
  - intros k len Hk. rewrite (HA k len); [eapply HP; eauto|]. unfold keys. apply in_or_app. auto.
Qed.

(* ---- the sample ---- *)
Lemma toy_loads h : robot_from_file "toy" (toy_cfg h) false = Ok (toy0 h).
Proof. vm_compute. reflexivity. Qed.
Lemma toy_wf h : well_formed (toy0 h).
Proof.
  constructor.
  - apply identifier_check. reflexivity.
  - vm_compute. repeat constructor.
  - intros t. vm_compute. tauto.
  - intros k len Hk. vm_compute in Hk. decompose [or] Hk; try contradiction;
      match goal with E : _ = _ |- _ => injection E as <- <- end; vm_compute; auto.
Qed.
Lemma small_angle a : a = 0%R \/ a = (PI / 2)%R ->
  (Rabs (cos a) < / 10 ^ 15 -> cos a = 0)%R /\ (Rabs (sin a) < / 10 ^ 15 -> sin a = 0)%R.
Proof.
  assert (H1 : (Rabs 1 < / 10 ^ 15)%R -> (1 = 0)%R).
  { rewrite Rabs_R1. intros H. assert (10 ^ 15 = 1000000000000000)%R by ring. rewrite H0 in H. lra. }
  intros [->| ->].
  - rewrite cos_0, sin_0. auto.
  - rewrite cos_PI2, sin_PI2. auto.
Qed.
Lemma toy_exact : exact_angles (toy0 (PI / 2)).
Proof.
  assert (G : forall h, (forall a, a = 0%R \/ a = h ->
     (Rabs (cos a) < / 10 ^ 15 -> cos a = 0)%R /\ (Rabs (sin a) < / 10 ^ 15 -> sin a = 0)%R) -> exact_angles (toy0 h)).
  { intros h HS k i [[-> (j & Hj & Hi)]|[Hk Hi]] Hf; cbv zeta; apply HS.
    - change (numJoints (toy0 h)) with 3 in Hj.
      destruct j as [|[|[|j]]]; try lia; destruct Hi as [-> |[-> Hp]]; vm_compute; auto; try (vm_compute in Hp; discriminate).
    - destruct Hk as [-> | ->]; destruct i as [|[|[|[|[|[|i]]]]]]; try lia; vm_compute; auto. }
  apply G, small_angle.
Qed.

(* a motion of the sample *)
Definition toy_args (t : R) (k : string) : list R :=
  if String.eqb k "q" then [t; t ^ 2; t ^ 3]%R else
  if String.eqb k "dq" then [1; 2 * t; 3 * t ^ 2]%R else
  if String.eqb k "ddq" then [0; 2; 6 * t]%R else
  if String.eqb k "d3q" then [0; 0; 6]%R else
  if String.eqb k "d4q" then [0; 0; 0]%R else
  if String.eqb k "dqr" then [1; 2; 3]%R else
  if String.eqb k "ddqr" then [2; 3; 5]%R else
  if String.eqb k "w" then [1; 0; 2; 0; 3; 0]%R else
  if existsb (String.eqb k) ["x"; "dx"; "ddx"; "ddxr"] then [t] else
  repeat 1%R (selected (flags (toy0 0) k)).
Definition toy_rho (r : robot) (h t : R) : robot := with_args r (argmap (toy0 h) (toy_args t)).

Lemma toy_lens h t :
  (forall k len, In (k, len) (state_sizes (toy0 h)) -> List.length (toy_args t k) = len) /\
  (forall k len, In (k, len) (par_sizes (toy0 h)) -> List.length (toy_args t k) = selected (flags (toy0 h) k)).
Proof.
  split; intros k len Hk; vm_compute in Hk; decompose [or] Hk; try contradiction;
    match goal with E : _ = _ |- _ => injection E as <- <- end; vm_compute; auto.
Qed.
Lemma toy_session h r t : robot_from_file "toy" (toy_cfg h) true = Ok r ->
  session "toy" (toy_cfg h) (toy0 h) r (toy_rho r h t) /\
  forall k len, In (k, len) (keys (toy0 h)) -> arg (toy_rho r h t) k = toy_args t k.
Proof.
  intros E. destruct (toy_lens h t). apply session_any; auto using toy_loads, toy_wf.
Qed.
Lemma toy_state h r t k len i : robot_from_file "toy" (toy_cfg h) true = Ok r ->
  In (k, len) (state_sizes (toy0 h)) -> state (toy_rho r h t) k i = nth i (toy_args t k) 0%R.
Proof.
  intros E Hk. unfold state. destruct (toy_session h r t E) as [_ A]. rewrite (A k len); auto.
  unfold keys. apply in_or_app. auto.
Qed.
Lemma toy_motion h r : robot_from_file "toy" (toy_cfg h) true = Ok r -> motion "toy" (toy_cfg h) (toy0 h) r (toy_rho r h).
Proof.
  intros Hr. split.
  - intros t. apply toy_session; auto.
  - intros k len s t Hk. destruct (toy_session h r s Hr) as [_ A]. destruct (toy_session h r t Hr) as [_ B].
    assert (Hk' : In (k, len) (keys (toy0 h))) by (unfold keys; apply in_or_app; auto).
    rewrite (A k len Hk'), (B k len Hk'). clear A B Hk' Hr. vm_compute in Hk. decompose [or] Hk; try contradiction;
      match goal with E : _ = _ |- _ => injection E as <- <- end; vm_compute; reflexivity.
Qed.
Lemma toy_follows h r : robot_from_file "toy" (toy_cfg h) true = Ok r ->
  follows (toy0 h) (toy_rho r h) "q" "dq" /\ follows (toy0 h) (toy_rho r h) "dq" "ddq" /\
  follows (toy0 h) (toy_rho r h) "ddq" "d3q".
Proof.
  intros E.
  assert (S1 : forall k, In k ["q"; "dq"; "ddq"; "d3q"] -> In (k, 3) (state_sizes (toy0 h))).
  { intros k Hk. vm_compute. simpl in Hk. decompose [or] Hk; subst; auto 10; contradiction. }
  split; [|split]; intros t i Hi; change (numJoints (toy0 h)) with 3 in Hi.
  - rewrite (toy_state h r t "dq" 3) by (auto; apply S1; simpl; auto).
    eapply is_derive_ext; [intros s; symmetry; apply (toy_state h r s "q" 3); auto; apply S1; simpl; auto|].
    destruct i as [|[|[|i]]]; try lia; cbn; auto_derive; auto; ring.
  - rewrite (toy_state h r t "ddq" 3) by (auto; apply S1; simpl; auto).
    eapply is_derive_ext; [intros s; symmetry; apply (toy_state h r s "dq" 3); auto; apply S1; simpl; auto|].
    destruct i as [|[|[|i]]]; try lia; cbn; auto_derive; auto; ring.
  - rewrite (toy_state h r t "d3q" 3) by (auto; apply S1; simpl; auto 10).
    eapply is_derive_ext; [intros s; symmetry; apply (toy_state h r s "ddq" 3); auto; apply S1; simpl; auto 10|].
    destruct i as [|[|[|i]]]; try lia; cbn; auto_derive; auto; ring.
Qed.
Lemma toy_built h : exists r, robot_from_file "toy" (toy_cfg h) true = Ok r.
Proof. eapply built_file; [apply toy_loads|apply toy_wf]. Qed.
Lemma toy_q1 h r : robot_from_file "toy" (toy_cfg h) true = Ok r -> forall t, state (toy_rho r h t) "q" 1 = (t ^ 2)%R.
Proof. intros E t. rewrite (toy_state h r t "q" 3); auto. vm_compute. auto. Qed.
(* inertial parameters of the sample *)
Lemma toy_inertial h r t i : robot_from_file "toy" (toy_cfg h) true = Ok r -> 1 <= i <= 3 ->
  mass (toy0 h) (toy_rho r h t) i = 1%R /\
  forall a c, a < 3 -> c < 3 -> inertia (toy0 h) (toy_rho r h t) i a c = (if Nat.eqb a c then 1%R else 0%R).
Proof.
  intros E Hi. destruct (toy_session h r t E) as [_ A].
  assert (Hk : In ("par_DYN", 30) (keys (toy0 h))) by (vm_compute; auto 20).
  assert (D : forall c, dyn (toy0 h) (toy_rho r h t) i c = nth (10 * (i - 1) + c) (merge (flags (toy0 h) "par_DYN") (arg (toy0 h) "par_DYN") (toy_args t "par_DYN")) 0%R).
  { intros c. unfold dyn, param. rewrite (A _ _ Hk). reflexivity. }
  split.
  - unfold mass. rewrite D. destruct i as [|[|[|[|i]]]]; try lia; vm_compute; reflexivity.
  - intros a c Ha Hc. unfold inertia. rewrite !D.
    destruct i as [|[|[|[|i]]]]; try lia; destruct a as [|[|[|a]]]; try lia; destruct c as [|[|[|c]]]; try lia; vm_compute; reflexivity.
Qed.
Lemma toy_pd h r t i : robot_from_file "toy" (toy_cfg h) true = Ok r -> 1 <= i <= 3 ->
  mass (toy0 h) (toy_rho r h t) i = 1%R /\ psd3 (inertia (toy0 h) (toy_rho r h t) i) /\ pd3 (inertia (toy0 h) (toy_rho r h t) i).
Proof.
  intros E Hi. destruct (toy_inertial h r t i E Hi) as [A B]. split; auto.
  assert (Q : forall x, rquad 3 (inertia (toy0 h) (toy_rho r h t) i) x x = (x 0%nat * x 0%nat + x 1%nat * x 1%nat + x 2%nat * x 2%nat)%R).
  { intros x. unfold rquad, rdot, rmv. cbn [rsum]. rewrite !B by lia. simpl. ring. }
  split.
  - intros x. rewrite Q. nra.
  - intros x (a & Ha & N). rewrite Q. pose proof (Rle_0_sqr (x 0)). pose proof (Rle_0_sqr (x 1)). pose proof (Rle_0_sqr (x 2)). unfold Rsqr in *.
    assert (P : (0 < x a * x a)%R) by (apply Rsqr_pos_lt in N; exact N).
    destruct a as [|[|[|a]]]; try lia; lra.
Qed.
