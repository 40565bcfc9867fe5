(* A robot whose first joint is elastic, all its joints and its motor turning at constant speed. *)
From Coq Require Import Reals Lra Lia Arith List String Bool ZArith.
From Coquelicot Require Import Coquelicot.
From Verif.Model Require Import Base Robot Yaml Build.
From Verif.Spec Require Import Math Setup Kinematics Dynamics Api Sample Friction Elastic.
From Verif.Proofs Require Import Sums Lin3 Names Shape Load Final Get Sample FrictionMain FrictionToy Elastic.
Import ListNotations.
Open Scope nat_scope.
Open Scope string_scope.

(* the torques that a motion needs *)
Definition need_ext (r0 x : robot) : rvec := fun j =>
  (torque r0 x j - on_joint r0 (fun i => spring r0 x i + coupling r0 x i) j + link_friction r0 x j)%R.
Definition need_u (r0 x : robot) : rvec := fun i =>
  (rmv (numElasticJoints r0) (out x "Mm") (state x "ddx") i + spring r0 x i + coupling r0 x i + motor_friction r0 x i)%R.
Lemma need_ok r0 x : elastic_equations r0 x (need_ext r0 x) (need_u r0 x).
Proof. split; intros; unfold need_ext, need_u; ring. Qed.

(* at constant speed friction takes constant power *)
Lemma lost_const name cfg r0 r rho s t : motion name cfg r0 r rho -> ELASTIC r0 = true ->
  (forall i, state (rho s) "dq" i = state (rho t) "dq" i) -> (forall i, state (rho s) "dx" i = state (rho t) "dx" i) ->
  lost r0 (rho s) = lost r0 (rho t).
Proof.
  intros Hm He Q X.
  assert (P : forall k len, In (k, len) (par_sizes r0) -> forall i, param r0 (rho s) k i = param r0 (rho t) k i)
    by (intros k len Hk i; exact (par_const name cfg r0 r rho t Hm k len i s Hk)).
  destruct (fric_closed _ _ _ _ _ (mo_session _ _ _ _ _ Hm s)) as (A1 & A2 & A3).
  destruct (fric_closed _ _ _ _ _ (mo_session _ _ _ _ _ Hm t)) as (B1 & B2 & B3).
  unfold lost, rdot. f_equal; [f_equal|]; apply rsum_ext; intros i Hi.
  - rewrite Q. f_equal. unfold link_friction, law. destruct (Nat.ltb_spec 0 (Dl_order r0)) as [H|H]; auto.
    rewrite (proj2 (A1 H) i Hi), (proj2 (B1 H) i Hi), Q. unfold fric_law. apply rsum_ext. intros o Ho.
    f_equal. apply (P _ (numJoints r0 * Dl_order r0)). unfold par_sizes. apply in_or_app. right. apply in_or_app. left.
    rewrite (proj2 (Nat.ltb_lt _ _) H). simpl. auto.
  - unfold deflection_rate. rewrite Q, X. f_equal. unfold coupling, law. destruct (Nat.ltb_spec 0 (D_order r0)) as [H|H]; auto.
    rewrite (proj2 (A2 He H) i Hi), (proj2 (B2 He H) i Hi), Q, X. unfold fric_law. apply rsum_ext. intros o Ho.
    f_equal. apply (P _ (numElasticJoints r0 * D_order r0)). apply (el_in r0 He). simpl. auto.
  - rewrite X. f_equal. unfold motor_friction, law. destruct (Nat.ltb_spec 0 (Dm_order r0)) as [H|H]; auto.
    rewrite (proj2 (A3 He H) i Hi), (proj2 (B3 He H) i Hi), X. unfold fric_law. apply rsum_ext. intros o Ho.
    f_equal. apply (P _ (numElasticJoints r0 * Dm_order r0)). apply (el_in r0 He). simpl. auto.
Qed.
Lemma work_exists name cfg r0 r rho : motion name cfg r0 r rho -> ELASTIC r0 = true ->
  (forall i, i < numElasticJoints r0 -> sea_joint r0 i = i) -> exact_angles r0 ->
  (forall s t i, state (rho s) "dq" i = state (rho t) "dq" i) -> (forall s t i, state (rho s) "dx" i = state (rho t) "dx" i) ->
  (forall t, follows_at r0 rho "q" "dq" t /\ follows_at r0 rho "dq" "ddq" t /\
    motors_follow_at r0 rho "x" "dx" t /\ motors_follow_at r0 rho "dx" "ddx" t) ->
  exists W, forall t, is_derive W t (supplied r0 (rho t) (need_ext r0 (rho t)) (need_u r0 (rho t))).
Proof.
  intros Hm He F HX Q X H. exists (fun s => elastic_energy r0 (rho s) + lost r0 (rho 0%R) * s)%R. intros t.
  destruct (H t) as (H1 & H2 & H3 & H4). eapply is_derive_eq.
  - apply (is_derive_plus (fun s => elastic_energy r0 (rho s)) (fun s => lost r0 (rho 0%R) * s)%R).
    + exact (elastic_balance name cfg r0 r rho t Hm He F _ _ HX H1 H2 H3 H4 (need_ok r0 (rho t))).
    + apply (is_derive_scal (fun s => s)). apply is_derive_id.
  - rewrite (lost_const name cfg r0 r rho 0 t Hm He (Q 0%R t) (X 0%R t)). unfold plus, one, scal; simpl. unfold mult; simpl. ring.
Qed.

(* q = (t, 2 t, 3 t), x = 3 t *)
Definition glide (t : R) (k : string) : list R :=
  if String.eqb k "q" then [t; 2 * t; 3 * t]%R else
  if String.eqb k "dq" then [1; 2; 3]%R else
  if String.eqb k "ddq" then [0; 0; 0]%R else
  if String.eqb k "x" then [3 * t]%R else
  if String.eqb k "dx" then [3]%R else
  if String.eqb k "ddx" then [0]%R else toy_args 0 k.
Lemma toy2_exact : exact_angles (toy2_0 (PI / 2)).
Proof.
  assert (G : forall h, (forall a, a = 0%R \/ a = h ->
     (Rabs (cos a) < / 10 ^ 15 -> cos a = 0)%R /\ (Rabs (sin a) < / 10 ^ 15 -> sin a = 0)%R) -> exact_angles (toy2_0 h)).
  { intros h HS k i [[-> (j & Hj & Hi)]|[Hk Hi]] Hf; cbv zeta; apply HS.
    - change (numJoints (toy2_0 h)) with 3 in Hj.
      destruct j as [|[|[|j]]]; try lia; destruct Hi as [-> |[-> Hp]]; vm_compute; auto; try (vm_compute in Hp; discriminate).
    - destruct Hk as [-> | ->]; destruct i as [|[|[|[|[|[|i]]]]]]; try lia; vm_compute; auto. }
  apply G, small_angle.
Qed.
Section Toy.
  Variables (h : R) (r : robot).
  Hypothesis Hr : robot_from_file "toy" (toy2_cfg h) true = Ok r.
  Definition glide_rho (t : R) : robot := with_args r (argmap (toy2_0 h) (glide t)).
  Lemma glide_session t : session "toy" (toy2_cfg h) (toy2_0 h) r (glide_rho t) /\
    forall k len, In (k, len) (keys (toy2_0 h)) -> arg (glide_rho t) k = glide t k.
  Proof. apply session_any; auto using toy2_loads, toy2_wf; lens. Qed.
  Lemma glide_motion : motion "toy" (toy2_cfg h) (toy2_0 h) r glide_rho.
  Proof.
    split.
    - intros t. apply glide_session.
    - intros k len s t Hk. destruct (glide_session s) as [_ A]. destruct (glide_session t) as [_ B].
      assert (Hk' : In (k, len) (keys (toy2_0 h))) by (unfold keys; apply in_or_app; auto).
      rewrite (A k len Hk'), (B k len Hk'). clear A B Hk' Hr. vm_compute in Hk. decompose [or] Hk; try contradiction;
        match goal with E : _ = _ |- _ => injection E as <- <- end; vm_compute; reflexivity.
  Qed.
  Lemma glide_state t k : In k ["q"; "dq"; "ddq"; "x"; "dx"; "ddx"] -> forall i, state (glide_rho t) k i = nth i (glide t k) 0%R.
  Proof.
    intros Hk i. unfold state. destruct (glide_session t) as [_ A].
    assert (Hk' : exists len, In (k, len) (keys (toy2_0 h))).
    { simpl in Hk. decompose [or] Hk; try contradiction; subst; eexists; inkeys. }
    destruct Hk' as [len Hk']. now rewrite (A k len Hk').
  Qed.
  Lemma glide_follows t : follows_at (toy2_0 h) glide_rho "q" "dq" t /\ follows_at (toy2_0 h) glide_rho "dq" "ddq" t /\
    motors_follow_at (toy2_0 h) glide_rho "x" "dx" t /\ motors_follow_at (toy2_0 h) glide_rho "dx" "ddx" t.
  Proof.
    split; [|split; [|split]]; intros i Hi.
    - rewrite (glide_state t "dq") by (simpl; auto). eapply is_derive_ext; [intros s; symmetry; apply (glide_state s "q"); simpl; auto|].
      change (numJoints (toy2_0 h)) with 3 in Hi. destruct i as [|[|[|i]]]; try lia; cbn; auto_derive; auto; ring.
    - rewrite (glide_state t "ddq") by (simpl; auto). eapply is_derive_ext; [intros s; symmetry; apply (glide_state s "dq"); simpl; auto|].
      change (numJoints (toy2_0 h)) with 3 in Hi. destruct i as [|[|[|i]]]; try lia; cbn; auto_derive; auto; ring.
    - rewrite (glide_state t "dx") by (simpl; auto 10). eapply is_derive_ext; [intros s; symmetry; apply (glide_state s "x"); simpl; auto 10|].
      change (numElasticJoints (toy2_0 h)) with 1 in Hi. destruct i as [|i]; try lia; cbn; auto_derive; auto; ring.
    - rewrite (glide_state t "ddx") by (simpl; auto 10). eapply is_derive_ext; [intros s; symmetry; apply (glide_state s "dx"); simpl; auto 10|].
      change (numElasticJoints (toy2_0 h)) with 1 in Hi. destruct i as [|i]; try lia; cbn; auto_derive; auto; ring.
  Qed.
  Lemma glide_params t k : In k ["par_Dl"; "par_D"; "par_Dm"; "par_K"; "par_Mm"] -> forall j, (0 <= param (toy2_0 h) (glide_rho t) k j)%R.
  Proof.
    intros Hk j. assert (Hk' : exists len, In (k, len) (keys (toy2_0 h))).
    { simpl in Hk. decompose [or] Hk; try contradiction; subst; eexists; inkeys. }
    destruct Hk' as [len Hk']. unfold param. destruct (glide_session t) as [_ A]. rewrite (A k len Hk'). clear A Hk' Hr.
    simpl in Hk. decompose [or] Hk; try contradiction; subst.
    + change (0 <= nth j [1; 1; 1; 1; 1; 1]%R 0)%R. do 7 (destruct j as [|j]; [simpl; lra|]). simpl. lra.
    + change (0 <= nth j [1; 1]%R 0)%R. do 3 (destruct j as [|j]; [simpl; lra|]). simpl. lra.
    + change (0 <= nth j [1]%R 0)%R. do 2 (destruct j as [|j]; [simpl; lra|]). simpl. lra.
    + change (0 <= nth j [1; 1]%R 0)%R. do 3 (destruct j as [|j]; [simpl; lra|]). simpl. lra.
    + change (0 <= nth j [1]%R 0)%R. do 2 (destruct j as [|j]; [simpl; lra|]). simpl. lra.
  Qed.
  Lemma glide_stretch : deflection (toy2_0 h) (glide_rho 1) 0 = 2%R /\ deflection_rate (toy2_0 h) (glide_rho 1) 0 = 2%R.
  Proof.
    unfold deflection, deflection_rate. change (sea_joint (toy2_0 h) 0) with 0.
    rewrite !glide_state by (simpl; auto 10). cbn. lra.
  Qed.
End Toy.
Lemma glide_first h i : i < numElasticJoints (toy2_0 h) -> sea_joint (toy2_0 h) i = i.
Proof. change (numElasticJoints (toy2_0 h)) with 1. intros H. replace i with 0 by lia. reflexivity. Qed.
