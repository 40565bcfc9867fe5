(* Energy of a robot with elastic joints. *)
From Coq Require Import Reals Lra Lia Arith List String Bool ZArith.
From Coquelicot Require Import Coquelicot.
From Verif.Model Require Import Base Expr SX Robot Yaml Build.
From Verif.Spec Require Import Math Setup Kinematics Dynamics Api Friction Elastic.
From Verif.Proofs Require Import Sums Calc Lin3 Shape Load Final Get Friction FrictionMain Lagrange Control.
Import ListNotations.
Open Scope nat_scope.
Open Scope string_scope.

Lemma is_derive_sum m (f : R -> nat -> R) f' t : (forall i, i < m -> is_derive (fun s => f s i) t (f' i)) ->
  is_derive (fun s => rsum m (f s)) t (rsum m f').
Proof.
  induction m as [|m IH]; intros H; simpl.
  - apply (is_derive_const 0%R).
  - apply (is_derive_plus (fun s => rsum m (f s)) (fun s => f s m)); auto.
Qed.
Lemma is_derive_power k (f : R -> R) l t : is_derive f t l -> is_derive (fun s => f s ^ S k / INR (S k))%R t (f t ^ k * l)%R.
Proof.
  intros H. assert (P : INR (S k) <> 0%R) by (apply not_0_INR; lia).
  pose proof (is_derive_pow f (S k) t l H) as D. change (Nat.pred (S k)) with k in D.
  replace (f t ^ k * l)%R with (/ INR (S k) * (INR (S k) * l * f t ^ k))%R by (field; auto).
  eapply is_derive_ext; [intros s; apply Rmult_comm|]. apply (is_derive_scal (fun s => f s ^ S k)%R). exact D.
Qed.

Section Elastic.
  Variables (name : string) (cfg : ynode) (r0 r : robot) (rho : R -> robot) (t : R).
  Hypothesis Hm : motion name cfg r0 r rho.
  Hypothesis He : ELASTIC r0 = true.
  Let n := numJoints r0.
  Let e := numElasticJoints r0.
  Hypothesis first : forall i, i < e -> sea_joint r0 i = i.


  Lemma e_n : e <= n.
  Proof.
    destruct (session_sess _ _ _ _ _ (mo_session _ _ _ _ _ Hm 0%R)) as (b & S & _).
    pose proof (bs_e _ _ (ss_base _ _ _ S)) as H. rewrite (ss_b _ _ _ S) in H. exact H.
  Qed.
  Lemma par_const k len i s : In (k, len) (par_sizes r0) -> param r0 (rho s) k i = param r0 (rho t) k i.
  Proof. intros Hk. unfold param. now rewrite (mo_par _ _ _ _ _ Hm k len s t Hk). Qed.
  Lemma el_in k len : In (k, len) [("par_K", e * K_order r0); ("par_D", e * D_order r0); ("par_Dm", e * Dm_order r0); ("par_Mm", e)] ->
    In (k, len) (par_sizes r0).
  Proof. intros Hk. unfold par_sizes. rewrite He. apply in_or_app. right. apply in_or_app. right. exact Hk. Qed.
  Lemma Mm_entry s i j : i < e -> j < e -> out (rho s) "Mm" i j = if Nat.eqb i j then param r0 (rho s) "par_Mm" i else 0%R.
  Proof.
    destruct (session_sess _ _ _ _ _ (mo_session _ _ _ _ _ Hm s)) as (b & S & _).
    destruct (Mm_out r0 b (rho s) S He) as [_ V]. exact (V i j).
  Qed.

  Lemma spring_rate : follows_at r0 rho "q" "dq" t -> motors_follow_at r0 rho "x" "dx" t ->
    is_derive (fun s => spring_energy r0 (rho s)) t (rdot e (deflection_rate r0 (rho t)) (spring r0 (rho t))).
  Proof.
    intros Hq Hx. unfold spring_energy. fold e. unfold rdot.
    apply (is_derive_sum e (fun s i => rsum (K_order r0) (fun o =>
      param r0 (rho s) "par_K" (i * K_order r0 + o) * (deflection r0 (rho s) i ^ (2 * o + 2) / INR (2 * o + 2))))%R). intros i Hi.
    assert (V : (deflection_rate r0 (rho t) i * spring r0 (rho t) i
      = rsum (K_order r0) (fun o => param r0 (rho t) "par_K" (i * K_order r0 + o) * (deflection r0 (rho t) i ^ (2 * o + 1) * deflection_rate r0 (rho t) i)))%R).
    { unfold spring, law. destruct (Nat.ltb_spec 0 (K_order r0)) as [H|H].
      - destruct (k_closed _ _ _ _ _ (mo_session _ _ _ _ _ Hm t) He H) as [_ V]. rewrite (V i Hi). unfold spring_law.
        rewrite <- rsum_scal. apply rsum_ext. intros o Ho. unfold deflection. rewrite (first i Hi). ring.
      - replace (K_order r0) with 0 by lia. simpl. ring. }
    rewrite V.
    apply (is_derive_sum (K_order r0) (fun s o =>
      param r0 (rho s) "par_K" (i * K_order r0 + o) * (deflection r0 (rho s) i ^ (2 * o + 2) / INR (2 * o + 2)))%R). intros o Ho.
    eapply is_derive_ext.
    { intros s. symmetry. rewrite (par_const "par_K" (e * K_order r0)) by (apply el_in; simpl; auto). reflexivity. }
    replace (2 * o + 2) with (S (2 * o + 1)) by lia.
    apply (is_derive_scal (fun s => deflection r0 (rho s) i ^ S (2 * o + 1) / INR (S (2 * o + 1)))%R).
    apply is_derive_power. unfold deflection, deflection_rate.
    apply (is_derive_minus (fun s => state (rho s) "x" i) (fun s => state (rho s) "q" (sea_joint r0 i))).
    - apply Hx. exact Hi.
    - apply Hq. rewrite (first i Hi). pose proof e_n. unfold n in *. lia.
  Qed.

  Lemma motor_rate : motors_follow_at r0 rho "dx" "ddx" t ->
    is_derive (fun s => motor_energy r0 (rho s)) t
      (rdot e (state (rho t) "dx") (rmv e (out (rho t) "Mm") (state (rho t) "ddx"))).
  Proof.
    intros Hx. unfold motor_energy. fold e.
    eapply is_derive_ext; [|apply (d_form e (out (rho t) "Mm") (fun s => state (rho s) "dx") (state (rho t) "ddx") t)].
    - intros s. cbv beta. f_equal. unfold rquad, rdot, rmv. apply rsum_ext. intros i Hi. f_equal. apply rsum_ext. intros j Hj.
      rewrite !Mm_entry by auto. rewrite (par_const "par_Mm" e i s) by (apply el_in; simpl; auto). reflexivity.
    - intros i j Hi Hj. rewrite !Mm_entry by auto. destruct (Nat.eqb_spec i j) as [->|N]; [now rewrite Nat.eqb_refl|].
      destruct (Nat.eqb_spec j i); [congruence|reflexivity].
    - exact Hx.
  Qed.

  Lemma joint_power (v dq : rvec) : (forall i, i < e -> sea_joint r0 i < n) ->
    rdot n dq (on_joint r0 v) = rdot e (fun i => dq (sea_joint r0 i)) v.
  Proof.
    intros H. unfold rdot, on_joint. fold e.
    rewrite (rsum_ext n _ (fun j => rsum e (fun i => dq j * (if Nat.eqb (sea_joint r0 i) j then v i else 0))%R)) by (intros; now rewrite rsum_scal).
    rewrite rsum_swap. apply rsum_ext. intros i Hi.
    rewrite (rsum_single n (sea_joint r0 i)); [now rewrite Nat.eqb_refl|auto|].
    intros j Hj N. destruct (Nat.eqb_spec (sea_joint r0 i) j); [congruence|ring].
  Qed.

  Theorem elastic_balance ext u : exact_angles r0 ->
    follows_at r0 rho "q" "dq" t -> follows_at r0 rho "dq" "ddq" t ->
    motors_follow_at r0 rho "x" "dx" t -> motors_follow_at r0 rho "dx" "ddx" t ->
    elastic_equations r0 (rho t) ext u ->
    is_derive (fun s => elastic_energy r0 (rho s)) t (supplied r0 (rho t) ext u - lost r0 (rho t))%R.
  Proof.
    intros HX H1 H2 H3 H4 [EL EM]. unfold elastic_energy.
    eapply is_derive_eq.
    - apply (is_derive_plus (fun s => kinetic r0 (rho s) + potential r0 (rho s))%R (fun s => motor_energy r0 (rho s) + spring_energy r0 (rho s))%R).
      + exact (power_balance name cfg r0 r rho t Hm HX H1 H2).
      + apply (is_derive_plus (fun s => motor_energy r0 (rho s)) (fun s => spring_energy r0 (rho s))).
        * exact (motor_rate H4).
        * exact (spring_rate H1 H3).
    - fold n in EL. fold e in EM.
      assert (A : rdot n (state (rho t) "dq") (torque r0 (rho t)) =
        (rdot n (state (rho t) "dq") ext
         + rdot e (fun i => state (rho t) "dq" (sea_joint r0 i)) (fun i => spring r0 (rho t) i + coupling r0 (rho t) i)
         - rdot n (state (rho t) "dq") (link_friction r0 (rho t)))%R).
      { rewrite <- joint_power by (intros i Hi; rewrite (first i Hi); pose proof e_n; lia).
        unfold rdot. rewrite <- rsum_plus, <- rsum_minus. apply rsum_ext. intros j Hj. rewrite (EL j Hj). ring. }
      unfold plus. simpl. fold n. rewrite A. unfold supplied, lost. fold n e.
      assert (B : rdot e (state (rho t) "dx") (rmv e (out (rho t) "Mm") (state (rho t) "ddx")) =
        rdot e (state (rho t) "dx") (fun i => u i - spring r0 (rho t) i - coupling r0 (rho t) i - motor_friction r0 (rho t) i)%R).
      { unfold rdot. apply rsum_ext. intros i Hi. now rewrite (EM i Hi). }
      rewrite B. unfold rdot, deflection_rate.
      rewrite (rsum_ext e (fun i => state (rho t) "dq" (sea_joint r0 i) * _)%R
        (fun i => state (rho t) "dq" (sea_joint r0 i) * spring r0 (rho t) i + state (rho t) "dq" (sea_joint r0 i) * coupling r0 (rho t) i)%R) by (intros; ring).
      rewrite (rsum_ext e (fun i => state (rho t) "dx" i * (u i - _ - _ - _))%R
        (fun i => state (rho t) "dx" i * u i - state (rho t) "dx" i * spring r0 (rho t) i - state (rho t) "dx" i * coupling r0 (rho t) i
          - state (rho t) "dx" i * motor_friction r0 (rho t) i)%R) by (intros; ring).
      rewrite (rsum_ext e (fun i => (state (rho t) "dx" i - _) * spring _ _ i)%R
        (fun i => state (rho t) "dx" i * spring r0 (rho t) i - state (rho t) "dq" (sea_joint r0 i) * spring r0 (rho t) i)%R) by (intros; ring).
      rewrite (rsum_ext e (fun i => (state (rho t) "dx" i - _) * coupling _ _ i)%R
        (fun i => state (rho t) "dx" i * coupling r0 (rho t) i - state (rho t) "dq" (sea_joint r0 i) * coupling r0 (rho t) i)%R) by (intros; ring).
      rewrite !rsum_minus, rsum_plus. ring.
  Qed.

  Theorem lost_nonneg : friction_nonneg r0 (rho t) -> (0 <= lost r0 (rho t))%R.
  Proof.
    intros (A & B & C). unfold lost. fold n e. pose proof (mo_session _ _ _ _ _ Hm t) as Hs.
    assert (L : (0 <= rdot n (state (rho t) "dq") (link_friction r0 (rho t)))%R).
    { unfold rdot, link_friction, law. destruct (Nat.ltb_spec 0 (Dl_order r0)) as [H|H].
      - exact (power_dl _ _ _ _ _ Hs H A).
      - apply rsum_nonneg. intros. lra. }
    assert (D : (0 <= rdot e (deflection_rate r0 (rho t)) (coupling r0 (rho t)))%R).
    { unfold rdot, coupling, law. destruct (Nat.ltb_spec 0 (D_order r0)) as [H|H].
      - pose proof (power_d _ _ _ _ _ Hs He H B) as P. fold e in P.
        rewrite (rsum_ext e _ (fun i => (state (rho t) "dx" i - state (rho t) "dq" i) * out (rho t) "d" i 0%nat)%R); auto.
        intros i Hi. unfold deflection_rate. now rewrite (first i Hi).
      - apply rsum_nonneg. intros. lra. }
    assert (M : (0 <= rdot e (state (rho t) "dx") (motor_friction r0 (rho t)))%R).
    { unfold rdot, motor_friction, law. destruct (Nat.ltb_spec 0 (Dm_order r0)) as [H|H].
      - exact (power_dm _ _ _ _ _ Hs He H C).
      - apply rsum_nonneg. intros. lra. }
    lra.
  Qed.

  (* energy of springs and motors with non-negative coefficients *)
  Theorem stored_nonneg : (forall j, j < e * K_order r0 -> (0 <= param r0 (rho t) "par_K" j)%R) ->
    (forall i, i < e -> (0 <= param r0 (rho t) "par_Mm" i)%R) ->
    (0 <= spring_energy r0 (rho t))%R /\ (0 <= motor_energy r0 (rho t))%R.
  Proof.
    intros HK HM. split.
    - unfold spring_energy. fold e. apply rsum_nonneg. intros i Hi. apply rsum_nonneg. intros o Ho.
      apply Rmult_le_pos; [apply HK; nia|]. unfold Rdiv. apply Rmult_le_pos.
      + replace (2 * o + 2) with (2 * (o + 1)) by lia. rewrite pow_mult. apply pow_le. apply pow2_ge_0.
      + apply Rlt_le, Rinv_0_lt_compat, lt_0_INR. lia.
    - unfold motor_energy. fold e. apply Rmult_le_pos; [lra|]. unfold rquad, rdot. apply rsum_nonneg. intros i Hi. unfold rmv.
      rewrite (rsum_single e i); auto.
      + rewrite Mm_entry, Nat.eqb_refl by auto. pose proof (HM i Hi). pose proof (Rle_0_sqr (state (rho t) "dx" i)). unfold Rsqr in *. nra.
      + intros j Hj N. rewrite Mm_entry by auto. destruct (Nat.eqb_spec i j); [congruence|ring].
  Qed.
End Elastic.

(* over a stretch of time the energy grows at most by the work supplied from outside *)
Theorem elastic_passive name cfg r0 r rho a b ext u W : motion name cfg r0 r rho -> ELASTIC r0 = true ->
  (forall i, i < numElasticJoints r0 -> sea_joint r0 i = i) -> exact_angles r0 -> (a <= b)%R ->
  (forall t, (a <= t <= b)%R ->
    follows_at r0 rho "q" "dq" t /\ follows_at r0 rho "dq" "ddq" t /\
    motors_follow_at r0 rho "x" "dx" t /\ motors_follow_at r0 rho "dx" "ddx" t /\
    elastic_equations r0 (rho t) (ext t) (u t) /\ friction_nonneg r0 (rho t) /\
    is_derive W t (supplied r0 (rho t) (ext t) (u t))) ->
  (elastic_energy r0 (rho b) - elastic_energy r0 (rho a) <= W b - W a)%R.
Proof.
  intros Hm He F HX Hab H.
  assert (E : (elastic_energy r0 (rho b) - W b <= elastic_energy r0 (rho a) - W a)%R).
  { apply (decreasing (fun s => elastic_energy r0 (rho s) - W s)%R (fun t => - lost r0 (rho t))%R a b Hab).
    - intros t Ht. destruct (H t Ht) as (H1 & H2 & H3 & H4 & EE & _ & D). eapply is_derive_eq.
      + apply (is_derive_minus (fun s => elastic_energy r0 (rho s)) W); [|exact D].
        exact (elastic_balance name cfg r0 r rho t Hm He F (ext t) (u t) HX H1 H2 H3 H4 EE).
      + unfold minus, plus, opp. simpl. ring.
    - intros t Ht. destruct (H t Ht) as (_ & _ & _ & _ & _ & P & _).
      pose proof (lost_nonneg name cfg r0 r rho t Hm He F P). lra. }
  lra.
Qed.
