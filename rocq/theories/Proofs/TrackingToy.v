(* The sample robot moves at constant speed while the reference velocity tends to its own. *)
From Coq Require Import Reals Lra Lia Arith List String Bool ZArith.
From Coquelicot Require Import Coquelicot.
From Verif.Model Require Import Base Robot Yaml Build.
From Verif.Spec Require Import Math Setup Kinematics Dynamics Sample Bounds Control Tracking.
From Verif.Proofs Require Import Sums Names Lin3 Shape Dims Load Final Get Motion KinMain Partial Coriolis DynMain RegMain Sample Control ControlToy BoundsToy Bounds Tracking.
Import ListNotations.
Open Scope nat_scope.
Open Scope string_scope.

(* q = u w, dqr = w + exp (- k u) w, with w = (1, 2, 3) *)
Definition trk_args (k u : R) (key : string) : list R :=
  if String.eqb key "q" then [u; 2 * u; 3 * u]%R else
  if String.eqb key "dq" then [1; 2; 3]%R else
  if String.eqb key "ddq" then [0; 0; 0]%R else
  if String.eqb key "dqr" then [1 + exp (- k * u); 2 * (1 + exp (- k * u)); 3 * (1 + exp (- k * u))]%R else
  if String.eqb key "ddqr" then [- k * exp (- k * u); 2 * (- k * exp (- k * u)); 3 * (- k * exp (- k * u))]%R else toy_args 0 key.
Definition trk_rho (r : robot) (h k u : R) : robot := with_args r (argmap (toy0 h) (trk_args k u)).
Lemma trk_lens h k t :
  (forall key len, In (key, len) (state_sizes (toy0 h)) -> List.length (trk_args k t key) = len) /\
  (forall key len, In (key, len) (par_sizes (toy0 h)) -> List.length (trk_args k t key) = selected (flags (toy0 h) key)).
Proof.
  split; intros key len Hk; vm_compute in Hk; decompose [or] Hk; try contradiction;
    match goal with E : _ = _ |- _ => injection E as <- <- end; vm_compute; auto.
Qed.
Section Trk.
  Variables (h k : R) (r : robot).
  Hypothesis Hr : robot_from_file "toy" (toy_cfg h) true = Ok r.
  Lemma trk_session t : session "toy" (toy_cfg h) (toy0 h) r (trk_rho r h k t) /\
    forall key len, In (key, len) (keys (toy0 h)) -> arg (trk_rho r h k t) key = trk_args k t key.
  Proof. destruct (trk_lens h k t). apply session_any; auto using toy_loads, toy_wf. Qed.
  Lemma trk_state t key len i : In (key, len) (state_sizes (toy0 h)) -> state (trk_rho r h k t) key i = nth i (trk_args k t key) 0%R.
  Proof.
    intros Hk. unfold state. destruct (trk_session t) as [_ A]. rewrite (A key len); auto. unfold keys. apply in_or_app. auto.
  Qed.
  Lemma trk_motion : motion "toy" (toy_cfg h) (toy0 h) r (trk_rho r h k).
  Proof.
    split.
    - intros t. apply trk_session.
    - intros key len s t Hk. destruct (trk_session s) as [_ A]. destruct (trk_session t) as [_ B].
      assert (Hk' : In (key, len) (keys (toy0 h))) by (unfold keys; apply in_or_app; auto).
      rewrite (A key len Hk'), (B key len Hk'). clear A B Hk' Hr. vm_compute in Hk. decompose [or] Hk; try contradiction;
        match goal with E : _ = _ |- _ => injection E as <- <- end; vm_compute; reflexivity.
  Qed.
  Lemma trk_follows : follows (toy0 h) (trk_rho r h k) "q" "dq" /\ follows (toy0 h) (trk_rho r h k) "dq" "ddq" /\
    follows (toy0 h) (trk_rho r h k) "dqr" "ddqr".
  Proof.
    split; [|split]; intros t i Hi; change (numJoints (toy0 h)) with 3 in Hi.
    - rewrite (trk_state t "dq" 3) by (apply ctl_in; simpl; auto).
      eapply is_derive_ext; [intros s; symmetry; apply (trk_state s "q" 3), ctl_in; simpl; auto|].
      destruct i as [|[|[|i]]]; try lia; cbn; auto_derive; auto; ring.
    - rewrite (trk_state t "ddq" 3) by (apply ctl_in; simpl; auto).
      eapply is_derive_ext; [intros s; symmetry; apply (trk_state s "dq" 3), ctl_in; simpl; auto|].
      destruct i as [|[|[|i]]]; try lia; cbn; auto_derive; auto; ring.
    - rewrite (trk_state t "ddqr" 3) by (apply ctl_in; simpl; auto 10).
      eapply is_derive_ext; [intros s; symmetry; apply (trk_state s "dqr" 3), ctl_in; simpl; auto 10|].
      destruct i as [|[|[|i]]]; try lia; cbn; auto_derive; auto; ring.
  Qed.
  Lemma trk_inertial t i : 1 <= i <= 3 -> mass (toy0 h) (trk_rho r h k t) i = mass (toy0 h) (toy_rho r h 0) i /\
    forall a c, inertia (toy0 h) (trk_rho r h k t) i a c = inertia (toy0 h) (toy_rho r h 0) i a c.
  Proof.
    intros Hi. destruct (trk_session t) as [_ A]. destruct (toy_session h r 0 Hr) as [_ B].
    assert (Hk : In ("par_DYN", 30) (keys (toy0 h))) by (vm_compute; auto 20).
    assert (D : forall c, dyn (toy0 h) (trk_rho r h k t) i c = dyn (toy0 h) (toy_rho r h 0) i c).
    { intros c. unfold dyn, param. rewrite (A _ _ Hk), (B _ _ Hk). reflexivity. }
    split; [apply D|]. intros a c. now apply inertia_ext.
  Qed.
  Lemma trk_values t i : i < 3 -> state (trk_rho r h k t) "q" i = (INR (S i) * t)%R /\ state (trk_rho r h k t) "dq" i = INR (S i) /\
    state (trk_rho r h k t) "ddq" i = 0%R /\ state (trk_rho r h k t) "dqr" i = (INR (S i) * (1 + exp (- k * t)))%R /\
    state (trk_rho r h k t) "ddqr" i = (INR (S i) * (- k * exp (- k * t)))%R.
  Proof.
    intros Hi. rewrite !(trk_state t _ 3) by (apply ctl_in; simpl; auto 10).
    destruct i as [|[|[|i]]]; try lia; cbn [trk_args String.eqb Ascii.eqb Bool.eqb nth]; simpl INR; repeat split; simpl; ring.
  Qed.
  (* the parameters do not depend on the reference *)
  Lemma trk_pars t key len : In (key, len) (par_sizes (toy0 h)) -> arg (trk_rho r h k t) key = toy_args 0 key.
  Proof.
    intros Hk. destruct (trk_session t) as [_ A]. rewrite (A key len) by (unfold keys; apply in_or_app; auto). clear A Hr.
    vm_compute in Hk. decompose [or] Hk; try contradiction; match goal with E : _ = _ |- _ => injection E as <- <- end; vm_compute; reflexivity.
  Qed.
End Trk.

(* an error that decays while the robot moves obeys the law with the gain k M - C *)
Lemma decaying name cfg r0 r x k : session name cfg r0 r x -> let n := numJoints r0 in let s := velocity_error x in
  (forall i, i < n -> (state x "ddq" i - state x "ddqr" i = - k * s i)%R) ->
  forall i, i < n -> torque r0 x i = tracking_torque r0 x (fun a c => k * out x "M" a c - out x "C" a c)%R i.
Proof.
  intros Hs n s E i Hi. unfold torque, tracking_torque. fold n s.
  assert (A : rmv n (fun a c => k * out x "M" a c - out x "C" a c)%R s i =
    (k * rmv n (out x "M") s i - rmv n (out x "C") (state x "dq") i + rmv n (out x "C") (state x "dqr") i)%R).
  { unfold rmv. rewrite <- rsum_scal. unfold Rminus. rewrite <- rsum_opp, <- !rsum_plus. apply rsum_ext. intros j Hj. unfold s, velocity_error. ring. }
  assert (D : rmv n (out x "M") (state x "ddq") i = (rmv n (out x "M") (state x "ddqr") i - k * rmv n (out x "M") s i)%R).
  { unfold rmv. rewrite <- rsum_scal. unfold Rminus. rewrite <- rsum_opp, <- !rsum_plus. apply rsum_ext. intros j Hj.
    replace (state x "ddq" j) with (state x "ddqr" j + - k * s j)%R by (rewrite <- E by exact Hj; ring). ring. }
  rewrite A, D. ring.
Qed.

Lemma trk_sturdy h k r L0 t : robot_from_file "toy" (toy_cfg h) true = Ok r -> (0 <= t <= 1)%R ->
  limited (toy0 h) (trk_rho r h 0 0) body_pars L0 -> sturdy (toy0 h) (trk_rho r h k t) (Rmax L0 3) 1.
Proof.
  intros Hr Ht [L1 _]. split; [split|split].
  - intros key l Hk Nq. assert (Hp : exists len, In (key, len) (par_sizes (toy0 h))).
    { unfold body_pars in Hk. simpl in Hk. destruct Hk as [<-|[<-|[<-|[]]]]; eexists; vm_compute; auto 20. }
    destruct Hp as [len Hp]. specialize (L1 key l Hk Nq). rewrite (trk_pars h 0 r Hr 0 key len Hp) in L1.
    rewrite (trk_pars h k r Hr t key len Hp). eapply Rle_trans; [exact L1|apply Rmax_l].
  - intros i Hi _. change (numJoints (toy0 h)) with 3 in Hi. rewrite (proj1 (trk_values h k r Hr t i Hi)).
    eapply Rle_trans; [|apply Rmax_r]. destruct i as [|[|[|i]]]; try lia; simpl INR; rewrite Rabs_pos_eq; lra.
  - intros i Hi. change (numJoints (toy0 h)) with 3 in Hi. destruct (trk_inertial h k r Hr t i Hi) as [A Bq]. destruct (toy_pd h r 0 i Hr Hi) as (M & P & _).
    revert A Bq M P. generalize (trk_rho r h k t) (toy_rho r h 0) (toy0 h). intros x y z A Bq M P.
    split; [rewrite A, M; lra|]. intros w. replace (rquad 3 (inertia z x i) w w) with (rquad 3 (inertia z y i) w w); [apply P|].
    unfold rquad, rdot, rmv. apply rsum_ext. intros a Ha. f_equal. apply rsum_ext. intros c Hc. now rewrite Bq.
  - intros i Hi. change (numJoints (toy0 h)) with 3 in Hi. destruct (trk_inertial h k r Hr t i Hi) as [A Bq]. destruct (toy_inertial h r 0 i Hr Hi) as (M & P).
    revert A Bq M P. generalize (trk_rho r h k t) (toy_rho r h 0) (toy0 h). intros x y z A Bq M P.
    destruct (prism z (i - 1)); [rewrite A, M; right; reflexivity|]. intros w. right. unfold rquad, rdot, rmv. cbn [rsum]. rewrite !Bq, !P by lia. simpl. ring.
Qed.

Theorem tracking_met : exists r L rho Kd, let r0 := toy0 (PI / 2) in
  motion "toy" (toy_cfg (PI / 2)) r0 r rho /\
  (forall t, (0 <= t <= 1)%R ->
     follows_at r0 rho "q" "dq" t /\ follows_at r0 rho "dq" "ddq" t /\ follows_at r0 rho "dqr" "ddqr" t /\ sturdy r0 (rho t) L 1 /\
     (forall i, i < 3 -> torque r0 (rho t) i = tracking_torque r0 (rho t) (Kd t) i) /\
     (1 * rdot 3 (velocity_error (rho t)) (velocity_error (rho t)) <= rquad 3 (Kd t) (velocity_error (rho t)) (velocity_error (rho t)))%R /\
     state (rho t) "dq" 1 = 2%R) /\
  velocity_error (rho 0%R) 1 = (-2)%R.
Proof.
  destruct (toy_built (PI / 2)) as [r Hr]. set (h := (PI / 2)%R) in *.
  destruct (limit_exists (toy0 h) (trk_rho r h 0 0) body_pars) as [L0 HL].
  pose proof (proj1 (trk_session h 0 r Hr 0)) as S0. destruct (session_built _ _ _ _ _ S0) as [b HB].
  destruct (inertia_below "toy" (toy_cfg h) (toy0 h) r b HB (Rmax L0 3) 1 Rlt_0_1) as (c & Hc & HC).
  destruct (coriolis_bounded "toy" (toy_cfg h) (toy0 h) r b HB (Rmax L0 3)) as (Bc & HCo).
  assert (N : numJoints (toy0 h) = 3) by reflexivity. rewrite N in HC, HCo.
  set (B6 := (Rmax 0 Bc * 6)%R). assert (P6 : (0 <= B6)%R) by (unfold B6; pose proof (Rmax_l 0 Bc); lra).
  set (k := ((1 + 3 * B6) / c)%R).
  pose proof (trk_motion h k r Hr) as Hm. destruct (trk_follows h k r Hr) as (F1 & F2 & F3).
  pose proof (fun t i => trk_values h k r Hr t i) as V. pose proof (fun t H => trk_sturdy h k r L0 t Hr H HL) as SD.
  exists r, (Rmax L0 3), (trk_rho r h k). revert Hm F1 F2 F3 V SD HC HCo N. clear HL S0 HB. 
  generalize (trk_rho r h k) (toy0 h). intros rho r0 Hm F1 F2 F3 V SD HC HCo N.
  exists (fun t a c => k * out (rho t) "M" a c - out (rho t) "C" a c)%R. cbv zeta.
  split; [exact Hm|]. split.
  - intros t Ht. split; [apply F1|]. split; [apply F2|]. split; [apply F3|]. split; [now apply SD|].
    pose proof (mo_session _ _ _ _ _ Hm t) as Hs. destruct (SD t Ht) as (SL & P1 & P2). rewrite N in P1, P2.
    split.
    { rewrite <- N. apply (decaying _ _ _ _ _ k Hs). rewrite N. intros i Hi. destruct (V t i Hi) as (_ & V2 & V3 & V4 & V5).
      unfold velocity_error. rewrite V2, V3, V4, V5. ring. }
    split; [|now rewrite (proj1 (proj2 (V t 1 ltac:(lia))))].
    set (s := velocity_error (rho t)).
    assert (E : rquad 3 (fun a c => k * out (rho t) "M" a c - out (rho t) "C" a c)%R s s = (k * rquad 3 (out (rho t) "M") s s - rquad 3 (out (rho t) "C") s s)%R).
    { unfold rquad, rdot, rmv. cbn [rsum]. ring. }
    rewrite E. pose proof (HC (rho t) Hs SL P1 P2 s) as Q1.
    assert (Q2 : (Rabs (rquad 3 (out (rho t) "C") s s) <= INR 3 * B6 * rdot 3 s s)%R).
    { apply quad_above; [exact P6|]. intros i j Hi Hj. eapply Rle_trans; [apply (HCo (rho t) Hs SL i j Hi Hj)|].
      assert (W : rsum 3 (fun j => Rabs (state (rho t) "dq" j)) = 6%R).
      { cbn [rsum]. rewrite !(fun i H => proj1 (proj2 (V t i H))) by lia. simpl INR. rewrite !Rabs_pos_eq by lra. ring. }
      rewrite W. unfold B6. pose proof (Rmax_r 0 Bc). lra. }
    pose proof (Rle_abs (rquad 3 (out (rho t) "C") s s)) as Q3. pose proof (rdot_nonneg 3 s) as Q4. replace (INR 3) with 3%R in Q2 by (simpl; ring).
    assert (Pk : (0 <= k)%R) by (unfold k; apply Rmult_le_pos; [lra|left; now apply Rinv_0_lt_compat]).
    assert (Q5 : (k * (c * rdot 3 s s) <= k * rquad 3 (out (rho t) "M") s s)%R) by now apply Rmult_le_compat_l.
    assert (Q6 : (k * (c * rdot 3 s s) = (1 + 3 * B6) * rdot 3 s s)%R) by (unfold k; field; lra). lra.
  - unfold velocity_error. destruct (V 0%R 1 ltac:(lia)) as (_ & -> & _ & -> & _). rewrite Rmult_0_r, exp_0. simpl. ring.
Qed.

Lemma sturdy_mono r0 x L L' m0 : (L <= L')%R -> sturdy r0 x L m0 -> sturdy r0 x L' m0.
Proof.
  intros H ((A & B) & C). split; [|exact C]. split; [intros k l I N; specialize (A k l I N)|intros i Hi P; specialize (B i Hi P)]; lra.
Qed.
Theorem acceleration_met : exists r L r', let r0 := toy0 (PI / 2) in session "toy" (toy_cfg (PI / 2)) r0 r r' /\ sturdy r0 r' L 1 /\ (forall l, (Rabs (nth l (arg r' "par_gravity") 0) <= L)%R) /\ state r' "dq" 1 = 2%R /\ state r' "ddq" 1 = 0%R.
Proof.
  destruct (toy_built (PI / 2)) as [r Hr]. set (h := (PI / 2)%R) in *.
  destruct (limit_exists (toy0 h) (trk_rho r h 0 0) body_pars) as [L0 HL].
  pose proof (trk_sturdy h 0 r L0 0 Hr ltac:(lra) HL) as SD. pose proof (proj1 (trk_session h 0 r Hr 0)) as S.
  destruct (trk_values h 0 r Hr 0 1 ltac:(lia)) as (_ & V2 & V3 & _).
  destruct (list_limit (arg (trk_rho r h 0 0) "par_gravity")) as (L1 & _ & H1).
  exists r, (Rmax (Rmax L0 3) L1), (trk_rho r h 0 0). revert SD S V2 V3 H1. clear HL Hr. generalize (trk_rho r h 0 0) (toy0 h). intros x z SD S V2 V3 H1. cbv zeta.
  split; [exact S|]. split; [apply (sturdy_mono _ _ _ _ _ (Rmax_l _ _) SD)|].
  split; [intros l; eapply Rle_trans; [apply H1|apply Rmax_r]|]. split; [rewrite V2; simpl; ring|exact V3].
Qed.
