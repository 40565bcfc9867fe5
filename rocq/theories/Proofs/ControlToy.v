(* The sample robot under the three control laws. *)
From Coq Require Import Reals Lra Lia Arith List String Bool ZArith.
From Coquelicot Require Import Coquelicot.
From Verif.Model Require Import Base Robot Yaml Build.
From Verif.Spec Require Import Math Setup Kinematics Dynamics Regressor Sample Control.
From Verif.Proofs Require Import Sums Names Lin3 Shape Dims Load Final Get Motion KinMain Partial Coriolis DynMain RegMain Sample Control.
Import ListNotations.
Open Scope nat_scope.
Open Scope string_scope.

(* the inertial parameters a robot has *)
Definition own (r0 r' : robot) : rvec := fun k : nat => let i := S (k / 10) in let J := origin_inertia r0 r' i in
  match k mod 10 with 0 => mass r0 r' i | 1 => (mass r0 r' i * com_of r0 r' i 0%nat)%R | 2 => (mass r0 r' i * com_of r0 r' i 1%nat)%R
  | 3 => (mass r0 r' i * com_of r0 r' i 2%nat)%R | 4 => J 0 0 | 5 => J 0 1 | 6 => J 0 2 | 7 => J 1 1 | 8 => J 1 2 | _ => J 2 2 end.
Lemma own_describes r0 r' : describes r0 r' (own r0 r').
Proof.
  intros i Hi.
  assert (DM : forall c, c < 10 -> (10 * (i - 1) + c) mod 10 = c /\ S ((10 * (i - 1) + c) / 10) = i).
  { intros c Hc. rewrite (Nat.mul_comm 10), Nat.add_comm, Nat.mod_add, Nat.div_add, Nat.mod_small, Nat.div_small by lia. lia. }
  assert (T : forall c, c < 10 -> own r0 r' (10 * (i - 1) + c) = let J := origin_inertia r0 r' i in
    match c with 0 => mass r0 r' i | 1 => (mass r0 r' i * com_of r0 r' i 0%nat)%R | 2 => (mass r0 r' i * com_of r0 r' i 1%nat)%R
    | 3 => (mass r0 r' i * com_of r0 r' i 2%nat)%R | 4 => J 0 0 | 5 => J 0 1 | 6 => J 0 2 | 7 => J 1 1 | 8 => J 1 2 | _ => J 2 2 end).
  { intros c Hc. unfold own. destruct (DM c Hc) as [-> ->]. reflexivity. }
  cbv beta zeta. rewrite !T by lia. repeat match goal with |- _ /\ _ => split end; try reflexivity.
  intros a Ha. cbv beta. rewrite T by lia. destruct a as [|[|[|a]]]; [reflexivity..|lia].
Qed.

(* q = u^2/2 w, dqr = k (1 - u) w + u w, with w = (1, 2, 3) *)
Definition ctl_args (k u : R) (key : string) : list R :=
  if String.eqb key "q" then [u * u / 2; u * u; 3 * (u * u) / 2]%R else
  if String.eqb key "dq" then [u; 2 * u; 3 * u]%R else
  if String.eqb key "ddq" then [1; 2; 3]%R else
  if String.eqb key "dqr" then [k * (1 - u) + u; 2 * (k * (1 - u) + u); 3 * (k * (1 - u) + u)]%R else
  if String.eqb key "ddqr" then [1 - k; 2 * (1 - k); 3 * (1 - k)]%R else toy_args 0 key.
Definition ctl_rho (r : robot) (h k u : R) : robot := with_args r (argmap (toy0 h) (ctl_args k u)).
Lemma ctl_lens h k t :
  (forall key len, In (key, len) (state_sizes (toy0 h)) -> List.length (ctl_args k t key) = len) /\
  (forall key len, In (key, len) (par_sizes (toy0 h)) -> List.length (ctl_args k t key) = selected (flags (toy0 h) key)).
Proof.
  split; intros key len Hk; vm_compute in Hk; decompose [or] Hk; try contradiction;
    match goal with E : _ = _ |- _ => injection E as <- <- end; vm_compute; auto.
Qed.
Lemma inertia_ext r0 x y i : (forall c, dyn r0 x i c = dyn r0 y i c) -> forall a c, inertia r0 x i a c = inertia r0 y i a c.
Proof. intros D a c. unfold inertia. now rewrite !D. Qed.
Section Ctl.
  Variables (h k : R) (r : robot).
  Hypothesis Hr : robot_from_file "toy" (toy_cfg h) true = Ok r.
  Lemma ctl_session t : session "toy" (toy_cfg h) (toy0 h) r (ctl_rho r h k t) /\
    forall key len, In (key, len) (keys (toy0 h)) -> arg (ctl_rho r h k t) key = ctl_args k t key.
  Proof. destruct (ctl_lens h k t). apply session_any; auto using toy_loads, toy_wf. Qed.
  Lemma ctl_state t key len i : In (key, len) (state_sizes (toy0 h)) -> state (ctl_rho r h k t) key i = nth i (ctl_args k t key) 0%R.
  Proof.
    intros Hk. unfold state. destruct (ctl_session t) as [_ A]. rewrite (A key len); auto. unfold keys. apply in_or_app. auto.
  Qed.
  Lemma ctl_motion : motion "toy" (toy_cfg h) (toy0 h) r (ctl_rho r h k).
  Proof.
    split.
    - intros t. apply ctl_session.
    - intros key len s t Hk. destruct (ctl_session s) as [_ A]. destruct (ctl_session t) as [_ B].
      assert (Hk' : In (key, len) (keys (toy0 h))) by (unfold keys; apply in_or_app; auto).
      rewrite (A key len Hk'), (B key len Hk'). clear A B Hk' Hr. vm_compute in Hk. decompose [or] Hk; try contradiction;
        match goal with E : _ = _ |- _ => injection E as <- <- end; vm_compute; reflexivity.
  Qed.
  Lemma ctl_in key : In key ["q"; "dq"; "ddq"; "dqr"; "ddqr"] -> In (key, 3) (state_sizes (toy0 h)).
  Proof. intros Hk. vm_compute. simpl in Hk. decompose [or] Hk; subst; auto 10; contradiction. Qed.
  Lemma ctl_follows : follows (toy0 h) (ctl_rho r h k) "q" "dq" /\ follows (toy0 h) (ctl_rho r h k) "dq" "ddq" /\
    follows (toy0 h) (ctl_rho r h k) "dqr" "ddqr".
  Proof.
    split; [|split]; intros t i Hi; change (numJoints (toy0 h)) with 3 in Hi.
    - rewrite (ctl_state t "dq" 3) by (apply ctl_in; simpl; auto).
      eapply is_derive_ext; [intros s; symmetry; apply (ctl_state s "q" 3), ctl_in; simpl; auto|].
      destruct i as [|[|[|i]]]; try lia; cbn; auto_derive; auto; field.
    - rewrite (ctl_state t "ddq" 3) by (apply ctl_in; simpl; auto).
      eapply is_derive_ext; [intros s; symmetry; apply (ctl_state s "dq" 3), ctl_in; simpl; auto|].
      destruct i as [|[|[|i]]]; try lia; cbn; auto_derive; auto; ring.
    - rewrite (ctl_state t "ddqr" 3) by (apply ctl_in; simpl; auto 10).
      eapply is_derive_ext; [intros s; symmetry; apply (ctl_state s "dqr" 3), ctl_in; simpl; auto 10|].
      destruct i as [|[|[|i]]]; try lia; cbn; auto_derive; auto; ring.
  Qed.
  Lemma ctl_inertial t i : 1 <= i <= 3 -> mass (toy0 h) (ctl_rho r h k t) i = mass (toy0 h) (toy_rho r h 0) i /\
    forall a c, inertia (toy0 h) (ctl_rho r h k t) i a c = inertia (toy0 h) (toy_rho r h 0) i a c.
  Proof.
    intros Hi. destruct (ctl_session t) as [_ A]. destruct (toy_session h r 0 Hr) as [_ B].
    assert (Hk : In ("par_DYN", 30) (keys (toy0 h))) by (vm_compute; auto 20).
    assert (D : forall c, dyn (toy0 h) (ctl_rho r h k t) i c = dyn (toy0 h) (toy_rho r h 0) i c).
    { intros c. unfold dyn, param. rewrite (A _ _ Hk), (B _ _ Hk). reflexivity. }
    split; [apply D|]. intros a c. now apply inertia_ext.
  Qed.
End Ctl.

(* no motion, no Coriolis matrix *)
Lemma still name cfg r0 r r' : session name cfg r0 r r' -> (forall j, j < numJoints r0 -> state r' "dq" j = 0%R) ->
  forall x i, i < numJoints r0 -> rmv (numJoints r0) (out r' "C") x i = 0%R.
Proof.
  intros Hs Z x i Hi. destruct (session_built _ _ _ _ _ Hs) as [b HB]. unfold rmv. apply rsum_0. intros j Hj.
  rewrite (proj1 (C_chr name cfg r0 r b r' Hs HB i j Hi Hj)). rewrite rsum_0; [ring|]. intros l Hl. rewrite Z by auto. ring.
Qed.

(* a robot that starts from rest towards ddq = dqr, with its mass matrix as gain *)
Lemma start_law name cfg r0 r x th : session name cfg r0 r x -> exact_angles r0 -> describes r0 x th ->
  let n := numJoints r0 in
  (forall j, j < n -> state x "dq" j = 0%R) -> (forall j, j < n -> state x "dqr" j = state x "ddq" j) ->
  (forall j, j < n -> state x "ddqr" j = 0%R) ->
  (forall i, i < n -> torque r0 x i = gravity_pd r0 x (out x "M") (fun _ _ => 0%R) (fun j => state x "q" j + state x "ddq" j)%R i) /\
  (forall i, i < n -> torque r0 x i = adaptive_torque r0 x (out x "M") th i).
Proof.
  intros Hs HX HT n Z V V'. pose proof (still _ _ _ _ _ Hs Z) as HC. fold n in HC.
  assert (RE : forall m A y z i, (forall k, k < m -> y k = z k) -> rmv m A y i = rmv m A z i).
  { intros m A y z i E. unfold rmv. apply rsum_ext. intros k Hk. now rewrite E. }
  assert (R0 : forall m A y i, (forall k, k < m -> y k = 0%R) -> rmv m A y i = 0%R).
  { intros m A y i E. unfold rmv. apply rsum_0. intros k Hk. rewrite E by auto. ring. }
  split; intros i Hi; unfold torque, gravity_pd, adaptive_torque; fold n; rewrite (HC _ i Hi).
  - rewrite (RE n (out x "M") (fun j => state x "q" j - (state x "q" j + state x "ddq" j))%R (fun j => 0 - state x "ddq" j)%R) by (intros; ring).
    rewrite rmv_minus. rewrite (R0 n (out x "M") (fun _ => 0%R)) by auto.
    rewrite (R0 n _ (state x "dq")) by auto. ring.
  - pose proof (Yr_id _ _ _ _ _ Hs th HT HX i Hi) as Y. fold n in Y. rewrite Y. rewrite (HC _ i Hi).
    rewrite (RE n (out x "M") (velocity_error x) (fun j => 0 - state x "ddq" j)%R) by (intros j Hj; unfold velocity_error; rewrite Z, V; auto).
    rewrite rmv_minus. rewrite (R0 n (out x "M") (state x "ddqr")) by auto. rewrite (R0 n (out x "M") (fun _ => 0%R)) by auto. ring.
Qed.
Lemma describes_ext r0 x th th' : (forall c, th c = th' c) -> describes r0 x th -> describes r0 x th'.
Proof.
  intros E H i Hi. destruct (H i Hi) as (A & B & C). cbv beta zeta in *.
  split; [rewrite <- E; exact A|]. split; [intros a Ha; rewrite <- E; auto|]. now rewrite <- !E.
Qed.
Lemma id_mv m x c : c < m -> rmv m rid x c = x c.
Proof.
  intros Hc. unfold rmv. rewrite (rsum_single m c).
  - unfold rid. rewrite Nat.eqb_refl. ring.
  - exact Hc.
  - intros j Hj N. unfold rid. destruct (Nat.eqb_spec c j); [congruence|ring].
Qed.
Lemma line_rate (a b : R) : is_derive (fun u => a + u * b)%R 0%R b.
Proof. auto_derive; auto. ring. Qed.
Section Facts.
  Variables (h : R) (r : robot).
  Hypothesis Hr : robot_from_file "toy" (toy_cfg h) true = Ok r.
  Lemma ctl_start : let x := ctl_rho r h 1 0 in
    (forall j, j < 3 -> state x "dq" j = 0%R) /\ (forall j, j < 3 -> state x "dqr" j = state x "ddq" j) /\
    (forall j, j < 3 -> state x "ddqr" j = 0%R) /\ velocity_error x 1 = (-2)%R.
  Proof.
    assert (St : forall key i, In key ["q"; "dq"; "ddq"; "dqr"; "ddqr"] -> state (ctl_rho r h 1 0) key i = nth i (ctl_args 1 0 key) 0%R).
    { intros key i Hk. apply (ctl_state h 1 r Hr 0 key 3). now apply ctl_in. }
    cbv zeta. revert St. generalize (ctl_rho r h 1 0). intros x St. unfold velocity_error. split; [|split; [|split]].
    - intros j Hj. rewrite (St "dq" j) by (simpl; auto). destruct j as [|[|[|j]]]; try lia; cbn; ring.
    - intros j Hj. rewrite (St "dqr" j), (St "ddq" j) by (simpl; auto 10). destruct j as [|[|[|j]]]; try lia; cbn; ring.
    - intros j Hj. rewrite (St "ddqr" j) by (simpl; auto 10). destruct j as [|[|[|j]]]; try lia; cbn; ring.
    - rewrite (St "dq" 1), (St "dqr" 1) by (simpl; auto 10). cbn. ring.
  Qed.
  Lemma ctl_pd t i : 1 <= i <= 3 -> let x := ctl_rho r h 1 t in
    (0 < mass (toy0 h) x i)%R /\ psd3 (inertia (toy0 h) x i) /\ pd3 (inertia (toy0 h) x i).
  Proof.
    intros Hi. cbv zeta. destruct (ctl_inertial h 1 r Hr t i Hi) as [A B]. destruct (toy_pd h r 0 i Hr Hi) as (M & P & Q).
    revert A B M P Q. generalize (ctl_rho r h 1 t) (toy_rho r h 0) (toy0 h). intros x y z A B M P Q.
    assert (E : forall w, rquad 3 (inertia z x i) w w = rquad 3 (inertia z y i) w w).
    { intros w. unfold rquad, rdot, rmv. apply rsum_ext. intros a Ha. f_equal. apply rsum_ext. intros c Hc. now rewrite B. }
    split; [rewrite A, M; lra|]. split; [intros w; rewrite E; apply P|intros w Hw; rewrite E; apply Q; auto].
  Qed.
End Facts.
