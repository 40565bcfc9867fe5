(* Forward kinematics and Jacobians: the property theorems. *)
From Coq Require Import Reals Lra Lia Arith List String Bool ZArith.
From Coquelicot Require Import Coquelicot.
From Verif.Model Require Import Base Expr SX Robot Kinematics Dynamics Regressors Yaml Build.
From Verif.Spec Require Import Math Setup Kinematics.
From Verif.Proofs Require Import Sums Calc Lin3 Frames Pure PureRel Names Shape Dims Load Init Final Get Kin KinThm Motion.
Import ListNotations.
Open Scope nat_scope.
Open Scope string_scope.

Lemma agree_trans m n A B C : agree m n A B -> agree m n B C -> agree m n A C.
Proof. intros H1 H2 i j Hi Hj. now rewrite H1, H2. Qed.

Section S.
  Variables (r0 b r' : robot).
  Hypothesis H : sess r0 b r'.
  Let n := numJoints r0.
  Notation env := (renv r0 r').

  Lemma out_T i : 1 <= i <= n -> answers r' ("T_" ++ to_string i) 4 4 /\
    agree 4 4 (out r' ("T_" ++ to_string i)) (ev env (Tlx b (i - 1))).
  Proof. intros Hi. apply (get_out _ _ _ H (fT i)). simpl. now rewrite (n_b _ _ _ H). Qed.
  Lemma out_T0 i : i <= n -> answers r' ("T_0_" ++ to_string i) 4 4 /\
    agree 4 4 (out r' ("T_0_" ++ to_string i)) (ev env (T0x b i)).
  Proof.
    intros Hi. destruct (get_out _ _ _ H (fT0 i)) as [A B]; [simpl; rewrite (n_b _ _ _ H); fold n; lia|].
    split; auto. cbn [val] in B. rewrite (n_b _ _ _ H) in B. fold n in B.
    rewrite (proj2 (Nat.eqb_neq i (n + 1))) in B by lia. exact B.
  Qed.
  Lemma out_T0n : answers r' ("T_0_" ++ to_string (n + 1)) 4 4 /\
    agree 4 4 (out r' ("T_0_" ++ to_string (n + 1))) (ev env (Teex b)).
  Proof.
    destruct (get_out _ _ _ H (fT0 (n + 1))) as [A B]; [simpl; rewrite (n_b _ _ _ H); fold n; lia|].
    split; auto. cbn [val] in B. rewrite (n_b _ _ _ H) in B. fold n in B. now rewrite Nat.eqb_refl in B.
  Qed.
  Lemma out_Tee : answers r' "T_0_ee" 4 4 /\ agree 4 4 (out r' "T_0_ee") (ev env (Teex b)).
  Proof. apply (get_out _ _ _ H fTee I). Qed.
  Lemma out_Tb : answers r' "T_0" 4 4 /\ agree 4 4 (out r' "T_0") (ev env (T0x b 0)).
  Proof. apply (get_out _ _ _ H fTb I). Qed.
  Lemma out_J i : 1 <= i <= n + 1 -> answers r' ("J_" ++ to_string i) 6 n /\
    agree 6 n (out r' ("J_" ++ to_string i)) (ev env (Jx b (i - 1))).
  Proof.
    intros Hi. pose proof (get_out _ _ _ H (fJ i)) as G. simpl in G. rewrite (n_b _ _ _ H) in G. apply G. auto.
  Qed.
  Lemma out_Jee : answers r' "J_ee" 6 n /\ agree 6 n (out r' "J_ee") (ev env (Jeex b)).
  Proof. pose proof (get_out _ _ _ H fJee I) as G. simpl in G. rewrite (n_b _ _ _ H) in G. apply G. Qed.
  Lemma out_Jcm i : 1 <= i <= n -> answers r' ("J_cm_" ++ to_string i) 6 n /\
    agree 6 n (out r' ("J_cm_" ++ to_string i)) (ev env (Jcmx b (i - 1))).
  Proof.
    intros Hi. pose proof (get_out _ _ _ H (fJcm i)) as G. simpl in G. rewrite (n_b _ _ _ H) in G. apply G. auto.
  Qed.

  (* entries through the chain *)
  Lemma T0_pos i a : i <= n -> a < 3 -> out r' ("T_0_" ++ to_string i) a 3 = vcomp (FP (chain_of b env) i) a.
  Proof.
    intros Hi Ha. rewrite (proj2 (out_T0 i Hi)) by lia. destruct (T0x_val b env i) as (_ & E & _). rewrite <- E.
    unfold pos3. now rewrite vcomp_of.
  Qed.
  Lemma T0_rot i a c : i <= n -> a < 3 -> c < 3 -> out r' ("T_0_" ++ to_string i) a c = mcomp (FR (chain_of b env) i) a c.
  Proof.
    intros Hi Ha Hc. rewrite (proj2 (out_T0 i Hi)) by lia. destruct (T0x_val b env i) as (E & _ & _). rewrite <- E.
    unfold rot3. now rewrite mcomp_of.
  Qed.
  Lemma Tee_pos a : a < 3 -> out r' "T_0_ee" a 3 = vcomp (tool b env) a.
  Proof.
    intros Ha. rewrite (proj2 out_Tee) by lia. destruct (Teex_val b env) as (_ & E & _).
    unfold tool. rewrite <- E. unfold pos3. now rewrite vcomp_of.
  Qed.
  Lemma Tee_rot a c : a < 3 -> c < 3 -> out r' "T_0_ee" a c = mcomp (mm (FR (chain_of b env) n) (ee_rot b env)) a c.
  Proof.
    intros Ha Hc. rewrite (proj2 out_Tee) by lia. destruct (Teex_val b env) as (E & _ & _).
    rewrite (n_b _ _ _ H) in E. fold n in E. rewrite <- E. unfold rot3. now rewrite mcomp_of.
  Qed.
  Lemma J_lin i a c : 1 <= i <= n -> a < 3 -> c < n -> out r' ("J_" ++ to_string i) a c = jl b env (FP (chain_of b env) i) i a c.
  Proof.
    intros Hi Ha Hc. rewrite (proj2 (out_J i ltac:(lia))) by lia.
    rewrite Jx_lin by (rewrite ?(n_b _ _ _ H); fold n; lia). now replace (S (i - 1)) with i by lia.
  Qed.
  Lemma J_ang i a c : 1 <= i <= n -> a < 3 -> c < n -> out r' ("J_" ++ to_string i) (3 + a) c = jw b env i a c.
  Proof.
    intros Hi Ha Hc. rewrite (proj2 (out_J i ltac:(lia))) by lia.
    rewrite Jx_ang by (rewrite ?(n_b _ _ _ H); fold n; lia). now replace (S (i - 1)) with i by lia.
  Qed.
  Lemma n_pos : 1 <= n.
  Proof. exact (wf_joints _ (ss_wf _ _ _ H)). Qed.
  Lemma Jn_ee a c : a < 6 -> c < n -> out r' ("J_" ++ to_string (n + 1)) a c = out r' "J_ee" a c.
  Proof.
    intros Ha Hc. rewrite (proj2 (out_J (n + 1) ltac:(lia))) by lia. rewrite (proj2 out_Jee) by lia.
    unfold Jeex. rewrite (n_b _ _ _ H). fold n. now replace (n + 1 - 1) with n by lia.
  Qed.
  Lemma Jee_l a c : exact_angles r0 -> a < 3 -> c < n -> out r' "J_ee" a c = jl b env (tool b env) n a c.
  Proof.
    intros HX Ha Hc. rewrite (proj2 out_Jee) by lia. pose proof n_pos.
    rewrite Jee_lin; rewrite ?(n_b _ _ _ H); auto. apply (FR_is_rot _ _ _ H HX); auto.
  Qed.
  Lemma Jee_a a c : a < 3 -> c < n -> out r' "J_ee" (3 + a) c = jw b env n a c.
  Proof.
    intros Ha Hc. rewrite (proj2 out_Jee) by lia. pose proof n_pos.
    rewrite Jee_ang; rewrite ?(n_b _ _ _ H); auto.
  Qed.
  Lemma Jcm_lin i a c : 1 <= i <= n -> a < 3 -> c < n ->
    out r' ("J_cm_" ++ to_string i) a c = jl b env (cpos b env (i - 1)) i a c.
  Proof.
    intros Hi Ha Hc. rewrite (proj2 (out_Jcm i Hi)) by lia. unfold ev, Jcmx. cbn [vertcat2 el].
    assert (R : rows (Jcv b (i - 1)) = 3).
    { unfold Jcv, Cst_. fold (Cst_ b). cbn [Cst_]. 
      assert (HF : forall O k J, jdims b J -> jdims b (for_ k 0 (jcol b O) J)).
      { intros O k J HJ. apply (for_ind (fun _ => jdims b)); auto. intros; apply jcol_dims; auto. }
      assert (HJ : forall j, jdims b (Cst_ b j)).
      { induction j; [repeat split|]. cbn [Cst_]. unfold cstep. apply HF; auto. }
      apply (HJ (S (i - 1))). }
    rewrite R, (proj2 (Nat.ltb_lt a 3)) by lia.
    pose proof (Jcv_val b env (i - 1) a c ltac:(rewrite (n_b _ _ _ H); fold n; lia) Ha) as E. unfold ev in E. rewrite E.
    now replace (S (i - 1)) with i by lia.
  Qed.
  Lemma Jcm_ang i a c : 1 <= i <= n -> a < 3 -> c < n ->
    out r' ("J_cm_" ++ to_string i) (3 + a) c = jw b env i a c.
  Proof.
    intros Hi Ha Hc. rewrite (proj2 (out_Jcm i Hi)) by lia. unfold ev, Jcmx. cbn [vertcat2 el].
    assert (R : rows (Jcv b (i - 1)) = 3).
    { unfold Jcv, Cst_. fold (Cst_ b). cbn [Cst_]. 
      assert (HF : forall O k J, jdims b J -> jdims b (for_ k 0 (jcol b O) J)).
      { intros O k J HJ. apply (for_ind (fun _ => jdims b)); auto. intros; apply jcol_dims; auto. }
      assert (HJ : forall j, jdims b (Cst_ b j)).
      { induction j; [repeat split|]. cbn [Cst_]. unfold cstep. apply HF; auto. }
      apply (HJ (S (i - 1))). }
    rewrite R, (proj2 (Nat.ltb_ge (3 + a) 3)) by lia. replace (3 + a - 3) with a by lia.
    pose proof (Jcw_val b env (i - 1) a c ltac:(rewrite (n_b _ _ _ H); fold n; lia) Ha) as E. unfold ev in E. rewrite E.
    now replace (S (i - 1)) with i by lia.
  Qed.
End S.

Section Main.
  Variables (name : string) (cfg : ynode) (r0 r : robot).

  Theorem fk_snap r' : session name cfg r0 r r' ->
    (forall i, 1 <= i <= numJoints r0 -> answers r' ("T_" ++ to_string i) 4 4 /\
       agree 4 4 (out r' ("T_" ++ to_string i)) (joint_frame_snap r0 r' (i - 1))) /\
    (answers r' "T_0" 4 4 /\ agree 4 4 (out r' "T_0") (fwd_snap r0 r' 0)) /\
    (forall i, i <= numJoints r0 -> answers r' ("T_0_" ++ to_string i) 4 4 /\
       agree 4 4 (out r' ("T_0_" ++ to_string i)) (fwd_snap r0 r' i)) /\
    (forall nm, nm = "T_0_ee" \/ nm = "T_0_" ++ to_string (numJoints r0 + 1) -> answers r' nm 4 4 /\
       agree 4 4 (out r' nm) (rmul 4 (fwd_snap r0 r' (numJoints r0)) (frame_snap r0 r' "par_Ln2EE"))).
  Proof.
    intros Hs. destruct (session_sess _ _ _ _ _ Hs) as (b & H & _).
    split; [|split; [|split]].
    - intros i Hi. destruct (out_T _ _ _ H i Hi) as [A B]. split; auto. eapply agree_trans; eauto.
      apply Tlx_snap; auto. lia.
    - destruct (out_Tb _ _ _ H) as [A B]. split; auto. eapply agree_trans; eauto. apply T0x_snap; auto. lia.
    - intros i Hi. destruct (out_T0 _ _ _ H i Hi) as [A B]. split; auto. eapply agree_trans; eauto.
      apply T0x_snap; auto.
    - intros nm [->| ->].
      + destruct (out_Tee _ _ _ H) as [A B]. split; auto. eapply agree_trans; eauto. apply Tee_snap; auto.
      + destruct (out_T0n _ _ _ H) as [A B]. split; auto. eapply agree_trans; eauto. apply Tee_snap; auto.
  Qed.
  Theorem fk_exact r' : session name cfg r0 r r' -> exact_angles r0 ->
    (forall i, 1 <= i <= numJoints r0 -> answers r' ("T_" ++ to_string i) 4 4 /\
       agree 4 4 (out r' ("T_" ++ to_string i)) (joint_frame r0 r' (i - 1))) /\
    (answers r' "T_0" 4 4 /\ agree 4 4 (out r' "T_0") (fwd r0 r' 0)) /\
    (forall i, i <= numJoints r0 -> answers r' ("T_0_" ++ to_string i) 4 4 /\
       agree 4 4 (out r' ("T_0_" ++ to_string i)) (fwd r0 r' i)) /\
    (forall nm, nm = "T_0_ee" \/ nm = "T_0_" ++ to_string (numJoints r0 + 1) -> answers r' nm 4 4 /\
       agree 4 4 (out r' nm) (fwd_ee r0 r')).
  Proof.
    intros Hs HX. destruct (fk_snap r' Hs) as (A & B & C & D). destruct (session_sess _ _ _ _ _ Hs) as (b & H & _).
    split; [|split; [|split]].
    - intros i Hi. rewrite <- (joint_exact _ _ _ H HX) by lia. auto.
    - rewrite <- (fwd_exact _ _ _ H HX) by lia. auto.
    - intros i Hi. rewrite <- (fwd_exact _ _ _ H HX) by lia. auto.
    - intros nm Hn. unfold fwd_ee. rewrite <- (fwd_exact _ _ _ H HX), <- (frame_exact _ _ _ H HX "par_Ln2EE") by auto. auto.
  Qed.

  Theorem transforms_rigid r' : session name cfg r0 r r' -> exact_angles r0 ->
    (forall i, 1 <= i <= numJoints r0 -> rigid (out r' ("T_" ++ to_string i))) /\
    (forall i, i <= numJoints r0 + 1 -> rigid (out r' ("T_0_" ++ to_string i))) /\
    rigid (out r' "T_0") /\ rigid (out r' "T_0_ee").
  Proof.
    intros Hs HX. destruct (session_sess _ _ _ _ _ Hs) as (b & H & _).
    assert (HT0 : forall i, i <= numJoints r0 -> rigid (ev (renv r0 r') (T0x b i))).
    { intros i Hi. destruct (T0x_val b (renv r0 r') i) as (E1 & E2 & E3). apply rigid_of; auto. rewrite E1.
      apply (FR_is_rot _ _ _ H HX); auto. }
    assert (HTe : rigid (ev (renv r0 r') (Teex b))).
    { destruct (Teex_val b (renv r0 r')) as (E1 & E2 & E3). apply rigid_of; auto. rewrite E1, (n_b _ _ _ H).
      apply is_rot_mm; [apply (FR_is_rot _ _ _ H HX); auto|]. apply (frame_is_rot _ _ _ H HX); auto. }
    split; [|split; [|split]].
    - intros i Hi. eapply rigid_agree; [apply (out_T _ _ _ H i Hi)|].
      destruct (Tlx_val b (renv r0 r') (i - 1)) as (E1 & E2 & E3). apply rigid_of; auto. rewrite E1.
      destruct (chain_rot _ _ _ H HX) as (_ & A & Z). apply is_rot_mm; [apply A; lia|apply Z; lia].
    - intros i Hi. destruct (Nat.eq_dec i (numJoints r0 + 1)) as [->|N].
      + eapply rigid_agree; [apply (out_T0n _ _ _ H)|auto].
      + eapply rigid_agree; [apply (out_T0 _ _ _ H)|apply HT0]; lia.
    - eapply rigid_agree; [apply (out_Tb _ _ _ H)|]. apply HT0; lia.
    - eapply rigid_agree; [apply (out_Tee _ _ _ H)|auto].
  Qed.
End Main.

(* velocities *)
Section Vel.
  Variables (name : string) (cfg : ynode) (r0 r : robot) (rho : R -> robot) (t : R).
  Hypothesis Hm : motion name cfg r0 r rho.
  Hypothesis HX : exact_angles r0.
  Hypothesis Hq : follows_at r0 rho "q" "dq" t.
  Let n := numJoints r0.
  Notation dq := (state (rho t) "dq").

  Lemma mo_built : exists b, built r0 b r.
  Proof. apply (session_built _ _ _ _ _ (mo_session _ _ _ _ _ Hm t)). Qed.

  Lemma rate_rows b J f : (forall c, c < n -> J c = f c) -> rsum n (fun c => J c * b c)%R = rsum n (fun c => f c * b c)%R.
  Proof. intros E. apply rsum_ext. intros. now rewrite E. Qed.

  Theorem link_velocity i a : 1 <= i <= n -> a < 3 ->
    is_derive (fun s => out (rho s) ("T_0_" ++ to_string i) a 3) t
      (rmv n (out (rho t) ("J_" ++ to_string i)) dq a).
  Proof.
    intros Hi Ha. destruct mo_built as [b HB]. pose proof (mo_sess _ _ _ _ _ _ Hm HB) as HS.
    apply is_derive_ext with (fun s => vcomp (FP (chain_of b (renv r0 (rho s))) i) a).
    { intros s. symmetry. apply (T0_pos _ _ _ (HS s)); auto. lia. }
    unfold rmv. rewrite (rate_rows dq _ (fun c => jl b (E r0 rho t) (FP (chain_of b (E r0 rho t)) i) i a c)).
    - exact (origin_rate name cfg r0 r b rho Hm HB t HX dq Hq i a ltac:(lia)).
    - intros c Hc. unfold E. apply (J_lin _ _ _ (HS t)); auto.
  Qed.
  Lemma hat_comp (w : nat -> R) A a c : a < 3 -> c < 3 ->
    mcomp (mm (hat3 (vec_of w)) (mtx_of A)) a c = rmul 3 (rhat w) A a c.
  Proof.
    intros Ha Hc. destruct a as [|[|[|a]]]; try lia; destruct c as [|[|[|c]]]; try lia;
      cbn; unfold rmul; cbn; ring.
  Qed.
  Theorem link_spin i a c : 1 <= i <= n -> a < 3 -> c < 3 ->
    is_derive (fun s => out (rho s) ("T_0_" ++ to_string i) a c) t
      (rmul 3 (rhat (fun k => rmv n (out (rho t) ("J_" ++ to_string i)) dq (3 + k))) (out (rho t) ("T_0_" ++ to_string i)) a c).
  Proof.
    intros Hi Ha Hc. destruct mo_built as [b HB]. pose proof (mo_sess _ _ _ _ _ _ Hm HB) as HS.
    apply is_derive_ext with (fun s => mcomp (FR (chain_of b (renv r0 (rho s))) i) a c).
    { intros s. symmetry. apply (T0_rot _ _ _ (HS s)); auto. lia. }
    pose proof (is_dM_comp _ _ _ a c (rot_rate name cfg r0 r b rho Hm HB t HX dq Hq i ltac:(lia))) as D.
    eapply is_derive_eq; [exact D|]. rewrite <- hat_comp by auto. unfold E. f_equal. f_equal.
    - f_equal. apply vec_of_ext. intros k Hk. rewrite vcomp_of by auto. unfold rmv.
      symmetry. apply rate_rows. intros j Hj. apply (J_ang _ _ _ (HS t)); auto.
    - symmetry. apply mtx_of_ext. intros x y Hx Hy. apply (T0_rot _ _ _ (HS t)); auto. lia.
  Qed.

  Theorem tool_velocity J a : J = "J_ee" \/ J = "J_" ++ to_string (n + 1) -> a < 3 ->
    is_derive (fun s => out (rho s) "T_0_ee" a 3) t (rmv n (out (rho t) J) dq a).
  Proof.
    intros HJ Ha. destruct mo_built as [b HB]. pose proof (mo_sess _ _ _ _ _ _ Hm HB) as HS.
    pose proof (n_pos _ _ _ (HS t)) as Hn. fold n in Hn.
    assert (HT : forall s, tool b (E r0 rho s) = vadd (FP (chain_of b (E r0 rho s)) n) (mv (FR (chain_of b (E r0 rho s)) n) (ee_pos b (E r0 rho t)))).
    { intros s. unfold tool. rewrite (n_b _ _ _ (HS t)). fold n. rewrite vadd_comm. f_equal. f_equal.
      apply (frame_const name cfg r0 r b rho Hm HB "par_Ln2EE" s t). apply pE. }
    apply is_derive_ext with (fun s => vcomp (tool b (renv r0 (rho s))) a).
    { intros s. symmetry. apply (Tee_pos _ _ _ (HS s)); auto. }
    apply is_derive_ext with (fun s => vcomp (vadd (FP (chain_of b (E r0 rho s)) n) (mv (FR (chain_of b (E r0 rho s)) n) (ee_pos b (E r0 rho t)))) a).
    { intros s. change (renv r0 (rho s)) with (E r0 rho s). now rewrite HT. }
    assert (EJ : forall c, c < n -> out (rho t) J a c = jl b (E r0 rho t) (tool b (E r0 rho t)) n a c).
    { intros c Hc. destruct HJ as [->| ->]; unfold n; rewrite ?(Jn_ee _ _ _ (HS t)) by (auto; lia); apply (Jee_l _ _ _ (HS t)); auto. }
    unfold rmv. rewrite (rate_rows dq _ _ EJ). rewrite HT.
    exact (point_rate name cfg r0 r b rho Hm HB t HX dq Hq n _ a (le_n n)).
  Qed.
  Theorem tool_spin J a c : J = "J_ee" \/ J = "J_" ++ to_string (n + 1) -> a < 3 -> c < 3 ->
    is_derive (fun s => out (rho s) "T_0_ee" a c) t
      (rmul 3 (rhat (fun k => rmv n (out (rho t) J) dq (3 + k))) (out (rho t) "T_0_ee") a c).
  Proof.
    intros HJ Ha Hc. destruct mo_built as [b HB]. pose proof (mo_sess _ _ _ _ _ _ Hm HB) as HS.
    pose proof (n_pos _ _ _ (HS t)) as Hn. fold n in Hn.
    assert (HE : forall s, ee_rot b (renv r0 (rho s)) = ee_rot b (E r0 rho t)).
    { intros s. apply (frame_const name cfg r0 r b rho Hm HB "par_Ln2EE" s t). apply pE. }
    apply is_derive_ext with (fun s => mcomp (mm (FR (chain_of b (E r0 rho s)) n) (ee_rot b (E r0 rho t))) a c).
    { intros s. rewrite <- (HE s). symmetry. apply (Tee_rot _ _ _ (HS s)); auto. }
    pose proof (rot_rate name cfg r0 r b rho Hm HB t HX dq Hq n (le_n n)) as D.
    pose proof (is_dM_comp _ _ _ a c (is_dM_mm _ _ _ _ _ D (is_dM_cst (ee_rot b (E r0 rho t)) t))) as D2.
    eapply is_derive_eq; [exact D2|]. rewrite <- hat_comp by auto. f_equal.
    rewrite mm_0_r, madd_0_r, mm_assoc. f_equal.
    - f_equal. apply vec_of_ext. intros k Hk. rewrite vcomp_of by auto. unfold rmv.
      symmetry. apply rate_rows. intros j Hj. destruct HJ as [->| ->]; unfold n;
        rewrite ?(Jn_ee _ _ _ (HS t)) by (auto; lia); apply (Jee_a _ _ _ (HS t)); auto.
    - symmetry. apply mtx_of_ext. intros x y Hx Hy. apply (Tee_rot _ _ _ (HS t)); auto.
  Qed.

  (* centre of mass of link i *)
  Lemma com_point_val b s i a : built r0 b r -> 1 <= i <= n -> a < 3 ->
    com_point r0 (rho s) i a = vcomp (cpos b (E r0 rho s) (i - 1)) a.
  Proof.
    intros HB Hi Ha. pose proof (mo_sess _ _ _ _ _ _ Hm HB s) as HS.
    destruct (fk_exact _ _ _ _ _ (mo_session _ _ _ _ _ Hm s) HX) as (_ & _ & F & _).
    destruct (F i ltac:(lia)) as [_ F']. unfold com_point, cpos. rewrite <- F' by lia.
    rewrite (T0_pos _ _ _ HS) by (auto; lia). rewrite vcomp_vadd.
    replace (S (i - 1)) with i by lia. unfold E. f_equal.
    assert (EP : forall c, c < 3 -> ev (renv r0 (rho s)) (mdl b "par_DYN") ((i - 1) * 10 + c + 1) 0 = param r0 (rho s) "par_DYN" (10 * (i - 1) + 1 + c)).
    { intros c Hc. unfold ev. rewrite (eval_key _ _ _ HS "par_DYN" (10 * n)); [f_equal; lia|eapply key_DYN; eauto|lia]. }
    unfold com. rewrite !EP by lia.
    rewrite (rsum_ext 3 _ (fun c => mcomp (FR (chain_of b (renv r0 (rho s))) i) a c * param r0 (rho s) "par_DYN" (10 * (i - 1) + 1 + c))%R).
    - destruct a as [|[|[|a]]]; try lia; cbn -[Nat.mul Nat.add]; ring.
    - intros c Hc. rewrite <- F' by lia. rewrite (T0_rot _ _ _ HS) by (auto; lia). reflexivity.
  Qed.
  Theorem com_velocity i a : 1 <= i <= n -> a < 3 ->
    is_derive (fun s => com_point r0 (rho s) i a) t (rmv n (out (rho t) ("J_cm_" ++ to_string i)) dq a).
  Proof.
    intros Hi Ha. destruct mo_built as [b HB]. pose proof (mo_sess _ _ _ _ _ _ Hm HB) as HS.
    assert (HC : forall s, com b (E r0 rho s) (i - 1) = com b (E r0 rho t) (i - 1)).
    { intros s. unfold com, ev. rewrite !(par_const name cfg r0 r b rho Hm HB "par_DYN" (10 * n) _ s t) by (try apply pDYN; lia). reflexivity. }
    apply is_derive_ext with (fun s => vcomp (vadd (FP (chain_of b (E r0 rho s)) i) (mv (FR (chain_of b (E r0 rho s)) i) (com b (E r0 rho t) (i - 1)))) a).
    { intros s. rewrite (com_point_val b s i a HB Hi Ha). unfold cpos. rewrite (HC s). now replace (S (i - 1)) with i by lia. }
    unfold rmv. rewrite (rate_rows dq _ (jl b (E r0 rho t) (cpos b (E r0 rho t) (i - 1)) i a)).
    - unfold cpos. replace (S (i - 1)) with i by lia.
      exact (point_rate name cfg r0 r b rho Hm HB t HX dq Hq i _ a ltac:(lia)).
    - intros c Hc. unfold E. apply (Jcm_lin _ _ _ (HS t)); auto.
  Qed.
  Theorem com_spin i a c : 1 <= i <= n -> a < 3 -> c < n ->
    out (rho t) ("J_cm_" ++ to_string i) (3 + a) c = out (rho t) ("J_" ++ to_string i) (3 + a) c.
  Proof.
    intros Hi Ha Hc. destruct mo_built as [b HB]. pose proof (mo_sess _ _ _ _ _ _ Hm HB) as HS.
    rewrite (Jcm_ang _ _ _ (HS t)), (J_ang _ _ _ (HS t)); auto.
  Qed.
End Vel.

Section Answers.
  Variables (name : string) (cfg : ynode) (r0 r r' : robot).
  Hypothesis Hs : session name cfg r0 r r'.
  Lemma J_answers i : 1 <= i <= numJoints r0 + 1 -> answers r' ("J_" ++ to_string i) 6 (numJoints r0).
  Proof. destruct (session_sess _ _ _ _ _ Hs) as (b & H & _). intros Hi. exact (proj1 (out_J _ _ _ H i Hi)). Qed.
  Lemma Jcm_answers i : 1 <= i <= numJoints r0 -> answers r' ("J_cm_" ++ to_string i) 6 (numJoints r0).
  Proof. destruct (session_sess _ _ _ _ _ Hs) as (b & H & _). intros Hi. exact (proj1 (out_Jcm _ _ _ H i Hi)). Qed.
  Lemma Jee_answers J : J = "J_ee" \/ J = "J_" ++ to_string (numJoints r0 + 1) -> answers r' J 6 (numJoints r0).
  Proof.
    intros [->| ->]; [|apply J_answers; lia]. destruct (session_sess _ _ _ _ _ Hs) as (b & H & _).
    exact (proj1 (out_Jee _ _ _ H)).
  Qed.
End Answers.
