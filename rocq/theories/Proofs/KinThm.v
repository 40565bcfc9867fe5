(* Forward kinematics: the published transforms are those of the specification. *)
From Coq Require Import Reals Lra Lia Arith List String Bool ZArith.
From Coquelicot Require Import Coquelicot.
From Verif.Model Require Import Base Expr SX Robot Kinematics Dynamics Regressors Yaml Build.
From Verif.Spec Require Import Math Setup Kinematics.
From Verif.Proofs Require Import Sums Calc Lin3 Frames Pure PureRel Names Shape Dims Load Init Final Get Kin.
Import ListNotations.
Open Scope nat_scope.
Open Scope string_scope.

Section Val.
  Variables (r0 b r' : robot).
  Hypothesis H : sess r0 b r'.
  Let Hb : base (cvof r0) b := ss_base _ _ _ H.
  Notation env := (renv r0 r').
  Let n := numJoints r0.

  Lemma n_b : numJoints b = numJoints r0.
  Proof. rewrite (ss_b _ _ _ H). reflexivity. Qed.
  Lemma jt_b : jointsType b = jointsType r0.
  Proof. rewrite (ss_b _ _ _ H). reflexivity. Qed.
  Lemma prism_b j : prismatic b j = prism r0 j.
  Proof. unfold prismatic, jtype. rewrite jt_b. reflexivity. Qed.

  Lemma get_out f : enabled b f ->
    answers r' (name_of f) (vrows b f) (vcols b f) /\
    agree (vrows b f) (vcols b f) (out r' (name_of f)) (ev env (val b f)).
  Proof.
    intros He. destruct (get_value _ _ _ H f He) as (m & G & R & C & V).
    split; [exists m; auto|]. intros i j Hi Hj. unfold out. rewrite G. apply V; auto.
  Qed.

  Lemma In_par0 k len : In (k, len) (par_sizes r0) -> In (k, len) (keys b).
  Proof. intros Hk. rewrite (keys_b _ _ _ H). unfold keys. apply in_app_iff. right. exact Hk. Qed.
  Lemma In_state0 k len : In (k, len) (state_sizes r0) -> In (k, len) (keys b).
  Proof. intros Hk. rewrite (keys_b _ _ _ H). unfold keys. apply in_app_iff. left. exact Hk. Qed.
  Lemma key_DH : In ("par_DHtable", 4 * n) (keys b).
  Proof. apply In_par0. unfold par_sizes. simpl. auto. Qed.
  Lemma key_W : In ("par_world2L0", 6) (keys b).
  Proof. apply In_par0. unfold par_sizes. simpl. auto. Qed.
  Lemma key_E : In ("par_Ln2EE", 6) (keys b).
  Proof. apply In_par0. unfold par_sizes. simpl. auto. Qed.
  Lemma key_g : In ("par_gravity", 3) (keys b).
  Proof. apply In_par0. unfold par_sizes. simpl. auto 10. Qed.
  Lemma key_DYN : In ("par_DYN", 10 * n) (keys b).
  Proof. apply In_par0. unfold par_sizes. simpl. auto 10. Qed.
  Lemma key_st k : In k ["q"; "dq"; "ddq"; "d3q"; "d4q"; "dqr"; "ddqr"] -> In (k, n) (state_keys b).
  Proof. intros Hk. unfold state_keys. rewrite n_b. simpl in *. intuition (subst; auto 10). Qed.
  Lemma eval_state k i : In k ["q"; "dq"; "ddq"; "d3q"; "d4q"; "dqr"; "ddqr"] -> i < n ->
    eval env (el (mdl b k) i 0) = state r' k i.
  Proof.
    intros Hk Hi. pose proof (key_st k Hk) as Hs.
    rewrite (eval_key _ _ _ H k n); auto; [|unfold keys; apply in_app_iff; auto].
    eapply param_state; eauto.
  Qed.

  (* cosine and sine of a parameter *)
  Lemma cz_par k len i : In (k, len) (keys b) -> i < len ->
    cz env (el (mdl b k) i 0) = snap r0 k i (cos (param r0 r' k i)) /\
    sz env (el (mdl b k) i 0) = snap r0 k i (sin (param r0 r' k i)).
  Proof.
    intros Hk Hi. pose proof (eval_key _ _ _ H k len i Hk Hi) as E. rewrite <- E.
    pose proof (ps_el _ _ _ _ (bs_shape _ _ Hb k len Hk) i Hi) as Hel. rewrite Hel in *.
    rewrite (flags_b _ _ _ H) in *. unfold cz, sz, ZIS, snap.
    destruct (flag_set (nth i (flags r0 k) 0%Z)); simpl; auto.
    unfold const_value, EPSILON. simpl. split; destruct (Rlt_dec _ _); reflexivity.
  Qed.
  Lemma thx_val i : i < n -> eval env (sc (thx b i)) = joint_theta r0 r' i.
  Proof.
    intros Hi. unfold thx, joint_theta, dh. rewrite <- prism_b. unfold prismatic.
    assert (E : eval env (el (mdl b "par_DHtable") (i * 4 + 3) 0) = param r0 r' "par_DHtable" (i * 4 + 3)).
    { eapply eval_key; eauto using key_DH. lia. }
    assert (Eq : eval env (el (mdl b "q") i 0) = state r' "q" i) by (apply eval_state; simpl; auto).
    destruct (is_P (jtype b i)); cbn -[Nat.mul Nat.add]; rewrite E; auto. now rewrite Eq.
  Qed.
  Lemma dxx_val i : i < n -> eval env (sc (dx_ b i)) = joint_d r0 r' i.
  Proof.
    intros Hi. unfold dx_, joint_d, dh. rewrite <- prism_b. unfold prismatic.
    assert (E : eval env (el (mdl b "par_DHtable") (i * 4 + 2) 0) = param r0 r' "par_DHtable" (i * 4 + 2)).
    { eapply eval_key; eauto using key_DH. lia. }
    assert (Eq : eval env (el (mdl b "q") i 0) = state r' "q" i) by (apply eval_state; simpl; auto).
    destruct (is_P (jtype b i)); cbn -[Nat.mul Nat.add]; rewrite E; auto. now rewrite Eq.
  Qed.
  (* theta of a revolute joint is never constant *)
  Lemma cz_theta_R i : i < n -> prism r0 i = false ->
    cz env (sc (thx b i)) = cos (joint_theta r0 r' i) /\ sz env (sc (thx b i)) = sin (joint_theta r0 r' i).
  Proof.
    intros Hi Hp. rewrite <- (thx_val i Hi). unfold cz, sz, ZIS.
    assert (E : is_constant (sc (thx b i)) = false).
    { unfold thx. rewrite <- prism_b in Hp. unfold prismatic in Hp. rewrite Hp. cbn -[Nat.mul Nat.add].
      pose proof (key_st "q" ltac:(simpl; auto)) as Hk.
      pose proof (ps_el _ _ _ _ (bs_shape _ _ Hb "q" n (in_or_app _ _ _ (or_introl Hk))) i Hi) as Hel.
      rewrite Hel. rewrite (bs_state _ _ Hb "q" n Hk).
      - apply andb_false_r.
      - apply nth_In. rewrite (ps_fl _ _ _ _ (bs_shape _ _ Hb "q" n (in_or_app _ _ _ (or_introl Hk)))). exact Hi. }
    simpl. rewrite E. auto.
  Qed.
  Lemma cz_theta i : i < n ->
    cz env (sc (thx b i)) = (if prism r0 i then snap r0 "par_DHtable" (i * 4 + 3) (cos (joint_theta r0 r' i)) else cos (joint_theta r0 r' i)) /\
    sz env (sc (thx b i)) = (if prism r0 i then snap r0 "par_DHtable" (i * 4 + 3) (sin (joint_theta r0 r' i)) else sin (joint_theta r0 r' i)).
  Proof.
    intros Hi. destruct (prism r0 i) eqn:Hp; [|apply cz_theta_R; auto].
    unfold thx, joint_theta, dh. rewrite Hp. rewrite <- prism_b in Hp. unfold prismatic in Hp. rewrite Hp.
    apply (cz_par "par_DHtable" (4 * n) (i * 4 + 3) key_DH). lia.
  Qed.

  (* 4x4 matrices from their blocks *)
  Lemma mat4 env' T (A : rmat) : rot3 env' T = mtx_of A -> pos3 env' T = vec_of (fun a => A a 3) -> last_row env' T ->
    A 3 0 = 0%R -> A 3 1 = 0%R -> A 3 2 = 0%R -> A 3 3 = 1%R -> agree 4 4 (ev env' T) A.
  Proof.
    unfold rot3, pos3, mtx_of, vec_of. intros E1 E2 (L0 & L1 & L2 & L3) A0 A1 A2 A3.
    injection E1; intros. injection E2; intros. intros i j Hi Hj.
    destruct i as [|[|[|[|i]]]]; try lia; destruct j as [|[|[|[|j]]]]; try lia; congruence.
  Qed.
  Lemma Tlx_snap i : i < n -> agree 4 4 (ev env (Tlx b i)) (joint_frame_snap r0 r' i).
  Proof.
    intros Hi. destruct (Tlx_val b env i) as (E1 & E2 & E3). unfold chain_of in E1, E2. cbn [cA cZ ca cd] in E1, E2.
    assert (Ha := cz_par "par_DHtable" (4 * n) (i * 4 + 1) key_DH ltac:(lia)). destruct Ha as [Ha1 Ha2].
    destruct (cz_theta i Hi) as [Ht1 Ht2].
    assert (E0 : ev env (mdl b "par_DHtable") (i * 4) 0 = param r0 r' "par_DHtable" (i * 4)).
    { eapply eval_key; eauto using key_DH. lia. }
    apply mat4; auto; unfold joint_frame_snap.
    - rewrite E1, Ha1, Ha2, Ht1, Ht2. unfold mm, Rx3, Rz3, mtx_of, DHcs. cbn -[Nat.mul Nat.add]. apply M3_eq; ring.
    - rewrite E2. unfold lpos. cbn [cA cd ca]. rewrite Ha1, Ha2, E0, dxx_val by auto.
      unfold vadd, mv, Rx3, vec_of, DHcs. cbn -[Nat.mul Nat.add]. apply V3_eq; ring.
  Qed.
  Lemma frame_snap_val k : In (k, 6) (keys b) -> agree 4 4 (ev env (get_transform (mdl b k))) (frame_snap r0 r' k).
  Proof.
    intros Hk. destruct (frame_of env (mdl b k)) as (E1 & E2 & E3).
    destruct (cz_par k 6 3 Hk ltac:(lia)) as [C3 S3]. destruct (cz_par k 6 4 Hk ltac:(lia)) as [C4 S4].
    destruct (cz_par k 6 5 Hk ltac:(lia)) as [C5 S5].
    assert (EP : forall i, i < 6 -> ev env (mdl b k) i 0 = param r0 r' k i) by (intros; eapply eval_key; eauto).
    apply mat4; auto; unfold frame_snap.
    - rewrite E1. unfold frame_rot. rewrite C3, S3, C4, S4, C5, S5. unfold mm, Rx3, Ry3, Rz3, mtx_of, framecs. cbn. apply M3_eq; ring.
    - rewrite E2. unfold frame_pos. rewrite !EP by lia. reflexivity.
  Qed.
  Lemma ev_mtimes env' A B i j : ev env' (mtimes A B) i j = rmul (cols A) (ev env' A) (ev env' B) i j.
  Proof. unfold ev, rmul. cbn [mtimes el]. rewrite eval_esum. reflexivity. Qed.
  Lemma agree_mul k r c A A' B B' : agree r k A A' -> agree k c B B' -> agree r c (rmul k A B) (rmul k A' B').
  Proof. intros HA HB i j Hi Hj. unfold rmul. apply rsum_ext. intros x Hx. rewrite HA, HB; auto. Qed.
  Lemma T0x_snap i : i <= n -> agree 4 4 (ev env (T0x b i)) (fwd_snap r0 r' i).
  Proof.
    induction i as [|i IH]; intros Hi.
    - apply frame_snap_val, key_W.
    - intros x y Hx Hy. cbn [T0x fwd_snap]. rewrite ev_mtimes, cols_T0x.
      apply (agree_mul 4 4 4); auto; [apply IH; lia|apply Tlx_snap; lia].
  Qed.
  Lemma Tee_snap : agree 4 4 (ev env (Teex b)) (rmul 4 (fwd_snap r0 r' n) (frame_snap r0 r' "par_Ln2EE")).
  Proof.
    intros x y Hx Hy. unfold Teex. rewrite ev_mtimes, cols_T0x, n_b.
    apply (agree_mul 4 4 4); auto; [apply T0x_snap; auto|apply frame_snap_val, key_E].
  Qed.

  (* exact angles *)
  Section Exact.
    Hypothesis HX : exact_angles r0.
    Lemma snap_exact k len i : angle_entry r0 k i -> In (k, len) (keys b) -> i < len ->
      snap r0 k i (cos (param r0 r' k i)) = cos (param r0 r' k i) /\
      snap r0 k i (sin (param r0 r' k i)) = sin (param r0 r' k i).
    Proof.
      intros Ha Hk Hi. unfold snap. destruct (flag_set (nth i (flags r0 k) 0%Z)) eqn:F; auto.
      destruct (HX k i Ha F) as [Hc Hs].
      assert (E : param r0 r' k i = nth i (arg r0 k) 0%R).
      { rewrite (keys_b _ _ _ H) in Hk. unfold param. apply merge_unset; auto.
        - rewrite (arg0_len _ _ _ H k len), (flags0_len _ _ _ H k len); auto.
        - eapply ss_len; eauto.
        - rewrite (flags0_len _ _ _ H k len); auto. }
      rewrite E. split; destruct (Rlt_dec _ _); auto; symmetry; auto.
    Qed.
    Lemma joint_exact i : i < n -> joint_frame_snap r0 r' i = joint_frame r0 r' i.
    Proof.
      intros Hi. unfold joint_frame_snap, joint_frame, DHmat, dh. rewrite Nat.add_0_r.
      destruct (snap_exact "par_DHtable" (4 * n) (i * 4 + 1)) as [-> ->]; auto using key_DH; try lia.
      { left. split; auto. exists i. auto. }
      destruct (prism r0 i) eqn:Hp; auto. unfold joint_theta, dh. rewrite Hp.
      destruct (snap_exact "par_DHtable" (4 * n) (i * 4 + 3)) as [-> ->]; auto using key_DH; try lia.
      left. split; auto. exists i. auto.
    Qed.
    Lemma frame_exact k : k = "par_world2L0" \/ k = "par_Ln2EE" -> frame_snap r0 r' k = frame_par r0 r' k.
    Proof.
      intros Hk. assert (Hk' : In (k, 6) (keys b)) by (destruct Hk; subst; auto using key_W, key_E).
      unfold frame_snap, frame_par, framemat.
      destruct (snap_exact k 6 3) as [-> ->]; auto; try lia; [right; auto with arith|].
      destruct (snap_exact k 6 4) as [-> ->]; auto; try lia; [right; auto with arith|].
      destruct (snap_exact k 6 5) as [-> ->]; auto; try lia. right; auto with arith.
    Qed.
    Lemma fwd_exact i : i <= n -> fwd_snap r0 r' i = fwd r0 r' i.
    Proof.
      induction i; intros Hi; cbn [fwd fwd_snap].
      - apply frame_exact; auto.
      - rewrite IHi, joint_exact by lia. reflexivity.
    Qed.

    (* the chain consists of rotations *)
    Lemma unit_cs a : (cos a * cos a + sin a * sin a = 1)%R.
    Proof. pose proof (sin2_cos2 a) as E. unfold Rsqr in E. lra. Qed.
    Lemma unit_par k len i : angle_entry r0 k i -> In (k, len) (keys b) -> i < len ->
      let a := el (mdl b k) i 0 in (cz env a * cz env a + sz env a * sz env a = 1)%R.
    Proof.
      intros Ha Hk Hi. cbv zeta. destruct (cz_par k len i Hk Hi) as [-> ->].
      destruct (snap_exact k len i Ha Hk Hi) as [-> ->]. apply unit_cs.
    Qed.
    Lemma frame_is_rot k : k = "par_world2L0" \/ k = "par_Ln2EE" -> is_rot (frame_rot env (mdl b k)).
    Proof.
      intros Hk. assert (Hk' : In (k, 6) (keys b)) by (destruct Hk; subst; auto using key_W, key_E).
      unfold frame_rot. apply is_rot_mm; [apply is_rot_mm|].
      - apply is_rot_z. apply (unit_par k 6 3); auto; try lia; right; auto with arith.
      - apply is_rot_y. apply (unit_par k 6 4); auto; try lia; right; auto with arith.
      - apply is_rot_x. apply (unit_par k 6 5); auto; try lia; right; auto with arith.
    Qed.
    Lemma chain_rot : rot_chain (chain_of b env) n.
    Proof.
      split; [|split].
      - apply frame_is_rot; auto.
      - intros i Hi. cbn [chain_of cA]. apply is_rot_x. apply (unit_par "par_DHtable" (4 * n)); auto using key_DH; try lia.
        left. split; auto. exists i. auto.
      - intros i Hi. cbn [chain_of cZ]. apply is_rot_z. destruct (cz_theta i Hi) as [-> ->].
        destruct (prism r0 i) eqn:Hp; [|apply unit_cs]. unfold joint_theta, dh. rewrite Hp.
        destruct (snap_exact "par_DHtable" (4 * n) (i * 4 + 3)) as [-> ->]; auto using key_DH, unit_cs; try lia.
        left. split; auto. exists i. auto.
    Qed.
    Lemma FR_is_rot i : i <= n -> is_rot (FR (chain_of b env) i).
    Proof. apply FR_rot, chain_rot. Qed.
  End Exact.
End Val.

(* is_rot as the specification's rotation *)
Lemma rotation_of env T : is_rot (rot3 env T) -> rotation (ev env T).
Proof.
  intros (HT & _ & Hd & _). unfold rotation, rdet3. unfold rot3, mtx_of, mm, mt, mI, det3 in *. cbn in *.
  injection HT; clear HT; intros. split; [|rewrite <- Hd; ring].
  intros i j Hi Hj. unfold rid.
  destruct i as [|[|[|i]]]; try lia; destruct j as [|[|[|j]]]; try lia; cbn; lra.
Qed.
Lemma rigid_of env T : is_rot (rot3 env T) -> last_row env T -> rigid (ev env T).
Proof. intros. split; [apply rotation_of; auto|auto]. Qed.
Lemma rigid_agree A B : agree 4 4 A B -> rigid B -> rigid A.
Proof.
  intros E ((H1 & H2) & H3). split; [split|].
  - intros i j Hi Hj. rewrite <- H1 by auto. apply rsum_ext. intros k Hk. rewrite !E by lia. reflexivity.
  - unfold rdet3 in *. rewrite !E by lia. auto.
  - rewrite !E by lia. auto.
Qed.
