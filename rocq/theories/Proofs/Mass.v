(* Value of the mass matrix and of the gravity vector; symmetry and definiteness. *)
From Coq Require Import Reals Lra Lia Arith List String Bool ZArith.
From Verif.Model Require Import Base Expr SX Robot Kinematics Dynamics Regressors.
From Verif.Spec Require Import Math.
From Verif.Proofs Require Import Sums Calc Lin3 Frames Pure PureRel Kin Near.
Import ListNotations.
Open Scope nat_scope.
Open Scope string_scope.

Lemma vcomp_rdot u v : rdot 3 (vcomp u) (vcomp v) = dot u v.
Proof. unfold rdot, dot. cbn. ring. Qed.
Lemma vcomp_if (b : bool) u v a : vcomp (if b then u else v) a = if b then vcomp u a else vcomp v a.
Proof. destruct b; auto. Qed.
Lemma vcomp_0 a : vcomp vzero a = 0%R.
Proof. destruct a as [|[|a]]; reflexivity. Qed.
Lemma dot_add_l u v w : dot (vadd u v) w = (dot u w + dot v w)%R.
Proof. unfold dot, vadd; simpl; ring. Qed.
Lemma dot_sc_l c u w : dot (vsc c u) w = (c * dot u w)%R.
Proof. unfold dot, vsc; simpl; ring. Qed.
Lemma dot_add_r u v w : dot w (vadd u v) = (dot w u + dot w v)%R.
Proof. unfold dot, vadd; simpl; ring. Qed.
Lemma dot_sc_r c u w : dot w (vsc c u) = (c * dot w u)%R.
Proof. unfold dot, vsc; simpl; ring. Qed.
Lemma dot_vsum_l n f w : dot (vsum n f) w = rsum n (fun i => dot (f i) w).
Proof. induction n as [|n IH]; simpl; [unfold dot; simpl; ring|]. rewrite dot_add_l, IH. reflexivity. Qed.
Lemma dot_vsum_r n f w : dot w (vsum n f) = rsum n (fun i => dot w (f i)).
Proof. rewrite dot_comm, dot_vsum_l. apply rsum_ext. intros. apply dot_comm. Qed.
Lemma det_Rx c s : det3 (Rx3 c s) = (c * c + s * s)%R. Proof. unfold det3, Rx3; simpl; ring. Qed.
Lemma det_Ry c s : det3 (Ry3 c s) = (c * c + s * s)%R. Proof. unfold det3, Ry3; simpl; ring. Qed.
Lemma det_Rz c s : det3 (Rz3 c s) = (c * c + s * s)%R. Proof. unfold det3, Rz3; simpl; ring. Qed.
Lemma det_kernel A v : det3 A <> 0%R -> mv A v = vzero -> v = vzero.
Proof.
  intros HD H. unfold mv, vzero in H. injection H as Hx Hy Hz.
  assert (forall x y, (det3 A * x)%R = 0%R -> x = y \/ y <> 0%R -> y = 0%R -> x = 0%R) as _ by (intros; nra).
  assert (K : forall x, (det3 A * x = 0)%R -> x = 0%R) by (intros x Hx'; apply Rmult_integral in Hx'; tauto).
  apply v3_eq; simpl; apply K; unfold det3.
  - replace ((m00 A * (m11 A * m22 A - m12 A * m21 A) - m01 A * (m10 A * m22 A - m12 A * m20 A) + m02 A * (m10 A * m21 A - m11 A * m20 A)) * vx v)%R
      with ((m11 A * m22 A - m12 A * m21 A) * (m00 A * vx v + m01 A * vy v + m02 A * vz v) - (m01 A * m22 A - m02 A * m21 A) * (m10 A * vx v + m11 A * vy v + m12 A * vz v) + (m01 A * m12 A - m02 A * m11 A) * (m20 A * vx v + m21 A * vy v + m22 A * vz v))%R by ring.
    rewrite Hx, Hy, Hz. ring.
  - replace ((m00 A * (m11 A * m22 A - m12 A * m21 A) - m01 A * (m10 A * m22 A - m12 A * m20 A) + m02 A * (m10 A * m21 A - m11 A * m20 A)) * vy v)%R
      with (- (m10 A * m22 A - m12 A * m20 A) * (m00 A * vx v + m01 A * vy v + m02 A * vz v) + (m00 A * m22 A - m02 A * m20 A) * (m10 A * vx v + m11 A * vy v + m12 A * vz v) - (m00 A * m12 A - m02 A * m10 A) * (m20 A * vx v + m21 A * vy v + m22 A * vz v))%R by ring.
    rewrite Hx, Hy, Hz. ring.
  - replace ((m00 A * (m11 A * m22 A - m12 A * m21 A) - m01 A * (m10 A * m22 A - m12 A * m20 A) + m02 A * (m10 A * m21 A - m11 A * m20 A)) * vz v)%R
      with ((m10 A * m21 A - m11 A * m20 A) * (m00 A * vx v + m01 A * vy v + m02 A * vz v) - (m00 A * m21 A - m01 A * m20 A) * (m10 A * vx v + m11 A * vy v + m12 A * vz v) + (m00 A * m11 A - m01 A * m10 A) * (m20 A * vx v + m21 A * vy v + m22 A * vz v))%R by ring.
    rewrite Hx, Hy, Hz. ring.
Qed.
Lemma det_mt A : det3 (mt A) = det3 A.
Proof. unfold det3, mt; simpl; ring. Qed.

Section Mass.
  Variable b : robot.
  Let n := numJoints b.
  Variable env : sym -> R.
  Notation ch := (chain_of b env).
  Definition p_dyn (l c : nat) : R := ev env (mdl b "par_DYN") (l * 10 + c) 0.
  Definition inert3 (l : nat) : mtx :=
    M3 (p_dyn l 4) (p_dyn l 5) (p_dyn l 6) (p_dyn l 5) (p_dyn l 7) (p_dyn l 8) (p_dyn l 6) (p_dyn l 8) (p_dyn l 9).
  Definition m_l (l : nat) : R := ev env (mdl b "par_DYN") (l * 10) 0.
  (* columns of the Jacobians of link l (0-based) *)
  Definition jlv (P : vec) (l c : nat) : vec := if Nat.ltb c (S l) then vcol (prismatic b) ch P c else vzero.
  Definition jwv (l c : nat) : vec := if Nat.ltb c (S l) then wcol (prismatic b) ch c else vzero.
  Definition Rl (l : nat) : mtx := FR ch (S l).
  Definition bw (l c : nat) : vec := mv (mt (Rl l)) (jwv l c).

  Lemma jl_v P l a c : jl b env P (S l) a c = vcomp (jlv P l c) a.
  Proof. unfold jl, jlv. rewrite vcomp_if, vcomp_0. reflexivity. Qed.
  Lemma jw_v l a c : jw b env (S l) a c = vcomp (jwv l c) a.
  Proof. unfold jw, jwv. rewrite vcomp_if, vcomp_0. reflexivity. Qed.
  Lemma par_inertia_val l a c : a < 3 -> c < 3 ->
    ev env (par_inertia (mdl b "par_DYN") l) a c = mcomp (inert3 l) a c.
  Proof. intros. destruct a as [|[|[|a]]]; try lia; destruct c as [|[|[|c]]]; try lia; reflexivity. Qed.

  (* A^T R X R^T B for 3-row matrices A, B *)
  Lemma mt5_val A B Rm X i j (f g : nat -> vec) (Ro Xo : mtx) :
    rows A = 3 -> cols Rm = 3 -> rows Rm = 3 -> cols X = 3 ->
    (forall a c, a < 3 -> ev env A a c = vcomp (f c) a) -> (forall a c, a < 3 -> ev env B a c = vcomp (g c) a) ->
    (forall a c, a < 3 -> c < 3 -> ev env Rm a c = mcomp Ro a c) -> (forall a c, a < 3 -> c < 3 -> ev env X a c = mcomp Xo a c) ->
    ev env (mtimes5 (mT A) Rm X (mT Rm) B) i j = dot (mv (mt Ro) (f i)) (mv Xo (mv (mt Ro) (g j))).
  Proof.
    intros H1 H2 H3 H4 HA HB HR HX. unfold ev in *.
    unfold mtimes5, mtimes4, mtimes3. cbn [mtimes el cols rows mT]. rewrite H1, H2, H3, H4. cbn [esum eval].
    rewrite !HA, !HB, !HR, !HX by lia. unfold dot, mv, mt. cbn [vcomp mcomp vx vy vz m00 m01 m02 m10 m11 m12 m20 m21 m22]. ring.
  Qed.
  Lemma mt2_val A B i j (f g : nat -> vec) : rows A = 3 ->
    (forall a c, a < 3 -> ev env A a c = vcomp (f c) a) -> (forall a c, a < 3 -> ev env B a c = vcomp (g c) a) ->
    ev env (mtimes (mT A) B) i j = dot (f i) (g j).
  Proof.
    intros H1 HA HB. unfold ev in *. cbn [mtimes el cols rows mT]. rewrite H1. cbn [esum eval].
    rewrite !HA, !HB by lia. unfold dot. cbn [vcomp]. ring.
  Qed.
  Lemma Jcv_v l a c : l < n -> a < 3 -> ev env (Jcv b l) a c = vcomp (jlv (cpos b env l) l c) a.
  Proof. intros. rewrite Jcv_val by auto. apply jl_v. Qed.
  Lemma Jcw_v l a c : l < n -> a < 3 -> ev env (Jcw b l) a c = vcomp (jwv l c) a.
  Proof. intros. rewrite Jcw_val by auto. apply jw_v. Qed.
  Lemma rot_v l a c : a < 3 -> c < 3 -> ev env (rot_of (T0x b (l + 1))) a c = mcomp (Rl l) a c.
  Proof. intros. rewrite rot_val by auto. unfold Rl. now rewrite Nat.add_1_r. Qed.
  Lemma Jc_dims l : jdims b (Cst_ b l).
  Proof.
    assert (HF : forall O k J, jdims b J -> jdims b (for_ k 0 (jcol b O) J)).
    { intros O k J HJ. apply (for_ind (fun _ => jdims b)); auto. intros; apply jcol_dims; auto. }
    induction l; [repeat split|]. cbn [Cst_]. unfold cstep. apply HF; auto.
  Qed.
  Lemma Jcv_rows l : rows (Jcv b l) = 3.
  Proof. apply (Jc_dims (S l)). Qed.
  Lemma Jcw_rows l : rows (Jcw b l) = 3.
  Proof. apply (Jc_dims (S l)). Qed.

  Definition Mterm (l i j : nat) : R :=
    (m_l l * dot (jlv (cpos b env l) l i) (jlv (cpos b env l) l j) + dot (bw l i) (mv (inert3 l) (bw l j)))%R.
  Lemma Mix_val l i j : l < n -> ev env (Mix b l) i j = Mterm l i j.
  Proof.
    intros Hl. unfold Mix. unfold ev at 1. cbn [madd el eval].
    change (eval env (el (mtimes5 (mT (Jcw b l)) (rot_of (T0x b (l + 1))) (par_inertia (mdl b "par_DYN") l) (mT (rot_of (T0x b (l + 1)))) (Jcw b l)) i j))
      with (ev env (mtimes5 (mT (Jcw b l)) (rot_of (T0x b (l + 1))) (par_inertia (mdl b "par_DYN") l) (mT (rot_of (T0x b (l + 1)))) (Jcw b l)) i j).
    rewrite (mt5_val _ _ _ _ i j (jwv l) (jwv l) (Rl l) (inert3 l)); auto using Jcw_rows, Jcw_v, rot_v, par_inertia_val.
    cbn [scale el eval].
    change (eval env (el (mtimes (mT (Jcv b l)) (Jcv b l)) i j)) with (ev env (mtimes (mT (Jcv b l)) (Jcv b l)) i j).
    rewrite (mt2_val _ _ i j (jlv (cpos b env l) l) (jlv (cpos b env l) l)); auto using Jcv_rows, Jcv_v.
  Qed.
  Lemma Mx_val i j : ev env (Mx b) i j = rsum n (fun l => Mterm l i j).
  Proof.
    unfold Mx. fold n. assert (H : forall k, k <= n -> ev env (fst (MGx b k)) i j = rsum k (fun l => Mterm l i j)).
    { induction k as [|k IH]; intros Hk; [reflexivity|]. cbn [MGx rsum]. rewrite <- IH by lia.
      destruct (MGx b k) as [M G]. cbn [fst]. unfold ev at 1. cbn [madd el eval]. f_equal. apply Mix_val. lia. }
    apply H. lia.
  Qed.
  Definition grav : vec := V3 (ev env (mdl b "par_gravity") 0 0) (ev env (mdl b "par_gravity") 1 0) (ev env (mdl b "par_gravity") 2 0).
  Lemma Gx_val i : rows (mdl b "par_gravity") = 3 ->
    ev env (Gx b) i 0 = rsum n (fun l => - m_l l * dot grav (jlv (cpos b env l) l i))%R.
  Proof.
    intros Hg. unfold Gx. fold n.
    assert (H : forall k, k <= n -> ev env (snd (MGx b k)) i 0 = rsum k (fun l => - m_l l * dot grav (jlv (cpos b env l) l i))%R).
    { induction k as [|k IH]; intros Hk; [reflexivity|]. cbn [MGx rsum]. rewrite <- IH by lia.
      destruct (MGx b k) as [M G]. cbn [snd]. unfold ev at 1. cbn [madd el eval]. f_equal.
      unfold Gix. cbn [mT scale mneg mtimes el cols rows eval]. rewrite Hg. cbn [esum eval].
      pose proof (fun a c => Jcv_v k a c) as HJ. unfold ev in HJ. rewrite !HJ by lia.
      unfold dot, grav, m_l, ev. cbn [vcomp vx vy vz]. unfold par_mass, sc, STD_PAR_LINK. cbn [mat_at el]. cbn [eval]. cbn [mneg mat_at el eval]. ring. }
    apply H. lia.
  Qed.

  Lemma inert_sym l u v : dot u (mv (inert3 l) v) = dot v (mv (inert3 l) u).
  Proof. unfold dot, mv, inert3. cbn. ring. Qed.
  Lemma Mterm_sym l i j : Mterm l i j = Mterm l j i.
  Proof. unfold Mterm. now rewrite dot_comm, inert_sym. Qed.
  Lemma Mx_sym i j : ev env (Mx b) i j = ev env (Mx b) j i.
  Proof. rewrite !Mx_val. apply rsum_ext. intros. apply Mterm_sym. Qed.

  (* quadratic form *)
  Definition jlx (l : nat) (x : nat -> R) : vec := vsum n (fun c => vsc (x c) (jlv (cpos b env l) l c)).
  Definition jwx (l : nat) (x : nat -> R) : vec := vsum n (fun c => vsc (x c) (jwv l c)).
  Definition Mq (l : nat) (x y : nat -> R) : R :=
    (m_l l * dot (jlx l x) (jlx l y) + dot (mv (mt (Rl l)) (jwx l x)) (mv (inert3 l) (mv (mt (Rl l)) (jwx l y))))%R.
  Lemma bilin (F : vec -> vec -> R) (f : nat -> vec) x y :
    (forall u v w, F (vadd u v) w = F u w + F v w)%R -> (forall c u w, F (vsc c u) w = c * F u w)%R -> (forall w, F vzero w = 0%R) ->
    (forall u v w, F w (vadd u v) = F w u + F w v)%R -> (forall c u w, F w (vsc c u) = c * F w u)%R -> (forall w, F w vzero = 0%R) ->
    forall k m, F (vsum k (fun c => vsc (x c) (f c))) (vsum m (fun c => vsc (y c) (f c))) =
      rsum k (fun i => x i * rsum m (fun j => F (f i) (f j) * y j))%R.
  Proof.
    intros A1 A2 A3 B1 B2 B3 k m. induction k as [|k IH]; simpl; [apply A3|].
    rewrite A1, IH, A2. f_equal. f_equal. clear IH. induction m as [|m IH]; simpl; [apply B3|].
    rewrite B1, B2, IH. ring.
  Qed.
  Lemma Mx_quad x y : rquad n (ev env (Mx b)) x y = rsum n (fun l => Mq l x y).
  Proof.
    unfold rquad, rdot, rmv.
    rewrite (rsum_ext n _ (fun i => rsum n (fun l => x i * rsum n (fun j => Mterm l i j * y j))%R)).
    - rewrite rsum_swap. apply rsum_ext. intros l Hl. unfold Mq, jlx, jwx.
      rewrite (bilin dot (jlv (cpos b env l) l)) by (intros; unfold dot, vadd, vsc, vzero; simpl; ring).
      rewrite (bilin (fun u v => dot (mv (mt (Rl l)) u) (mv (inert3 l) (mv (mt (Rl l)) v))) (jwv l))
        by (intros; rewrite ?mv_vadd, ?mv_vsc, ?mv_vzero, ?mv_vadd, ?mv_vsc, ?mv_vzero, ?dot_add_l, ?dot_add_r, ?dot_sc_l, ?dot_sc_r; auto; unfold dot, vzero; simpl; ring).
      rewrite <- rsum_scal, <- rsum_plus. apply rsum_ext. intros i Hi.
      replace (m_l l * (x i * rsum n (fun j => dot (jlv (cpos b env l) l i) (jlv (cpos b env l) l j) * y j)))%R
        with (x i * (m_l l * rsum n (fun j => dot (jlv (cpos b env l) l i) (jlv (cpos b env l) l j) * y j)))%R by ring.
      rewrite <- Rmult_plus_distr_l. f_equal. rewrite <- rsum_scal, <- rsum_plus. apply rsum_ext. intros j Hj.
      unfold Mterm, bw. ring.
    - intros i Hi. rewrite rsum_scal. f_equal.
      rewrite (rsum_ext n _ (fun k => rsum n (fun l => Mterm l i k * y k)%R)).
      + apply rsum_swap.
      + intros k Hk. rewrite Mx_val, rsum_scal_r. reflexivity.
  Qed.

  (* the rotations are invertible even with rounded trigonometry *)
  Lemma cs_pos a : (0 < cz env a * cz env a + sz env a * sz env a)%R.
  Proof. pose proof (cs_near env a). pose proof e30_range. lra. Qed.
  Lemma FR_det i : (0 < det3 (FR ch i))%R.
  Proof.
    induction i as [|i IH].
    - cbn [FR chain_of cR0]. unfold frame_rot. rewrite !det_mm, det_Rx, det_Ry, det_Rz.
      repeat apply Rmult_lt_0_compat; apply cs_pos.
    - cbn [FR]. rewrite !det_mm. repeat apply Rmult_lt_0_compat; auto; cbn [chain_of cA cZ]; rewrite ?det_Rx, ?det_Rz; apply cs_pos.
  Qed.
  Lemma axis_nz j : axis ch j <> vzero.
  Proof.
    intros H. unfold axis in H. apply det_kernel in H; [|pose proof (FR_det (S j)); lra].
    unfold ez, vzero in H. injection H as H. lra.
  Qed.
  Lemma vsum_single k m (f : nat -> vec) : k < m -> (forall i, i < m -> i <> k -> f i = vzero) -> vsum m f = f k.
  Proof.
    intros Hk Hz. assert (A : forall m, m <= k -> (forall i, i < m -> f i = vzero) -> vsum m f = vzero) by (intros; apply vsum_0; auto).
    induction m as [|m IH]; [lia|]. cbn [vsum]. destruct (Nat.eq_dec k m) as [->|N].
    - rewrite A by (auto; intros; apply Hz; lia). apply vadd_0_l.
    - rewrite IH by (auto; try lia; intros; apply Hz; lia). rewrite (Hz m) by lia. apply vadd_0_r.
  Qed.
  Definition form (A : mtx) (v : vec) : R := dot v (mv A v).
  Lemma Mq_self l x : Mq l x x = (m_l l * dot (jlx l x) (jlx l x) + form (inert3 l) (mv (mt (Rl l)) (jwx l x)))%R.
  Proof. reflexivity. Qed.
  Lemma M_psd x : (forall l, l < n -> (0 <= m_l l)%R /\ forall v, (0 <= form (inert3 l) v)%R) ->
    (0 <= rquad n (ev env (Mx b)) x x)%R.
  Proof.
    intros HP. rewrite Mx_quad. apply rsum_nonneg. intros l Hl. rewrite Mq_self. destruct (HP l Hl) as [P1 P2].
    pose proof (Rmult_le_pos _ _ P1 (dot_self_nonneg (jlx l x))). pose proof (P2 (mv (mt (Rl l)) (jwx l x))). lra.
  Qed.
  (* definite as soon as each link has positive mass (prismatic joint) or definite inertia (revolute joint) *)
  Lemma M_pd x : (forall l, l < n -> (0 <= m_l l)%R /\ forall v, (0 <= form (inert3 l) v)%R) ->
    (forall l, l < n -> if prismatic b l then (0 < m_l l)%R else forall v, v <> vzero -> (0 < form (inert3 l) v)%R) ->
    (exists j, j < n /\ x j <> 0%R) -> (0 < rquad n (ev env (Mx b)) x x)%R.
  Proof.
    intros HP HQ HX.
    assert (HF : exists j, j < n /\ x j <> 0%R /\ forall k, k < j -> x k = 0%R).
    { destruct HX as (j & Hj & Hx). revert Hx. revert Hj. induction j as [j IH] using lt_wf_ind. intros Hj Hx.
      assert (D : (exists k, k < j /\ x k <> 0%R) \/ forall k, k < j -> x k = 0%R).
      { clear. induction j as [|j [(k & Hk & Hx)|H]]; [right; intros; lia|left; exists k; split; auto|].
        destruct (Req_dec (x j) 0) as [E|E]; [right|left; exists j; auto].
        intros k Hk. destruct (Nat.eq_dec k j) as [->|]; auto. apply H; lia. }
      destruct D as [(k & Hk & Hxk)|D]; [apply (IH k); auto; lia|exists j; auto]. }
    destruct HF as (j & Hj & Hx & Hk). pose proof (M_psd x HP) as H0. rewrite Mx_quad in *.
    destruct (Rle_lt_or_eq_dec _ _ H0) as [|E]; auto. exfalso.
    assert (Hn : forall l, l < n -> (0 <= Mq l x x)%R).
    { intros l Hl. rewrite Mq_self. destruct (HP l Hl) as [P1 P2].
      pose proof (Rmult_le_pos _ _ P1 (dot_self_nonneg (jlx l x))). pose proof (P2 (mv (mt (Rl l)) (jwx l x))). lra. }
    pose proof (rsum_nonneg_0 n _ Hn (eq_sym E) j Hj) as Z. cbn beta in Z. rewrite Mq_self in Z.
    destruct (HP j Hj) as [P1 P2]. pose proof (Rmult_le_pos _ _ P1 (dot_self_nonneg (jlx j x))) as Q1.
    pose proof (P2 (mv (mt (Rl j)) (jwx j x))) as Q2.
    assert (Z1 : (m_l j * dot (jlx j x) (jlx j x) = 0)%R) by lra.
    assert (Z2 : form (inert3 j) (mv (mt (Rl j)) (jwx j x)) = 0%R) by lra.
    specialize (HQ j Hj). unfold prismatic in HQ.
    destruct (is_P (jtype b j)) eqn:PJ.
    - assert (E1 : jlx j x = vsc (x j) (axis ch j)).
      { unfold jlx. rewrite (vsum_single j); auto.
        - unfold jlv, vcol, prismatic. rewrite PJ, (proj2 (Nat.ltb_lt j (S j))) by lia. reflexivity.
        - intros i Hi Hne. unfold jlv. destruct (Nat.ltb_spec i (S j)).
          + rewrite Hk by lia. apply v3_eq; simpl; ring.
          + apply v3_eq; simpl; ring. }
      apply Rmult_integral in Z1. destruct Z1 as [Z1|Z1]; [lra|]. apply dot_self_0 in Z1. rewrite E1 in Z1.
      apply (axis_nz j). unfold vsc, vzero in Z1. injection Z1 as A B C.
      apply Rmult_integral in A, B, C. apply v3_eq; simpl; tauto.
    - assert (E1 : jwx j x = vsc (x j) (axis ch j)).
      { unfold jwx. rewrite (vsum_single j); auto.
        - unfold jwv, wcol, prismatic. rewrite PJ, (proj2 (Nat.ltb_lt j (S j))) by lia. reflexivity.
        - intros i Hi Hne. unfold jwv. destruct (Nat.ltb_spec i (S j)).
          + rewrite Hk by lia. apply v3_eq; simpl; ring.
          + apply v3_eq; simpl; ring. }
      assert (N : mv (mt (Rl j)) (jwx j x) <> vzero).
      { intros N. apply det_kernel in N; [|rewrite det_mt; pose proof (FR_det (S j)); unfold Rl; lra].
        rewrite E1 in N. apply (axis_nz j). unfold vsc, vzero in N. injection N as A B C.
        apply Rmult_integral in A, B, C. apply v3_eq; simpl; tauto. }
      pose proof (HQ _ N). lra.
  Qed.
End Mass.
