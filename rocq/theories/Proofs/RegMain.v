(* The regressor identities. *)
From Coq Require Import Reals Lra Lia Arith List String Bool ZArith FunctionalExtensionality.
From Coquelicot Require Import Coquelicot.
From Verif.Model Require Import Base Expr SX Robot Kinematics Dynamics Regressors Yaml Build.
From Verif.Spec Require Import Math Setup Kinematics Dynamics Regressor.
From Verif.Proofs Require Import Sums Calc Rel Lin3 Frames Pure PureRel Maps Names Shape Dims Sizes Deps BuildEq Load Init Final Closed Get Kin KinThm Motion KinMain Smooth Rates Partial Coriolis Mass DynMain Energy Lagrange Regress RegEntries.
Import ListNotations.
Open Scope nat_scope.
Open Scope string_scope.

Section PolyMB.
  Variables (cv : cvals) (b : robot).
  Hypothesis Hb : base cv b.
  Let n := numJoints b.
  Lemma val_QP f : core f = true -> f <> fJeepinv -> enabled b f -> mrel QP (vrows b f) (vcols b f) (val b f) (val b f).
  Proof.
    intros Hc Hp He. destruct (val_dims _ b Hb f He) as [A B C]. constructor; auto.
    intros i j Hi Hj. unfold QP. eapply core_poly; eauto.
  Qed.
  Lemma J_QP l : l < n -> mrel QP 6 n (Jx b l) (Jx b l).
  Proof.
    intros Hl. pose proof (val_QP (fJ (l + 1)) eq_refl ltac:(discriminate)) as H. cbn [val vrows vcols enabled] in H.
    rewrite Nat.add_sub in H. apply H. lia.
  Qed.
  Lemma T_QP l : l < n -> mrel QP 4 4 (T0x b (l + 1)) (T0x b (l + 1)).
  Proof.
    intros Hl. pose proof (val_QP (fT0 (l + 1)) eq_refl ltac:(discriminate)) as H. cbn [val vrows vcols enabled] in H. fold n in H.
    rewrite (proj2 (Nat.eqb_neq (l + 1) (n + 1))) in H by lia. apply H. lia.
  Qed.
  Lemma Jv_QP l : l < n -> mrel QP 3 n (Jvx b l) (Jvx b l).
  Proof.
    intros Hl. unfold Jvx. fold n. pose proof (mr_sub QP 6 n _ _ 0 3 0 n (J_QP l Hl) ltac:(lia) ltac:(lia)) as H.
    rewrite (Nat.sub_0_r n) in H. exact H.
  Qed.
  Lemma Jw_QP l : l < n -> mrel QP 3 n (Jwx b l) (Jwx b l).
  Proof.
    intros Hl. unfold Jwx. fold n. pose proof (mr_sub QP 6 n _ _ 3 6 0 n (J_QP l Hl) ltac:(lia) ltac:(lia)) as H.
    rewrite (Nat.sub_0_r n) in H. exact H.
  Qed.
  Lemma R_QP l : l < n -> mrel QP 3 3 (R0x b l) (R0x b l).
  Proof. intros Hl. apply (mr_sub QP 4 4 _ _ 0 3 0 3 (T_QP l Hl)); lia. Qed.
  Lemma MB_QP l c : l < n -> c < 10 -> mrel QP n n (MB b l c) (MB b l c).
  Proof.
    intros Hl Hc. pose proof congr_QP as HQ.
    assert (H1 : forall a, mrel QP n n (M1x b l a) (M1x b l a)).
    { intros a. apply mr_msub; auto.
      - exact (mr_mt5 QP HQ n 3 3 3 3 n _ _ _ _ _ _ _ _ _ _ (mr_mT QP _ _ _ _ (Jw_QP l Hl)) (R_QP l Hl) (mr_Q_ QP HQ b b n eq_refl eq_refl a) (mr_mT QP _ _ _ _ (R_QP l Hl)) (Jv_QP l Hl)).
      - exact (mr_mt5 QP HQ n 3 3 3 3 n _ _ _ _ _ _ _ _ _ _ (mr_mT QP _ _ _ _ (Jv_QP l Hl)) (R_QP l Hl) (mr_Q_ QP HQ b b n eq_refl eq_refl a) (mr_mT QP _ _ _ _ (R_QP l Hl)) (Jw_QP l Hl)). }
    assert (H2 : forall a, mrel QP n n (M2x b l a) (M2x b l a)).
    { intros a. exact (mr_mt5 QP HQ n 3 3 3 3 n _ _ _ _ _ _ _ _ _ _ (mr_mT QP _ _ _ _ (Jw_QP l Hl)) (R_QP l Hl) (mr_E_ QP HQ b b n eq_refl eq_refl a) (mr_mT QP _ _ _ _ (R_QP l Hl)) (Jw_QP l Hl)). }
    destruct c as [|[|[|[|c]]]]; cbn [MB]; auto.
    exact (mr_mtimes QP HQ n 3 n _ _ _ _ (mr_mT QP _ _ _ _ (Jv_QP l Hl)) (Jv_QP l Hl)).
  Qed.
  Lemma MB_poly l c i j : l < n -> c < 10 -> i < n -> j < n -> poly allp (el (MB b l c) i j).
  Proof. intros. apply (mr_el _ _ _ _ _ (MB_QP l c ltac:(auto) ltac:(auto))); auto. Qed.
End PolyMB.

Section Reg.
  Variables (name : string) (cfg : ynode) (r0 r b r' : robot).
  Hypothesis Hs : session name cfg r0 r r'.
  Hypothesis HB : built r0 b r.
  Let n := numJoints r0.
  Let HS : sess r0 b r' := built_sess _ _ _ _ _ _ Hs HB.
  Let nb : numJoints b = n := n_b _ _ _ HS.
  Let env := renv r0 r'.
  Let Hb := ss_base _ _ _ HS.

  Lemma st_dims k : In k skeys -> rows (mdl b k) = n /\ cols (mdl b k) = 1.
  Proof.
    intros Hk. pose proof (bs_shape _ _ Hb k n) as P. specialize (P ltac:(unfold keys; apply in_or_app; left; apply (key_st _ _ _ HS); auto)).
    destruct P; auto.
  Qed.
  Lemma g_dims : rows (mdl b "par_gravity") = 3 /\ cols (mdl b "par_gravity") = 1.
  Proof. destruct (bs_shape _ _ Hb "par_gravity" 3 (key_g _ _ _ HS)). auto. Qed.
  Lemma st_val k i : In k skeys -> i < n -> ev env (mdl b k) i 0 = state r' k i.
  Proof. intros Hk Hi. apply (eval_state _ _ _ HS); auto. Qed.
  Lemma desc_reg th l : describes r0 r' th -> l < n -> is_reg b env th l.
  Proof.
    intros H Hl. destruct (H (S l) ltac:(lia)) as (D0 & D1 & D4 & D5 & D6 & D7 & D8 & D9). clear H.
    replace (S l - 1) with l in * by lia. rewrite (Nat.mul_comm 10 l) in *.
    pose proof (D1 0 ltac:(lia)) as D1a. pose proof (D1 1 ltac:(lia)) as D1b. pose proof (D1 2 ltac:(lia)) as D1c. clear D1.
    cbn [Nat.add] in D1a, D1b, D1c.
    pose proof (p_dyn_val name cfg r0 r b r' Hs HB l) as PD. pose proof (m_l_val name cfg r0 r b r' Hs HB l Hl) as PM.
    assert (C : com b env l = V3 (dyn r0 r' (S l) 1) (dyn r0 r' (S l) 2) (dyn r0 r' (S l) 3)).
    { unfold com. rewrite <- !PD by lia. unfold p_dyn. f_equal; f_equal; lia. }
    unfold is_reg. fold env in PD, PM. rewrite PM, C, !PD by lia. cbn [vx vy vz].
    unfold origin_inertia, rdot, com_of, inertia in *. cbn [rsum Nat.eqb Nat.add] in *.
    rewrite D0, D1a, D1b, D1c, D4, D5, D6, D7, D8, D9. repeat match goal with |- _ /\ _ => split end; ring.
  Qed.
  Lemma env_set k x : k < n -> renv r0 (set_entry r' "q" k x) = upd env ("q", k) x.
  Proof.
    intros Hk. apply functional_extensionality. intros s.
    apply (set_env name cfg r0 r b r' Hs HB "q" k x s); auto. simpl; auto.
  Qed.
  Lemma desc_set th k x : describes r0 r' th -> describes r0 (set_entry r' "q" k x) th.
  Proof.
    intros H i Hi. specialize (H i Hi).
    assert (P : forall c, dyn r0 (set_entry r' "q" k x) i c = dyn r0 r' i c).
    { intros c. unfold dyn. apply set_param; simpl; auto. intuition discriminate. }
    assert (PI : inertia r0 (set_entry r' "q" k x) i = inertia r0 r' i).
    { unfold inertia. now rewrite !P. }
    unfold origin_inertia, mass, com_of in *. rewrite !PI, !P. rewrite ?P in *.
    destruct H as (H0 & H1 & H2). split; auto. split.
    - intros a Ha. rewrite P. auto.
    - unfold rdot in *. cbn [rsum] in *. rewrite !P. exact H2.
  Qed.

  Variable th : nat -> R.
  Hypothesis HT : describes r0 r' th.
  Hypothesis HX : exact_angles r0.
  Lemma rot_all l : l < n -> is_rot (Rl b env l).
  Proof. intros Hl. unfold Rl. apply (FR_rot _ n); [|lia]. apply (chain_rot _ _ _ HS HX). Qed.
  Lemma M_lin i j : ev env (Mx b) i j = rsum n (fun l => rsum 10 (fun c => ev env (MB b l c) i j * th (l * 10 + c)%nat))%R.
  Proof. rewrite <- nb. apply M_linear; rewrite nb; auto using rot_all, desc_reg. Qed.
End Reg.
Section Reg2.
  Variables (name : string) (cfg : ynode) (r0 r b r' : robot).
  Hypothesis Hs : session name cfg r0 r r'.
  Hypothesis HB : built r0 b r.
  Let n := numJoints r0.
  Let HS : sess r0 b r' := built_sess _ _ _ _ _ _ Hs HB.
  Let nb : numJoints b = n := n_b _ _ _ HS.
  Let env := renv r0 r'.
  Let Hb := ss_base _ _ _ HS.
  Variable th : nat -> R.
  Hypothesis HT : describes r0 r' th.
  Hypothesis HX : exact_angles r0.

  Lemma M_lin_upd k x i j : k < n ->
    ev (upd env ("q", k) x) (Mx b) i j = rsum n (fun l => rsum 10 (fun c => ev (upd env ("q", k) x) (MB b l c) i j * th (l * 10 + c)%nat))%R.
  Proof.
    intros Hk. unfold env. rewrite <- (env_set name cfg r0 r b r' Hs HB k x Hk).
    apply (M_lin name cfg r0 r b (set_entry r' "q" k x) (set_session _ _ _ _ _ _ _ _ Hs) HB th); auto.
    apply desc_set; auto.
  Qed.
  Lemma dM_lin i j k : i < n -> j < n -> k < n ->
    dM (Mx b) env i j k = rsum n (fun l => rsum 10 (fun c => dM (MB b l c) env i j k * th (l * 10 + c)%nat))%R.
  Proof.
    intros Hi Hj Hk. unfold dM at 1.
    apply (diff_unique allp env ("q", k) _ (fun x => ev (upd env ("q", k) x) (Mx b) i j)); auto; [exact I| |].
    { apply (core_poly _ b Hb fM); simpl; rewrite ?nb; auto; discriminate. }
    apply is_derive_ext with (fun x => rsum n (fun l => rsum 10 (fun c => ev (upd env ("q", k) x) (MB b l c) i j * th (l * 10 + c)%nat))%R).
    { intros x. symmetry. apply M_lin_upd; auto. }
    apply (d_rsum n (fun l x => rsum 10 (fun c => ev (upd env ("q", k) x) (MB b l c) i j * th (l * 10 + c)%nat))%R).
    intros l Hl. apply (d_rsum 10 (fun c x => ev (upd env ("q", k) x) (MB b l c) i j * th (l * 10 + c)%nat)%R). intros c Hc.
    eapply is_derive_eq; [apply is_derive_mul; [apply (diff_sound allp); [exact I|apply (MB_poly _ b Hb); rewrite ?nb; auto]|apply is_derive_cst]|].
    unfold dM. ring.
  Qed.
  Let v := fun k => state r' "dq" k.
  Lemma q_symb : symvec "q" n (mdl b "q").
  Proof. apply (state_sym _ _ Hb "q" n); [|reflexivity]. apply (key_st _ _ _ HS). simpl; auto. Qed.
  Lemma Chr_val M i j : rows M = n -> cols M = n -> i < n -> j < n ->
    ev env (CofM b M) i j = rsum n (fun k => (dM M env i j k + dM M env i k j - dM M env j k i) / 2 * state r' "dq" k)%R.
  Proof.
    intros H1 H2 Hi Hj. unfold CofM, dqsel. destruct (st_dims name cfg r0 r b r' Hs HB "dq" ltac:(simpl; auto)) as [D1 D2].
    rewrite (stdC_val n); auto using q_symb. unfold Chr. apply rsum_ext. intros k Hk.
    unfold env. rewrite (st_val name cfg r0 r b r' Hs HB "dq" k) by (simpl; auto). reflexivity.
  Qed.
  Lemma lin3 (A B C : nat -> nat -> R) w :
    ((rsum n (fun l => rsum 10 (fun c => A l c * th (l * 10 + c)%nat)) + rsum n (fun l => rsum 10 (fun c => B l c * th (l * 10 + c)%nat))
      - rsum n (fun l => rsum 10 (fun c => C l c * th (l * 10 + c)%nat))) / 2 * w =
    rsum n (fun l => rsum 10 (fun c => (A l c + B l c - C l c) / 2 * w * th (l * 10 + c)%nat)))%R.
  Proof.
    rewrite <- rsum_plus, <- rsum_minus. unfold Rdiv. rewrite <- !rsum_scal_r. apply rsum_ext. intros l Hl.
    rewrite <- rsum_plus, <- rsum_minus, <- !rsum_scal_r. apply rsum_ext. intros. ring.
  Qed.
  Lemma C_lin i j : i < n -> j < n ->
    ev env (Cx b) i j = rsum n (fun l => rsum 10 (fun c => ev env (CofM b (MB b l c)) i j * th (l * 10 + c)%nat))%R.
  Proof.
    intros Hi Hj. change (Cx b) with (CofM b (Mx b)).
    destruct (M_dims name cfg r0 r b r' Hs HB) as [D1 D2]. rewrite Chr_val; auto.
    rewrite (rsum_ext n _ (fun k => rsum n (fun l => rsum 10 (fun c =>
      (dM (MB b l c) env i j k + dM (MB b l c) env i k j - dM (MB b l c) env j k i) / 2 * state r' "dq" k * th (l * 10 + c)%nat)))%R).
    2:{ intros k Hk. rewrite !dM_lin by auto. apply lin3. }
    rewrite rsum_swap. apply rsum_ext. intros l Hl. rewrite rsum_swap. apply rsum_ext. intros c Hc.
    destruct (MB_rows b l c) as [E1 E2]. rewrite nb in E1, E2. rewrite Chr_val by auto. now rewrite <- rsum_scal_r.
  Qed.

  (* gravity *)
  Lemma jwx_unit rr l k : l < n -> k < n -> sess r0 b rr -> jwx b (renv r0 rr) l (unit_vec k) = jwv b (renv r0 rr) l k.
  Proof.
    intros Hl Hk Hrr. unfold jwx. rewrite nb. rewrite (vsum_single b k).
    - unfold unit_vec. rewrite Nat.eqb_refl. apply v3_eq; cbn; ring.
    - auto.
    - intros i Hi N. unfold unit_vec. rewrite (proj2 (Nat.eqb_neq i k)) by auto. apply v3_eq; cbn; ring.
  Qed.
  Lemma Z1_val l k a : l < n -> k < n -> a < 3 ->
    ev env (Z1 b l) k a = (- vcomp (mv (mt (mm (hat3 (jwv b env l k)) (Rl b env l))) (grav b env)) a)%R.
  Proof.
    intros Hl Hk Ha. unfold Z1, ev. cbn [mneg mT el eval jacobian]. cbn [mtimes rows mT R0x rot_of sub cols].
    change (3 - 0) with 3. rewrite (Nat.mod_small a 3), (Nat.div_small a 3) by auto. f_equal.
    unfold diff_wrt. rewrite (sv_el _ _ _ q_symb) by auto. cbn [sym_of].
    destruct (g_dims name cfg r0 r b r' Hs HB) as [G1 G2].
    assert (GC : forall x c, c < 3 -> eval (upd env ("q", k) x) (el (mdl b "par_gravity") c 0) = vcomp (grav b env) c).
    { intros x c Hc. unfold env. rewrite <- (env_set name cfg r0 r b r' Hs HB k x Hk).
      assert (HS' : sess r0 b (set_entry r' "q" k x)) by (apply (set_sess name cfg r0 r b r' Hs HB)).
      rewrite (eval_key _ _ _ HS' "par_gravity" 3 c (key_g _ _ _ HS') Hc).
      rewrite set_param by (simpl; auto; intuition discriminate).
      symmetry. exact (grav_val name cfg r0 r b r' Hs HB c Hc). }
    assert (RC : forall x c d, c < 3 -> d < 3 -> eval (upd env ("q", k) x) (el (R0x b l) c d) = mcomp (FR (chain_of b (renv r0 (set_entry r' "q" k x))) (S l)) c d).
    { intros x c d Hc Hd. rewrite (env_set name cfg r0 r b r' Hs HB k x Hk). apply (R0x_v b (upd env ("q", k) x) l c d Hc Hd). }
    apply (diff_unique allp env ("q", k) _ (fun x => (mcomp (FR (chain_of b (renv r0 (set_entry r' "q" k x))) (S l)) 0 a * vcomp (grav b env) 0%nat
        + mcomp (FR (chain_of b (renv r0 (set_entry r' "q" k x))) (S l)) 1 a * vcomp (grav b env) 1%nat
        + mcomp (FR (chain_of b (renv r0 (set_entry r' "q" k x))) (S l)) 2 a * vcomp (grav b env) 2%nat)%R)); [exact I| | |].
    - pose proof (R_QP _ b Hb l) as RQ. rewrite nb in RQ. specialize (RQ Hl).
      pose proof (key_QP _ b Hb "par_gravity" 3 (key_g _ _ _ HS)) as GQ.
      pose proof (mr_mtimes QP congr_QP 3 3 1 _ _ _ _ (mr_mT QP _ _ _ _ RQ) GQ) as MQ.
      exact (mr_el _ _ _ _ _ MQ a 0 Ha ltac:(lia)).
    - intros x. cbn [mtimes mT el cols]. change (rows (R0x b l)) with 3. cbn [esum eval].
      change (eval (upd env ("q", k) x) (el (R0x b l) 0 a)) with (eval (upd env ("q", k) x) (el (R0x b l) 0 a)).
      rewrite !GC by lia. pose proof (RC x 0 a ltac:(lia) Ha) as R1. pose proof (RC x 1 a ltac:(lia) Ha) as R2. pose proof (RC x 2 a ltac:(lia) Ha) as R3.
      cbn [R0x] in R1, R2, R3. unfold R0x in *. rewrite R1, R2, R3. ring.
    - pose proof (q_motion name cfg r0 r r' Hs "q" k ltac:(simpl; auto)) as Hm.
      assert (SR : is_dM (fun s => FR (chain_of b (E r0 (set_entry r' "q" k) s)) (S l)) (env ("q", k)) (mm (hat3 (jwv b env l k)) (Rl b env l))).
      { unfold env at 1. rewrite (env_st name cfg r0 r b r' Hs HB "q" k ltac:(simpl; auto) Hk).
        pose proof (spin_rate name cfg r0 r b (set_entry r' "q" k) (state r' "q" k) Hm HB HX (unit_vec k)) as Q.
        specialize (Q ltac:(intros i Hi; apply is_derive_ext with (fun x => if Nat.eqb k i then x else state r' "q" i);
          [intros x; symmetry; apply (set_state name cfg r0 r r' Hs); simpl; auto|apply (unit_derive k (fun i => state r' "q" i))]) (S l) ltac:(lia)).
        replace (S l - 1) with l in Q by lia. unfold E in Q at 2 3.
        rewrite jwx_unit in Q by (auto; apply (set_sess name cfg r0 r b r' Hs HB)).
        rewrite (env_set name cfg r0 r b r' Hs HB k _ Hk) in Q.
        replace (upd (renv r0 r') ("q", k) (state r' "q" k)) with env in Q; [exact Q|].
        apply functional_extensionality. intros s. unfold upd. destruct (sym_eqb ("q", k) s) eqn:Es; auto.
        apply sym_eqb_eq in Es. subst s. unfold env. apply (env_st name cfg r0 r b r' Hs HB "q" k); simpl; auto. }
      pose proof (fun c => is_dM_comp (fun s => FR (chain_of b (E r0 (set_entry r' "q" k) s)) (S l)) (env ("q", k)) _ c a SR) as D.
      pose proof (D 0) as D0. pose proof (D 1) as D1. pose proof (D 2) as D2. cbn beta in D0, D1, D2. unfold E in D0, D1, D2. clear D.
      eapply is_derive_eq.
      + apply is_derive_add; [apply is_derive_add|]; (apply is_derive_mul; [first [exact D0|exact D1|exact D2]|apply is_derive_cst]).
      + unfold mv, mt. destruct a as [|[|[|a]]]; try lia; cbn [vcomp mcomp m00 m01 m02 m10 m11 m12 m20 m21 m22 vx vy vz]; ring.
  Qed.
  Lemma Z0_val l k : l < n -> k < n -> ev env (Z0 b l) k 0 = (- dot (grav b env) (V_ b env l k))%R.
  Proof.
    intros Hl Hk. unfold Z0, ev. cbn [mneg mtimes mT el cols eval]. change (rows (Jvx b l)) with 3. cbn [esum eval]. f_equal.
    pose proof (fun a => Jvx_v b env l a k ltac:(rewrite nb; auto)) as J. unfold ev in J. rewrite !J by lia.
    unfold dot, grav, ev. cbn [vcomp vx vy vz]. ring.
  Qed.
  Lemma G_lin k : k < n -> ev env (Gx b) k 0 = rsum n (fun l => rsum 10 (fun c => GB b env l c k * th (l * 10 + c)%nat))%R.
  Proof.
    intros Hk. rewrite Gx_val by (apply (g_dims name cfg r0 r b r' Hs HB)). rewrite nb. apply rsum_ext. intros l Hl.
    destruct (desc_reg name cfg r0 r b r' Hs HB th l HT Hl) as (H0 & H1 & H2 & H3 & _). fold env in H0, H1, H2, H3.
    cbn [rsum GB]. rewrite H0, H1, H2, H3, Z0_val, !Z1_val by (auto; lia).
    rewrite (jlv_shift b env (cpos b env l) (FP (chain_of b env) (S l)) l k).
    assert (C : vsub3 (cpos b env l) (FP (chain_of b env) (S l)) = mv (Rl b env l) (com b env l)).
    { unfold cpos, Rl. apply v3_eq; cbn; ring. }
    rewrite C. fold (V_ b env l k). generalize (V_ b env l k), (jwv b env l k), (Rl b env l), (com b env l), (grav b env), (m_l b env l).
    intros u w A c g m. unfold dot, mv, mt, mm, hat3, cross, vadd. cbn. ring.
  Qed.

  (* identities on the published matrices *)
  Lemma R1_ : cols (mdl b "ddqr") = 1. Proof. apply (st_dims name cfg r0 r b r' Hs HB); simpl; auto 10. Qed.
  Lemma R2_ : cols (mdl b "dqr") = 1. Proof. apply (st_dims name cfg r0 r b r' Hs HB); simpl; auto 10. Qed.
  Lemma R3_ : rows (mdl b "ddqr") = numJoints b. Proof. rewrite nb. apply (st_dims name cfg r0 r b r' Hs HB); simpl; auto 10. Qed.
  Lemma R4_ : rows (mdl b "dqr") = numJoints b. Proof. rewrite nb. apply (st_dims name cfg r0 r b r' Hs HB); simpl; auto 10. Qed.
  Lemma R6_ : symvec "q" (numJoints b) (mdl b "q"). Proof. rewrite nb. exact q_symb. Qed.
  Let R5_ := g_dims name cfg r0 r b r' Hs HB.
  Let regM' l i c Hl := regM_el b R1_ R2_ R3_ R4_ R5_ R6_ l i c (eq_ind_r (fun m => l < m) Hl nb).
  Let regC' l i c Hl := regC_el b env R1_ R2_ R3_ R4_ R5_ R6_ l i c (eq_ind_r (fun m => l < m) Hl nb).
  Let regG' l i c Hl := regG_el b env R1_ R2_ R3_ R4_ R5_ R6_ l i c (eq_ind_r (fun m => l < m) Hl nb).
  Let Yr' l i c Hl := Yr_el b env R1_ R2_ R3_ R4_ R5_ R6_ l i c (eq_ind_r (fun m => l < m) Hl nb).
  Lemma out_reg f i l c : In f [fYr; fRM; fRC; fRG] -> i < n -> l < n -> c < 10 ->
    out r' (name_of f) i (l * 10 + c) = ev env (val b f) i (l * 10 + c).
  Proof.
    intros Hf Hi Hl Hc. apply (out_val name cfg r0 r b r' Hs HB);
      repeat (destruct Hf as [<-|Hf]; [cbn [enabled vrows vcols]; rewrite ?nb; try exact I; lia|]); destruct Hf.
  Qed.
  Lemma sum10 (A : nat -> nat -> R) i : rmv (10 * n) A th i = rsum n (fun l => rsum 10 (fun c => A i (l * 10 + c)%nat * th (l * 10 + c)%nat))%R.
  Proof. unfold rmv. rewrite (Nat.mul_comm 10 n), rsum_prod. reflexivity. Qed.
  Lemma reg_M_id i : i < n -> rmv (10 * n) (out r' "reg_M") th i = rmv n (out r' "M") (state r' "ddqr") i.
  Proof.
    intros Hi. rewrite sum10. unfold rmv.
    rewrite (rsum_ext n (fun k => out r' "M" i k * _)%R (fun j => rsum n (fun l => rsum 10 (fun c => ev env (MB b l c) i j * th (l * 10 + c)%nat)) * state r' "ddqr" j)%R).
    2:{ intros j Hj. rewrite (outM name cfg r0 r b r' Hs HB i j Hi Hj). f_equal. apply (M_lin name cfg r0 r b r' Hs HB); auto. }
    rewrite (rsum_ext n (fun j => rsum n _ * _)%R (fun j => rsum n (fun l => rsum 10 (fun c => ev env (MB b l c) i j * state r' "ddqr" j * th (l * 10 + c)%nat)))%R).
    2:{ intros j Hj. rewrite <- rsum_scal_r. apply rsum_ext. intros l Hl. rewrite <- rsum_scal_r. apply rsum_ext. intros; ring. }
    symmetry. rewrite (rsum_swap n n). apply rsum_ext. intros l Hl. rewrite (rsum_swap n 10). apply rsum_ext. intros c Hc.
    rewrite rsum_scal_r. f_equal. symmetry. rewrite (out_reg fRM) by (simpl; auto). cbn [val]. unfold ev.
    rewrite regM' by (rewrite ?nb; auto). cbn [mtimes el]. rewrite eval_esum. destruct (MB_rows b l c) as [_ E2]. rewrite E2, nb.
    apply rsum_ext. intros j Hj. cbn [eval]. f_equal. apply (st_val name cfg r0 r b r' Hs HB "ddqr" j); simpl; auto 10.
  Qed.
  Lemma reg_C_id i : i < n -> rmv (10 * n) (out r' "reg_C") th i = rmv n (out r' "C") (state r' "dqr") i.
  Proof.
    intros Hi. rewrite sum10. unfold rmv.
    rewrite (rsum_ext n (fun k => out r' "C" i k * _)%R (fun j => rsum n (fun l => rsum 10 (fun c => ev env (CofM b (MB b l c)) i j * th (l * 10 + c)%nat)) * state r' "dqr" j)%R).
    2:{ intros j Hj. rewrite (outC name cfg r0 r b r' Hs HB i j Hi Hj). f_equal. apply C_lin; auto. }
    rewrite (rsum_ext n (fun j => rsum n _ * _)%R (fun j => rsum n (fun l => rsum 10 (fun c => ev env (CofM b (MB b l c)) i j * state r' "dqr" j * th (l * 10 + c)%nat)))%R).
    2:{ intros j Hj. rewrite <- rsum_scal_r. apply rsum_ext. intros l Hl. rewrite <- rsum_scal_r. apply rsum_ext. intros; ring. }
    symmetry. rewrite (rsum_swap n n). apply rsum_ext. intros l Hl. rewrite (rsum_swap n 10). apply rsum_ext. intros c Hc.
    rewrite rsum_scal_r. f_equal. symmetry. rewrite (out_reg fRC) by (simpl; auto). cbn [val].
    rewrite regC' by (rewrite ?nb; auto). unfold ev. cbn [mtimes el]. rewrite eval_esum.
    rewrite (CofM_cols b) by (rewrite nb; exact q_symb). rewrite nb.
    apply rsum_ext. intros j Hj. cbn [eval]. f_equal. apply (st_val name cfg r0 r b r' Hs HB "dqr" j); simpl; auto 10.
  Qed.
  Lemma reg_G_id i : i < n -> rmv (10 * n) (out r' "reg_G") th i = out r' "G" i 0.
  Proof.
    intros Hi. rewrite sum10, (outG name cfg r0 r b r' Hs HB i Hi). fold env. rewrite G_lin by auto.
    apply rsum_ext. intros l Hl. apply rsum_ext. intros c Hc. f_equal.
    rewrite (out_reg fRG) by (simpl; auto). cbn [val]. apply regG'; rewrite ?nb; auto.
  Qed.
  Lemma Yr_sum i l c : i < n -> l < n -> c < 10 ->
    out r' "Yr" i (l * 10 + c) = (out r' "reg_M" i (l * 10 + c)%nat + out r' "reg_C" i (l * 10 + c)%nat + out r' "reg_G" i (l * 10 + c)%nat)%R.
  Proof.
    intros Hi Hl Hc. pose proof (out_reg fYr i l c) as E1. pose proof (out_reg fRM i l c) as E2. pose proof (out_reg fRC i l c) as E3. pose proof (out_reg fRG i l c) as E4.
    cbn [val name_of] in E1, E2, E3, E4. rewrite E1, E2, E3, E4 by (simpl; auto).
    apply Yr'; rewrite ?nb; auto.
  Qed.
End Reg2.

Section RegThm.
  Variables (name : string) (cfg : ynode) (r0 r r' : robot).
  Hypothesis Hs : session name cfg r0 r r'.
  Let n := numJoints r0.
  Lemma ans_reg f : In f [fYr; fRM; fRC; fRG] -> answers r' (name_of f) n (10 * n).
  Proof.
    destruct (session_built _ _ _ _ _ Hs) as [b HB]. pose proof (n_b _ _ _ (built_sess _ _ _ _ _ _ Hs HB)) as nb. fold n in nb.
    intros Hf. pose proof (fun He => answers_f name cfg r0 r b r' Hs HB f He) as A.
    repeat (destruct Hf as [<-|Hf]; [specialize (A I); cbn [vrows vcols] in A; rewrite nb in A; exact A|]). destruct Hf.
  Qed.
  Theorem Yr_parts i j : i < n -> j < 10 * n ->
    out r' "Yr" i j = (out r' "reg_M" i j + out r' "reg_C" i j + out r' "reg_G" i j)%R.
  Proof.
    destruct (session_built _ _ _ _ _ Hs) as [b HB]. intros Hi Hj.
    rewrite (Nat.div_mod_eq j 10), (Nat.mul_comm 10 (j / 10)).
    apply (Yr_sum name cfg r0 r b r' Hs HB); fold n; auto.
    - apply Nat.div_lt_upper_bound; lia.
    - apply Nat.mod_upper_bound. lia.
  Qed.
  Theorem reg_ids th : describes r0 r' th -> exact_angles r0 -> forall i, i < n ->
    rmv (10 * n) (out r' "reg_M") th i = rmv n (out r' "M") (state r' "ddqr") i /\
    rmv (10 * n) (out r' "reg_C") th i = rmv n (out r' "C") (state r' "dqr") i /\
    rmv (10 * n) (out r' "reg_G") th i = out r' "G" i 0.
  Proof.
    intros HT HX i Hi. destruct (session_built _ _ _ _ _ Hs) as [b HB].
    repeat match goal with |- _ /\ _ => split end.
    - apply (reg_M_id name cfg r0 r b r' Hs HB); auto.
    - apply (reg_C_id name cfg r0 r b r' Hs HB); auto.
    - apply (reg_G_id name cfg r0 r b r' Hs HB); auto.
  Qed.
  Theorem Yr_id th : describes r0 r' th -> exact_angles r0 -> forall i, i < n ->
    rmv (10 * n) (out r' "Yr") th i =
    (rmv n (out r' "M") (state r' "ddqr") i + rmv n (out r' "C") (state r' "dqr") i + out r' "G" i 0%nat)%R.
  Proof.
    intros HT HX i Hi. destruct (reg_ids th HT HX i Hi) as (A & B & C). rewrite <- A, <- B, <- C.
    unfold rmv. rewrite <- !rsum_plus. apply rsum_ext. intros j Hj. rewrite Yr_parts by auto. ring.
  Qed.
End RegThm.
Theorem reg_indep name cfg r0 r r1 r2 f : session name cfg r0 r r1 -> session name cfg r0 r r2 ->
  In f [fYr; fRM; fRC; fRG] -> (forall k, k <> "par_DYN" -> k <> "par_REG" -> arg r1 k = arg r2 k) ->
  forall i j, i < numJoints r0 -> j < 10 * numJoints r0 -> out r1 (name_of f) i j = out r2 (name_of f) i j.
Proof.
  intros H1 H2 Hf HA i j Hi Hj. destruct (session_built _ _ _ _ _ H1) as [b HB].
  pose proof (built_sess _ _ _ _ _ _ H1 HB) as S1. pose proof (built_sess _ _ _ _ _ _ H2 HB) as S2. pose proof (n_b _ _ _ S1) as nb.
  apply (out_local r0 b r1 r2 S1 S2);
    repeat (destruct Hf as [<-|Hf]; [cbn [enabled vrows vcols]; rewrite ?nb; auto; try exact I|]); try destruct Hf.
  all: intros k Hk; apply alist_deps in Hk; cbn [deps] in Hk; unfold kinD, kingr in Hk; apply HA; intros ->; simpl in Hk; intuition discriminate.
Qed.
