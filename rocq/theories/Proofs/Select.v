(* Two robots with the same structure and the same parameter values publish the same values,
   whatever is symbolic in each. *)
From Coq Require Import Reals Lra Lia Arith List String Bool ZArith.
From Coquelicot Require Import Coquelicot.
From Verif.Model Require Import Base Expr SX Robot Kinematics Dynamics Regressors Yaml Build.
From Verif.Spec Require Import Math Setup Kinematics Api.
From Verif.Proofs Require Import Sums Calc Rel Lin3 Frames Pure PureRel Maps Names Shape Dims Sizes Deps BuildEq Load Init Final Closed Get Kin KinThm Smooth.
Import ListNotations.
Open Scope nat_scope.
Open Scope string_scope.

Lemma mrel_mono (Q Q' : expr -> expr -> Prop) r c a a' : (forall x y, Q x y -> Q' x y) -> mrel Q r c a a' -> mrel Q' r c a a'.
Proof. intros HQ []. constructor; auto. Qed.

Lemma fn_eq_pinv f : f = fJeepinv \/ f <> fJeepinv.
Proof. destruct f; auto; right; discriminate. Qed.

Section Two.
  Variables (r0 b r' s0 c s' : robot).
  Hypothesis S1 : sess r0 b r'.
  Hypothesis S2 : sess s0 c s'.
  Hypothesis HS : same_shape r0 s0.
  Let Hb := ss_base _ _ _ S1.
  Let Hc := ss_base _ _ _ S2.
  Let n := numJoints r0.
  Lemma shape_bc : same_shape b c.
  Proof. rewrite (ss_b _ _ _ S1), (ss_b _ _ _ S2). destruct HS. constructor; assumption. Qed.
  Lemma keys_bc : keys c = keys b.
  Proof.
    destruct shape_bc. unfold keys, state_keys, par_keys. rewrite sm_n, sm_e, sm_el, sm_Dl, sm_K, sm_D, sm_Dm. reflexivity.
  Qed.
  Lemma nb' : numJoints b = n. Proof. apply (n_b _ _ _ S1). Qed.

  (* symbols that vary: those symbolic on both sides *)
  Definition stvar (s : sym) : bool := existsb (String.eqb (fst s)) ["q"; "dq"; "ddq"].
  Definition both (s : sym) : bool := stvar s ||
    flag_set (nth (snd s) (flags r0 (keyname (fst s))) 0%Z) && flag_set (nth (snd s) (flags s0 (keyname (fst s))) 0%Z).
  Definition E1 (x : sym -> R) (s : sym) : R := if both s then x s else renv r0 r' s.
  Definition E2 (x : sym -> R) (s : sym) : R := if both s then x s else renv s0 s' s.
  Definition Qv (a a' : expr) : Prop := forall x, eval (E1 x) a = eval (E2 x) a'.
  Definition Qs (a a' : expr) : Prop := poly allp a /\ poly allp a' /\ Qv a a'.
  Lemma congr_Qv : congr Qv.
  Proof. constructor; unfold Qv; simpl; intros; try reflexivity; congruence. Qed.
  Lemma congr_Qs : congr Qs.
  Proof.
    constructor; unfold Qs, Qv; simpl; intros;
      repeat match goal with H : _ /\ _ |- _ => destruct H end; repeat match goal with |- _ /\ _ => split end; auto;
      try (intros; congruence); intros s _; reflexivity.
  Qed.
  Lemma Qs_diff v a a' : both v = true -> Qs a a' -> Qs (diff v a) (diff v a').
  Proof.
    intros Hv (A & B & C). split; [apply poly_diff; auto; exact I|]. split; [apply poly_diff; auto; exact I|].
    intros x. apply (diff_unique allp (E1 x) v a (fun y => eval (upd (E2 x) v y) a')); auto; [exact I| |].
    - intros y. transitivity (eval (E1 (upd x v y)) a); [|transitivity (eval (E2 (upd x v y)) a'); [apply C|]].
      + apply eval_ext. intros s _. unfold E1, upd. destruct (sym_eqb v s) eqn:Es; auto.
        apply sym_eqb_eq in Es. subst s. now rewrite Hv.
      + apply eval_ext. intros s _. unfold E2, upd. destruct (sym_eqb v s) eqn:Es; auto.
        apply sym_eqb_eq in Es. subst s. now rewrite Hv.
    - replace (E1 x v) with (E2 x v) by (unfold E1, E2; now rewrite Hv). apply (diff_sound allp); auto. exact I.
  Qed.

  (* elements of the parameter vectors *)
  Definition same_at (k : string) : Prop := forall i len, In (k, len) (keys b) -> i < len -> param r0 r' k i = param s0 s' k i.
  Lemma fixed1 k len i x : In (k, len) (keys b) -> i < len -> both (symname k, i) = false ->
    eval (E1 x) (el (mdl b k) i 0) = param r0 r' k i.
  Proof.
    intros Hk Hi Hv. rewrite <- (eval_key _ _ _ S1 k len i Hk Hi). apply eval_ext. intros s Ho.
    rewrite (ps_el _ _ _ _ (bs_shape _ _ Hb k len Hk)) in Ho by auto. destruct (flag_set _); simpl in Ho; [|discriminate].
    apply sym_eqb_eq in Ho. subst s. unfold E1. now rewrite Hv.
  Qed.
  Lemma fixed2 k len i x : In (k, len) (keys b) -> i < len -> both (symname k, i) = false ->
    eval (E2 x) (el (mdl c k) i 0) = param s0 s' k i.
  Proof.
    intros Hk Hi Hv. rewrite <- keys_bc in Hk. rewrite <- (eval_key _ _ _ S2 k len i Hk Hi). apply eval_ext. intros s Ho.
    rewrite (ps_el _ _ _ _ (bs_shape _ _ Hc k len Hk)) in Ho by auto. destruct (flag_set _); simpl in Ho; [|discriminate].
    apply sym_eqb_eq in Ho. subst s. unfold E2. now rewrite Hv.
  Qed.
  Lemma varies k len i : In (k, len) (keys b) -> i < len -> both (symname k, i) = true ->
    el (mdl b k) i 0 = Var (symname k, i) /\ el (mdl c k) i 0 = Var (symname k, i).
  Proof.
    intros Hk Hi Hv.
    assert (V : flag_set (nth i (flags r0 k) 0%Z) = true /\ flag_set (nth i (flags s0 k) 0%Z) = true).
    { unfold both in Hv. apply orb_true_iff in Hv. destruct Hv as [Hv|Hv].
      - apply existsb_exists in Hv. destruct Hv as (k' & Hk' & E). cbn [fst] in E. apply String.eqb_eq in E. subst k'.
        assert (K : symname k = k).
        { apply keys_arg in Hk. revert Hk'. vm_compute in Hk. decompose [or] Hk; subst; try reflexivity; try contradiction; simpl; intuition discriminate. }
        rewrite K in Hk'.
        assert (Hl : len = n /\ In (k, n) (state_keys b) /\ In (k, n) (state_keys c)).
        { assert (Hn7 : In k ["q"; "dq"; "ddq"; "d3q"; "d4q"; "dqr"; "ddqr"]) by (destruct Hk' as [<-|[<-|[<-|[]]]]; simpl; auto).
          pose proof (key_st _ _ _ S1 k Hn7) as K1. pose proof (key_st _ _ _ S2 k Hn7) as K2. rewrite (sm_n _ _ HS) in K2. fold n in K1, K2.
          split; auto. pose proof (ps_r _ _ _ _ (bs_shape _ _ Hb k len Hk)). pose proof (ps_r _ _ _ _ (bs_shape _ _ Hb k n (in_or_app _ _ _ (or_introl K1)))). congruence. }
        destruct Hl as (-> & K1 & K2). rewrite <- (flags_b _ _ _ S1), <- (flags_b _ _ _ S2).
        rewrite (bs_state _ _ Hb k _ K1), (bs_state _ _ Hc k _ K2); auto; apply nth_In.
        + now rewrite (ps_fl _ _ _ _ (bs_shape _ _ Hc k _ (in_or_app _ _ _ (or_introl K2)))).
        + now rewrite (ps_fl _ _ _ _ (bs_shape _ _ Hb k _ (in_or_app _ _ _ (or_introl K1)))).
      - cbn [fst snd] in Hv. rewrite keyname_symname in Hv by (eapply keys_arg; eauto). now apply andb_true_iff in Hv. }
    destruct V as [V1 V2].
    rewrite (ps_el _ _ _ _ (bs_shape _ _ Hb k len Hk)) by auto. rewrite (flags_b _ _ _ S1), V1.
    rewrite <- keys_bc in Hk. rewrite (ps_el _ _ _ _ (bs_shape _ _ Hc k len Hk)) by auto. rewrite (flags_b _ _ _ S2), V2. auto.
  Qed.
  Lemma key_Qs k len i : same_at k -> In (k, len) (keys b) -> i < len -> Qs (el (mdl b k) i 0) (el (mdl c k) i 0).
  Proof.
    intros Hs Hk Hi. split; [eapply key_poly; eauto|].
    split; [eapply (key_poly _ c Hc k len); auto; rewrite keys_bc; auto|].
    intros x. destruct (both (symname k, i)) eqn:Hv.
    - destruct (varies k len i Hk Hi Hv) as [-> ->]. unfold E1, E2. simpl. now rewrite Hv.
    - rewrite (fixed1 k len), (fixed2 k len) by auto. eapply Hs; eauto.
  Qed.
  Lemma key_mQs k len : same_at k -> In (k, len) (keys b) -> mrel Qs len 1 (mdl b k) (mdl c k).
  Proof.
    intros Hs Hk. destruct (bs_shape _ _ Hb k len Hk). pose proof Hk as Hk2. rewrite <- keys_bc in Hk2.
    destruct (bs_shape _ _ Hc k len Hk2). constructor; auto.
    intros i j Hi Hj. replace j with 0 by lia. eapply key_Qs; eauto.
  Qed.

  (* cosines and sines *)
  Definition okc (e : expr) : Prop := is_constant e = true -> forall env,
    (Rabs (cos (eval env e)) < / 10 ^ 15 -> cos (eval env e) = 0)%R /\ (Rabs (sin (eval env e)) < / 10 ^ 15 -> sin (eval env e) = 0)%R.
  Lemma ZIS_ok env e : okc e -> eval env (ZIS (Cos e)) = cos (eval env e) /\ eval env (ZIS (Sin e)) = sin (eval env e) /\
    eval env (ZIS (Opp (Sin e))) = (- sin (eval env e))%R.
  Proof.
    intros Ho. rewrite sz_neg. unfold sz.
    unfold ZIS. simpl. destruct (is_constant e) eqn:Ec; simpl; auto. pose proof (const_eval env e Ec) as EC.
    unfold const_value, EPSILON in *. simpl. destruct (Ho Ec (fun _ => 0%R)) as [A B].
    repeat match goal with |- _ /\ _ => split end; destruct (Rlt_dec _ _); simpl; rewrite ?EC; auto; symmetry; auto.
    rewrite B by auto. lra.
  Qed.
  Lemma trig_Qs e e' : Qs e e' -> okc e -> okc e' -> trig_rel Qs e e'.
  Proof.
    intros (A & B & C) O1 O2. repeat match goal with |- _ /\ _ => split end; repeat split; try apply poly_ZIS; auto; intros x;
      destruct (ZIS_ok (E1 x) e O1) as (X1 & X2 & X3); destruct (ZIS_ok (E2 x) e' O2) as (Y1 & Y2 & Y3); rewrite ?X1, ?X2, ?X3, ?Y1, ?Y2, ?Y3; now rewrite C.
  Qed.

  Hypothesis X1 : exact_angles r0.
  Hypothesis X2 : exact_angles s0.
  Lemma okc1 k len i : In (k, len) (keys b) -> i < len -> angle_entry r0 k i -> okc (el (mdl b k) i 0).
  Proof.
    intros Hk Hi Ha Hco env. pose proof (X1 k i Ha) as X.
    rewrite (ps_el _ _ _ _ (bs_shape _ _ Hb k len Hk)) in * by auto. rewrite (flags_b _ _ _ S1) in *.
    destruct (flag_set (nth i (flags r0 k) 0%Z)) eqn:F; [discriminate|]. exact (X eq_refl).
  Qed.
  Lemma okc2 k len i : In (k, len) (keys b) -> i < len -> angle_entry s0 k i -> okc (el (mdl c k) i 0).
  Proof.
    intros Hk Hi Ha Hco env. pose proof (X2 k i Ha) as X. rewrite <- keys_bc in Hk.
    rewrite (ps_el _ _ _ _ (bs_shape _ _ Hc k len Hk)) in * by auto. rewrite (flags_b _ _ _ S2) in *.
    destruct (flag_set (nth i (flags s0 k) 0%Z)) eqn:F; [discriminate|]. exact (X eq_refl).
  Qed.
  Lemma angle_12 k i : angle_entry r0 k i -> angle_entry s0 k i.
  Proof.
    intros [(-> & j & Hj & H)|H]; [left|right; auto]. split; auto. exists j. unfold prism in *. rewrite (sm_n _ _ HS), (sm_jt _ _ HS). auto.
  Qed.
  Lemma trig_key k len i : same_at k -> In (k, len) (keys b) -> i < len -> angle_entry r0 k i ->
    trig_rel Qs (el (mdl b k) i 0) (el (mdl c k) i 0).
  Proof. intros. apply trig_Qs; eauto using key_Qs, okc1, okc2, angle_12. Qed.
  Lemma q_nonconst rr bb rr' (HH : sess rr bb rr') i : i < numJoints bb -> is_constant (el (mdl bb "q") i 0) = false.
  Proof.
    intros Hi. rewrite (n_b _ _ _ HH) in Hi. pose proof (key_st _ _ _ HH "q" ltac:(simpl; auto)) as Hk.
    pose proof (ss_base _ _ _ HH) as HB.
    pose proof (bs_shape _ _ HB "q" _ (in_or_app _ _ _ (or_introl Hk))) as P.
    rewrite (ps_el _ _ _ _ P i Hi), (bs_state _ _ HB "q" _ Hk); auto.
    apply nth_In. rewrite (ps_fl _ _ _ _ P). exact Hi.
  Qed.
  Lemma trig_th i : same_at "par_DHtable" -> same_at "q" -> i < n -> trig_rel Qs (sc (thx b i)) (sc (thx c i)).
  Proof.
    intros Hd Hq Hi. unfold thx. replace (jtype c i) with (jtype b i) by (unfold jtype; now rewrite (sm_jt _ _ shape_bc)).
    pose proof (key_DH _ _ _ S1) as KD. fold n in KD.
    destruct (is_P (jtype b i)) eqn:Ep.
    - apply (trig_key "par_DHtable" (4 * n) (i * 4 + 3)); auto; [lia|]. left. split; auto. exists i. split; auto. right. split; auto.
      rewrite <- (prism_b _ _ _ S1). exact Ep.
    - apply trig_Qs.
      + apply (q_add _ congr_Qs).
        * apply (key_Qs "par_DHtable" (4 * n) (i * 4 + 3)); auto; lia.
        * apply (key_Qs "q" n i); auto. unfold keys. apply in_app_iff. left. apply (key_st _ _ _ S1). simpl; auto.
      + intros H. exfalso. cbn in H. apply andb_true_iff in H. destruct H as [_ H].
        rewrite (q_nonconst _ _ _ S1) in H by (rewrite nb'; auto). discriminate.
      + intros H. exfalso. cbn in H. apply andb_true_iff in H. destruct H as [_ H].
        rewrite (q_nonconst _ _ _ S2) in H by (rewrite (sm_n _ _ shape_bc), nb'; auto). discriminate.
  Qed.
  Lemma both_state nm i : In nm ["q"; "dq"; "ddq"] -> both (nm, i) = true.
  Proof. intros Hn. unfold both, stvar. destruct Hn as [<-|[<-|[<-|[]]]]; reflexivity. Qed.
  Lemma core_same f : core f = true -> f <> fJeepinv -> enabled b f -> (forall k, In k (deps b f) -> same_at k) ->
    mrel Qs (vrows b f) (vcols b f) (val b f) (val c f).
  Proof.
    intros Hco Hp He Hd. destruct shape_bc.
    eapply (core_mrel Qs congr_Qs _ _ b c Hb Hc sm_n (eq_sym sm_jt) (deps b f)) with (st := fun v => both v = true); auto.
    - intros k len Hk Hl. apply key_mQs; auto.
    - intros Hk i Hi. rewrite nb' in Hi. apply (trig_key "par_DHtable" (4 * n)); auto; [apply (key_DH _ _ _ S1)|lia|].
      left. split; auto. exists i. auto.
    - intros Hk Hq i Hi. rewrite nb' in Hi. apply trig_th; auto.
    - intros Hk i Hi. apply (trig_key "par_world2L0" 6); auto; [apply (key_W _ _ _ S1)|lia|right; auto].
    - intros Hk i Hi. apply (trig_key "par_Ln2EE" 6); auto; [apply (key_E _ _ _ S1)|lia|right; auto].
    - intros v a a' Hv Ha. apply Qs_diff; auto.
    - intros i nm Hn. apply both_state; auto.
    - intros E; contradiction.
  Qed.
  Lemma Qs_v a a' : Qs a a' -> Qv a a'. Proof. intros (_ & _ & H). exact H. Qed.
  Lemma pinv_same : (forall k, In k (deps b fJeepinv) -> same_at k) -> mrel Qv n 6 (Jeepinvx b) (Jeepinvx c).
  Proof.
    intros Hd. pose proof (mrel_mono _ Qv _ _ _ _ Qs_v (core_same fJee eq_refl ltac:(discriminate) I Hd)) as HJ.
    cbn [vrows vcols val] in HJ. rewrite nb' in HJ. pose proof congr_Qv as HQ.
    unfold Jeepinvx. apply (mr_mtimes Qv HQ n 6 6); [now apply mr_mT|].
    assert (Hdiv : forall a0 b0 a0' b0', Qv a0 a0' -> Qv b0 b0' -> Qv (Div a0 b0) (Div a0' b0')) by (intros a0 b0 a0' b0' Ha Hb0 x; simpl; now rewrite Ha, Hb0).
    apply (mr_inv Qv HQ Hdiv 6).
    - unfold damped. apply mr_madd; auto.
      + apply (mr_mtimes Qv HQ 6 n 6); auto. now apply mr_mT.
      + apply mr_scale_r; auto; [apply mr_scal, (q_cst Qv HQ) | apply mr_eye; auto].
  Qed.
  Lemma fric_same f : fricf f = true -> enabled b f -> (forall k, In k (deps b f) -> same_at k) ->
    mrel Qv (vrows b f) (vcols b f) (val b f) (val c f).
  Proof.
    intros Hf He Hd. destruct shape_bc.
    apply (fric_mrel Qv congr_Qv) with (cv := cvof r0) (ds := deps b f) ; auto.
    - intros a a' k Ha x. simpl. now rewrite Ha.
    - intros a a' Ha x. simpl. now rewrite Ha.
    - intros k len Hk Hl. apply (mrel_mono _ Qv _ _ _ _ Qs_v). apply key_mQs; auto.
  Qed.
  Lemma E1_renv a : eval (E1 (renv r0 r')) a = eval (renv r0 r') a.
  Proof. apply eval_ext. intros s _. unfold E1. destruct (both s); auto. Qed.
  Lemma E2_renv f : enabled c f -> (forall k, In k (deps c f) -> same_at k) -> forall i j, i < vrows c f -> j < vcols c f ->
    eval (E2 (renv r0 r')) (el (val c f) i j) = eval (renv s0 s') (el (val c f) i j).
  Proof.
    intros He Hd i j Hi Hj. apply eval_ext. intros s Ho. unfold E2. destruct (both s); auto.
    pose proof (val_closed _ _ Hc f He i j Hi Hj s Ho) as HI. unfold isym in HI. apply in_flat_map in HI. destruct HI as (k & Hk & HI).
    unfold isyms in HI. apply in_map_iff in HI. destruct HI as (m & <- & Hm).
    pose proof (alist_deps _ _ _ Hk) as Hk'. destruct (deps_keys c f k He Hk') as [len Hlen].
    unfold renv. cbn [fst snd]. rewrite keyname_symname by (eapply keys_arg; eauto).
    apply (Hd k Hk' m len); [rewrite <- keys_bc; auto|].
    apply in_fidx in Hm. destruct Hm as [Hm _]. rewrite (ps_fl _ _ _ _ (bs_shape _ _ Hc k len Hlen)) in Hm. exact Hm.
  Qed.
  Definition valued (f : fn) : bool := core f || fricf f.
  Lemma deps_bc f : deps c f = deps b f.
  Proof. destruct f; cbn [deps]; rewrite ?(sm_n _ _ shape_bc); reflexivity. Qed.
  Lemma vrows_bc f : vrows c f = vrows b f.
  Proof. destruct shape_bc. destruct f; cbn [vrows]; congruence. Qed.
  Lemma vcols_bc f : valued f = true -> vcols c f = vcols b f.
  Proof. destruct shape_bc. destruct f; cbn [vcols valued core fricf orb]; try discriminate; congruence. Qed.
  Lemma enabled_bc f : valued f = true -> enabled b f -> enabled c f.
  Proof.
    destruct shape_bc. destruct f; cbn [enabled valued core fricf orb]; intros Hv He; try discriminate Hv;
      rewrite ?sm_n, ?sm_Dl, ?sm_K, ?sm_D, ?sm_Dm, ?sm_el; exact He.
  Qed.
  Theorem same_values f : valued f = true -> enabled b f -> (forall k, In k (deps b f) -> same_at k) ->
    answers r' (name_of f) (vrows b f) (vcols b f) /\ answers s' (name_of f) (vrows b f) (vcols b f) /\
    agree (vrows b f) (vcols b f) (out r' (name_of f)) (out s' (name_of f)).
  Proof.
    intros Hv He Hd. pose proof (enabled_bc f Hv He) as He2.
    destruct (get_out _ _ _ S1 f He) as [A1 V1]. destruct (get_out _ _ _ S2 f He2) as [A2 V2].
    rewrite vrows_bc, (vcols_bc f Hv) in A2, V2. split; auto. split; auto.
    intros i j Hi Hj. rewrite V1, V2 by auto.
    assert (M : Qv (el (val b f) i j) (el (val c f) i j)).
    { destruct (core f) eqn:Ec.
      - destruct (fn_eq_pinv f) as [->|N].
        + apply (mr_el _ _ _ _ _ (pinv_same Hd)); cbn [vrows vcols] in Hi, Hj; rewrite ?nb' in *; auto.
        + apply Qs_v. apply (mr_el _ _ _ _ _ (core_same f Ec N He Hd)); auto.
      - assert (Ef : fricf f = true) by (unfold valued in Hv; rewrite Ec in Hv; exact Hv).
        apply (mr_el _ _ _ _ _ (fric_same f Ef He Hd)); auto. }
    specialize (M (renv r0 r')). rewrite E1_renv in M. rewrite E2_renv in M; auto.
    - rewrite deps_bc. auto.
    - rewrite vrows_bc; auto.
    - rewrite vcols_bc; auto.
  Qed.
End Two.
