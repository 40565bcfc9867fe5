(* Every published function has a value for all inputs, and depends continuously on them. *)
From Coq Require Import Reals Lra Lia Arith List String Bool ZArith.
From Coquelicot Require Import Coquelicot.
From Verif.Model Require Import Base Expr SX Robot Kinematics Dynamics Regressors Yaml Build.
From Verif.Spec Require Import Math Setup Kinematics Damped Api Defined.
From Verif.Proofs Require Import Sums Calc Rel Lin3 Frames Pure PureRel Maps Names Shape Dims Sizes Deps BuildEq Load Init Final Closed Get Kin KinThm Motion KinMain Determinant Damped Smooth Friction BuildReg Calc Rel Pure PureRel Maps Names Shape Dims Sizes Deps BuildEq BuildReg Load Init Final Closed Get SortedMaps KinThm Select Lagrange Catalogue Api.
Import ListNotations.
Open Scope nat_scope.
Open Scope string_scope.

(* ---- formulas ---- *)
(* properties of formulas that every construction of the model keeps, except the inverse of a matrix *)
Record kept (V : expr -> Prop) : Prop := {
  v_cst : forall r, V (Cst r); v_var : forall s, V (Var s);
  v_add : forall a b, V a -> V b -> V (Add a b); v_sub : forall a b, V a -> V b -> V (Sub a b);
  v_mul : forall a b, V a -> V b -> V (Mul a b); v_opp : forall a, V a -> V (Opp a);
  v_divc : forall a r, r <> 0%R -> V a -> V (Div a (Cst r));
  v_sin : forall a, V a -> V (Sin a); v_cos : forall a, V a -> V (Cos a);
  v_pow : forall a k, V a -> V (Pow a k); v_abs : forall a, V a -> V (Sqrt (Pow a 2));
  v_diff : forall (act : sym -> Prop) v e, act v -> poly act e -> V e -> V (diff v e)
}.
Lemma has_diff (act : sym -> Prop) v e env : act v -> poly act e -> has_value env e -> has_value env (diff v e).
Proof.
  intros Hv. induction e; cbn [poly has_value diff]; intros P H; auto.
  - destruct (sym_eqb v s); exact I.
  - destruct P, H. destruct (occurs v e1), (occurs v e2); simpl; auto.
  - destruct P, H. destruct (occurs v e1), (occurs v e2); simpl; auto.
  - destruct P, H. destruct (occurs v e1), (occurs v e2); simpl; auto.
  - destruct P as [P N], H as (H1 & H2 & H3). rewrite (N v Hv). destruct (occurs v e1); simpl; auto.
  - destruct (occurs v e); simpl; auto.
  - destruct (occurs v e); simpl; auto.
  - destruct (occurs v e); simpl; auto.
  - rewrite (P v Hv). exact I.
  - destruct (occurs v e); simpl; auto.
Qed.
Lemma kept_has : kept (fun e => forall env, has_value env e).
Proof.
  constructor; simpl; auto.
  - intros a H env. split; [exact (H env)|]. rewrite Rmult_1_r. apply Rle_0_sqr.
  - intros act v e Hv P H env. now apply (has_diff act).
Qed.

(* ---- the published functions ---- *)
Section Kept.
Variable V : expr -> Prop.
Hypothesis HVk : kept V.
Definition HV (a _ : expr) : Prop := V a.
Definition PV (a a' : expr) : Prop := poly allp a /\ HV a a'.
Lemma congr_HV : congr HV.
Proof. constructor; unfold HV; intros; apply HVk; auto. Qed.
Lemma HV_pow a a' k : HV a a' -> HV (Pow a k) (Pow a' k).
Proof. apply HVk. Qed.
Lemma HV_abs a a' : HV a a' -> HV (Sqrt (Pow a 2)) (Sqrt (Pow a' 2)).
Proof. apply HVk. Qed.
Lemma congr_PV : congr PV.
Proof.
  constructor; unfold PV; intros; repeat match goal with H : _ /\ _ |- _ => destruct H end; split.
  all: try (apply congr_HV; auto; fail). all: try (simpl; auto; fail).
  simpl. split; auto. intros s _. reflexivity.
Qed.
Lemma PV_diff v a a' : PV a a' -> PV (diff v a) (diff v a').
Proof. intros [P H]. split; [apply poly_diff; auto; exact I|]. apply (v_diff _ HVk allp); auto. exact I. Qed.
Lemma PV_ZIS e : PV e e -> PV (ZIS e) (ZIS e).
Proof. intros H. unfold ZIS. destruct (is_constant e); auto. destruct (Rlt_dec _ _); auto. split; [exact I|apply HVk]. Qed.
Lemma trig_PV a : PV a a -> trig_rel PV a a.
Proof.
  intros [P H]. split; [|split]; apply PV_ZIS; split; try exact P.
  - apply (v_cos _ HVk). exact H.
  - apply (v_sin _ HVk). exact H.
  - apply (v_opp _ HVk), (v_sin _ HVk). exact H.
Qed.

Section Fun.
  Variables (cv : cvals) (b : robot).
  Hypothesis Hb : base cv b.
  Lemma key_PV k len i : In (k, len) (keys b) -> i < len -> PV (el (mdl b k) i 0) (el (mdl b k) i 0).
  Proof. intros Hk Hi. destruct (key_leaf cv b Hb k len i Hk Hi) as [[s ->]|[r ->]]; split; try exact I; apply HVk. Qed.
  Lemma keys_PV k len : In (k, len) (keys b) -> mrel PV len 1 (mdl b k) (mdl b k).
  Proof.
    intros Hk. pose proof (bs_shape _ _ Hb k len Hk) as P. destruct P. constructor; auto.
    intros i j Hi Hj. replace j with 0 by lia. eapply key_PV; eauto.
  Qed.
  Lemma keys_HV k len : In (k, len) (keys b) -> mrel HV len 1 (mdl b k) (mdl b k).
  Proof. intros Hk. destruct (keys_PV k len Hk). constructor; auto. intros i j Hi Hj. apply mr_el; auto. Qed.
  Lemma core_PV f : core f = true -> f <> fJeepinv -> enabled b f ->
    mrel PV (vrows b f) (vcols b f) (val b f) (val b f).
  Proof.
    intros Hc Hp He.
    eapply (core_mrel PV congr_PV cv cv b b Hb Hb eq_refl eq_refl (deps b f)); auto.
    - intros; eapply keys_PV; eauto.
    - intros Hd k Hk. apply trig_PV. eapply key_PV; [apply in_keys_par; cbn [In]; auto|lia].
    - intros Hd Hq k Hk. apply trig_PV. unfold thx, DHrow.
      assert (A : PV (el (mdl b "par_DHtable") (k * 4 + 3) 0) (el (mdl b "par_DHtable") (k * 4 + 3) 0)).
      { eapply key_PV; [apply in_keys_par; cbn [In]; auto|lia]. }
      destruct (is_P (jtype b k)); simpl; [exact A|]. apply congr_PV; [exact A|]. eapply key_PV; [apply in_keys_q|auto].
    - intros Hd k Hk. apply trig_PV. eapply key_PV; [apply in_keys_par; cbn [In]; auto|lia].
    - intros Hd k Hk. apply trig_PV. eapply key_PV; [apply in_keys_par; cbn [In]; auto|lia].
    - instantiate (1 := fun _ => True). intros v a a' _ Ha. apply PV_diff; auto.
    - simpl. auto.
    - intros E; contradiction.
  Qed.
  Lemma Jee_PV : mrel PV 6 (numJoints b) (Jeex b) (Jeex b).
  Proof. exact (core_PV fJee eq_refl ltac:(discriminate) I). Qed.
  Lemma fric_HV f : fricf f = true -> enabled b f -> mrel HV (vrows b f) (vcols b f) (val b f) (val b f).
  Proof.
    intros Hc He. eapply (fric_mrel HV congr_HV) with (ds := deps b f); eauto using HV_pow, HV_abs.
    intros; eapply keys_HV; eauto.
  Qed.
  Lemma jac_HV f e k len i j : In (k, len) (keys b) -> (forall k', In k' (alist b f) -> In k' arg_keys) ->
    ~ In k (alist b f) -> linE (isym b f) (el e (i mod rows e) (i / rows e)) ->
    HV (el e (i mod rows e) (i / rows e)) (Cst 0) -> j < List.length (sel b k) ->
    V (el (jacobian e (vertcat_list (sel b k))) i j).
  Proof.
    intros Hl Hal Hn He Hh Hj. cbn [el jacobian vertcat_list].
    destruct (sel_sym cv b Hb k len j Hl Hj) as (m & _ & _ & ->). unfold diff_wrt. simpl.
    apply (v_diff _ HVk (fun s => s = (symname k, m))); [reflexivity| |apply Hh].
    eapply lin_poly; [exact He|]. intros s ->. apply not_isym; auto. eapply keys_arg; eauto.
  Qed.
  Ltac inkey := unfold keys, state_keys, par_keys;
    repeat match goal with H : _ = true |- _ => rewrite H end; rewrite ?in_app_iff; simpl; tauto.
  Lemma key_HV k len i : In (k, len) (keys b) -> i < len -> HV (el (mdl b k) i 0) (el (mdl b k) i 0).
  Proof. intros Hk Hi. exact (proj2 (key_PV k len i Hk Hi)). Qed.
  Lemma sub_HV x y : HV x x -> HV y y -> HV (Sub x y) (Sub x y).
  Proof. intros A B. now apply congr_HV. Qed.
  Lemma reg_HV f : core f = false -> fricf f = false -> enabled b f ->
    forall i j, i < vrows b f -> j < vcols b f -> V (el (val b f) i j).
  Proof.
    intros Hc Hf He i j Hi Hj. pose proof (bs_e _ _ Hb) as Hne.
    assert (D1 : forall a d, a < d -> a mod d = a /\ a / d = 0).
    { intros a d H. split; [apply Nat.mod_small|apply Nat.div_small]; auto. }
    destruct f; try discriminate; cbn [vrows vcols val enabled] in *.
    - destruct He as [He Hs]. apply Nat.ltb_lt in He.
      apply jac_HV with (f := frdl) (len := numJoints b * Dl_order b); auto; [inkey|simpl; intuition (subst; auto)|simpl; intuition discriminate| |].
      + cbn [rows link_dl el]. destruct (D1 _ _ Hi) as [DE1 DE2]; rewrite ?DE1, ?DE2. apply lin_fric.
        * apply key_state with (cv := cv) (len := numJoints b); [auto|inkey|simpl; auto|auto].
        * intros k Hk. apply key_leaf with (cv := cv) (len := numJoints b * Dl_order b); [auto|inkey|nia].
      + cbn [rows link_dl el]. destruct (D1 _ _ Hi) as [DE1 DE2]; rewrite ?DE1, ?DE2.
        refine (q_fric HV congr_HV HV_pow HV_abs b b eq_refl eq_refl eq_refl eq_refl eq_refl eq_refl _ _ _ _ _ _ (numJoints b * Dl_order b) _ (keys_HV _ _ _) _); [apply key_HV with (len := numJoints b); [inkey|auto]|inkey|nia].
    - destruct He as [He Hs].
      apply jac_HV with (f := frk) (len := numElasticJoints b * K_order b); auto; [inkey|simpl; intuition (subst; auto)|simpl; intuition discriminate| |].
      + cbn [rows el_k el]. destruct (D1 _ _ Hi) as [DE1 DE2]; rewrite ?DE1, ?DE2. apply lin_spring.
        * apply within_sub; [apply key_state with (cv := cv) (len := numElasticJoints b)|apply key_state with (cv := cv) (len := numJoints b)]; try inkey; simpl; auto; lia.
        * intros k Hk. apply key_leaf with (cv := cv) (len := numElasticJoints b * K_order b); [auto|inkey|nia].
      + cbn [rows el_k el]. destruct (D1 _ _ Hi) as [DE1 DE2]; rewrite ?DE1, ?DE2.
        refine (q_spring HV congr_HV HV_pow b b eq_refl eq_refl eq_refl eq_refl eq_refl eq_refl _ _ _ _ _ _ (numElasticJoints b * K_order b) _ (keys_HV _ _ _) _); [|inkey|nia].
        apply sub_HV; [apply key_HV with (len := numElasticJoints b)|apply key_HV with (len := numJoints b)]; try inkey; lia.
    - destruct He as [He Hs].
      apply jac_HV with (f := frd) (len := numElasticJoints b * D_order b); auto; [inkey|simpl; intuition (subst; auto)|simpl; intuition discriminate| |].
      + cbn [rows el_d el]. destruct (D1 _ _ Hi) as [DE1 DE2]; rewrite ?DE1, ?DE2. apply lin_fric.
        * apply within_sub; [apply key_state with (cv := cv) (len := numElasticJoints b)|apply key_state with (cv := cv) (len := numJoints b)]; try inkey; simpl; auto; lia.
        * intros k Hk. apply key_leaf with (cv := cv) (len := numElasticJoints b * D_order b); [auto|inkey|nia].
      + cbn [rows el_d el]. destruct (D1 _ _ Hi) as [DE1 DE2]; rewrite ?DE1, ?DE2.
        refine (q_fric HV congr_HV HV_pow HV_abs b b eq_refl eq_refl eq_refl eq_refl eq_refl eq_refl _ _ _ _ _ _ (numElasticJoints b * D_order b) _ (keys_HV _ _ _) _); [|inkey|nia].
        apply sub_HV; [apply key_HV with (len := numElasticJoints b)|apply key_HV with (len := numJoints b)]; try inkey; lia.
    - destruct He as [He Hs].
      apply jac_HV with (f := frdm) (len := numElasticJoints b * Dm_order b); auto; [inkey|simpl; intuition (subst; auto)|simpl; intuition discriminate| |].
      + cbn [rows el_dm el]. destruct (D1 _ _ Hi) as [DE1 DE2]; rewrite ?DE1, ?DE2. apply lin_fric.
        * apply key_state with (cv := cv) (len := numElasticJoints b); [auto|inkey|simpl; auto|auto].
        * intros k Hk. apply key_leaf with (cv := cv) (len := numElasticJoints b * Dm_order b); [auto|inkey|nia].
      + cbn [rows el_dm el]. destruct (D1 _ _ Hi) as [DE1 DE2]; rewrite ?DE1, ?DE2.
        refine (q_fric HV congr_HV HV_pow HV_abs b b eq_refl eq_refl eq_refl eq_refl eq_refl eq_refl _ _ _ _ _ _ (numElasticJoints b * Dm_order b) _ (keys_HV _ _ _) _); [|inkey|nia].
        apply key_HV with (len := numElasticJoints b); [inkey|auto].
    - destruct He as [He Hs].
      apply jac_HV with (f := frMm) (len := numElasticJoints b); auto; [inkey|simpl; intuition (subst; auto)|simpl; intuition discriminate| |].
      + cbn [rows cols el_Mm el mtimes]. destruct (D1 _ _ Hi) as [DE1 DE2]; rewrite ?DE1, ?DE2. apply lin_esum. intros k Hk.
        apply lin_l'.
        * apply key_state with (cv := cv) (len := numElasticJoints b); [auto|inkey|simpl; auto|auto].
        * destruct (Nat.eqb i k); [|right; eauto]. apply key_leaf with (cv := cv) (len := numElasticJoints b); [auto|inkey|auto].
      + cbn [rows cols el_Mm el mtimes]. destruct (D1 _ _ Hi) as [DE1 DE2]; rewrite ?DE1, ?DE2.
        refine (q_esum HV congr_HV _ _ (fun _ => Cst 0%R) _). intros k Hk. refine (q_mul _ congr_HV _ _ (Cst 0%R) (Cst 0%R) _ _).
        * destruct (Nat.eqb i k); [|apply HVk]. apply key_HV with (len := numElasticJoints b); [inkey|auto].
        * apply key_HV with (len := numElasticJoints b); [inkey|auto].
    - unfold reg_Jdqx. cbn [el jacobian]. unfold diff_wrt. destruct (sym_of _); [|apply HVk].
      assert (M : mrel PV 6 1 (mtimes (Jeex b) (mdl b "dq")) (mtimes (Jeex b) (mdl b "dq"))).
      { apply (mr_mtimes PV congr_PV 6 (numJoints b) 1); [apply Jee_PV|apply keys_PV; inkey]. }
      destruct (D1 _ _ Hi) as [DE1 DE2]. rewrite (mr_r _ _ _ _ _ M), DE1, DE2.
      destruct (mr_el _ _ _ _ _ M i 0 Hi ltac:(lia)) as [P H]. apply (v_diff _ HVk allp); auto. exact I.
    - unfold reg_JTwx. cbn [el jacobian]. unfold diff_wrt. destruct (sym_of _); [|apply HVk].
      assert (M : mrel PV (numJoints b) 1 (mtimes (mT (Jeex b)) (mdl b "w")) (mtimes (mT (Jeex b)) (mdl b "w"))).
      { apply (mr_mtimes PV congr_PV (numJoints b) 6 1); [apply (mr_mT PV), Jee_PV|apply keys_PV; inkey]. }
      destruct (D1 _ _ Hi) as [DE1 DE2]. rewrite (mr_r _ _ _ _ _ M), DE1, DE2.
      destruct (mr_el _ _ _ _ _ M i 0 Hi ltac:(lia)) as [P H]. apply (v_diff _ HVk allp); auto. exact I.
  Qed.
  Theorem val_kept f : f <> fJeepinv -> enabled b f -> forall i j, i < vrows b f -> j < vcols b f -> V (el (val b f) i j).
  Proof.
    intros D He i j Hi Hj. destruct (core f) eqn:Hc.
    - exact (proj2 (mr_el _ _ _ _ _ (core_PV f Hc D He) i j Hi Hj)).
    - destruct (fricf f) eqn:Hf; [exact (mr_el _ _ _ _ _ (fric_HV f Hf He) i j Hi Hj)|]. apply reg_HV; auto.
  Qed.
End Fun.
End Kept.

Section Pinv.
  Variables (cv : cvals) (b : robot).
  Hypothesis Hb : base cv b.
  Notation HW := (HV (fun e => forall env, has_value env e)).
  Notation PW := (PV (fun e => forall env, has_value env e)).
  Lemma damped_PW : mrel PW 6 6 (damped b) (damped b).
  Proof.
    unfold damped. apply (mr_madd PW (congr_PV _ kept_has)); [apply (mr_mtimes PW (congr_PV _ kept_has) 6 (numJoints b) 6); [apply (Jee_PV _ kept_has cv b Hb)|apply (mr_mT PW), (Jee_PV _ kept_has cv b Hb)]|].
    apply (mr_scale_r PW (congr_PV _ kept_has)); [apply (mr_scal PW), (congr_PV _ kept_has)|apply (mr_eye PW (congr_PV _ kept_has))].
  Qed.
  Lemma damped_eval env a c : ev env (damped b) a c = damped_gram MU (numJoints b) (ev env (Jeex b)) a c.
  Proof.
    unfold damped, damped_gram, rmul, rtr, rid. unfold ev. cbn [madd scale_r el mtimes mT eye scal sc eval].
    rewrite eval_esum, (mr_c _ _ _ _ _ (Jee_PV _ kept_has cv b Hb)). f_equal. destruct (Nat.eqb a c); cbn [eval]; ring.
  Qed.
  Lemma pinv_HV i j env : i < numJoints b -> j < 6 -> has_value env (el (Jeepinvx b) i j).
  Proof.
    intros Hi Hj. destruct (Jee_PV _ kept_has cv b Hb) as [JR JC _ _ _ _ JE]. destruct damped_PW as [DR DC _ _ _ _ DE].
    unfold Jeepinvx. cbn [el mtimes mT cols]. rewrite JR.
    refine (q_esum (fun a _ => has_value env a) _ _ _ (fun _ => Cst 0%R) _). { constructor; simpl; auto. }
    intros k Hk. cbn [has_value]. split; [apply (proj2 (JE k i Hk Hi))|]. cbn [inv el has_value]. rewrite DR. split; [|split].
    - refine (q_esign HW (congr_HV _ kept_has) _ _ (Cst 0%R) _ env). refine (q_edet HW (congr_HV _ kept_has) _ _ (fun _ _ => Cst 0%R) _).
      intros p q Hp Hq env'. unfold minor. refine (proj2 (DE _ _ _ _) env'); apply skip_lt; simpl in Hp, Hq; lia.
    - refine (q_edet HW (congr_HV _ kept_has) _ _ (fun _ _ => Cst 0%R) _ env). intros p q Hp Hq. apply (proj2 (DE p q Hp Hq)).
    - apply Rgt_not_eq. rewrite eval_edet. 
      rewrite (rdet_ext 6 _ (damped_gram MU (numJoints b) (ev env (Jeex b)))) by (intros; apply damped_eval).
      apply pd_det; [apply gram_symm|apply gram_pd, MU_pos].
  Qed.
  Theorem val_has f : enabled b f -> forall i j, i < vrows b f -> j < vcols b f -> forall env, has_value env (el (val b f) i j).
  Proof.
    intros He i j Hi Hj env.
    assert (D : f = fJeepinv \/ f <> fJeepinv) by (destruct f; (left; reflexivity) || (right; discriminate)).
    destruct D as [->|D]; [now apply pinv_HV|]. exact (val_kept _ kept_has cv b Hb f D He i j Hi Hj env).
  Qed.
End Pinv.

(* ---- continuity ---- *)
Definition nearby (S : sym -> Prop) (env : sym -> R) (P : (sym -> R) -> Prop) : Prop :=
  exists d : posreal, forall env', (forall s, S s -> (Rabs (env' s - env s) < d)%R) -> P env'.
Global Instance nearby_filter S env : Filter (nearby S env).
Proof.
  constructor.
  - exists (mkposreal 1 Rlt_0_1). auto.
  - intros P Q [d1 H1] [d2 H2]. exists (mkposreal (Rmin d1 d2) (Rmin_stable_in_posreal d1 d2)). intros e He.
    split; [apply H1|apply H2]; intros s Hs; specialize (He s Hs); simpl in He.
    + eapply Rlt_le_trans; [exact He|apply Rmin_l].
    + eapply Rlt_le_trans; [exact He|apply Rmin_r].
  - intros P Q I [d H]. exists d. auto.
Qed.
Lemma limit S env e : within S e -> has_value env e -> filterlim (fun x => eval x e) (nearby S env) (locally (eval env e)).
Proof.
  assert (L : forall (f : R -> R) (a : expr), continuity_pt f (eval env a) ->
    filterlim (fun x => eval x a) (nearby S env) (locally (eval env a)) ->
    filterlim (fun x => f (eval x a)) (nearby S env) (locally (f (eval env a)))).
  { intros f a C H. eapply filterlim_comp; [exact H|]. apply continuity_pt_filterlim. exact C. }
  assert (W : forall a c, (forall s, occurs s a || occurs s c = true -> S s) -> within S a /\ within S c).
  { intros a c H. split; intros s Hs; apply H; rewrite Hs; auto using orb_true_r. }
  assert (PL : forall f g x y, filterlim f (nearby S env) (locally x) -> filterlim g (nearby S env) (locally y) ->
    filterlim (fun e => (f e + g e)%R) (nearby S env) (locally (x + y)%R)).
  { intros f g x y A B. eapply filterlim_comp_2; [exact A|exact B|exact (@filterlim_plus R_AbsRing R_NormedModule x y)]. }
  assert (OP : forall f x, filterlim f (nearby S env) (locally x) -> filterlim (fun e => (- f e)%R) (nearby S env) (locally (- x)%R)).
  { intros f x A. eapply filterlim_comp; [exact A|exact (@filterlim_opp R_AbsRing R_NormedModule x)]. }
  assert (MU' : forall f g x y, filterlim f (nearby S env) (locally x) -> filterlim g (nearby S env) (locally y) ->
    filterlim (fun e => (f e * g e)%R) (nearby S env) (locally (x * y)%R)).
  { intros f g x y A B. eapply filterlim_comp_2; [exact A|exact B|exact (@filterlim_mult R_AbsRing x y)]. }
  induction e; intros HW HV'; cbn [eval]; cbn [has_value] in HV'.
  - apply filterlim_const.
  - intros P [d HP]. exists d. intros env' He. apply HP. apply (He s). apply HW. simpl. apply sym_eqb_refl.
  - destruct HV' as [V1 V2]. destruct (W e1 e2 HW). auto.
  - destruct HV' as [V1 V2]. destruct (W e1 e2 HW). unfold Rminus. auto.
  - destruct HV' as [V1 V2]. destruct (W e1 e2 HW). auto.
  - destruct HV' as (V1 & V2 & V3). destruct (W e1 e2 HW). unfold Rdiv. apply MU'; [auto|].
    apply (L Rinv e2); [|auto]. apply (continuity_pt_inv (fun x => x)); [apply derivable_continuous_pt, derivable_pt_id|exact V3].
  - apply OP. auto.
  - apply (L sin); [apply continuity_sin|auto].
  - apply (L cos); [apply continuity_cos|auto].
  - destruct HV' as [V1 V2]. apply (L sqrt); [apply continuity_pt_sqrt; exact V2|auto].
  - apply (L (fun x => x ^ n)%R); [apply derivable_continuous_pt, derivable_pt_pow|auto].
Qed.
Lemma close_merge d fl : (0 < d)%R -> forall cfg u v, List.length u = List.length v -> (forall l, (Rabs (nth l u 0 - nth l v 0) < d)%R) ->
  forall i, (Rabs (nth i (merge fl cfg u) 0 - nth i (merge fl cfg v) 0) < d)%R.
Proof.
  intros Hd.
  assert (Z : forall x : R, (Rabs (x - x) < d)%R) by (intros x; replace (x - x)%R with 0%R by ring; rewrite Rabs_R0; exact Hd).
  induction fl as [|z fl IH]; intros cfg u v L H i; [apply Z|]. destruct cfg as [|c cfg]; [apply Z|]. cbn [merge].
  destruct (flag_set z).
  - destruct u as [|x u], v as [|y v]; try discriminate L; [apply Z|]. injection L as L. destruct i as [|i]; [exact (H 0)|].
    apply (IH cfg u v L). intros l. exact (H (S l)).
  - destruct i as [|i]; [apply Z|]. apply (IH cfg u v L H).
Qed.

Theorem published_has name cfg r0 r r' fo cf : session name cfg r0 r r' ->
  In fo (get_functions r) -> mfind (fo_name fo) (casadi_fun r) = Some cf ->
  forall i j, i < fo_rows fo -> j < fo_cols fo -> forall env, has_value env (el (f_out cf) i j).
Proof.
  intros Hs H. destruct (session_sess _ _ _ _ _ Hs) as (b & S & B). apply (fun_obj_iff _ _ _ B) in H.
  destruct H as (f & He & ->). cbn [fo_name fo_args fo_rows fo_cols].
  assert (HL : In f (L_all b)) by (now apply L_all_enabled).
  assert (AP : allproper (L_all b)). { intros g Hg. apply L_all_enabled in Hg. eapply enabled_proper; eauto. }
  destruct (pubs_fun b (L_all b) f (enabled_proper _ _ He) AP HL) as [_ A]. rewrite <- (cf_r _ _ _ B) in A.
  rewrite A. intros [= <-] i j Hi Hj. cbn [f_out]. exact (val_has _ _ (bt_base _ _ _ B) f He i j Hi Hj).
Qed.
Theorem published_continuous name cfg r0 r r' fo i j : session name cfg r0 r r' -> In fo (get_functions r) -> i < fo_rows fo -> j < fo_cols fo ->
  forall eps, (0 < eps)%R -> exists delta, (0 < delta)%R /\ forall r1, session name cfg r0 r r1 ->
    (forall k l, In k (fo_args fo) -> (Rabs (nth l (arg r1 k) 0 - nth l (arg r' k) 0) < delta)%R) ->
    (Rabs (out r1 (fo_name fo) i j - out r' (fo_name fo) i j) < eps)%R.
Proof.
  intros Hs H. destruct (session_built _ _ _ _ _ Hs) as (b & B). pose proof (built_sess _ _ _ _ _ _ Hs B) as SS.
  apply (fun_obj_iff _ _ _ B) in H. destruct H as (f & He & ->). cbn [fo_name fo_args fo_rows fo_cols]. intros Hi Hj eps Heps.
  pose proof (limit (isym b f) (renv r0 r') (el (val b f) i j) (val_closed _ _ (bt_base _ _ _ B) f He i j Hi Hj)
    (val_has _ _ (bt_base _ _ _ B) f He i j Hi Hj _)) as L.
  destruct (L (ball (eval (renv r0 r') (el (val b f) i j)) (mkposreal eps Heps))) as [d Hd]; [exists (mkposreal eps Heps); auto|].
  exists d. split; [apply cond_pos|]. intros r1 H1 HA. pose proof (built_sess _ _ _ _ _ _ H1 B) as S1.
  rewrite (proj2 (get_out _ _ _ SS f He) i j Hi Hj), (proj2 (get_out _ _ _ S1 f He) i j Hi Hj).
  apply (Hd (renv r0 r1)). intros s Hsy. unfold isym in Hsy. apply in_flat_map in Hsy. destruct Hsy as (k & Hk & Hsy).
  unfold isyms in Hsy. apply in_map_iff in Hsy. destruct Hsy as (m & <- & _).
  destruct (deps_keys b f k He (alist_deps _ _ _ Hk)) as [len Hl]. 
  unfold renv. cbn [fst snd]. rewrite keyname_symname by (eapply keys_arg; exact Hl). unfold param.
  apply close_merge; [apply cond_pos| |intros l; now apply HA].
  rewrite (keys_b _ _ _ SS) in Hl. unfold keys in Hl. apply in_app_iff in Hl. destruct Hl as [Hl|Hl].
  - now rewrite (se_state _ _ _ _ _ H1 k len Hl), (se_state _ _ _ _ _ Hs k len Hl).
  - now rewrite (se_par _ _ _ _ _ H1 k len Hl), (se_par _ _ _ _ _ Hs k len Hl).
Qed.
