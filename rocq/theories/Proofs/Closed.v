(* Every published function mentions only the symbols of its declared arguments. *)
From Coq Require Import Reals List Arith String Bool Lia ZArith.
From Verif.Model Require Import Base Expr SX Robot Kinematics Dynamics Regressors.
From Verif.Proofs Require Import Calc Rel Maps Pure PureRel Names Shape Dims Sizes Deps.
Import ListNotations.
Open Scope nat_scope.
Open Scope string_scope.

Definition within (S : sym -> Prop) (e : expr) : Prop := forall s, occurs s e = true -> S s.
Definition QW (S : sym -> Prop) (a _ : expr) : Prop := within S a.
Lemma congr_QW S : congr (QW S).
Proof.
  constructor; unfold QW, within; simpl; try discriminate; auto;
    intros; match goal with H : _ || _ = true |- _ => apply orb_true_iff in H; destruct H end; auto; discriminate.
Qed.
Lemma within_ZIS S e : within S e -> within S (ZIS e).
Proof.
  intros H. unfold ZIS. destruct (is_constant e); auto. destruct Rlt_dec; auto. intros s; simpl; discriminate.
Qed.
Lemma trig_QW S a a' : within S a -> trig_rel (QW S) a a'.
Proof. intros H. repeat split; apply within_ZIS; exact H. Qed.

(* expressions that are linear in parameters, with coefficients that only mention the symbols S *)
Inductive linE (S : sym -> Prop) : expr -> Prop :=
| lin_c r : linE S (Cst r)
| lin_add a b : linE S a -> linE S b -> linE S (Add a b)
| lin_r c s : within S c -> linE S (Mul c (Var s))
| lin_rc c r : within S c -> linE S (Mul c (Cst r))
| lin_l c s : within S c -> linE S (Mul (Var s) c)
| lin_lc c r : within S c -> linE S (Mul (Cst r) c).
Lemma not_occurs S v c : within S c -> ~ S v -> occurs v c = false.
Proof. intros H N. destruct (occurs v c) eqn:E; auto. exfalso; auto. Qed.
Lemma within_mul S a b : within S a -> within S b -> within S (Mul a b).
Proof. intros A B s. simpl. rewrite orb_true_iff. intros [H|H]; auto. Qed.
Lemma within_cst S r : within S (Cst r).
Proof. intros s; simpl; discriminate. Qed.
Lemma lin_diff_within S v e : linE S e -> ~ S v -> within S (diff v e).
Proof.
  intros H N. induction H; simpl.
  - apply within_cst.
  - destruct (occurs v a), (occurs v b); auto; try apply within_cst.
    intros s. simpl. rewrite orb_true_iff. intros [A|A]; auto.
  - rewrite (not_occurs S v c) by auto. destruct (sym_eqb v s); [|apply within_cst]. apply within_mul; auto. apply within_cst.
  - rewrite (not_occurs S v c) by auto. apply within_cst.
  - rewrite (not_occurs S v c) by auto. destruct (sym_eqb v s); [|apply within_cst]. apply within_mul; auto. apply within_cst.
  - rewrite (not_occurs S v c) by auto. apply within_cst.
Qed.
Definition leaf (e : expr) : Prop := (exists s, e = Var s) \/ (exists r, e = Cst r).
Lemma lin_r' S c p : within S c -> leaf p -> linE S (Mul c p).
Proof. intros H [[s ->]|[r ->]]; constructor; auto. Qed.
Lemma lin_l' S c p : within S c -> leaf p -> linE S (Mul p c).
Proof. intros H [[s ->]|[r ->]]; constructor; auto. Qed.
Lemma lin_for S (g : nat -> expr) k lo acc : linE S acc -> (forall i, lo <= i < lo + k -> linE S (g i)) ->
  linE S (for_ k lo (fun ord acc => Add acc (g ord)) acc).
Proof.
  revert lo acc. induction k; simpl; intros lo acc Ha Hg; auto.
  apply IHk; [|intros; apply Hg; lia]. constructor; auto. apply Hg; lia.
Qed.
Lemma within_pow S a k : within S a -> within S (Pow a k).
Proof. intros H s; simpl; auto. Qed.
Lemma within_sqrt S a : within S a -> within S (Sqrt a).
Proof. intros H s; simpl; auto. Qed.
Lemma within_sub S a b : within S a -> within S b -> within S (Sub a b).
Proof. intros A B s. simpl. rewrite orb_true_iff. intros [H|H]; auto. Qed.
Lemma lin_fric S v p base order : within S v -> (forall i, i < order -> leaf (el p (base + i) 0)) -> linE S (fric_sum v p base order).
Proof.
  intros Hv Hp. unfold fric_sum. apply lin_for; [constructor|]. intros i Hi. unfold fric_term.
  destruct (Nat.even i); apply lin_r'; auto using within_pow, within_mul, within_sqrt; apply Hp; lia.
Qed.
Lemma lin_spring S v p base order : within S v -> (forall i, i < order -> leaf (el p (base + i) 0)) -> linE S (spring_sum v p base order).
Proof.
  intros Hv Hp. unfold spring_sum. apply lin_for; [constructor|]. intros i Hi.
  apply lin_r'; auto using within_pow. apply Hp; lia.
Qed.
Lemma lin_esum S n g : (forall i, i < n -> linE S (g i)) -> linE S (esum n g).
Proof. induction n; simpl; intros H; constructor; auto. Qed.

Section Closed.
  Variables (cv : cvals) (b : robot).
  Hypothesis Hb : base cv b.
  Definition isym (f : fn) (s : sym) : Prop := In s (flat_map (isyms b) (alist b f)).

  Lemma deps_alist f k : core f = true \/ fricf f = true -> In k (deps b f) -> (In k (alist b f)) \/ has_symb b k = false.
  Proof.
    intros Hc Hk.
    assert (G : forall s p, In k (s ++ p)%list -> In k (al b s p) \/ has_symb b k = false).
    { intros s p H. unfold al, obtain_symb_parameters. rewrite in_app_iff, filter_In. apply in_app_iff in H.
      destruct (has_symb b k); tauto. }
    destruct f; cbn [alist deps core fricf] in *; try (destruct Hc; discriminate).
    all: repeat match goal with |- context [if ?c then _ else _] => destruct c end; apply G; exact Hk.
  Qed.
  Lemma key_within f k len : core f = true \/ fricf f = true -> In k (deps b f) -> In (k, len) (keys b) ->
    forall i, i < len -> within (isym f) (el (mdl b k) i 0).
  Proof.
    intros Hc Hk Hl i Hi s Hs. pose proof (bs_shape _ _ Hb k len Hl) as P.
    rewrite (ps_el _ _ _ _ P) in Hs by auto. destruct (flag_set (nth i (flags b k) 0%Z)) eqn:F; [|discriminate Hs].
    simpl in Hs. apply sym_eqb_eq in Hs. subst s.
    destruct (deps_alist f k Hc Hk) as [Ha|Hn].
    - unfold isym. apply in_flat_map. exists k. split; auto. unfold isyms. apply in_map. apply in_fidx.
      rewrite (ps_fl _ _ _ _ P). auto.
    - exfalso. unfold has_symb in Hn. assert (existsb flag_set (flags b k) = true); [|congruence].
      apply existsb_exists. eexists; split; [|exact F]. apply nth_In. rewrite (ps_fl _ _ _ _ P). auto.
  Qed.
  Lemma key_mrel f k len : core f = true \/ fricf f = true -> In k (deps b f) -> In (k, len) (keys b) ->
    mrel (QW (isym f)) len 1 (mdl b k) (mdl b k).
  Proof.
    intros Hc Hk Hl. pose proof (bs_shape _ _ Hb k len Hl) as P. destruct P.
    constructor; auto. intros i j Hi Hj. replace j with 0 by lia. eapply key_within; eauto.
  Qed.
  Lemma in_keys_q : In ("q", numJoints b) (keys b).
  Proof. unfold keys, state_keys. rewrite !in_app_iff. simpl. tauto. Qed.
  Lemma in_keys_par k len : In (k, len) [("par_DHtable", 4 * numJoints b); ("par_world2L0", 6); ("par_Ln2EE", 6); ("par_gravity", 3); ("par_DYN", 10 * numJoints b)] ->
    In (k, len) (keys b).
  Proof. intros H. unfold keys, par_keys. rewrite !in_app_iff. tauto. Qed.
  Lemma core_closed f : core f = true -> enabled b f ->
    forall i j, i < vrows b f -> j < vcols b f -> within (isym f) (el (val b f) i j).
  Proof.
    intros Hc He i j Hi Hj.
    assert (HK : forall k len, In k (deps b f) -> In (k, len) (keys b) -> forall i, i < len -> within (isym f) (el (mdl b k) i 0)).
    { intros; eapply key_within; eauto. }
    assert (M : mrel (QW (isym f)) (vrows b f) (vcols b f) (val b f) (val b f)).
    { eapply (core_mrel (QW (isym f)) (congr_QW _) cv cv b b Hb Hb eq_refl eq_refl (deps b f)); auto.
      - intros; eapply key_mrel; eauto.
      - intros Hd k Hk. apply trig_QW. apply (HK "par_DHtable" (4 * numJoints b)); [auto|apply in_keys_par; cbn [In]; auto|lia].
      - intros Hd Hq k Hk. apply trig_QW. unfold thx.
        assert (A : within (isym f) (sc (vat (DHrow b k) 3))).
        { unfold sc, DHrow. simpl. apply (HK "par_DHtable" (4 * numJoints b)); [auto|apply in_keys_par; cbn [In]; auto|lia]. }
        destruct (is_P (jtype b k)); auto. intros s. simpl. rewrite orb_true_iff. intros [H|H]; [apply (A s H)|].
        apply (HK "q" (numJoints b)) with (i := k); auto. apply in_keys_q.
      - intros Hd k Hk. apply trig_QW. apply (HK "par_world2L0" 6); [auto|apply in_keys_par; cbn [In]; auto|lia].
      - intros Hd k Hk. apply trig_QW. apply (HK "par_Ln2EE" 6); [auto|apply in_keys_par; cbn [In]; auto|lia].
      - instantiate (1 := fun _ => True). intros v a a' _ Ha s Hs. apply Ha. eapply occurs_diff; eauto.
      - simpl. auto.
      - intros _ a b0 a' b' Ha Hb' s. simpl. rewrite orb_true_iff. intros [H|H]; auto. }
    apply (mr_el _ _ _ _ _ M); auto.
  Qed.
  Lemma fric_closed f : fricf f = true -> enabled b f ->
    forall i j, i < vrows b f -> j < vcols b f -> within (isym f) (el (val b f) i j).
  Proof.
    intros Hc He i j Hi Hj.
    assert (M : mrel (QW (isym f)) (vrows b f) (vcols b f) (val b f) (val b f)).
    { eapply (fric_mrel (QW (isym f)) (congr_QW _)) with (ds := deps b f); eauto.
      intros; eapply key_mrel; eauto. }
    apply (mr_el _ _ _ _ _ M); auto.
  Qed.

  (* regressors with respect to parameters *)
  Lemma key_leaf k len i : In (k, len) (keys b) -> i < len -> leaf (el (mdl b k) i 0).
  Proof.
    intros Hl Hi. rewrite (ps_el _ _ _ _ (bs_shape _ _ Hb k len Hl)) by auto.
    destruct (flag_set _); [left|right]; eauto.
  Qed.
  Lemma key_state k len f i : In (k, len) (state_keys b) -> In k (alist b f) -> i < len -> within (isym f) (el (mdl b k) i 0).
  Proof.
    intros Hl Ha Hi s Hs.
    assert (Hl' : In (k, len) (keys b)) by (unfold keys; apply in_app_iff; auto).
    pose proof (bs_shape _ _ Hb k len Hl') as P.
    rewrite (ps_el _ _ _ _ P) in Hs by auto. destruct (flag_set (nth i (flags b k) 0%Z)) eqn:F; [|discriminate Hs].
    simpl in Hs. apply sym_eqb_eq in Hs. subst s.
    unfold isym. apply in_flat_map. exists k. split; auto. unfold isyms. apply in_map. apply in_fidx.
    rewrite (ps_fl _ _ _ _ P). auto.
  Qed.
  Lemma sel_sym k len j : In (k, len) (keys b) -> j < List.length (sel b k) ->
    exists i, In i (fidx (flags b k)) /\ i < len /\ sc (nth j (sel b k) (zeros 1 1)) = Var (symname k, i).
  Proof.
    intros Hl Hj. pose proof (bs_shape _ _ Hb k len Hl) as P.
    exists (nth j (fidx (flags b k)) 0).
    assert (Hj' : j < List.length (fidx (flags b k))) by (rewrite (sel_fidx cv b k len P), map_length in Hj; auto).
    assert (Hin : In (nth j (fidx (flags b k)) 0) (fidx (flags b k))) by (apply nth_In; auto).
    split; auto. apply in_fidx in Hin. rewrite (ps_fl _ _ _ _ P) in Hin. split; [tauto|].
    pose proof (input_el cv b k len j P Hj) as E. exact E.
  Qed.
  Lemma not_isym f k i : In k arg_keys -> (forall k', In k' (alist b f) -> In k' arg_keys) -> ~ In k (alist b f) ->
    ~ isym f (symname k, i).
  Proof.
    intros Ha Hal Hn H. unfold isym in H. apply in_flat_map in H. destruct H as (k' & Hk' & H).
    unfold isyms in H. apply in_map_iff in H. destruct H as (j & E & _). inversion E.
    assert (k' = k) by (apply symname_inj; auto). subst. auto.
  Qed.
  Lemma jac_lin_within f e k len i j : In (k, len) (keys b) -> (forall k', In k' (alist b f) -> In k' arg_keys) ->
    ~ In k (alist b f) ->
    (forall a c, linE (isym f) (el e a c)) \/ linE (isym f) (el e (i mod rows e) (i / rows e)) ->
    j < List.length (sel b k) ->
    within (isym f) (el (jacobian e (vertcat_list (sel b k))) i j).
  Proof.
    intros Hl Hal Hn He Hj. cbn [el jacobian vertcat_list].
    destruct (sel_sym k len j Hl Hj) as (m & _ & _ & ->). unfold diff_wrt. simpl.
    apply lin_diff_within; [destruct He; auto|]. apply not_isym; auto. eapply keys_arg; eauto.
  Qed.

  Ltac inkey := unfold keys, state_keys, par_keys;
    repeat match goal with H : _ = true |- _ => rewrite H end; rewrite ?in_app_iff; simpl; tauto.
  Lemma reg_closed f : core f = false -> fricf f = false -> enabled b f ->
    forall i j, i < vrows b f -> j < vcols b f -> within (isym f) (el (val b f) i j).
  Proof.
    intros Hc Hf He i j Hi Hj. pose proof (bs_e _ _ Hb) as Hne.
    assert (D1 : forall a d, a < d -> a mod d = a /\ a / d = 0).
    { intros a d H. split; [apply Nat.mod_small|apply Nat.div_small]; auto. }
    destruct f; try discriminate; cbn [vrows vcols val enabled] in *.
    - destruct He as [He Hs]. apply Nat.ltb_lt in He.
      apply jac_lin_within with (len := numJoints b * Dl_order b); auto; [inkey|simpl; intuition (subst; auto)|simpl; intuition discriminate|].
      right. cbn [rows link_dl el]. destruct (D1 _ _ Hi) as [DE1 DE2]; rewrite ?DE1, ?DE2. apply lin_fric.
      + apply key_state with (len := numJoints b); [inkey|simpl; auto|auto].
      + intros k Hk. apply key_leaf with (len := numJoints b * Dl_order b); [inkey|nia].
    - destruct He as [He Hs].
      apply jac_lin_within with (len := numElasticJoints b * K_order b); auto; [inkey|simpl; intuition (subst; auto)|simpl; intuition discriminate|].
      right. cbn [rows el_k el]. destruct (D1 _ _ Hi) as [DE1 DE2]; rewrite ?DE1, ?DE2. apply lin_spring.
      + apply within_sub; [apply key_state with (len := numElasticJoints b)|apply key_state with (len := numJoints b)]; try inkey; simpl; auto; lia.
      + intros k Hk. apply key_leaf with (len := numElasticJoints b * K_order b); [inkey|nia].
    - destruct He as [He Hs].
      apply jac_lin_within with (len := numElasticJoints b * D_order b); auto; [inkey|simpl; intuition (subst; auto)|simpl; intuition discriminate|].
      right. cbn [rows el_d el]. destruct (D1 _ _ Hi) as [DE1 DE2]; rewrite ?DE1, ?DE2. apply lin_fric.
      + apply within_sub; [apply key_state with (len := numElasticJoints b)|apply key_state with (len := numJoints b)]; try inkey; simpl; auto; lia.
      + intros k Hk. apply key_leaf with (len := numElasticJoints b * D_order b); [inkey|nia].
    - destruct He as [He Hs].
      apply jac_lin_within with (len := numElasticJoints b * Dm_order b); auto; [inkey|simpl; intuition (subst; auto)|simpl; intuition discriminate|].
      right. cbn [rows el_dm el]. destruct (D1 _ _ Hi) as [DE1 DE2]; rewrite ?DE1, ?DE2. apply lin_fric.
      + apply key_state with (len := numElasticJoints b); [inkey|simpl; auto|auto].
      + intros k Hk. apply key_leaf with (len := numElasticJoints b * Dm_order b); [inkey|nia].
    - destruct He as [He Hs].
      apply jac_lin_within with (len := numElasticJoints b); auto; [inkey|simpl; intuition (subst; auto)|simpl; intuition discriminate|].
      right. cbn [rows cols el_Mm el mtimes]. destruct (D1 _ _ Hi) as [DE1 DE2]; rewrite ?DE1, ?DE2. apply lin_esum. intros k Hk.
      apply lin_l'.
      + apply key_state with (len := numElasticJoints b); [inkey|simpl; auto|auto].
      + destruct (Nat.eqb i k); [|right; eauto]. apply key_leaf with (len := numElasticJoints b); [inkey|auto].
    - assert (HJ := core_dims cv b Hb fJee eq_refl I). destruct HJ as [JR JC JO]. cbn [val vrows vcols] in JR, JC, JO.
      intros s Hs. unfold reg_Jdqx in Hs. cbn [el jacobian vertcat_list] in Hs. unfold diff_wrt in Hs.
      destruct (sym_of _); [|discriminate Hs]. apply occurs_diff in Hs. revert s Hs.
      cbn [rows mtimes el]. rewrite JR. destruct (D1 _ _ Hi) as [DE1 DE2]; rewrite ?DE1, ?DE2. rewrite JC.
      enough (G : forall k, k < numJoints b -> within (isym frJdq) (Mul (el (Jeex b) i k) (el (mdl b "dq") k 0))).
      { revert G. generalize (numJoints b). intros m G. induction m; cbn [esum]; [intros s; simpl; discriminate|].
        intros s. cbn [occurs]. rewrite orb_true_iff. intros [A|A]; [|apply (G m); auto]. apply IHm; auto. }
      intros k Hk. apply within_mul.
      + intros s Hs. apply (core_closed fJee eq_refl I i k) in Hs; auto. unfold isym in Hs |- *.
        apply in_flat_map in Hs. destruct Hs as (k' & A & B). apply in_flat_map. exists k'. split; auto.
        cbn [alist] in A |- *. unfold al, obtain_symb_parameters in *. apply in_app_iff in A. apply in_app_iff. simpl in A |- *. tauto.
      + apply key_state with (len := numJoints b); [inkey|simpl; auto|auto].
    - assert (HJ := core_dims cv b Hb fJee eq_refl I). destruct HJ as [JR JC JO]. cbn [val vrows vcols] in JR, JC, JO.
      intros s Hs. unfold reg_JTwx in Hs. cbn [el jacobian vertcat_list] in Hs. unfold diff_wrt in Hs.
      destruct (sym_of _); [|discriminate Hs]. apply occurs_diff in Hs. revert s Hs.
      cbn [rows cols mtimes el mT]. rewrite JC. destruct (D1 _ _ Hi) as [DE1 DE2]; rewrite ?DE1, ?DE2. rewrite JR.
      enough (G : forall k, k < 6 -> within (isym frJTw) (Mul (el (Jeex b) k i) (el (mdl b "w") k 0))).
      { revert G. generalize 6. intros m G. induction m; cbn [esum]; [intros s; simpl; discriminate|].
        intros s. cbn [occurs]. rewrite orb_true_iff. intros [A|A]; [|apply (G m); auto]. apply IHm; auto. }
      intros k Hk. apply within_mul.
      + intros s Hs. apply (core_closed fJee eq_refl I k i) in Hs; auto. unfold isym in Hs |- *.
        apply in_flat_map in Hs. destruct Hs as (k' & A & B). apply in_flat_map. exists k'. split; auto.
        cbn [alist] in A |- *. unfold al, obtain_symb_parameters in *. apply in_app_iff in A. apply in_app_iff. simpl in A |- *. tauto.
      + apply key_state with (len := 6); [inkey|simpl; auto|auto].
  Qed.
  Theorem val_closed f : enabled b f ->
    forall i j, i < vrows b f -> j < vcols b f -> within (isym f) (el (val b f) i j).
  Proof.
    intros He. destruct (core f) eqn:Hc; [apply core_closed; auto|].
    destruct (fricf f) eqn:Hf; [apply fric_closed; auto|]. apply reg_closed; auto.
  Qed.
End Closed.
