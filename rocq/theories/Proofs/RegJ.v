(* The kinematic regressors: columns are partial derivatives with respect to the kinematic parameters. *)
From Coq Require Import Reals Lra Lia Arith List String Bool ZArith.
From Coquelicot Require Import Coquelicot.
From Verif.Model Require Import Base Expr SX Robot Kinematics Dynamics Regressors Yaml Build.
From Verif.Spec Require Import Math Setup Kinematics Dynamics Api KinReg.
From Verif.Proofs Require Import Sums Calc Rel Lin3 Frames Pure PureRel Maps Names Shape Dims Sizes Deps BuildEq Load Init Final Closed Get Kin KinThm Motion KinMain Smooth Partial Catalogue Friction.
Import ListNotations.
Open Scope nat_scope.
Open Scope string_scope.

Lemma poly_esum m g : (forall i, i < m -> poly allp (g i)) -> poly allp (esum m g).
Proof. induction m as [|m IH]; simpl; auto. intros H. split; auto. Qed.

Section At.
  Variables (name : string) (cfg : ynode) (r0 r b r' : robot).
  Hypothesis Hs : session name cfg r0 r r'.
  Hypothesis HB : built r0 b r.
  Let n := numJoints r0.
  Let HS : sess r0 b r' := built_sess _ _ _ _ _ _ Hs HB.
  Let Hb : base (cvof r0) b := ss_base _ _ _ HS.

  Lemma kin_key k off : kin_block r0 k off -> exists len, In (k, len) (keys b) /\ In (k, len) (par_sizes r0).
  Proof.
    intros [E|[E|E]]; injection E as -> _;
      [exists (4 * n)|exists 6|exists 6]; (split; [apply (In_par0 _ _ _ HS)|]; unfold par_sizes; simpl; auto).
  Qed.
  Lemma sel_len k len : In (k, len) (keys b) -> List.length (sel b k) = symbolic r0 k.
  Proof. apply (sel_symbolic _ _ _ HS). Qed.

  Lemma kin_el k off i : kin_block r0 k off -> i < symbolic r0 k ->
    el (kin_par b) (off + i) 0 = Var (symname k, nth i (fidx (flags b k)) 0) /\ off + i < kin_symbolic r0.
  Proof.
    intros HK Hi. destruct (kin_key k off HK) as (len & Hk & _).
    pose proof (bs_shape _ _ Hb k len Hk) as P.
    assert (E : sc (nth i (sel b k) (zeros 1 1)) = Var (symname k, nth i (fidx (flags b k)) 0)).
    { apply (input_el _ b k len i P). rewrite (sel_len k len); auto. }
    assert (L1 : List.length (sel b "par_DHtable") = symbolic r0 "par_DHtable") by (eapply sel_len; apply (key_DH _ _ _ HS)).
    assert (L2 : List.length (sel b "par_world2L0") = symbolic r0 "par_world2L0") by (eapply sel_len; apply (key_W _ _ _ HS)).
    assert (L3 : List.length (sel b "par_Ln2EE") = symbolic r0 "par_Ln2EE") by (eapply sel_len; apply (key_E _ _ _ HS)).
    unfold kin_par, vertcat_list, kin_symbolic. cbn [el].
    destruct HK as [Q|[Q|Q]]; injection Q as -> ->.
    - rewrite Nat.add_0_l, app_nth1 by (rewrite L1; auto). split; [exact E|lia].
    - rewrite app_nth2, L1 by (rewrite L1; lia). rewrite app_nth1 by (rewrite L2; lia).
      replace (symbolic r0 "par_DHtable" + i - symbolic r0 "par_DHtable") with i by lia. split; [exact E|lia].
    - rewrite app_nth2, L1 by (rewrite L1; lia). rewrite app_nth2, L2 by (rewrite L2; lia).
      replace (symbolic r0 "par_DHtable" + symbolic r0 "par_world2L0" + i - symbolic r0 "par_DHtable" - symbolic r0 "par_world2L0") with i by lia.
      split; [exact E|lia].
  Qed.

  Lemma set_env_par k len i x s : In (k, len) (keys b) -> i < symbolic r0 k ->
    (exists k' len', In (k', len') (keys b) /\ In s (isyms b k')) ->
    renv r0 (set_entry r' k i x) s = upd (renv r0 r') (symname k, nth i (fidx (flags b k)) 0) x s.
  Proof.
    intros Hk Hi (k' & len' & Hk' & Hin). unfold isyms in Hin. apply in_map_iff in Hin. destruct Hin as (m & <- & Hm).
    assert (Ak := keys_arg _ _ _ Hk). assert (Ak' := keys_arg _ _ _ Hk').
    assert (Lf : List.length (fidx (flags b k)) = symbolic r0 k).
    { unfold symbolic. rewrite (flags_b _ _ _ HS), fidx_selected. reflexivity. }
    destruct (string_dec k' k) as [->|N].
    - destruct (In_nth _ _ 0 Hm) as (j & Hj & <-).
      pose proof (env_sel r0 b r' HS (set_entry r' k i x) k len j (set_sess _ _ _ _ _ _ Hs HB k i x) Hk Hj) as E1.
      rewrite E1. unfold upd.
      pose proof (env_sel r0 b r' HS r' k len j HS Hk Hj) as E2. rewrite E2.
      unfold state. rewrite set_arg, replace_get.
      + unfold sym_eqb. cbn [fst snd]. rewrite String.eqb_refl. cbn [andb].
        destruct (Nat.eqb_spec i j) as [->|Nij]; [now rewrite Nat.eqb_refl|].
        destruct (Nat.eqb_spec (nth i (fidx (flags b k)) 0) (nth j (fidx (flags b k)) 0)) as [Q|Q]; auto.
        exfalso. apply Nij. apply (proj1 (NoDup_nth (fidx (flags b k)) 0) (NoDup_fidx _)); auto. lia.
      + rewrite (keys_b _ _ _ HS) in Hk. rewrite (ss_len _ _ _ HS k len Hk), <- (flags_b _ _ _ HS). lia.
    - unfold upd, sym_eqb. cbn [fst snd].
      destruct (String.eqb_spec (symname k) (symname k')) as [Q|Q].
      + exfalso. apply N. symmetry. apply symname_inj; auto.
      + cbn [andb]. unfold renv. cbn [fst snd]. rewrite keyname_symname by auto. unfold param. now rewrite set_arg_ne.
  Qed.

  Lemma Jee_dims : rows (Jeex b) = 6 /\ cols (Jeex b) = n.
  Proof.
    assert (HJ := core_dims (cvof r0) b Hb fJee eq_refl I). destruct HJ as [JR JC _].
    cbn [val vrows vcols] in JR, JC. rewrite (n_b _ _ _ HS) in JC. auto.
  Qed.
  Lemma isym_key f s : enabled b f -> isym b f s -> exists k' len', In (k', len') (keys b) /\ In s (isyms b k').
  Proof.
    intros He Hi. unfold isym in Hi. apply in_flat_map in Hi. destruct Hi as (k' & Hk' & Hin).
    apply alist_deps in Hk'. destruct (deps_keys b f k' He Hk') as [len' Hl]. eauto.
  Qed.
  Lemma key_isym k len i s : In (k, len) (keys b) -> i < len -> occurs s (el (mdl b k) i 0) = true ->
    exists k' len', In (k', len') (keys b) /\ In s (isyms b k').
  Proof.
    intros Hk Hi Ho. exists k, len. split; auto. pose proof (bs_shape _ _ Hb k len Hk) as P.
    rewrite (ps_el _ _ _ _ P) in Ho by auto. destruct (flag_set (nth i (flags b k) 0%Z)) eqn:F; [|discriminate Ho].
    simpl in Ho. apply sym_eqb_eq in Ho. subst s. unfold isyms. apply in_map, in_fidx. rewrite (ps_fl _ _ _ _ P). auto.
  Qed.

  (* the derivative of an expression all of whose symbols are inputs *)
  Lemma par_partial e k off i F : kin_block r0 k off -> i < symbolic r0 k -> poly allp e ->
    (forall s, occurs s e = true -> exists k' len', In (k', len') (keys b) /\ In s (isyms b k')) ->
    (forall x, F (set_entry r' k i x) = eval (renv r0 (set_entry r' k i x)) e) ->
    is_partial F k i r' (eval (renv r0 r') (diff (symname k, nth i (fidx (flags b k)) 0) e)).
  Proof.
    intros HK Hi Hp Ho HF. destruct (kin_key k off HK) as (len & Hk & _). unfold is_partial.
    assert (Lf : List.length (fidx (flags b k)) = symbolic r0 k).
    { unfold symbolic. rewrite (flags_b _ _ _ HS), fidx_selected. reflexivity. }
    rewrite <- (env_sel r0 b r' HS r' k len i HS Hk) by lia.
    eapply is_derive_ext; [|apply (diff_sound allp); [exact I|exact Hp]].
    intros x. cbn beta. rewrite HF. apply eval_ext. intros s Hin. symmetry. eapply set_env_par; eauto.
  Qed.

  Lemma reg_Jdq_out : 0 < kin_symbolic r0 -> answers r' "reg_Jdq" 6 (kin_symbolic r0) /\
    answers r' "reg_JTw" n (kin_symbolic r0).
  Proof.
    intros Hp. assert (K : rows (kin_par b) = kin_symbolic r0) by (apply (kin_par_symbolic _ _ _ HS)).
    assert (E1 : enabled b frJdq) by (simpl; rewrite <- K in Hp; simpl in Hp; lia).
    assert (E2 : enabled b frJTw) by exact E1.
    destruct (get_out _ _ _ HS frJdq E1) as [A1 _]. destruct (get_out _ _ _ HS frJTw E2) as [A2 _].
    unfold vrows, vcols in A1, A2. rewrite K in A1, A2. rewrite (n_b _ _ _ HS) in A2. auto.
  Qed.
  Lemma reg_Jdq_col k off i a : kin_block r0 k off -> i < symbolic r0 k -> a < 6 ->
    is_partial (fun x => rmv n (out x "J_ee") (state x "dq") a) k i r' (out r' "reg_Jdq" a (off + i)).
  Proof.
    intros HK Hi Ha. destruct (kin_el k off i HK Hi) as [E L].
    assert (K : rows (kin_par b) = kin_symbolic r0) by (apply (kin_par_symbolic _ _ _ HS)).
    assert (E1 : enabled b frJdq) by (simpl; simpl in K; lia).
    destruct (get_out _ _ _ HS frJdq E1) as [_ V]. unfold vrows, vcols in V. rewrite K in V.
    change (name_of frJdq) with "reg_Jdq" in V. rewrite (V a (off + i) Ha L).
    destruct Jee_dims as [JR JC].
    unfold ev. cbn [val]. unfold reg_Jdqx, jacobian. cbn [el]. cbn [mtimes rows]. rewrite JR, Nat.mod_small, Nat.div_small by auto.
    rewrite E. unfold diff_wrt.
    apply par_partial with (off := off); auto.
    - cbn [el mtimes]. rewrite JC. apply poly_esum. intros c Hc. split.
      + apply (core_poly _ _ Hb fJee eq_refl ltac:(discriminate) I); [auto|simpl; rewrite (n_b _ _ _ HS); auto].
      + apply (key_poly _ _ Hb "dq" n); auto. unfold keys. apply in_app_iff. left. apply (key_st _ _ _ HS). simpl; auto.
    - intros s Hin. cbn [el mtimes] in Hin. apply occurs_esum in Hin. destruct Hin as (c & Hc & Hin). rewrite JC in Hc.
      cbn [occurs] in Hin. apply orb_true_iff in Hin. destruct Hin as [Hin|Hin].
      + apply (isym_key fJee s I). apply (core_closed (cvof r0) b Hb fJee eq_refl I a c); auto. simpl. now rewrite (n_b _ _ _ HS).
      + apply (key_isym "dq" n c); auto. unfold keys. apply in_app_iff. left. apply (key_st _ _ _ HS). simpl; auto.
    - intros x. pose proof (set_sess _ _ _ _ _ _ Hs HB k i x) as HX.
      cbn [el mtimes]. rewrite eval_esum, JC. unfold rmv. apply rsum_ext. intros c Hc. cbn [eval].
      rewrite (eval_state _ _ _ HX "dq") by (simpl; auto). f_equal.
      rewrite (proj2 (out_Jee _ _ _ HX) a c Ha Hc). reflexivity.
  Qed.
  Lemma w_key : In ("w", 6) (state_keys b).
  Proof. unfold state_keys. apply in_app_iff. left. simpl. auto 10. Qed.
  Lemma reg_JTw_col k off i a : kin_block r0 k off -> i < symbolic r0 k -> a < n ->
    is_partial (fun x => rmv 6 (rtr (out x "J_ee")) (state x "w") a) k i r' (out r' "reg_JTw" a (off + i)).
  Proof.
    intros HK Hi Ha. destruct (kin_el k off i HK Hi) as [E L].
    assert (K : rows (kin_par b) = kin_symbolic r0) by (apply (kin_par_symbolic _ _ _ HS)).
    assert (E1 : enabled b frJTw) by (simpl; simpl in K; lia).
    destruct (get_out _ _ _ HS frJTw E1) as [_ V]. unfold vrows, vcols in V. rewrite K, (n_b _ _ _ HS) in V.
    change (name_of frJTw) with "reg_JTw" in V. rewrite (V a (off + i) Ha L).
    destruct Jee_dims as [JR JC].
    assert (WK : In ("w", 6) (keys b)) by (unfold keys; apply in_app_iff; left; apply w_key).
    unfold ev. cbn [val]. unfold reg_JTwx, jacobian. cbn [el]. cbn [mtimes mT rows]. rewrite JC, Nat.mod_small, Nat.div_small by auto.
    rewrite E. unfold diff_wrt.
    apply par_partial with (off := off); auto.
    - cbn [el mtimes mT cols]. rewrite JR. apply poly_esum. intros c Hc. split.
      + apply (core_poly _ _ Hb fJee eq_refl ltac:(discriminate) I); [auto|simpl; rewrite (n_b _ _ _ HS); auto].
      + apply (key_poly _ _ Hb "w" 6); auto.
    - intros s Hin. cbn [el mtimes mT cols] in Hin. apply occurs_esum in Hin. destruct Hin as (c & Hc & Hin). rewrite JR in Hc.
      cbn [occurs] in Hin. apply orb_true_iff in Hin. destruct Hin as [Hin|Hin].
      + apply (isym_key fJee s I). apply (core_closed (cvof r0) b Hb fJee eq_refl I c a); auto. simpl. now rewrite (n_b _ _ _ HS).
      + apply (key_isym "w" 6 c); auto.
    - intros x. pose proof (set_sess _ _ _ _ _ _ Hs HB k i x) as HX.
      cbn [el mtimes mT cols]. rewrite eval_esum, JR. unfold rmv, rtr. apply rsum_ext. intros c Hc. cbn [eval].
      rewrite (eval_key _ _ _ HX "w" 6) by auto. rewrite (param_state _ _ _ HX "w" 6) by apply w_key. f_equal.
      rewrite (proj2 (out_Jee _ _ _ HX) c a Hc Ha). reflexivity.
  Qed.
End At.
