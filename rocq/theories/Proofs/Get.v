(* What get returns on a robot built from a configuration. *)
From Coq Require Import Reals List Arith String Bool Lia ZArith.
From Verif.Model Require Import Base Expr SX Robot Kinematics Dynamics Regressors Yaml Inertia Build.
From Verif.Spec Require Import Setup.
From Verif.Proofs Require Import Calc Rel Maps Pure Names Shape Dims Sizes Deps BuildEq BuildDyn BuildReg Load Init Final Closed.
Import ListNotations.
Open Scope nat_scope.
Open Scope string_scope.

Definition keyname (s : string) : string :=
  if String.eqb s "DHtable" then "par_DHtable" else
  if String.eqb s "world2L0" then "par_world2L0" else
  if String.eqb s "Ln2EE" then "par_Ln2EE" else
  if String.eqb s "gravity" then "par_gravity" else s.
Lemma keyname_symname k : In k arg_keys -> keyname (symname k) = k.
Proof.
  intros H. simpl in H. repeat (destruct H as [<-|H]; [reflexivity|]). destruct H.
Qed.
Definition renv (r0 r' : robot) : sym -> R := fun s => param r0 r' (keyname (fst s)) (snd s).

Lemma env_of_app l1 l2 s : env_of (l1 ++ l2) s = if sym_mem s (map fst l1) then env_of l1 s else env_of l2 s.
Proof. induction l1 as [|[k v] t IH]; simpl; auto. destruct (sym_eqb s k); simpl; auto. Qed.
Lemma env_shift nm l cur i :
  env_of (combine (map (pair nm) (map S l)) cur) (nm, S i) = env_of (combine (map (pair nm) l) cur) (nm, i).
Proof.
  revert cur. induction l as [|a l IH]; intros [|c cur]; simpl; auto.
  rewrite IH. unfold sym_eqb. simpl. reflexivity.
Qed.
Lemma env_combine nm fl : forall cfg cur i, List.length cfg = List.length fl ->
  List.length cur = List.length (fidx fl) -> In i (fidx fl) ->
  env_of (combine (map (pair nm) (fidx fl)) cur) (nm, i) = nth i (merge fl cfg cur) 0%R.
Proof.
  induction fl as [|z fl IH]; intros cfg cur i Hc Hu Hi; [destruct Hi|].
  destruct cfg as [|v cfg]; [discriminate|]. rewrite fidx_cons in *. cbn [merge].
  destruct (flag_set z); simpl in Hu, Hi |- *.
  - destruct cur as [|c cur]; [discriminate|]. simpl in Hu.
    destruct Hi as [<-|Hi].
    + simpl. unfold sym_eqb. simpl. now rewrite String.eqb_refl.
    + apply in_map_iff in Hi. destruct Hi as (j & <- & Hj). simpl. unfold sym_eqb at 1. simpl.
      rewrite andb_false_r. rewrite env_shift. apply IH; auto. rewrite map_length in Hu. lia.
  - apply in_map_iff in Hi. destruct Hi as (j & <- & Hj). rewrite env_shift. apply IH; auto. rewrite map_length in Hu. lia.
Qed.
Lemma merge_unset fl : forall cfg cur i, List.length cfg = List.length fl ->
  List.length cur = List.length (fidx fl) -> i < List.length fl -> flag_set (nth i fl 0%Z) = false ->
  nth i (merge fl cfg cur) 0%R = nth i cfg 0%R.
Proof.
  induction fl as [|z fl IH]; intros cfg cur i Hc Hu Hi Hf; [simpl in Hi; lia|].
  destruct cfg as [|v cfg]; [discriminate|]. rewrite fidx_cons, app_length, map_length in Hu. cbn [merge].
  destruct (flag_set z) eqn:Hz.
  - destruct cur as [|c cur]; [discriminate|]. destruct i as [|i]; [simpl in Hf; congruence|].
    simpl. apply IH; simpl in *; auto; lia.
  - destruct i as [|i]; auto. simpl. apply IH; simpl in *; auto; lia.
Qed.
Lemma merge_all fl : forall cfg cur, (forall z, In z fl -> flag_set z = true) -> List.length cfg = List.length fl ->
  List.length cur = List.length fl -> merge fl cfg cur = cur.
Proof.
  induction fl as [|z fl IH]; intros cfg cur Hz Hc Hu.
  - destruct cur; [reflexivity|discriminate].
  - destruct cfg as [|v cfg]; [discriminate|]. destruct cur as [|c cur]; [discriminate|]. cbn [merge].
    rewrite Hz by (left; auto). f_equal. apply IH; auto. intros; apply Hz; right; auto.
Qed.
Lemma fidx_all fl : (forall z, In z fl -> flag_set z = true) -> List.length (fidx fl) = List.length fl.
Proof.
  induction fl as [|z fl IH]; intros H; auto. rewrite fidx_cons, app_length, map_length, IH by (intros; apply H; right; auto).
  rewrite H by (left; auto). reflexivity.
Qed.

(* everything the proofs need to know about a session *)
Record sess (r0 b r' : robot) : Prop := {
  ss_base : base (cvof r0) b;
  ss_b : b = with_args (with_model r0 (model b)) (args b);
  ss_load : loaded r0;
  ss_wf : well_formed r0;
  ss_len : forall k len, In (k, len) (keys r0) -> List.length (arg r' k) = List.length (fidx (flags r0 k));
  ss_fun : forall f, enabled b f ->
     mfind (name_of f) (fun_args r') = Some (alist b f) /\
     mfind (name_of f) (casadi_fun r') =
       Some (mkFun (robotName b ++ "_" ++ name_of f ++ "_fun") (ins b (alist b f)) (val b f))
}.

Lemma built_sess name cfg r0 r r' b : session name cfg r0 r r' -> built r0 b r -> sess r0 b r'.
Proof.
  intros [L W B A S P] Hb.
  pose proof (file_loaded _ _ _ L) as Ld.
  destruct Hb as [Hba Hbb Hbarg Hr Hm Ha Hf Ho]. constructor; auto.
  - intros k len H. unfold keys in H. apply in_app_iff in H. destruct H as [H|H].
    + rewrite (S k len H). unfold flags, mget. rewrite (ld_state _ Ld k len H).
      rewrite fidx_all by (intros z Hz; apply repeat_spec in Hz; now subst). symmetry. apply repeat_length.
    + rewrite (P k len H). symmetry. apply fidx_selected.
  - intros f He. rewrite A, Hr. simpl.
    apply pubs_fun; [eapply enabled_proper; eauto| |apply L_all_enabled; auto].
    intros g Hg. apply L_all_enabled in Hg. eapply enabled_proper; eauto.
Qed.
Lemma session_built name cfg r0 r r' : session name cfg r0 r r' -> exists b, built r0 b r.
Proof.
  intros [L W B A S P].
  pose proof (file_loaded _ _ _ L) as Ld. rewrite (file_build _ _ _ L) in B.
  destruct (build_ok r0 Ld W) as (b & r1 & E & Hb). rewrite E in B. inversion B; subst r1; eauto.
Qed.
Lemma session_sess name cfg r0 r r' : session name cfg r0 r r' -> exists b, sess r0 b r' /\ built r0 b r.
Proof. intros H. destruct (session_built _ _ _ _ _ H) as [b Hb]. exists b. split; auto. eapply built_sess; eauto. Qed.

Section Get.
  Variables (r0 b r' : robot).
  Hypothesis H : sess r0 b r'.
  Let Hb : base (cvof r0) b := ss_base _ _ _ H.
  Notation env := (renv r0 r').

  Lemma keys_b : keys b = keys r0.
  Proof. rewrite (ss_b _ _ _ H). reflexivity. Qed.
  Lemma flags_b k : flags b k = flags r0 k.
  Proof. rewrite (ss_b _ _ _ H). reflexivity. Qed.
  Lemma arg0_len k len : In (k, len) (keys r0) -> List.length (arg r0 k) = len.
  Proof.
    intros Hk. unfold keys in Hk. apply in_app_iff in Hk. destruct Hk as [Hk|Hk].
    - rewrite (ld_sarg _ (ss_load _ _ _ H) k len Hk). apply repeat_length.
    - apply (wf_sizes _ (ss_wf _ _ _ H) k len Hk).
  Qed.
  Lemma flags0_len k len : In (k, len) (keys r0) -> List.length (flags r0 k) = len.
  Proof.
    intros Hk. rewrite <- flags_b. rewrite <- keys_b in Hk. apply (ps_fl _ _ _ _ (bs_shape _ _ Hb k len Hk)).
  Qed.

  (* value of the elements of a vector of the model *)
  Lemma eval_key k len i : In (k, len) (keys b) -> i < len -> eval env (el (mdl b k) i 0) = param r0 r' k i.
  Proof.
    intros Hk Hi. rewrite (ps_el _ _ _ _ (bs_shape _ _ Hb k len Hk)) by auto. rewrite flags_b.
    pose proof (keys_arg _ _ _ Hk) as Ha. rewrite keys_b in Hk.
    destruct (flag_set (nth i (flags r0 k) 0%Z)) eqn:F; simpl.
    - unfold renv. simpl. now rewrite keyname_symname.
    - unfold param, cvof. symmetry. apply merge_unset; auto.
      + rewrite (arg0_len k len), (flags0_len k len); auto.
      + eapply ss_len; eauto.
      + rewrite (flags0_len k len); auto.
  Qed.
  Lemma param_state k len i : In (k, len) (state_keys b) -> param r0 r' k i = state r' k i.
  Proof.
    intros Hk. unfold param, state. rewrite merge_all; auto.
    - rewrite <- flags_b. eapply bs_state; eauto.
    - assert (Hk' : In (k, len) (keys r0)) by (rewrite <- keys_b; unfold keys; apply in_app_iff; auto).
      rewrite (arg0_len k len), (flags0_len k len); auto.
    - assert (Hk' : In (k, len) (keys r0)) by (rewrite <- keys_b; unfold keys; apply in_app_iff; auto).
      rewrite (ss_len _ _ _ H k len Hk'), fidx_all; auto. rewrite <- flags_b. eapply bs_state; eauto.
  Qed.

  Lemma bind_eq al : (forall k, In k al -> exists len, In (k, len) (keys b)) ->
    bind_inputs (ins b al) (map (arg r') al) = Ok (flat_map (fun k => combine (isyms b k) (arg r' k)) al).
  Proof.
    induction al as [|k t IH]; intros Hk; [reflexivity|].
    cbn [ins map bind_inputs flat_map]. fold (ins b t). rewrite IH by (intros; apply Hk; right; auto).
    destruct (Hk k (or_introl eq_refl)) as [len Hl]. pose proof (bs_shape _ _ Hb k len Hl) as P.
    assert (HL : List.length (arg r' k) = rows (vertcat_list (sel b k))).
    { rewrite keys_b in Hl. rewrite (ss_len _ _ _ H k len Hl). cbn [rows vertcat_list].
      rewrite (sel_fidx _ b k len P), map_length, flags_b. reflexivity. }
    unfold fit_input. rewrite (proj2 (Nat.eqb_eq _ _) HL). cbn [bind].
    rewrite (syms_of_input_eq _ b k len P). reflexivity.
  Qed.
  Lemma isyms_fst k len : In (k, len) (keys b) -> map fst (combine (isyms b k) (arg r' k)) = isyms b k.
  Proof.
    intros Hl. assert (HL : List.length (arg r' k) = List.length (isyms b k)).
    { unfold isyms. rewrite map_length, flags_b. rewrite keys_b in Hl. eapply ss_len; eauto. }
    revert HL. generalize (isyms b k) (arg r' k). induction l; intros [|x l'] E; simpl in *; auto; try discriminate.
    f_equal. apply IHl. lia.
  Qed.
  Lemma env_bind al s : NoDup al -> (forall k, In k al -> exists len, In (k, len) (keys b)) ->
    In s (flat_map (isyms b) al) -> env_of (flat_map (fun k => combine (isyms b k) (arg r' k)) al) s = env s.
  Proof.
    induction al as [|k t IH]; intros Hn Hk Hs; [destruct Hs|].
    cbn [flat_map] in *. rewrite env_of_app. destruct (Hk k (or_introl eq_refl)) as [len Hl].
    rewrite (isyms_fst k len Hl). inversion Hn; subst.
    destruct (sym_mem s (isyms b k)) eqn:E.
    - apply sym_mem_In in E. unfold isyms in E |- *. apply in_map_iff in E. destruct E as (i & <- & Hi).
      pose proof (keys_arg _ _ _ Hl) as Ha. rewrite keys_b in Hl. rewrite flags_b in *.
      rewrite env_combine with (cfg := arg r0 k); auto.
      + unfold renv. simpl. now rewrite keyname_symname.
      + rewrite (arg0_len k len), (flags0_len k len); auto.
      + eapply ss_len; eauto.
    - apply IH; auto. { intros; apply Hk; right; auto. }
      apply in_app_iff in Hs. destruct Hs as [Hs|Hs]; auto. apply sym_mem_In in Hs. congruence.
  Qed.

  Theorem get_value f : enabled b f ->
    exists m, get r' (name_of f) = Ok m /\ m_rows m = vrows b f /\ m_cols m = vcols b f /\
      forall i j, i < vrows b f -> j < vcols b f -> m_val m i j = eval env (el (val b f) i j).
  Proof.
    intros He. destruct (ss_fun _ _ _ H f He) as [F1 F2]. unfold get. rewrite F1, F2.
    assert (Hk : forall k, In k (alist b f) -> exists len, In (k, len) (keys b)).
    { intros k Hk. eapply deps_keys; eauto. apply alist_deps; auto. }
    unfold call. cbn [f_inputs f_out]. rewrite bind_eq by auto. cbn [bind].
    eexists. split; [reflexivity|]. destruct (val_dims _ b Hb f He) as [DR DC DO]. cbn [m_rows m_cols m_val].
    split; [exact DR|]. split; [exact DC|]. intros i j Hi Hj. unfold ev. apply eval_ext. intros s Hs.
    apply env_bind; auto. { apply alist_NoDup. }
    eapply val_closed; eauto.
  Qed.
End Get.
