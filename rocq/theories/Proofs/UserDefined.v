(* User functions on the finished robot, and the shipped example. *)
From Coq Require Import Reals List String Arith ZArith Bool Lia Lra.
From Verif.Model Require Import Base Expr SX Robot Kinematics Dynamics Regressors Yaml Inertia Build UserDefined Template.
From Verif.Spec Require Import Math Setup Api State UserDefined.
From Verif.Proofs Require Import Calc Rel Maps SortedMaps Pure Names Shape Dims Sizes Deps BuildEq BuildReg Load Init Final Closed Get Api State AddFun StateSess UserStage.
Import ListNotations.
Open Scope nat_scope.
Open Scope string_scope.

Lemma before_eq r0 : loaded r0 -> well_formed r0 -> exists b, before_user r0 = Ok (pubs b (L_all b)) /\ base (cvof r0) b /\
  b = with_args (with_model r0 (model b)) (args b) /\ (forall k, arg b k = arg r0 k).
Proof.
  intros L W. destruct (init_base r0 L W) as (b & E & Hb & Hr & Ha). exists b. split; [|auto].
  unfold before_user. rewrite E. cbn [bind]. exact (all_eq (cvof r0) b Hb).
Qed.
Lemma compute_all_before r0 : compute_all r0 = (s <- before_user r0 ; update_symb_parameters s).
Proof.
  unfold compute_all, before_user. destruct (init_symb_parameters r0) as [r1| |]; cbn [bind]; auto.
  destruct (compute_kinematics r1 true) as [r2| |]; cbn [bind]; auto.
  destruct (compute_dynamics r2 true) as [r3| |]; cbn [bind]; auto.
Qed.
Lemma shipped_user name cfg : robot_from_file_with compute_userDefined name cfg = robot_from_file name cfg true.
Proof.
  unfold robot_from_file_with, robot_from_file, compute_with. destruct (new_robot name cfg) as [r1| |]; cbn [bind]; auto.
  destruct (load_conf_par r1 cfg true) as [r2| |]; cbn [bind]; auto. rewrite compute_all_before.
  destruct (before_user r2); reflexivity.
Qed.
Lemma with_file user name cfg r0 : robot_from_file name cfg false = Ok r0 -> robot_from_file_with user name cfg = compute_with user r0.
Proof.
  unfold robot_from_file_with, robot_from_file. destruct (new_robot name cfg) as [r1| |]; cbn [bind]; try discriminate.
  destruct (load_conf_par r1 cfg true) as [r2| |]; cbn [bind]; try discriminate. intros H; inversion H; reflexivity.
Qed.
Lemma update_keeps p r : update_symb_parameters p = Ok r -> r = with_args (with_model p (model r)) (args r).
Proof.
  unfold update_symb_parameters. generalize (symb p). intros l. revert p. induction l as [|[k fl] l IH]; intros p H; cbn [loop_list] in H.
  - inversion H; subst. destruct r; reflexivity.
  - cbn [fst snd] in H. unfold update_symb_one at 1 in H. destruct (compact_model fl (mdl p k)) as [m| |]; cbn [bind] in H; try discriminate.
    destruct (compact_args fl (arg p k)) as [a| |]; cbn [bind] in H; try discriminate. apply IH in H. rewrite H. reflexivity.
Qed.

Section U.
  Variables (name : string) (cfg : ynode) (r0 r r' s : robot).
  Hypothesis Hs : session name cfg r0 r r'.
  Hypothesis Hh : handed name cfg s.

  Lemma handed_b : exists b, s = pubs b (L_all b) /\ base (cvof r0) b /\ b = with_args (with_model r0 (model b)) (args b) /\
    (forall k, arg b k = arg r0 k) /\ sess r0 b r' /\ update_symb_parameters s = Ok r /\ before_user r0 = Ok s.
  Proof.
    destruct Hh as (r1 & E1 & E2). destruct Hs as [Lo W Bu A St P]. rewrite Lo in E1. inversion E1; subst r1.
    pose proof (file_loaded _ _ _ Lo) as L. destruct (before_eq r0 L W) as (b & E & Hb & Hr & Ha).
    rewrite E in E2. inversion E2; subst s. exists b. split; [reflexivity|].
    rewrite (file_build _ _ _ Lo), compute_all_before, E in Bu. cbn [bind] in Bu.
    pose proof (update_keeps _ _ Bu) as K.
    split; [exact Hb|]. split; [exact Hr|]. split; [exact Ha|]. split; [|split; [exact Bu|exact E]].
    constructor; auto.
    - intros k len H. unfold keys in H. apply in_app_iff in H. destruct H as [H|H].
      + rewrite (St k len H). unfold flags, mget. rewrite (ld_state _ L k len H).
        rewrite fidx_all by (intros z Hz; apply repeat_spec in Hz; now subst). symmetry. apply repeat_length.
      + rewrite (P k len H). symmetry. apply fidx_selected.
    - intros f He. rewrite A, K. cbn [fun_args casadi_fun with_args with_model].
      apply pubs_fun; [eapply enabled_proper; eauto| |apply L_all_enabled; auto].
      intros g Hg. apply L_all_enabled in Hg. eapply enabled_proper; eauto.
  Qed.

  Lemma renv_current : current r0 s r' (renv r0 r').
  Proof.
    destruct handed_b as (b & -> & Hb & Eb & Ab & Hss & Bu & _). constructor.
    - intros k len i Hk Hi. assert (Hk' : In (k, len) (keys b)) by (rewrite Eb; exact (proj1 (keys_sizes r0 k len) Hk) || (rewrite Eb; apply (keys_sizes r0); exact Hk)).
      rewrite pubs_mdl_arg by (eapply keys_arg; eauto). eapply eval_key; eauto.
    - intros fo Hfo. unfold get_functions in Hfo. apply in_map_iff in Hfo. destruct Hfo as ([nm cf] & <- & Hin). cbn [fst fo_name].
      assert (Hn : In nm (map fst (casadi_fun (pubs b (L_all b))))) by (change nm with (fst (nm, cf)); now apply in_map).
      apply pubs_names in Hn. rewrite (bs_nocf _ _ Hb) in Hn. destruct Hn as [[]|(f & Hf & ->)].
      apply L_all_enabled in Hf.
      assert (AP : allproper (L_all b)). { intros g Hg. apply L_all_enabled in Hg. eapply enabled_proper; eauto. }
      rewrite pubs_mdl; [|eapply enabled_proper; eauto|exact AP|now apply L_all_enabled].
      destruct (get_value r0 b r' Hss f Hf) as (m & G & R & C & V). exists m. destruct (val_dims _ b Hb f Hf) as [DR DC DO].
      split; [exact G|]. split; [congruence|]. split; [congruence|]. intros i j Hi Hj. symmetry. apply V; congruence.
  Qed.

  Variables (l : list user_fun) (user : robot -> res robot).
  Hypothesis Hw : well_formed_users r0 s r' l.
  Hypothesis Hu : user s = add_all l s.

  Lemma ext_added b : s = pubs b (L_all b) -> base (cvof r0) b -> b = with_args (with_model r0 (model b)) (args b) -> loaded r0 ->
    (forall u k, In u l -> In k (u_args u) -> (exists len, In (k, len) (keys r0)) \/ (flags s k = [] /\ rows (mdl s k) = 0) /\ arg r' k = []) /\
    (forall u, In u l -> fine r0 b (map u_name l) u) /\
    (forall k, In k (map u_name l) -> mcount k (symb (pubs b (L_all b))) = false) /\
    exists t, add_all l s = Ok t /\ stage b (map u_name l) t /\ added b l s t.
  Proof.
    intros Es Hb Eb L. destruct Hw as [Wn Wf].
    assert (SF : forall k, flags s k = flags r0 k) by (intros k; rewrite Es; eapply s_flags; eauto).
    assert (KN : forall u k, In u l -> In k (u_args u) -> (exists len, In (k, len) (keys r0)) \/ (flags s k = [] /\ rows (mdl s k) = 0) /\ arg r' k = []).
    { intros u k Hul Hk. destruct (Wf u Hul) as (_ & _ & _ & _ & X & _). destruct (X k Hk) as [_ [[len V]|(V1 & V2 & V3)]].
      - left. exists len. now apply (keys_sizes r0).
      - right. unfold mcount in *. unfold flags, mdl, mget. destruct (mfind k (model s)); [discriminate|]. destruct (mfind k (symb s)); [discriminate|].
        auto. }
    assert (FN : forall u, In u l -> fine r0 b (map u_name l) u).
    { intros u Hul. destruct (Wf u Hul) as (A1 & A2 & A3 & A4 & A5 & A6). split; [now apply in_map|]. split; [exact A1|]. split; [exact A3|].
      split; [exact A4|]. split.
      - intros k Hk. split; [apply (A5 k Hk)|]. rewrite Es in KN. destruct (KN u k Hul Hk) as [X|[X _]]; [left|right]; auto.
      - intros i j Hi Hj x Hx. destruct (A6 i j Hi Hj x Hx) as (k & i' & Hk & Hi' & Ek). apply in_flat_map. exists k. split; [exact Hk|].
        destruct (KN u k Hul Hk) as [[len X]|[[_ X] _]]; [|lia].
        pose proof (s_shape r0 b Hb Eb k len X) as P. rewrite <- Es in P. rewrite (ps_r _ _ _ _ P) in Hi'.
        rewrite (ps_el _ _ _ _ P i' Hi') in Ek. rewrite <- Es. unfold isyms.
        destruct (flag_set (nth i' (flags s k) 0%Z)) eqn:F; [|discriminate]. inversion Ek; subst x. apply in_map.
        apply in_fidx. rewrite (ps_fl _ _ _ _ P). auto. }
    assert (HM : forall k, In k (map u_name l) -> mcount k (symb (pubs b (L_all b))) = false).
    { intros k Hk. rewrite <- Es. apply in_map_iff in Hk. destruct Hk as (u & <- & Hul). apply (Wf u Hul). }
    split; [exact KN|]. split; [exact FN|]. split; [exact HM|].
    destruct (stage_all r0 b Hb Eb (map u_name l) l (pubs b (L_all b))) as (t & Et & St & Ad); auto.
    { exact (stage0 r0 b L Eb (map u_name l) HM). }
    exists t. rewrite Es. auto.
  Qed.

  Theorem extension : exists ru, robot_from_file_with user name cfg = Ok ru /\
    (forall k, vector_of r0 k -> get_arg ru k = get_arg r k) /\
    (forall nm, published ru nm <-> In nm (map u_name l) \/ published r nm) /\
    (forall nm, ~ In nm (map u_name l) -> get (with_args ru (args r')) nm = get r' nm) /\
    exists rho, current r0 s r' rho /\ forall u, In u l ->
      In (mkFunObj (u_name u) (u_args u) (rows (u_expr u)) (cols (u_expr u))) (get_functions ru) /\
      exists m, get (with_args ru (args r')) (u_name u) = Ok m /\ m_rows m = rows (u_expr u) /\ m_cols m = cols (u_expr u) /\
        forall i j, i < m_rows m -> j < m_cols m -> m_val m i j = eval rho (el (u_expr u) i j).
  Proof.
    destruct handed_b as (b & Es & Hb & Eb & Ab & Hss & Bu & Bf).
    pose proof (ss_load _ _ _ Hss) as L. pose proof (ss_wf _ _ _ Hss) as W.
    destruct (ext_added b Es Hb Eb L) as (KN & FN & HM & t & Et & St & Ad). destruct Hw as [Wn Wf].
    destruct (stage_end r0 b L Hb Eb Ab (map u_name l) HM W t St) as (ru & Eu & Ru & Mu & Au).
    exists ru.
    assert (CF : casadi_fun ru = casadi_fun t) by (rewrite Ru; reflexivity).
    assert (FA : fun_args ru = fun_args t) by (rewrite Ru; reflexivity).
    pose proof (update_keeps _ _ Bu) as K.
    assert (CR : casadi_fun r = casadi_fun s) by (rewrite K; reflexivity).
    assert (FR : fun_args r = fun_args s) by (rewrite K; reflexivity).
    assert (CR' : casadi_fun r' = casadi_fun s) by (rewrite (se_args _ _ _ _ _ Hs); exact CR).
    assert (FR' : fun_args r' = fun_args s) by (rewrite (se_args _ _ _ _ _ Hs); exact FR).
    split; [|split; [|split; [|split]]].
    - rewrite (with_file _ _ _ _ (se_load _ _ _ _ _ Hs)). unfold compute_with. rewrite Bf. cbn [bind]. rewrite Hu.
      rewrite Et. exact Eu.
    - intros k [len V]. apply (keys_sizes r0) in V. unfold get_arg. rewrite (Au k len V).
      destruct (session_sess _ _ _ _ _ Hs) as (b2 & _ & B2). symmetry. apply (bt_arg _ _ _ B2 k len V).
    - intros nm. unfold published, get_functions. rewrite !map_map. cbn [fo_name].
      change (map (fun x : string * cfun => fst x)) with (@map (string * cfun) string fst). rewrite CF, CR. apply (ad_names _ _ _ _ Ad).
    - intros nm Hn. unfold get. cbn [fun_args casadi_fun with_args]. rewrite FA, CF, FR', CR'.
      destruct (ad_old _ _ _ _ Ad nm Hn) as (-> & -> & _). destruct (mfind nm (fun_args s)); reflexivity.
    - exists (renv r0 r'). split; [exact renv_current|]. intros u Hul.
      destruct (ad_new _ _ _ _ Ad u Hul) as (F1 & F2 & F3). split.
      + unfold get_functions. apply in_map_iff. exists (u_name u, entry_for b u). cbn [fst]. rewrite CF. split; [|now apply mfind_In].
        unfold mget. rewrite FA, F1. rewrite (Mu (u_name u)); [now rewrite F3|]. apply (sg_out _ _ _ St). now apply in_map.
      + unfold get. cbn [fun_args casadi_fun with_args]. rewrite FA, CF, F1, F2. unfold call. cbn [f_inputs f_out entry_for].
        replace (map (arg (with_args ru (args r'))) (u_args u)) with (map (arg r') (u_args u)) by reflexivity.
        assert (KB : forall k, In k (u_args u) -> (exists len, In (k, len) (keys r0)) \/ (flags (pubs b (L_all b)) k = [] /\ rows (mdl (pubs b (L_all b)) k) = 0) /\ arg r' k = []).
        { intros k Hk. rewrite <- Es. eauto. }
        rewrite (kn_bind r0 b Hb Eb r' Hss _ KB). cbn [bind].
        eexists. split; [reflexivity|]. cbn [m_rows m_cols m_val]. split; [reflexivity|]. split; [reflexivity|].
        intros i j Hi Hj. unfold ev. apply eval_ext. intros x Hx. apply (kn_env r0 b Eb r' Hss); auto.
        * apply (Wf u Hul).
        * destruct (FN u Hul) as (_ & _ & _ & _ & _ & X). eapply X; eauto.
  Qed.
End U.
