(* User functions added while the robot is built. *)
From Coq Require Import Reals List String Arith ZArith Bool Lia.
From Verif.Model Require Import Base Expr SX Robot Kinematics Dynamics Regressors Yaml Inertia Build UserDefined.
From Verif.Spec Require Import Math Setup Api UserDefined.
From Verif.Proofs Require Import Calc Rel Maps SortedMaps Pure Names Shape Dims Sizes Deps BuildEq BuildReg Load Init Final Closed Get Api AddFun.
Import ListNotations.
Open Scope nat_scope.
Open Scope string_scope.

Lemma NoDup_mset_new {V} k (v : V) (m : smap V) : mfind k m = None -> NoDup (map fst m) -> NoDup (map fst (mset k v m)).
Proof.
  induction m as [|[k' v'] t IH]; simpl; intros Hf Hn; [repeat constructor; auto|].
  destruct (String.eqb k k') eqn:E; [discriminate|]. inversion Hn; subst.
  assert (Nk : k <> k') by (intros ->; rewrite String.eqb_refl in E; discriminate).
  assert (Nt : ~ In k (map fst t)). { intros H. destruct (in_mfind k t H) as [x Hx]. congruence. }
  destruct (String.ltb k k'); simpl; constructor; auto.
  - simpl. intros [H|H]; auto.
  - rewrite in_mset. intros [->|H]; auto.
Qed.
Lemma In_mset_new {V} k (v : V) (m : smap V) x w : In (x, w) (mset k v m) -> (x = k /\ w = v) \/ In (x, w) m.
Proof.
  induction m as [|[k' v'] t IH]; simpl; [intros [H|[]]; inversion H; auto|].
  destruct (String.eqb k k'); simpl; [intros [H|H]; [inversion H; auto|auto]|].
  destruct (String.ltb k k'); simpl; [intros [H|[H|H]]; [inversion H; auto|auto|auto]|].
  intros [H|H]; auto. destruct (IH H); auto.
Qed.
Lemma touch_keys {V} (d : V) l : forall m, NoDup (map fst m) ->
  NoDup (map fst (fold_left (fun m a => mtouch d a m) l m)) /\
  (forall x w, In (x, w) (fold_left (fun m a => mtouch d a m) l m) -> In (x, w) m \/ w = d).
Proof.
  induction l as [|a l IH]; intros m Hn; cbn [fold_left]; [auto|].
  unfold mtouch at 2 4, minsert. destruct (mfind a m) eqn:E; [apply IH; auto|].
  destruct (IH (mset a d m)) as [A B]; [now apply NoDup_mset_new|]. split; auto.
  intros x w H. destruct (B x w H) as [C|C]; auto. apply In_mset_new in C. destruct C as [[_ ->]|C]; auto.
Qed.

(* ---- the robot handed to the user code ---- *)
Section S.
  Variables (r0 b : robot).
  Hypothesis L : loaded r0.
  Hypothesis Hb : base (cvof r0) b.
  Hypothesis Eb : b = with_args (with_model r0 (model b)) (args b).
  Hypothesis Ab : forall k, arg b k = arg r0 k.
  Let s := pubs b (L_all b).

  Lemma s_symb : symb s = symb r0.
  Proof. unfold s. rewrite (sr_symb _ _ (pubs_rest b (L_all b))), Eb. reflexivity. Qed.
  Lemma s_args k : arg s k = arg r0 k.
  Proof. unfold arg, s. rewrite (sr_args _ _ (pubs_rest b (L_all b))). apply Ab. Qed.
  Lemma s_keys : keys b = keys r0.
  Proof. rewrite Eb. reflexivity. Qed.
  Lemma s_flags k : flags s k = flags r0 k.
  Proof. unfold flags. now rewrite s_symb. Qed.
  Lemma s_shape k len : In (k, len) (keys r0) -> pshape (cvof r0) s k len.
  Proof.
    intros Hk. rewrite <- s_keys in Hk. pose proof (keys_arg _ _ _ Hk) as Ha. pose proof (bs_shape _ _ Hb k len Hk) as P.
    assert (F : flags s k = flags b k) by apply pubs_flags.
    destruct P. constructor; unfold s in *; rewrite ?pubs_mdl_arg by auto; rewrite ?F; auto.
    - unfold mcount in *. now rewrite pubs_mfind_arg.
    - rewrite (sr_symb _ _ (pubs_rest b (L_all b))). auto.
  Qed.

  Definition kn (k : string) : Prop := (exists len, In (k, len) (keys r0)) \/ (flags s k = [] /\ rows (mdl s k) = 0).
  Lemma kn_cases k : kn k -> fun_input s k = Ok (vertcat_list (sel s k)) /\ valid_input (vertcat_list (sel s k)) = true /\
    syms_of_input (vertcat_list (sel s k)) = isyms s k /\ (In k arg_keys \/ isyms s k = []).
  Proof.
    intros [[len H]|[F R]].
    - pose proof (s_shape k len H) as P. split; [eapply fun_input_eq; eauto|]. split; [eapply input_valid; eauto|].
      split; [eapply syms_of_input_eq; eauto|]. left. eapply keys_arg; eauto.
    - assert (E : sel s k = []) by (unfold sel; rewrite R; reflexivity).
      unfold fun_input. rewrite R, E. split; [reflexivity|]. split; [reflexivity|].
      assert (I : isyms s k = []) by (unfold isyms; rewrite F; reflexivity). rewrite I. auto.
  Qed.
  Lemma kn_inputs fa : (forall k, In k fa -> kn k) -> fun_inputs s fa = Ok (ins s fa) /\
    forallb valid_input (ins s fa) = true /\ flat_map syms_of_input (ins s fa) = flat_map (isyms s) fa.
  Proof.
    induction fa as [|k t IH]; intros H; [repeat split|].
    destruct (IH (fun k Hk => H k (or_intror Hk))) as (A & C & D). destruct (kn_cases k (H k (or_introl eq_refl))) as (E & F & G & _).
    cbn [fun_inputs ins map forallb flat_map]. fold (ins s t). rewrite E, A, C, D, F, G. auto.
  Qed.
  Lemma kn_nodup fa : NoDup fa -> (forall k, In k fa -> kn k) -> NoDup (flat_map (isyms s) fa).
  Proof.
    intros Hn H.
    assert (E : flat_map (isyms s) fa = flat_map (isyms s) (filter (fun k => if in_dec string_dec k arg_keys then true else false) fa)).
    { clear Hn. induction fa as [|k t IH]; [reflexivity|]. cbn [flat_map filter]. rewrite IH by (intros; apply H; right; auto).
      destruct (in_dec string_dec k arg_keys) as [I|I]; [reflexivity|].
      destruct (kn_cases k (H k (or_introl eq_refl))) as (_ & _ & _ & [X|X]); [contradiction|]. now rewrite X. }
    rewrite E. apply NoDup_isyms; [now apply NoDup_filter|].
    intros k Hk. apply filter_In in Hk. destruct Hk as [_ Hk]. destruct (in_dec string_dec k arg_keys); [auto|discriminate].
  Qed.

  (* t: the robot after some user functions have been added; M: the names of all of them *)
  Variable M : list string.
  Hypothesis HM : forall k, In k M -> mcount k (symb s) = false.
  Record stage (t : robot) : Prop := {
    sg_eq : t = with_funs (with_symb (with_model s (model t)) (symb t)) (fun_args t) (casadi_fun t);
    sg_flags : forall k, flags t k = flags s k;
    sg_mdl : forall k, ~ In k M -> mdl t k = mdl s k;
    sg_nd : NoDup (map fst (symb t));
    sg_symb : forall k fl, In (k, fl) (symb t) -> In (k, fl) (symb s) \/ fl = [];
    sg_keep : forall k, mcount k (symb s) = true -> mcount k (symb t) = true;
    sg_out : forall k, In k M -> mcount k (symb t) = false
  }.
  Lemma stage0 : stage s.
  Proof.
    constructor; auto.
    - destruct s; reflexivity.
    - rewrite s_symb. apply (ld_nd _ L).
  Qed.
  Definition entry_for (u : user_fun) : cfun :=
    mkFun (robotName b ++ "_" ++ u_name u ++ "_fun") (ins s (u_args u)) (u_expr u).
  Definition fine (u : user_fun) : Prop :=
    In (u_name u) M /\ identifier (u_name u) /\ ok (u_expr u) = true /\ NoDup (u_args u) /\
    (forall k, In k (u_args u) -> ~ In k M /\ kn k) /\
    (forall i j, i < rows (u_expr u) -> j < cols (u_expr u) -> forall x, occurs x (el (u_expr u) i j) = true -> In x (flat_map (isyms s) (u_args u))).
  Lemma touch_out {V} (d : V) k l : forall m, ~ In k l -> mcount k m = false -> mcount k (fold_left (fun m a => mtouch d a m) l m) = false.
  Proof.
    induction l as [|a l IH]; intros m N H; cbn [fold_left]; auto. simpl in N. apply IH; [tauto|].
    unfold mcount, mtouch in *. rewrite mfind_minsert_ne; auto.
  Qed.
  Lemma stage_step t u : stage t -> fine u ->
    exists t', addf t (u_name u) (u_expr u) (u_args u) = Ok t' /\ stage t' /\
      fun_args t' = mset (u_name u) (u_args u) (fun_args t) /\ casadi_fun t' = mset (u_name u) (entry_for u) (casadi_fun t) /\
      (forall k, mdl t' k = if string_dec k (u_name u) then u_expr u else mdl t k).
  Proof.
    intros S (Hu & Hid & He & Hn & Hk & Hx). unfold addf, add_function. cbn [negb andb]. rewrite He. cbn [negb].
    destruct (kn_inputs (u_args u)) as (I1 & I2 & I3); [intros k H; apply (Hk k H)|].
    rewrite (fun_inputs_ext s).
    2:{ intros k H. destruct (Hk k H) as (A & D). unfold flags, mdl.
        cbn [touch_args with_funs with_model with_symb symb model]. rewrite !fold_touch_find, mget_mset_ne by (intros ->; auto).
        split; [apply (sg_flags _ S)|apply (sg_mdl _ S); auto]. }
    rewrite I1. cbn [bind].
    assert (RN : robotName t = robotName b). { rewrite (sg_eq _ S). cbn [robotName with_funs with_symb with_model]. apply (sr_name _ _ (pubs_rest b (L_all b))). }
    change (robotName (touch_args _ (u_args u))) with (robotName t). rewrite RN.
    destruct (identifier_solid _ (bs_name _ _ Hb)) as [X1 X2]. destruct (identifier_solid _ Hid) as [Y1 Y2].
    rewrite fun_name_ok by auto. cbn [negb].
    rewrite I2, I3. rewrite (proj2 (nodup_syms_NoDup _)) by (apply kn_nodup; auto; intros k H; apply (Hk k H)). cbn [andb negb].
    rewrite no_free_within by auto. cbn [negb bind].
    eexists. split; [reflexivity|]. cbn [touch_args with_funs with_model with_symb fun_args casadi_fun].
    split; [|split; [reflexivity|split; [reflexivity|]]].
    2:{ intros k. unfold mdl; cbn [model with_funs with_symb with_model touch_args]. rewrite fold_touch_find.
        destruct (string_dec k (u_name u)) as [->|N]; [apply mget_mset|now apply mget_mset_ne]. }
    destruct (touch_keys (@nil Z) (u_args u) (symb t) (sg_nd _ S)) as [T1 T2].
    constructor.
    - rewrite (sg_eq _ S) at 1. reflexivity.
    - intros k. unfold flags. cbn [symb with_funs with_symb with_model touch_args]. rewrite fold_touch_find. apply (sg_flags _ S).
    - intros k H. unfold mdl. cbn [model with_funs with_symb with_model touch_args]. rewrite fold_touch_find.
      rewrite mget_mset_ne by (intros ->; tauto). apply (sg_mdl _ S). tauto.
    - exact T1.
    - intros k fl H. destruct (T2 k fl H) as [H'|H']; auto. apply (sg_symb _ S); auto.
    - intros k H. cbn [symb with_funs with_symb with_model touch_args]. apply mcount_fold_touch. apply (sg_keep _ S); auto.
    - intros k H. cbn [symb with_funs with_symb with_model touch_args]. apply touch_out; [|apply (sg_out _ S); auto].
      intros X. apply (Hk k X); auto.
  Qed.

  (* everything the user functions leave behind *)
  Record added (l : list user_fun) (t0 t : robot) : Prop := {
    ad_new : forall u, In u l -> mfind (u_name u) (fun_args t) = Some (u_args u) /\
       mfind (u_name u) (casadi_fun t) = Some (entry_for u) /\ mdl t (u_name u) = u_expr u;
    ad_old : forall k, ~ In k (map u_name l) -> mfind k (fun_args t) = mfind k (fun_args t0) /\
       mfind k (casadi_fun t) = mfind k (casadi_fun t0) /\ mdl t k = mdl t0 k;
    ad_names : forall k, In k (map fst (casadi_fun t)) <-> In k (map u_name l) \/ In k (map fst (casadi_fun t0))
  }.
  Lemma stage_all l : forall t, stage t -> NoDup (map u_name l) -> (forall u, In u l -> fine u) ->
    exists t', add_all l t = Ok t' /\ stage t' /\ added l t t'.
  Proof.
    induction l as [|u l IH]; intros t S Hn H.
    - exists t. split; [reflexivity|]. split; [exact S|].
      constructor; [intros u []|auto|]. intros k. simpl. tauto.
    - inversion Hn; subst.
      destruct (stage_step t u S (H u (or_introl eq_refl))) as (t1 & E1 & S1 & F1 & C1 & M1).
      destruct (IH t1 S1 H3) as (t' & E' & S' & D').
      { intros v Hv. apply H. right; auto. }
      exists t'. split; [unfold add_all; cbn [loop_list]; rewrite E1; exact E'|]. split; [exact S'|]. constructor.
      + intros v [<-|Hv]; [|apply (ad_new _ _ _ D'); auto].
        destruct (ad_old _ _ _ D' (u_name u) H2) as (X & Y & Z). rewrite X, Y, Z, F1, C1, M1, !mfind_mset.
        destruct (string_dec (u_name u) (u_name u)); [auto|congruence].
      + intros k Hk. simpl in Hk. destruct (ad_old _ _ _ D' k) as (X & Y & Z); [tauto|].
        assert (Nk : k <> u_name u) by (intros ->; tauto). rewrite X, Y, Z, F1, C1, M1, !mfind_mset_ne by auto.
        destruct (string_dec k (u_name u)); [congruence|auto].
      + intros k. rewrite (ad_names _ _ _ D'), C1, in_mset. cbn [map]. simpl. intuition congruence.
  Qed.

  (* the last step of the construction *)
  Hypothesis W : well_formed r0.
  Lemma arg_len k len : In (k, len) (keys r0) -> List.length (arg r0 k) = len.
  Proof.
    intros Hk. unfold keys in Hk. apply in_app_iff in Hk. destruct Hk as [Hk|Hk].
    - rewrite (ld_sarg _ L k len Hk). apply repeat_length.
    - apply (wf_sizes _ W k len Hk).
  Qed.
  Lemma stage_end t : stage t ->
    exists ru, update_symb_parameters t = Ok ru /\ ru = with_args (with_model t (model ru)) (args ru) /\
      (forall k, mcount k (symb t) = false -> mdl ru k = mdl t k) /\
      (forall k len, In (k, len) (keys r0) -> arg ru k = pick (flags r0 k) (arg r0 k)).
  Proof.
    intros S. unfold update_symb_parameters.
    destruct (update_all t (symb t) (sg_nd _ S)) as (ru & E & R & A & C).
    { intros k fl Hin. destruct (sg_symb _ S k fl Hin) as [H| ->]; [|split; apply Nat.le_0_l].
      assert (Hf : flags r0 k = fl). { unfold flags, mget. rewrite s_symb in H. rewrite (NoDup_mfind _ _ _ (ld_nd _ L) H). reflexivity. }
      assert (Hk : In k (map fst (symb r0))) by (rewrite s_symb in H; change k with (fst (k, fl)); now apply in_map).
      assert (NN : ~ In k M).
      { intros X. specialize (HM k X). rewrite s_symb in *. unfold mcount in HM. rewrite (NoDup_mfind _ _ _ (ld_nd _ L) H) in HM. discriminate. }
      destruct (ld_sk _ L k Hk) as [[len Hl]|Hl]; [|rewrite Hf in Hl; rewrite Hl; split; apply Nat.le_0_l].
      pose proof (s_shape k len Hl) as P. rewrite (sg_mdl _ S k NN), (ps_r _ _ _ _ P).
      pose proof (ps_fl _ _ _ _ P) as F. rewrite s_flags, Hf in F. rewrite F.
      assert (EA : arg t k = arg r0 k). { rewrite (sg_eq _ S). exact (s_args k). }
      rewrite EA, (arg_len k len Hl). auto. }
    exists ru. split; [exact E|]. split; [exact R|]. split.
    - intros k Hc. unfold mdl, mget. destruct (C k) as [C1 _]; [|now rewrite C1].
      intros X. apply in_map_iff in X. destruct X as ([k' fl] & <- & X). cbn [fst] in *. unfold mcount in Hc. rewrite (NoDup_mfind _ _ _ (sg_nd _ S) X) in Hc. discriminate.
    - intros k len Hl.
      assert (Hin : In (k, flags r0 k) (symb t)).
      { pose proof (ld_sc _ L k len Hl) as Cc. pose proof (sg_flags _ S k) as F. rewrite s_flags in F.
        rewrite <- s_symb in Cc. apply (sg_keep _ S) in Cc. unfold mcount in Cc.
        destruct (mfind k (symb t)) as [fl|] eqn:Ek; [|discriminate].
        unfold flags in F at 1. unfold mget in F. rewrite Ek in F. subst fl. now apply mfind_In. }
      rewrite (proj2 (A _ _ Hin)). f_equal. rewrite (sg_eq _ S). exact (s_args k).
  Qed.

  (* ---- values ---- *)
  Variable r' : robot.
  Hypothesis Hs : sess r0 b r'.
  Lemma kn_bind fa : (forall k, In k fa -> (exists len, In (k, len) (keys r0)) \/ (flags s k = [] /\ rows (mdl s k) = 0) /\ arg r' k = []) ->
    bind_inputs (ins s fa) (map (arg r') fa) = Ok (flat_map (fun k => combine (isyms s k) (arg r' k)) fa).
  Proof.
    induction fa as [|k t IH]; intros Hk; [reflexivity|].
    cbn [ins map bind_inputs flat_map]. fold (ins s t). rewrite IH by (intros; apply Hk; right; auto).
    assert (Kn : kn k) by (destruct (Hk k (or_introl eq_refl)) as [X|[X _]]; [left|right]; auto).
    destruct (kn_cases k Kn) as (_ & _ & SI & _). rewrite SI.
    assert (HL : List.length (arg r' k) = rows (vertcat_list (sel s k))).
    { destruct (Hk k (or_introl eq_refl)) as [[len Hl]|[[F R] A]].
      - rewrite (ss_len _ _ _ Hs k len Hl). cbn [rows vertcat_list].
        rewrite (sel_fidx _ s k len (s_shape k len Hl)), map_length, s_flags. reflexivity.
      - rewrite A. unfold sel. rewrite R. reflexivity. }
    unfold fit_input. rewrite (proj2 (Nat.eqb_eq _ _) HL). reflexivity.
  Qed.
  Lemma kn_env fa x : NoDup fa -> (forall k, In k fa -> (exists len, In (k, len) (keys r0)) \/ (flags s k = [] /\ rows (mdl s k) = 0) /\ arg r' k = []) ->
    In x (flat_map (isyms s) fa) -> env_of (flat_map (fun k => combine (isyms s k) (arg r' k)) fa) x = renv r0 r' x.
  Proof.
    induction fa as [|k t IH]; intros Hn Hk Hx; [destruct Hx|]. inversion Hn; subst.
    assert (IH' := IH H2 (fun k H => Hk k (or_intror H))). cbn [flat_map] in *.
    destruct (Hk k (or_introl eq_refl)) as [[len Hl]|[[F R] A]].
    - assert (EI : isyms s k = isyms b k). { unfold isyms. f_equal. f_equal. rewrite s_flags. symmetry. rewrite Eb. reflexivity. }
      assert (Hl' : In (k, len) (keys b)) by (rewrite s_keys; exact Hl).
      rewrite env_of_app, EI, (isyms_fst r0 b r' Hs k len Hl').
      destruct (sym_mem x (isyms b k)) eqn:E.
      + apply sym_mem_In in E. rewrite <- (env_bind r0 b r' Hs [k] x).
        * cbn [flat_map]. now rewrite app_nil_r.
        * repeat constructor; auto.
        * intros k' [<-|[]]. eauto.
        * cbn [flat_map]. now rewrite app_nil_r.
      + apply IH'. apply in_app_iff in Hx. destruct Hx as [Hx|Hx]; auto. rewrite EI in Hx. apply sym_mem_In in Hx. congruence.
    - assert (I : isyms s k = []) by (unfold isyms; rewrite F; reflexivity). rewrite I in *. cbn [combine app] in *. auto.
  Qed.
End S.
