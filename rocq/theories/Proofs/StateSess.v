(* Setters, inertial parameters and user functions on robots built from a configuration. *)
From Coq Require Import Reals List String Arith ZArith Bool Lia Lra.
From Verif.Model Require Import Base Expr SX Robot Yaml Inertia Build.
From Verif.Spec Require Import Math Setup Kinematics Dynamics Regressor Api State.
From Verif.Proofs Require Import Maps Pure Names Shape BuildEq BuildDyn BuildReg Load Init Final Get Api State InertiaConv Files AddFun.
Import ListNotations.
Open Scope nat_scope.
Open Scope string_scope.

(* ---- histories of setter calls ---- *)
Lemma session_dims name cfg r0 r r' : session name cfg r0 r r' ->
  numJoints r = numJoints r0 /\ numElasticJoints r = numElasticJoints r0 /\ ELASTIC r = ELASTIC r0 /\ (forall k, flags r k = flags r0 k).
Proof.
  intros H. destruct (session_built _ _ _ _ _ H) as [b B]. pose proof (bt_r _ _ _ B) as E. pose proof (bt_b _ _ _ B) as Eb.
  pose proof (pubs_rest b (L_all b)) as R.
  rewrite E. destruct R. cbn [numJoints numElasticJoints ELASTIC with_args with_model]. unfold flags.
  cbn [symb with_args with_model]. rewrite sr_n, sr_e, sr_el, sr_symb. rewrite Eb. auto.
Qed.
Lemma usable_len r0 r s : In s (usable r0) -> numJoints r = numJoints r0 -> numElasticJoints r = numElasticJoints r0 -> s_len s r = s_len s r0.
Proof.
  intros H E1 E2. unfold usable in H. apply in_app_iff in H.
  destruct (ELASTIC r0); simpl in H; decompose [or] H; try contradiction; subst s; simpl; auto.
Qed.
Theorem session_history name cfg r0 r r' h : session name cfg r0 r r' ->
  (forall s v, In (s, v) h -> In s (usable r0)) ->
  exists r1, run h r' = Ok (r1, map (result_code r0) h) /\ session name cfg r0 r r1 /\
    forall k, get_arg r1 k = last_accepted r0 k h (get_arg r' k).
Proof.
  intros Hs Hh. destruct (session_dims _ _ _ _ _ Hs) as (E1 & E2 & _ & _).
  pose proof (se_args _ _ _ _ _ Hs) as Ea.
  assert (HL : forall s v, In (s, v) h -> s_len s r = s_len s r0) by (intros; apply usable_len; eauto).
  destruct (history r h r' Ea) as (r1 & Er & R1 & R2).
  { intros s v Hi. specialize (Hh s v Hi). split; [eapply usable_in; eauto|].
    rewrite (HL s v Hi). apply (se_state _ _ _ _ _ Hs). now apply usable_size. }
  assert (EC : map (result_code r) h = map (result_code r0) h).
  { apply map_ext_in. intros [s v] Hi. unfold result_code. cbn [fst snd]. now rewrite (HL s v Hi). }
  assert (EL : forall k v0, last_accepted r k h v0 = last_accepted r0 k h v0).
  { intros k. clear -HL. induction h as [|[s v] h IH]; intros v0; [reflexivity|]. cbn [last_accepted].
    rewrite (HL s v (or_introl eq_refl)). apply IH. intros; eapply HL; right; eauto. }
  exists r1. rewrite <- EC. split; [exact Er|]. split; [|intros k; rewrite R2; apply EL].
  assert (AA : forall k, arg r1 k = last_accepted r0 k h (arg r' k)) by (intros k; rewrite <- EL; apply R2).
  destruct Hs as [L W B A St P]. constructor; auto.
  - intros k len Hk. rewrite AA. apply last_accepted_len; [now apply St|].
    intros s v Hi <-. apply (state_sizes_fun r0 (s_arg s)); auto. apply usable_size. eauto.
  - intros k len Hk. rewrite AA, last_accepted_other; [now apply (P k len)|].
    intros s v Hi <-. eapply state_par_disjoint; [|exact Hk]. apply usable_size. eauto.
Qed.
(* set_par_DYN refuses everything as soon as one inertial parameter is numeric *)
Theorem par_DYN_refused name cfg r0 r r' v : session name cfg r0 r r' -> symbolic r0 "par_DYN" < 10 * numJoints r0 ->
  (exists m, set_par_DYN r' v = Throw m) \/ (exists r1, set_par_DYN r' v = Ok (r1, 0) /\ changes_nothing r' r1).
Proof.
  intros Hs Hl. destruct (session_dims _ _ _ _ _ Hs) as (E1 & _).
  assert (En : numJoints r' = numJoints r0) by (rewrite (se_args _ _ _ _ _ Hs); exact E1).
  assert (HD : List.length (get_arg r' "par_DYN") = symbolic r0 "par_DYN").
  { apply (se_par _ _ _ _ _ Hs _ (10 * numJoints r0)). unfold par_sizes. rewrite !in_app_iff. simpl; tauto. }
  unfold set_par_DYN, STD_PAR_LINK. rewrite En.
  destruct (Nat.eq_dec (List.length v) (10 * numJoints r0)) as [E|N].
  - left. exists "casadi: index out of range". apply set_sized_short; auto. rewrite HD. exact Hl.
  - right. apply set_sized_refused; auto.
Qed.

(* ---- loading keeps the two descriptions together ---- *)
Lemma lset_len {A} : forall (l : list A) i v l', lset l i v = Some l' -> List.length l' = List.length l.
Proof.
  induction l as [|a l IH]; simpl; intros i v l' H; [discriminate|]. destruct i.
  - inversion H; auto.
  - destruct (lset l i v) eqn:E; [|discriminate]. inversion H; subst. simpl. f_equal. eauto.
Qed.
Lemma upd_len p i v : List.length (upd p i v) = List.length p.
Proof. unfold upd. destruct (lset p i v) eqn:E; auto. eapply lset_len; eauto. Qed.
Lemma read_keys_len nd : forall keys pos p p', read_keys nd keys pos p = Go p' \/ read_keys nd keys pos p = Caught p' ->
  List.length p' = List.length p.
Proof.
  induction keys as [|k keys IH]; cbn [read_keys]; intros pos p p' H.
  - destruct H as [H|H]; inversion H; auto.
  - destruct (ybind (yidx nd k) as_double).
    + rewrite (IH _ _ _ H). apply upd_len.
    + destruct H as [H|H]; inversion H; auto.
Qed.
Definition ends (x : prog pars) (s : pars) : Prop := x = Go s \/ x = Caught s.
Lemma gbind_ends x f s : ends (gbind x f) s -> x = Caught s \/ exists s1, x = Go s1 /\ ends (f s1) s.
Proof. unfold ends. destruct x; simpl; intros [H|H]; try discriminate; try (inversion H; auto); eauto. Qed.
Definition keepsD (s s' : pars) : Prop := List.length (p_DYN s') = List.length (p_DYN s).
Lemma ends_liftDl s x s' : ends (lift_Dl s x) s' -> keepsD s s'.
Proof. unfold ends, keepsD. destruct x; simpl; intros [H|H]; inversion H; reflexivity. Qed.
Lemma load_links_len : forall l left i dlO s s', ends (load_links l left i dlO s) s' -> keepsD s s'.
Proof.
  induction l as [|[k nd] l IH]; cbn [load_links]; intros left i dlO s s' H.
  - destruct H as [H|H]; inversion H; reflexivity.
  - destruct (yidx_c nd "inertial") as [inert|]; [|destruct H as [H|H]; inversion H; reflexivity].
    destruct left; [destruct H as [H|H]; inversion H; reflexivity|].
    apply gbind_ends in H.
    assert (K : forall s1, ends (lift_DYN s (read_keys inert inertial_keys (STD_PAR_LINK * i) (p_DYN s))) s1 -> keepsD s s1).
    { intros s1 H1. pose proof (read_keys_len inert inertial_keys (STD_PAR_LINK * i) (p_DYN s)) as RL.
      destruct (read_keys _ _ _ _) as [p|p|]; destruct H1 as [H1|H1]; simpl in H1; inversion H1; subst; unfold keepsD; simpl; apply RL; auto. }
    destruct H as [H|(s1 & H1 & H)]; [apply K; right; auto|]. specialize (K s1 (or_introl H1)). clear H1.
    destruct (yidx_c nd "friction") as [fr|]; [|destruct H as [H|H]; inversion H; subst; auto].
    apply gbind_ends in H.
    assert (K2 : forall s2, ends (if ydef fr then match ybind (yidx_c fr "Dl") (as_vector as_double) with
       | None => Caught s1 | Some v => lift_Dl s1 (read_vec v dlO 0 (dlO * i) (p_Dl s1)) end else Go s1) s2 -> keepsD s1 s2).
    { intros s2. destruct (ydef fr); [|intros [H2|H2]; inversion H2; reflexivity].
      destruct (ybind _ _); [apply ends_liftDl|intros [H2|H2]; inversion H2; reflexivity]. }
    destruct H as [H|(s2 & H2 & H)].
    + specialize (K2 s' (or_intror H)). unfold keepsD in *. congruence.
    + specialize (K2 s2 (or_introl H2)). apply IH in H. unfold keepsD in *. congruence.
Qed.
Lemma load_elastic_D : forall l left i kO dO dmO s s', ends (load_elastic l left i kO dO dmO s) s' -> p_DYN s' = p_DYN s.
Proof.
  induction l as [|[k nd] l IH]; cbn [load_elastic]; intros left i kO dO dmO s s' H.
  - destruct H as [H|H]; inversion H; reflexivity.
  - destruct left; [destruct H as [H|H]; inversion H; reflexivity|].
    apply gbind_ends in H.
    destruct H as [H|(s1 & H1 & H)]; [destruct (load_order nd "K" _ _ _); simpl in H; inversion H; reflexivity|].
    assert (E1 : p_DYN s1 = p_DYN s) by (destruct (load_order nd "K" _ _ _); simpl in H1; inversion H1; reflexivity). rewrite <- E1. clear H1 E1.
    apply gbind_ends in H.
    destruct H as [H|(s2 & H1 & H)]; [destruct (load_order nd "D" _ _ _); simpl in H; inversion H; reflexivity|].
    assert (E1 : p_DYN s2 = p_DYN s1) by (destruct (load_order nd "D" _ _ _); simpl in H1; inversion H1; reflexivity). rewrite <- E1. clear H1 E1.
    apply gbind_ends in H.
    destruct H as [H|(s3 & H1 & H)]; [destruct (load_order nd "Dm" _ _ _); simpl in H; inversion H; reflexivity|].
    assert (E1 : p_DYN s3 = p_DYN s2) by (destruct (load_order nd "Dm" _ _ _); simpl in H1; inversion H1; reflexivity). rewrite <- E1. clear H1 E1.
    destruct (ybind _ _); [apply IH in H; exact H|destruct H as [H|H]; inversion H; reflexivity].
Qed.
Lemma load_tree_len r f s : ends (load_conf_tree r f) s -> List.length (p_DYN s) = 10 * numJoints r.
Proof.
  unfold load_conf_tree. intros H.
  assert (Z : List.length (p_DYN (zero_pars r)) = 10 * numJoints r) by (simpl; apply repeat_length).
  destruct (yidx f "dynamics") as [dyn|]; [|destruct H as [H|H]; inversion H; subst; exact Z].
  apply gbind_ends in H.
  destruct H as [H|(s1 & H1 & H)].
  - pose proof (load_links_len _ _ _ _ _ _ (or_intror H)) as K. unfold keepsD in K. congruence.
  - pose proof (load_links_len _ _ _ _ _ _ (or_introl H1)) as K. unfold keepsD in K.
    assert (E : p_DYN s = p_DYN s1).
    { destruct (ELASTIC r); [|destruct H as [H|H]; inversion H; reflexivity].
      destruct (yidx f "elastic") as [e|]; [|destruct H as [H|H]; inversion H; reflexivity].
      destruct (ydef e); [|destruct H as [H|H]; inversion H; reflexivity].
      destruct (yidx e "joints"); [|destruct H as [H|H]; inversion H; reflexivity].
      eapply load_elastic_D; exact H. }
    rewrite E. congruence.
Qed.
Lemma set_pars_DYN r s : get_arg (set_pars r s) "par_DYN" = p_DYN s.
Proof.
  unfold set_pars, get_arg, arg. cbn [args with_args].
  repeat match goal with |- context [if ?b then mset _ _ _ else _] => destruct b end;
  repeat (rewrite mget_mset_ne by discriminate); apply mget_mset.
Qed.
Lemma set_pars_REG r s : get_arg (set_pars r s) "par_REG" = get_arg r "par_REG".
Proof.
  unfold set_pars, get_arg, arg. cbn [args with_args].
  repeat match goal with |- context [if ?b then mset _ _ _ else _] => destruct b end;
  repeat (rewrite mget_mset_ne by discriminate); reflexivity.
Qed.
Theorem load_conf_sync r f r1 : List.length (get_arg r "par_REG") = 10 * numJoints r ->
  load_conf_par r f true = Ok r1 -> in_sync r1.
Proof.
  intros HG H. unfold load_conf_par in H.
  assert (G : forall s, ends (load_conf_tree r f) s -> update_inertial_REG (set_pars r s) = Ok r1 -> in_sync r1).
  { intros s Hs Hu. destruct (to_REG (set_pars r s)) as (r2 & E & _ & _ & S).
    - rewrite set_pars_DYN. exact (load_tree_len _ _ _ Hs).
    - rewrite set_pars_REG. exact HG.
    - congruence. }
  destruct (load_conf_tree r f) as [s|s|] eqn:E; [| |discriminate]; apply (G s); unfold ends; auto.
Qed.
Lemma new_robot_REG name cfg r : new_robot name cfg = Ok r -> List.length (get_arg r "par_REG") = 10 * numJoints r.
Proof.
  unfold new_robot. destruct (parse_config name cfg) as [r1| | |] eqn:E; try discriminate.
  apply parse_inv in E. destruct E. unfold initVarsFuns. rewrite pa_jt, Nat.eqb_refl. cbn [negb].
  intros H; inversion H; subst r; clear H. destruct pa_args as (g & w & e & dh & Ha & _).
  unfold get_arg, arg, mget. cbn [args with_symb with_args with_model numJoints]. unfold ins_args. rewrite mfind_ins.
  rewrite Ha. cbn [mfind mset String.eqb Ascii.eqb Bool.eqb String.ltb]. 
  unfold zs. rewrite (mfind_map (fun _ => repeat 0%R)).
  unfold init_vars_list, init_ela_vars, init_pars. destruct (ELASTIC r1), (Nat.ltb 0 (Dl_order r1)); lazy beta iota delta [mfind app option_map String.eqb Ascii.eqb Bool.eqb fst snd];
    apply repeat_length.
Qed.
Theorem loaded_sync name cfg r0 : robot_from_file name cfg false = Ok r0 -> in_sync r0.
Proof.
  unfold robot_from_file. destruct (new_robot name cfg) as [r1| |] eqn:E; cbn [bind]; try discriminate.
  destruct (load_conf_par r1 cfg true) as [r2| |] eqn:E2; cbn [bind]; try discriminate.
  intros H; inversion H; subst. eapply load_conf_sync; [|exact E2]. eapply new_robot_REG; eauto.
Qed.
Lemma new_robot_noREG name cfg r : new_robot name cfg = Ok r -> ~ In "par_REG" (map fst (symb r)).
Proof.
  unfold new_robot. destruct (parse_config name cfg) as [r1| | |] eqn:E; try discriminate.
  apply parse_inv in E. destruct E. unfold initVarsFuns. rewrite pa_jt, Nat.eqb_refl. cbn [negb].
  intros H; inversion H; subst r; clear H.
  destruct pa_symb as (sG & sE & sW & sDH & sMm & sDm & sD & sK & sDl & sDYN & Hs & _).
  cbn [symb with_symb]. unfold ins_symb. intros Hk. apply In_ins in Hk. rewrite map_map in Hk. unfold os in Hk; cbn [fst] in Hk.
  rewrite Hs in Hk. unfold init_vars_list, init_ela_vars in Hk.
  destruct (ELASTIC r1); vm_compute in Hk; decompose [or] Hk; clear Hk; try contradiction; discriminate.
Qed.
Lemma file_noREG name cfg r0 : robot_from_file name cfg false = Ok r0 -> ~ In "par_REG" (map fst (symb r0)).
Proof.
  unfold robot_from_file. destruct (new_robot name cfg) as [r1| |] eqn:E; cbn [bind]; try discriminate.
  destruct (load_conf_par r1 cfg true) as [r2| |] eqn:E2; cbn [bind]; try discriminate.
  intros H; inversion H; subst. apply load_conf_argsonly in E2. unfold argsonly in E2. rewrite E2. exact (new_robot_noREG name cfg r1 E).
Qed.
Lemma built_REG name cfg r0 r r' : session name cfg r0 r r' -> get_arg r "par_REG" = get_arg r0 "par_REG".
Proof.
  intros H. destruct (session_built _ _ _ _ _ H) as [b B].
  destruct (bt_other _ _ _ B "par_REG" (file_noREG _ _ _ (se_load _ _ _ _ _ H))) as [[_ E]|N]; [exact E|].
  exfalso. apply N. unfold arg_keys. simpl. tauto.
Qed.
(* right after construction par_REG holds the regressor description of the links *)
Theorem built_describes name cfg r0 r r' : session name cfg r0 r r' ->
  describes r0 r (fun i => nth i (get_arg r "par_REG") 0%R).
Proof.
  intros H. rewrite (built_REG _ _ _ _ _ H).
  destruct (loaded_sync _ _ _ (se_load _ _ _ _ _ H)) as (_ & _ & S).
  assert (P : forall i, param r0 r "par_DYN" i = nth i (get_arg r0 "par_DYN") 0%R).
  { intros i. apply (param_built name cfg r0 r r' H "par_DYN" (10 * numJoints r0)). unfold par_sizes. rewrite !in_app_iff. simpl; tauto. }
  intros i Hi. destruct (S (i - 1) ltac:(lia)) as (A & B & C). unfold link_of in A, B, C.
  assert (D : forall c, dyn r0 r i c = nth (10 * (i - 1) + c) (get_arg r0 "par_DYN") 0%R) by (intros; apply P).
  unfold mass, com_of. cbv zeta. split; [rewrite D; exact A|]. split; [intros a Ha; rewrite !D; apply B; exact Ha|].
  unfold origin_inertia, inertia, com_of, mass, rdot. cbv zeta.
  assert (CC : forall a b, a < 3 -> b < 3 -> tensor (fun c => nth (10 * (i - 1) + c) (get_arg r0 "par_REG") 0%R) a b =
     (inertia r0 r i a b + mass r0 r i * ((if Nat.eqb a b then rsum 3 (fun k => dyn r0 r i (1 + k) * dyn r0 r i (1 + k)) else 0)
        - dyn r0 r i (1 + a) * dyn r0 r i (1 + b)))%R).
  { intros a b Ha Hb. rewrite C by auto. unfold mass, rdot, rsum. rewrite !D. cbn [seq map fold_right]. rewrite ?D.
    f_equal. unfold tensor, inertia. do 3 (destruct a as [|a]; [do 3 (destruct b as [|b]; [rewrite ?D; reflexivity|]); lia|]); lia. }
  split; [exact (CC 0 0 ltac:(lia) ltac:(lia))|]. split; [exact (CC 0 1 ltac:(lia) ltac:(lia))|]. split; [exact (CC 0 2 ltac:(lia) ltac:(lia))|].
  split; [exact (CC 1 1 ltac:(lia) ltac:(lia))|]. split; [exact (CC 1 2 ltac:(lia) ltac:(lia))|]. exact (CC 2 2 ltac:(lia) ltac:(lia)).
Qed.
