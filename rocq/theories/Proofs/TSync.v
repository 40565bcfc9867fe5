(* The two inertial vectors of the generated class. *)
From Coq Require Import Reals List String Arith ZArith Bool Lia Lra.
From Verif.Model Require Import Base Expr SX Robot Yaml Inertia Build Template.
From Verif.Spec Require Import Math Setup State Config Template.
From Verif.Proofs Require Import Maps State InertiaConv StateSess Files TSetters TFiles.
Import ListNotations.
Open Scope nat_scope.
Open Scope string_scope.

Lemma entry_yidx nd k v : entry nd k = Some v -> yidx nd k = Some v.
Proof. destruct nd; cbn; try discriminate. intros H. unfold mget. now rewrite H. Qed.
Lemma entry_yidx_c nd k v : entry nd k = Some v -> yidx_c nd k = Some v.
Proof. destruct nd; cbn; try discriminate. intros H. unfold mget. now rewrite H. Qed.
Lemma yidx_entry nd k v : yidx nd k = Some v -> ydef v = true -> entry nd k = Some v.
Proof.
  destruct nd; cbn; intros H D; try discriminate; try (injection H as <-; discriminate).
  unfold mget in H. destruct (mfind k l); [congruence|]. injection H as <-. discriminate.
Qed.
Lemma complete_read keys inertial : (forall k, In k keys -> number_at inertial k) -> exists v, read_list inertial keys = Some v.
Proof.
  induction keys as [|k keys IH]; intros H; cbn [read_list]; [eauto|].
  destruct (H k (or_introl eq_refl)) as (v & x & E & D). rewrite (entry_yidx _ _ _ E). cbn [ybind]. rewrite D. cbn [ybind].
  destruct IH as [l ->]; [intros; apply H; right; auto|]. cbn [ybind]. eauto.
Qed.
Lemma complete_inertial keys nd : complete_link keys nd -> exists v, ybind (yidx_c nd "inertial") (fun i => read_list i keys) = Some v.
Proof. intros [(i & E & H) _]. rewrite (entry_yidx_c _ _ _ E). cbn [ybind]. apply complete_read; auto. Qed.
Lemma entry_map keys nd : complete_link keys nd -> exists l, nd = YMap l.
Proof. intros [(i & E & _) _]. destruct nd; try discriminate. eauto. Qed.

Lemma t_links_nocatch l : forall left i dlO s,
  (forall k nd, In (k, nd) (firstn left l) -> complete_link inertial_keys nd) -> forall s', t_links l left i dlO s <> Caught s'.
Proof.
  induction l as [|[k nd] l IH]; intros left i dlO s H s'; cbn [t_links]; [discriminate|].
  destruct left; [discriminate|]. cbn [firstn] in H. pose proof (H k nd (or_introl eq_refl)) as Hc.
  destruct (complete_inertial _ _ Hc) as [v ->]. destruct (splice _ _ _); [|discriminate].
  destruct (entry_map _ _ Hc) as [lm ->]. cbn [yidx_c].
  destruct Hc as [_ [E|(fr & dl & w & E & E1 & E2)]]; cbn [entry] in E; unfold mget; rewrite E.
  - cbn [ydef gbind]. apply IH. intros; eapply H; right; eauto.
  - assert (D : ydef fr = true) by (destruct fr; try discriminate; reflexivity). rewrite D.
    rewrite (entry_yidx_c _ _ _ E1). cbn [ybind]. rewrite E2.
    match goal with |- gbind ?x _ <> _ => destruct x eqn:Ex end; cbn [gbind]; try discriminate.
    + apply IH. intros; eapply H; right; eauto.
    + exfalso. revert Ex. unfold lift_Dl. generalize (p_Dl (mkPars l0 (p_Dl s) (p_K s) (p_D s) (p_Dm s) (p_Mm s))).
      assert (N : forall o j b p q, read_vec w o j b p <> Caught q).
      { induction o; intros; cbn [read_vec]; [discriminate|]. destruct (nth_error w j); [auto|discriminate]. }
      intros l1. destruct (read_vec _ _ _ _ _) eqn:Er; try discriminate. exfalso; eapply N; eauto.
Qed.

Lemma t_n_tput k v t : t_n (tput k v t) = t_n t. Proof. reflexivity. Qed.
Lemma tsetter_inertial s : In s tsetters -> ts_mem s <> "par_DYN" /\ ts_mem s <> "par_REG".
Proof.
  intros H. apply (in_map ts_mem) in H.
  assert (F : forallb (fun k => negb (String.eqb k "par_DYN") && negb (String.eqb k "par_REG")) (map ts_mem tsetters) = true) by reflexivity.
  rewrite forallb_forall in F. specialize (F _ H). apply andb_true_iff in F. destruct F as [A B].
  apply negb_true_iff in A, B. apply String.eqb_neq in A, B. auto.
Qed.
Definition synced (t : tobj) : Prop := sized t /\ t_sync t.
Lemma sync_tput k v t : k <> "par_DYN" -> k <> "par_REG" -> t_sync t -> t_sync (tput k v t).
Proof. intros A B H. unfold t_sync. rewrite !member_tput_ne by auto. exact H. Qed.
Lemma synced_tput k v t : (In k compacted \/ List.length v = List.length (member t k)) -> k <> "par_DYN" -> k <> "par_REG" ->
  synced t -> synced (tput k v t).
Proof. intros H A B [S Y]. split; [apply sized_tput; auto|apply sync_tput; auto]. Qed.
Lemma synced_compact k v t : In k compacted -> synced t -> synced (tput k v t).
Proof. intros H. apply synced_tput; auto; simpl in H; intuition (subst; discriminate). Qed.
Lemma synced_symb k v t : synced t -> synced (tput_symb k v t). Proof. auto. Qed.
Lemma update_synced t : sized t -> exists t1, t_update_REG t = Ok t1 /\ synced t1 /\ same_class t t1.
Proof.
  intros Hs. rewrite update_REG_eq by auto. eexists. split; [reflexivity|]. destruct (sized_DYN t Hs) as [LD LR].
  split; [|apply same_class_tput]. split.
  - apply sized_tput; auto. right. rewrite reg_links_len. auto.
  - unfold t_sync. cbn [tput with_val t_n]. fold (tput "par_REG" (map_links (t_n t) reg_of_dyn (member t "par_DYN")) t).
    rewrite member_tput, member_tput_ne by discriminate. apply reg_links; auto.
Qed.

Section J.
  Variable junk : nat -> R.
  Lemma kinematics_sync cfg t : synced t -> okp synced (t_kinematics junk cfg t).
  Proof.
    intros H. unfold t_kinematics. destruct (yidx cfg "kinematics") as [kin|]; [|apply okp_caught; auto].
    destruct (ydef kin); [|apply okp_go; auto]. cbv zeta.
    assert (Hc : In "par_DHtable" compacted) by (simpl; auto).
    pose proof (synced_compact "par_DHtable" (vresize junk (t_n t * 4) (member t "par_DHtable")) t Hc H) as H1.
    destruct (ybind _ _) as [dh|]; [|apply okp_caught; auto].
    destruct (new_flags _ _) as [fl|]; [|apply okp_caught; auto].
    destruct (picked _ _ _) as [l|]; [|apply okp_bad]. destruct (Nat.leb _ _); [|apply okp_bad].
    apply okp_go. apply synced_compact; auto.
  Qed.
  Lemma frame_sync sec par sy cfg t : In par compacted -> synced t -> okp synced (t_frame junk sec par sy cfg t).
  Proof.
    intros Hp H. unfold t_frame. destruct (yidx cfg sec) as [fr|]; [|apply okp_caught; auto].
    destruct (ydef fr); [|apply okp_go; auto]. cbv zeta.
    pose proof (synced_compact par (vresize junk 6 (member t par)) t Hp H) as H1.
    destruct (new_flags _ _) as [fl|]; [|apply okp_caught; auto].
    pose proof (synced_symb sy fl _ H1) as H2.
    destruct (ybind _ _); [|apply okp_caught; auto]. destruct (ybind _ _); [|apply okp_caught; auto].
    destruct (picked 3 fl _); [|apply okp_bad]. destruct (picked _ _ _); [|apply okp_bad]. apply okp_go. apply synced_compact; auto.
  Qed.
  Lemma gravity_sync cfg t : synced t -> okp synced (t_gravity junk cfg t).
  Proof.
    intros H. unfold t_gravity. destruct (yidx cfg "gravity") as [fr|]; [|apply okp_caught; auto].
    destruct (ydef fr); [|apply okp_go; auto]. cbv zeta.
    assert (Hc : In "par_gravity" compacted) by (simpl; auto).
    pose proof (synced_compact "par_gravity" (vresize junk 3 (member t "par_gravity")) t Hc H) as H1.
    destruct (new_flags _ _) as [fl|]; [|apply okp_caught; auto].
    pose proof (synced_symb "gravity_symb" fl _ H1) as H2.
    destruct (ybind _ _); [|apply okp_caught; auto].
    destruct (picked _ _ _); [|apply okp_bad]. apply okp_go. apply synced_compact; auto.
  Qed.
  Lemma elastic_sync cfg t : synced t -> okp synced (t_elastic cfg t).
  Proof.
    intros [Hs Hy]. unfold t_elastic. destruct (yidx cfg "elastic") as [fr|]; [|apply okp_caught; split; auto].
    destruct (ydef fr); [|apply okp_go; split; auto]. destruct (yidx fr "joints"); [|apply okp_caught; split; auto].
    apply on_pars_okp. intros s E. split.
    - pose proof (load_elastic_len _ _ _ _ _ _ _ s E) as L. apply (kept_pars t); auto. split; auto using same_class_refl.
    - unfold t_sync. rewrite !put_pars_members. cbn [mfind String.eqb Ascii.eqb Bool.eqb].
      rewrite (load_elastic_D _ _ _ _ _ _ _ _ E). exact Hy.
  Qed.
  Lemma dynamics_sync cfg t : complete_links inertial_keys (t_n t) cfg -> synced t -> okp synced (t_dynamics true cfg t).
  Proof.
    intros Hc [Hs Hy]. unfold t_dynamics. destruct (yidx cfg "dynamics") as [dyn|] eqn:Ed; [|apply okp_caught; split; auto].
    destruct (ydef dyn) eqn:Dd; [|apply okp_go; split; auto].
    pose proof (Hc dyn (yidx_entry _ _ _ Ed Dd)) as Hl.
    pose proof (t_links_nocatch (ychildren dyn) (t_n t) 0 (t_Dl t) (pars_of t) Hl) as N.
    pose proof (t_links_len (ychildren dyn) (t_n t) 0 (t_Dl t) (pars_of t)) as L.
    destruct (t_links _ _ _ _ _) as [s|s|m]; cbn [on_pars gbind]; [|exfalso; eapply N; reflexivity|apply okp_bad].
    assert (Hs1 : sized (put_pars t s)).
    { apply (kept_pars t); [apply L; auto|split; auto using same_class_refl]. }
    destruct (update_synced _ Hs1) as (t1 & E & Y & _). rewrite E. cbn [to_prog]. apply okp_go; auto.
  Qed.
  Lemma load_conf_sync cfg t t1 : complete_links inertial_keys (t_n t) cfg -> synced t ->
    t_load_conf junk t (Some cfg) true = Ok t1 -> synced t1.
  Proof.
    intros Hc H E. unfold t_load_conf in E.
    match type of E with match ?x with _ => _ end = _ => set (x0 := x) in E; assert (K : okp (fun t' => synced t' /\ kept t t') x0) end.
    { assert (Z : forall x, okp synced x -> okp (kept t) x -> okp (fun t' => synced t' /\ kept t t') x) by (intros x A B s Hx; split; auto).
      assert (Nn : forall a, kept t a -> t_n a = t_n t) by (intros a [_ [Q _]]; congruence).
      assert (Z0 : kept t t) by (split; [apply H|apply same_class_refl]).
      unfold x0. apply okp_bind; [apply Z; [apply kinematics_sync|apply kinematics_ok]; auto|]. intros a [Ha Ka].
      apply okp_bind; [apply Z; [apply frame_sync|apply frame_ok]; auto; simpl; auto|]. clear a Ha Ka. intros a [Ha Ka].
      apply okp_bind; [apply Z; [apply frame_sync|apply frame_ok]; auto; simpl; auto|]. clear a Ha Ka. intros a [Ha Ka].
      apply okp_bind; [apply Z; [apply dynamics_sync|apply dynamics_ok]; auto; rewrite Nn; auto|]. clear a Ha Ka. intros a [Ha Ka].
      apply okp_bind; [apply Z; [apply gravity_sync|apply gravity_ok]; auto|]. clear a Ha Ka. intros a [Ha Ka].
      apply Z; [apply elastic_sync|apply elastic_ok]; auto. }
    clearbody x0. destruct x0; try discriminate; injection E as <-; apply K; auto.
  Qed.
End J.

(* load_par_REG of a complete file with non-zero masses *)
Lemma splice_at p off v p' j : splice p off v = Some p' ->
  nth j p' 0%R = if (Nat.leb off j && Nat.ltb j (off + List.length v))%bool then nth (j - off) v 0%R else nth j p 0%R.
Proof.
  unfold splice. destruct (Nat.leb_spec (off + List.length v) (List.length p)) as [Hl|]; [|discriminate]. intros E; injection E as <-.
  assert (F : List.length (firstn off p) = off) by (rewrite firstn_length; lia).
  destruct (Nat.leb_spec off j) as [A|A]; cbn [andb].
  - rewrite app_nth2 by lia. rewrite F. destruct (Nat.ltb_spec j (off + List.length v)) as [B|B].
    + rewrite app_nth1 by lia. reflexivity.
    + rewrite app_nth2 by lia. rewrite nth_skipn'. f_equal. lia.
  - rewrite app_nth1 by lia. apply nth_firstn'. auto.
Qed.
Lemma reg_links_massive l : forall left i p, List.length p = 10 * (i + left) ->
  (forall k nd, In (k, nd) (firstn left l) -> complete_link reg_keys nd /\ massive_link nd) -> left <= List.length l ->
  (forall j, j < i -> link_of p j 0 <> 0%R) ->
  exists p', t_reg_links l left i p = Go p' /\ List.length p' = List.length p /\ massive (i + left) p'.
Proof.
  induction l as [|[k nd] l IH]; intros left i p Hp Hl Hn Hm; cbn [t_reg_links].
  - assert (left = 0) by (simpl in Hn; lia). subst. exists p. split; auto. split; auto. intros j Hj. apply Hm. lia.
  - destruct left as [|left]; [exists p; split; auto; split; auto; intros j Hj; apply Hm; lia|].
    cbn [firstn] in Hl. destruct (Hl k nd (or_introl eq_refl)) as [Hc (m & x & Em & Ex & Hx)].
    destruct (complete_inertial _ _ Hc) as [v Ev]. rewrite Ev.
    assert (Lv : List.length v = 10 /\ nth 0 v 0%R = x).
    { unfold entry2 in Em. destruct (entry nd "inertial") as [ine|] eqn:Ei; [|discriminate].
      rewrite (entry_yidx_c _ _ _ Ei) in Ev. cbn [ybind] in Ev. split; [apply read_list_len in Ev; exact Ev|].
      unfold reg_keys in Ev. cbn [read_list] in Ev. rewrite (entry_yidx _ _ _ Em) in Ev. cbn [ybind] in Ev. rewrite Ex in Ev. cbn [ybind] in Ev.
      match type of Ev with ybind ?a _ = _ => destruct a as [w|]; cbn [ybind] in Ev; [|discriminate] end. injection Ev as <-. reflexivity. }
    destruct Lv as [Lv V0].
    destruct (splice p (STD_PAR_LINK * i) v) as [p1|] eqn:Es.
    + pose proof (splice_len _ _ _ _ Es) as L1.
      destruct (IH left (S i) p1) as (p' & E' & L' & M').
      * rewrite L1, Hp. lia.
      * intros; eapply Hl; right; eauto.
      * simpl in Hn; lia.
      * intros j Hj. unfold link_of. rewrite (splice_at _ _ _ _ _ Es). unfold STD_PAR_LINK. rewrite Lv.
        destruct (Nat.eq_dec j i) as [->|N].
        -- rewrite Nat.add_0_r, Nat.leb_refl, (proj2 (Nat.ltb_lt _ _)) by lia. cbn [andb]. rewrite Nat.sub_diag. congruence.
        -- rewrite (proj2 (Nat.leb_gt _ _)) by lia. cbn [andb]. apply (Hm j). lia.
      * exists p'. split; auto. split; [congruence|]. replace (i + S left) with (S i + left) by lia. exact M'.
    + unfold splice in Es. rewrite Lv, Hp in Es. unfold STD_PAR_LINK in Es.
      rewrite (proj2 (Nat.leb_le _ _)) in Es by lia. discriminate.
Qed.
Lemma load_REG_sync cfg t t1 v : complete_links reg_keys (t_n t) cfg -> massive_links (t_n t) cfg -> synced t ->
  t_load_par_REG t (Some cfg) true = Ok (t1, v) -> synced t1.
Proof.
  intros Hc Hm [Hs Hy] E. destruct (load_REG_ok (Some cfg) true t Hs) as (t2 & v2 & E2 & S2 & _ & C2 & _).
  rewrite E2 in E. injection E as <- <-. split; auto. destruct (sized_DYN t Hs) as [LD LR].
  unfold t_load_par_REG in E2. destruct (yidx cfg "dynamics") as [dyn|] eqn:Ed; [|injection E2 as <- <-; auto].
  destruct (ydef dyn) eqn:Dd; [|injection E2 as <- <-; auto].
  pose proof (Hc dyn (yidx_entry _ _ _ Ed Dd)) as Hl. destruct (Hm dyn (yidx_entry _ _ _ Ed Dd)) as [Hn Hl2].
  destruct (reg_links_massive (ychildren dyn) (t_n t) 0 (member t "par_REG")) as (p & Ep & Lp & Mp); auto; try (intros; lia).
  { intros k nd Hi. split; eauto. }
  rewrite Ep in E2. cbv zeta in E2.
  assert (Sp : sized (tput "par_REG" p t)) by (apply sized_tput; auto).
  rewrite update_DYN_eq in E2 by auto. cbn [bind] in E2. injection E2 as <- <-.
  unfold t_sync. rewrite !t_n_tput, member_tput, !(member_tput_ne "par_DYN" "par_REG") by discriminate. rewrite member_tput.
  apply dyn_links; [rewrite Lp; auto|exact Mp].
Qed.

Theorem history_sync junk r h : (forall c, In c h -> careful (numJoints r) c) -> forall t, t_do_all junk h (new_class r) = Ok t -> t_sync t.
Proof.
  assert (H : forall h, (forall c, In c h -> careful (numJoints r) c) -> forall t1 t, kept (new_class r) t1 -> t_sync t1 ->
    t_do_all junk h t1 = Ok t -> t_sync t).
  { clear h. induction h as [|c h IH]; intros Hk t1 t H1 Y1 E; cbn [t_do_all] in E; [injection E as <-; auto|].
    destruct (t_do junk c t1) as [t2| |] eqn:E2; cbn [bind] in E; try discriminate.
    pose proof (Hk c (or_introl eq_refl)) as Hc.
    assert (Kn : known c) by (destruct c; cbn in *; auto).
    pose proof (do_kept junk _ c t1 t2 Kn H1 E2) as H2.
    refine (IH _ t2 t H2 _ E); [intros; apply Hk; right; auto|]. clear IH E Hk.
    assert (Hn : t_n t1 = numJoints r) by (destruct H1 as [_ [Q _]]; cbn in Q; congruence).
    destruct H1 as [Hs1 _]. destruct H2 as [Hs2 Hc2].
    assert (K : forall ks, t_changes ks t1 t2 -> ~ In "par_DYN" ks -> ~ In "par_REG" ks -> t_sync t2).
    { intros ks ([Q _] & _ & M) A B. unfold t_sync. rewrite !M by auto. assert (N : t_n t2 = t_n t1) by congruence. rewrite N. exact Y1. }
    destruct c; cbn [t_do careful] in *.
    - injection E2 as <-. destruct (Nat.eq_dec (List.length v) (ts_len s t1)) as [L|L].
      + destruct (tsetter_inertial s Hc). apply (K [ts_mem s]); [apply (tset_stores s v t1); auto| |]; simpl; intuition.
      + rewrite tset_refuses by auto. exact Y1.
    - injection E2 as <-. destruct (tset_args q dq dqr ddqr t1) as [A B].
      destruct (Nat.eq_dec (List.length q) (t_n t1)), (Nat.eq_dec (List.length dq) (t_n t1)),
        (Nat.eq_dec (List.length dqr) (t_n t1)), (Nat.eq_dec (List.length ddqr) (t_n t1));
      try (rewrite B by intuition; exact Y1).
      apply (K ["q"; "dq"; "dqr"; "ddqr"]); [apply A; auto| |]; cbn; intuition discriminate.
    - unfold t_set_par_DHtable in E2. destruct (Nat.eqb _ _); [|injection E2 as <-; auto].
      destruct (_ || _); [|discriminate]. injection E2 as <-. apply sync_tput; auto; discriminate.
    - subst upd. destruct (tset_DYN v true t1 Hs1) as (t3 & E3 & _ & _ & _ & Y & _). rewrite E3 in E2. injection E2 as <-. auto.
    - destruct Hc as (-> & L & Hm). destruct (tset_REG v true t1 Hs1) as (t3 & E3 & _ & _ & M & Y & _). rewrite E3 in E2. injection E2 as <-.
      apply Y; auto. rewrite M, Hn, (proj2 (Nat.eqb_eq _ _) L). auto.
    - destruct Hc as [-> Hf]. destruct file as [cfg|].
      + destruct (t_load_par_REG t1 (Some cfg) true) as [[t3 v]| |] eqn:E3; cbn in E2; try discriminate. injection E2 as <-.
        destruct (Hf cfg eq_refl) as [A B]. eapply load_REG_sync; [| | |exact E3]; rewrite ?Hn; auto. split; auto.
      + cbn in E2. injection E2 as <-. auto.
    - destruct Hc as [-> Hf]. destruct file as [cfg|].
      + eapply load_conf_sync; [| |exact E2]; [rewrite Hn; auto|split; auto].
      + cbn in E2. injection E2 as <-. auto. }
  intros Hk t E. apply (H h Hk (new_class r) t); auto.
  - split; [apply new_sized|apply same_class_refl].
  - unfold t_sync. cbn [t_n new_class].
    assert (Z : forall k, In (k, 10 * numJoints r) [("par_DYN", 10 * numJoints r); ("par_REG", 10 * numJoints r)] -> member (new_class r) k = repeat 0%R (10 * numJoints r)).
    { intros k Hi. unfold member, mget. erewrite new_count; [reflexivity|]. cbn -[Nat.mul] in *. unfold STD_PAR_LINK. intuition. }
    rewrite !Z by (simpl; auto). intros i Hi. 
    assert (L0 : forall c, link_of (repeat 0%R (10 * numJoints r)) i c = 0%R).
    { intros c. unfold link_of. destruct (Nat.lt_ge_cases (10 * i + c) (10 * numJoints r)).
      - apply nth_repeat.
      - apply nth_overflow. rewrite repeat_length. lia. }
    apply (same_link_ext (fun _ => 0%R) _ (fun _ => 0%R) _); try (intros; symmetry; apply L0).
    unfold same_link. split; [reflexivity|]. split; [intros; ring|].
    intros a b Ha Hb. lt3 a; lt3 b; cbn; ring.
Qed.
