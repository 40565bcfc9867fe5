(* The symbolic computation publishes exactly the closed forms of Pure.v, in the order of L_all. *)
From Coq Require Import Reals List Arith String Bool Lia ZArith.
From Verif.Model Require Import Base Expr SX Robot Kinematics Dynamics Regressors.
From Verif.Proofs Require Import Calc Rel Maps Pure PureRel Names Shape Dims Sizes Deps Closed.
Import ListNotations.
Open Scope nat_scope.
Open Scope string_scope.

Lemma loop_eq {S} (g : nat -> S) k lo body :
  (forall i, lo <= i < lo + k -> body i (g i) = Ok (g (Datatypes.S i))) -> loop k lo body (g lo) = Ok (g (lo + k)).
Proof.
  revert lo. induction k; intros lo H; simpl; [now rewrite Nat.add_0_r|].
  rewrite H by lia. cbn [bind]. rewrite IHk by (intros; apply H; lia). f_equal. f_equal. lia.
Qed.
Lemma loop_ext {S} k lo (f g : nat -> S -> res S) s :
  (forall i x, lo <= i < lo + k -> f i x = g i x) -> loop k lo f s = loop k lo g s.
Proof.
  revert lo s. induction k; intros lo s H; simpl; auto. rewrite H by lia.
  destruct (g lo s); simpl; auto. apply IHk. intros; apply H; lia.
Qed.

Lemma seq_snoc k : seq 0 (S k) = (seq 0 k ++ [k])%list.
Proof. replace (S k) with (k + 1) by lia. now rewrite seq_app. Qed.

Section Build.
  Variables (cv : cvals) (b : robot).
  Hypothesis Hb : base cv b.
  Let n := numJoints b.

  Lemma addf_ok L f nm e a : nm = name_of f -> e = val b f -> a = alist b f -> enabled b f ->
    addf (pubs b L) nm e a = Ok (pubs b (L ++ [f])).
  Proof.
    intros -> -> -> He. apply (addf_pubs cv); [exact (bs_name _ _ Hb)| | | |].
    - intros k Hk. apply alist_deps in Hk. destruct (deps_keys b f k He Hk) as [len Hl].
      exists len. split; [eapply keys_arg; eauto|apply (bs_shape _ _ Hb); auto].
    - apply alist_NoDup.
    - apply (d_ok _ _ _ (val_dims cv b Hb f He)).
    - destruct (val_dims cv b Hb f He) as [R C _]. intros i j Hi Hj s Ho. rewrite R in Hi. rewrite C in Hj.
      exact (val_closed cv b Hb f He i j Hi Hj s Ho).
  Qed.
  Lemma obt L s p : obtain_symb_parameters (pubs b L) s p = al b s p.
  Proof.
    unfold al, obtain_symb_parameters. f_equal. apply filter_ext. intros k. unfold has_symb. now rewrite pubs_flags.
  Qed.
  Lemma nJ L : numJoints (pubs b L) = n. Proof. apply (sr_n _ _ (pubs_rest b L)). Qed.
  Lemma jT L : jointsType (pubs b L) = jointsType b. Proof. apply (sr_jt _ _ (pubs_rest b L)). Qed.
  Lemma jt_some i : i < n -> nth_error (jointsType b) i = Some (jtype b i) /\ (is_P (jtype b i) = true \/ is_R (jtype b i) = true).
  Proof.
    intros Hi. assert (Hl : i < List.length (jointsType b)) by (rewrite (bs_jt _ _ Hb); auto).
    split; [apply nth_error_nth'; auto|]. apply (bs_known _ _ Hb). apply nth_In; auto.
  Qed.

  Ltac ak := simpl; tauto.
  Ltac mdlargs := repeat match goal with |- context [mdl (pubs b ?L) ?k] => rewrite (pubs_mdl_arg b L k) by ak end.
  Lemma DHT_eq i : i < n ->
    DHTemplate (vsub (mdl b "par_DHtable") (i * 4) (i * 4 + 4)) (vat (mdl b "q") i) (jtype b i) = Ok (Tlx b i).
  Proof.
    intros Hi. destruct (jt_some i Hi) as [_ Hk]. unfold DHTemplate, Tlx, dx_, thx. fold (DHrow b i).
    destruct (is_P (jtype b i)) eqn:E; cbn [bind fst snd]; auto.
    destruct Hk as [Hk|Hk]; [congruence|]. rewrite Hk. cbn [bind fst snd]. reflexivity.
  Qed.

  Lemma pubs_assoc L L1 L2 : pubs b ((L ++ L1) ++ L2)%list = pubs b (L ++ L1 ++ L2)%list.
  Proof. now rewrite app_assoc. Qed.

  Lemma chain_loop L :
    loop n 0 chain_body (pubs b L, T0x b 0) =
    Ok (pubs b (L ++ flat_map (fun i => [fT (i + 1); fT0 (i + 1)]) (seq 0 n)), T0x b n).
  Proof.
    pose (g i := (pubs b (L ++ flat_map (fun i => [fT (i + 1); fT0 (i + 1)]) (seq 0 i))%list, T0x b i)).
    replace (pubs b L, T0x b 0) with (g 0) by (unfold g; simpl; now rewrite app_nil_r).
    rewrite (loop_eq g); [reflexivity|].
    intros i Hi. unfold g, chain_body. rewrite jT. destruct (jt_some i) as [-> _]; [lia|].
    mdlargs. rewrite DHT_eq by lia. cbn [bind].
    rewrite (addf_ok _ (fT (i + 1))).
    - cbn [bind]. rewrite (addf_ok _ (fT0 (i + 1))).
      + cbn [bind]. f_equal. f_equal. f_equal. rewrite seq_snoc, flat_map_app. simpl. now rewrite <- !app_assoc.
      + reflexivity.
      + cbn [val]. fold n. replace (Nat.eqb (i + 1) (n + 1)) with false by (symmetry; apply Nat.eqb_neq; lia).
        replace (i + 1) with (S i) by lia. reflexivity.
      + rewrite obt. cbn [alist]. fold n. replace (Nat.eqb (i + 1) (n + 1)) with false by (symmetry; apply Nat.eqb_neq; lia).
        replace (Nat.eqb (i + 1) 0) with false by (symmetry; apply Nat.eqb_neq; lia). reflexivity.
      + simpl. fold n. lia.
    - reflexivity.
    - cbn [val]. now rewrite Nat.add_sub.
    - rewrite obt. reflexivity.
    - simpl. fold n. lia.
  Qed.

  Lemma chain_eq L : compute_chain (pubs b L) = Ok (pubs b (L ++ L_chain b)).
  Proof.
    unfold compute_chain. rewrite nJ. mdlargs. rewrite obt.
    change (get_transform (mdl b "par_world2L0")) with (T0x b 0).
    rewrite (addf_ok L fTb); [|reflexivity|reflexivity|reflexivity|exact I]. cbn [bind].
    rewrite obt.
    rewrite (addf_ok _ (fT0 0)); [|reflexivity| |reflexivity|simpl; lia].
    2:{ cbn [val]. fold n. replace (Nat.eqb 0 (n + 1)) with false by (symmetry; apply Nat.eqb_neq; lia). reflexivity. }
    cbn [bind]. rewrite chain_loop. cbn [bind]. mdlargs. rewrite !obt.
    rewrite (addf_ok _ (fT0 (n + 1))); [|reflexivity| | |simpl; fold n; lia].
    2:{ cbn [val]. fold n. rewrite Nat.eqb_refl. reflexivity. }
    2:{ cbn [alist]. fold n. rewrite Nat.eqb_refl. replace (Nat.eqb (n + 1) 0) with false by (symmetry; apply Nat.eqb_neq; lia). reflexivity. }
    cbn [bind].
    rewrite (addf_ok _ fTee); [|reflexivity|reflexivity|reflexivity|exact I].
    f_equal. f_equal. unfold L_chain. fold n. rewrite <- !app_assoc. reflexivity.
  Qed.

  (* lists of functions that contain the transforms T_0_1 .. T_0_n *)
  Record hasT (L : list fn) : Prop := {
    ht_proper : allproper L;
    ht_T : forall i, i <= n -> In (fT0 i) L
  }.
  Lemma mdl_T0 L i : hasT L -> i <= n -> mdl (pubs b L) ("T_0_" ++ to_string i) = T0x b i.
  Proof.
    intros H Hi. change ("T_0_" ++ to_string i) with (name_of (fT0 i)). rewrite pubs_mdl; [|exact I|apply H|apply H; auto].
    cbn [val]. fold n. replace (Nat.eqb i (n + 1)) with false by (symmetry; apply Nat.eqb_neq; lia). reflexivity.
  Qed.
  Lemma hasT_app L L' : hasT L -> allproper L' -> hasT (L ++ L').
  Proof.
    intros [A B] H. constructor.
    - intros f Hf. apply in_app_or in Hf. destruct Hf; auto.
    - intros i Hi. apply in_or_app. auto.
  Qed.
  Lemma ensure_T L f : hasT L -> ensure "T_0_0" f (pubs b L) = Ok (pubs b L).
  Proof.
    intros H. unfold ensure. change "T_0_0" with (name_of (fT0 0)).
    rewrite pubs_mcount; [reflexivity|exact I|apply H|apply H; lia].
  Qed.
  Lemma ensure_In L nm f g : allproper L -> proper g -> nm = name_of g -> In g L -> ensure nm f (pubs b L) = Ok (pubs b L).
  Proof. intros. subst. unfold ensure. rewrite pubs_mcount; auto. Qed.
  Lemma enabled_allproper L : (forall f, In f L -> enabled b f) -> allproper L.
  Proof. intros H f Hf. eapply enabled_proper; eauto. Qed.

  Lemma cols_loop L O k J : hasT L -> k <= n -> loop k 0 (jac_col (pubs b L) O) J = Ok (for_ k 0 (jcol b O) J).
  Proof.
    intros H Hk. pose (g i := for_ i 0 (jcol b O) J).
    change J with (g 0) at 1. rewrite (loop_eq g); [reflexivity|].
    intros i Hi. unfold g. rewrite for_S. simpl (0 + i). generalize (for_ i 0 (jcol b O) J) as x.
    intros [Jp Jo]. unfold jac_col, jcol. rewrite jT. destruct (jt_some i) as [-> Ht]; [lia|].
    rewrite mdl_T0 by (auto; lia). destruct (is_P (jtype b i)); auto.
    destruct Ht as [Ht|Ht]; [congruence|]. now rewrite Ht.
  Qed.

  Lemma jac_loop L : hasT L ->
    loop (n + 1) 0 (jac_body n) (pubs b L, (zeros 3 n, zeros 3 n)) =
    Ok (pubs b (L ++ map (fun i => fJ (i + 1)) (seq 0 (n + 1))), Jst b (n + 1)).
  Proof.
    intros H. pose proof (bs_n _ _ Hb) as H1. fold n in H1.
    pose (g i := (pubs b (L ++ map (fun i => fJ (i + 1)) (seq 0 i))%list, Jst b i)).
    replace (pubs b L, (zeros 3 n, zeros 3 n)) with (g 0) by (unfold g; simpl; now rewrite app_nil_r).
    rewrite (loop_eq g); [reflexivity|].
    intros i Hi. unfold g, jac_body.
    set (L' := (L ++ map (fun i => fJ (i + 1)) (seq 0 i))%list).
    assert (HL' : hasT L').
    { apply hasT_app; auto. intros f Hf. apply in_map_iff in Hf. destruct Hf as (j & <- & _). exact I. }
    set (im := if Nat.ltb i n then i else n - 1).
    assert (Him : im + 1 <= n) by (unfold im; destruct (Nat.ltb_spec i n); lia).
    rewrite mdl_T0 by auto. rewrite cols_loop by auto. cbn [bind Jst]. unfold jstep. fold n im.
    destruct (for_ (im + 1) 0 (jcol b (tra_of (T0x b (im + 1)))) (Jst b i)) as [Jp Jo] eqn:EJ.
    rewrite pubs_mdl_arg by (simpl; tauto). rewrite !obt.
    set (Jp' := if Nat.eqb i n then _ else Jp).
    rewrite (addf_ok _ (fJ (i + 1))).
    - cbn [bind]. f_equal. f_equal. f_equal. unfold L'. rewrite seq_snoc, map_app. simpl. now rewrite <- app_assoc.
    - reflexivity.
    - cbn [val]. rewrite Nat.add_sub. unfold Jx. cbn [Jst]. unfold jstep. fold n im. rewrite EJ. reflexivity.
    - cbn [alist]. fold n. destruct (Nat.ltb_spec i n) as [Hlt|Hge].
      + replace (Nat.leb (i + 1) n) with true by (symmetry; apply Nat.leb_le; lia). reflexivity.
      + replace (Nat.leb (i + 1) n) with false by (symmetry; apply Nat.leb_gt; lia). reflexivity.
    - simpl. fold n. lia.
  Qed.
  Lemma jacobians_eq L : hasT L -> compute_jacobians (pubs b L) = Ok (pubs b (L ++ L_jac b)).
  Proof.
    intros H. unfold compute_jacobians. rewrite ensure_T by auto. cbn [bind]. rewrite nJ, jac_loop by auto. cbn [bind].
    destruct (Jst b (n + 1)) as [Jp Jo] eqn:E. rewrite obt.
    rewrite (addf_ok _ fJee); [|reflexivity| |reflexivity|exact I].
    - f_equal. f_equal. unfold L_jac. fold n. now rewrite <- app_assoc.
    - cbn [val]. unfold Jeex, Jx. fold n. replace (S n) with (n + 1) by lia. now rewrite E.
  Qed.
  Lemma adv_eq L : hasT L -> In fJee L -> compute_kin_adv (pubs b L) = Ok (pubs b (L ++ L_adv)).
  Proof.
    intros H HJ. unfold compute_kin_adv. rewrite ensure_T by auto. cbn [bind].
    rewrite (ensure_In L _ _ fJee (ht_proper _ H) I eq_refl HJ). cbn [bind].
    mdlargs. rewrite !obt.
    pose proof (pubs_mdl b L fJee I (ht_proper _ H) HJ) as E. cbn [name_of] in E. rewrite E.
    rewrite (addf_ok _ fJeed); [|reflexivity|reflexivity|reflexivity|exact I]. cbn [bind]. rewrite !obt.
    rewrite (addf_ok _ fJeedd); [|reflexivity|reflexivity|reflexivity|exact I]. cbn [bind]. rewrite !obt.
    rewrite (addf_ok _ fJeepinv); [|reflexivity|reflexivity|reflexivity|exact I].
    f_equal. f_equal. now rewrite <- !app_assoc.
  Qed.
  Lemma chain_hasT L : allproper L -> hasT (L ++ L_chain b).
  Proof.
    intros H. constructor.
    - intros f Hf. apply in_app_or in Hf. destruct Hf as [Hf|Hf]; auto.
      unfold L_chain in Hf. simpl in Hf. rewrite in_app_iff in Hf. simpl in Hf.
      destruct Hf as [<-|[<-|[Hf|[<-|[<-|[]]]]]]; try exact I.
      apply in_flat_map in Hf. destruct Hf as (i & _ & [<-|[<-|[]]]); simpl; auto. lia.
    - intros i Hi. apply in_or_app. right. unfold L_chain. simpl. destruct i as [|i]; auto. right. right.
      apply in_or_app. left. apply in_flat_map. exists i. split; [apply in_seq; fold n; lia|]. replace (i + 1) with (S i) by lia. simpl; auto.
  Qed.
  Lemma kin_eq L : allproper L -> compute_kinematics (pubs b L) true = Ok (pubs b (L ++ L_chain b ++ L_jac b ++ L_adv)).
  Proof.
    intros H. unfold compute_kinematics. rewrite chain_eq. cbn [bind]. pose proof (chain_hasT L H) as HT.
    rewrite jacobians_eq by auto. cbn [bind]. rewrite adv_eq.
    - f_equal. f_equal. now rewrite <- !app_assoc.
    - apply hasT_app; auto. intros f Hf. unfold L_jac in Hf. apply in_app_or in Hf. destruct Hf as [Hf|[<-|[]]]; [|exact I].
      apply in_map_iff in Hf. destruct Hf as (i & <- & _). exact I.
    - apply in_or_app. right. unfold L_jac. apply in_or_app. right. simpl; auto.
  Qed.
End Build.
