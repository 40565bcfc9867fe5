(* Sizes of every published function, friction and elasticity included. *)
From Coq Require Import Reals List Arith String Bool Lia ZArith.
From Verif.Model Require Import Base Expr SX Robot Kinematics Dynamics Regressors.
From Verif.Proofs Require Import Calc Rel Maps Pure PureRel Names Shape Dims.
Import ListNotations.
Open Scope nat_scope.
Open Scope string_scope.

(* friction and elasticity *)
Definition fricf (f : fn) : bool :=
  match f with
  | fdl | fDl _ | fk | fK _ | fd | fD _ | fdm | fDm _ | fMm => true
  | _ => false
  end.
Section Fric.
  Variable Q : expr -> expr -> Prop.
  Hypothesis HQ : congr Q.
  Hypothesis Hpow : forall a a' k, Q a a' -> Q (Pow a k) (Pow a' k).
  Hypothesis Hsqrt : forall a a', Q a a' -> Q (Sqrt (Pow a 2)) (Sqrt (Pow a' 2)).
  Variables (cv cv' : cvals) (b b' : robot).
  Hypothesis Hb : base cv b.
  Hypothesis Hn' : numJoints b' = numJoints b.
  Hypothesis He' : numElasticJoints b' = numElasticJoints b.
  Hypothesis HDl' : Dl_order b' = Dl_order b.
  Hypothesis HK' : K_order b' = K_order b.
  Hypothesis HD' : D_order b' = D_order b.
  Hypothesis HDm' : Dm_order b' = Dm_order b.
  Variable ds : list string.
  Hypothesis HK : forall k len, In k ds -> In (k, len) (keys b) -> mrel Q len 1 (mdl b k) (mdl b' k).

  Lemma q_fric v v' p p' base order len : Q v v' -> mrel Q len 1 p p' -> base + order <= len ->
    Q (fric_sum v p base order) (fric_sum v' p' base order).
  Proof.
    intros Hv Hp Hl. unfold fric_sum. apply (for_rel Q); [apply (q_cst Q HQ)|].
    intros i x x' Hi Hx. apply (q_add Q HQ); auto. unfold fric_term.
    pose proof (mr_el _ _ _ _ _ Hp (base + i) 0) as He. 
    destruct (Nat.even i); repeat apply (q_mul Q HQ); auto; apply He; lia.
  Qed.
  Lemma q_spring v v' p p' base order len : Q v v' -> mrel Q len 1 p p' -> base + order <= len ->
    Q (spring_sum v p base order) (spring_sum v' p' base order).
  Proof.
    intros Hv Hp Hl. unfold spring_sum. apply (for_rel Q); [apply (q_cst Q HQ)|].
    intros i x x' Hi Hx. apply (q_add Q HQ); auto.
    pose proof (mr_el _ _ _ _ _ Hp (base + i) 0) as He. 
    repeat apply (q_mul Q HQ); auto; apply He; lia.
  Qed.
  Lemma fits_true len p p' m order : mrel Q len 1 p p' -> m * order <= len ->
    par_fits p m order = true /\ par_fits p' m order = true.
  Proof.
    intros H Hl. mr_unfold H. unfold par_fits. rewrite Hr, Hc, Ho, Hr', Hc', Ho'. simpl.
    apply Nat.leb_le in Hl. rewrite Hl. auto.
  Qed.
  Lemma vfits_true len p p' m : mrel Q len 1 p p' -> m <= len ->
    vec_fits p m = true /\ vec_fits p' m = true.
  Proof.
    intros H Hl. mr_unfold H. unfold vec_fits. rewrite Hr, Hc, Ho, Hr', Hc', Ho'. simpl.
    apply Nat.leb_le in Hl. rewrite Hl. auto.
  Qed.
  Lemma mr_coefs m order par len ord : mrel Q len 1 (mdl b par) (mdl b' par) -> m * order <= len -> ord < order ->
    mrel Q m m (coefs b m order par ord) (coefs b' m order par ord).
  Proof.
    intros H Hl Ho. destruct (fits_true len _ _ m order H Hl) as [F F'].
    constructor; simpl; auto. intros i j Hi Hj. destruct (Nat.eqb i j); [|apply (q_cst Q HQ)].
    apply (mr_el _ _ _ _ _ H); nia.
  Qed.

  Ltac inkey := apply in_or_app; unfold state_keys, par_keys;
    repeat match goal with H : _ = true |- _ => rewrite H end; simpl; rewrite ?in_app_iff; simpl; tauto.
  Lemma fric_mrel f : fricf f = true -> enabled b f -> ds = deps b f ->
    mrel Q (vrows b f) (vcols b f) (val b f) (val b' f).
  Proof.
    intros Hc He Hds. pose proof (bs_e _ _ Hb) as Hne.
    destruct f; try discriminate Hc; cbn [enabled vrows vcols val] in *; cbn [deps] in Hds; subst ds.
    - (* dl *)
      assert (A : mrel Q (numJoints b) 1 (mdl b "dq") (mdl b' "dq")) by (apply HK; [simpl; tauto|inkey]).
      assert (B : mrel Q (numJoints b * Dl_order b) 1 (mdl b "par_Dl") (mdl b' "par_Dl")).
      { apply HK; [simpl; tauto|]. apply Nat.ltb_lt in He. inkey. }
      destruct (fits_true _ _ _ (numJoints b) (Dl_order b) B) as [F F']; [lia|].
      destruct (vfits_true _ _ _ (numJoints b) A) as [G G']; [lia|].
      constructor; simpl; auto; rewrite ?Hn', ?HDl', ?F, ?F', ?G, ?G'; auto.
      intros i j Hi Hj. eapply q_fric; [|exact B|nia]. apply (mr_el _ _ _ _ _ A); lia.
    - assert (B : mrel Q (numJoints b * Dl_order b) 1 (mdl b "par_Dl") (mdl b' "par_Dl")).
      { apply HK; [simpl; tauto|]. assert (H : Nat.ltb 0 (Dl_order b) = true) by (apply Nat.ltb_lt; lia). inkey. }
      rewrite Hn', HDl'. eapply mr_coefs; [exact B|lia|lia].
    - destruct He as [Hel He].
      assert (A : mrel Q (numJoints b) 1 (mdl b "q") (mdl b' "q")) by (apply HK; [simpl; tauto|inkey]).
      assert (A2 : mrel Q (numElasticJoints b) 1 (mdl b "x") (mdl b' "x")) by (apply HK; [simpl; tauto|inkey]).
      assert (B : mrel Q (numElasticJoints b * K_order b) 1 (mdl b "par_K") (mdl b' "par_K")) by (apply HK; [simpl; tauto|inkey]).
      destruct (fits_true _ _ _ (numElasticJoints b) (K_order b) B) as [F F']; [lia|].
      destruct (vfits_true _ _ _ (numElasticJoints b) A) as [G G']; [lia|].
      destruct (vfits_true _ _ _ (numElasticJoints b) A2) as [G2 G2']; [lia|].
      constructor; simpl; auto; rewrite ?He', ?HK', ?F, ?F', ?G, ?G', ?G2, ?G2'; auto.
      intros i j Hi Hj. eapply q_spring; [|exact B|nia]. apply (q_sub Q HQ); [apply (mr_el _ _ _ _ _ A2)|apply (mr_el _ _ _ _ _ A)]; lia.
    - destruct He as [Hel (o & He & ->)].
      assert (B : mrel Q (numElasticJoints b * K_order b) 1 (mdl b "par_K") (mdl b' "par_K")) by (apply HK; [simpl; tauto|inkey]).
      replace (2 * o + 1 - 1) with (2 * o) by lia. rewrite Nat.div2_double.
      rewrite He', HK'. eapply mr_coefs; [exact B|lia|lia].
    - destruct He as [Hel He].
      assert (A : mrel Q (numJoints b) 1 (mdl b "dq") (mdl b' "dq")) by (apply HK; [simpl; tauto|inkey]).
      assert (A2 : mrel Q (numElasticJoints b) 1 (mdl b "dx") (mdl b' "dx")) by (apply HK; [simpl; tauto|inkey]).
      assert (B : mrel Q (numElasticJoints b * D_order b) 1 (mdl b "par_D") (mdl b' "par_D")) by (apply HK; [simpl; tauto|inkey]).
      destruct (fits_true _ _ _ (numElasticJoints b) (D_order b) B) as [F F']; [lia|].
      destruct (vfits_true _ _ _ (numElasticJoints b) A) as [G G']; [lia|].
      destruct (vfits_true _ _ _ (numElasticJoints b) A2) as [G2 G2']; [lia|].
      constructor; simpl; auto; rewrite ?He', ?HD', ?F, ?F', ?G, ?G', ?G2, ?G2'; auto.
      intros i j Hi Hj. eapply q_fric; [|exact B|nia]. apply (q_sub Q HQ); [apply (mr_el _ _ _ _ _ A2)|apply (mr_el _ _ _ _ _ A)]; lia.
    - destruct He as [Hel He].
      assert (B : mrel Q (numElasticJoints b * D_order b) 1 (mdl b "par_D") (mdl b' "par_D")) by (apply HK; [simpl; tauto|inkey]).
      rewrite He', HD'. eapply mr_coefs; [exact B|lia|lia].
    - destruct He as [Hel He].
      assert (A2 : mrel Q (numElasticJoints b) 1 (mdl b "dx") (mdl b' "dx")) by (apply HK; [simpl; tauto|inkey]).
      assert (B : mrel Q (numElasticJoints b * Dm_order b) 1 (mdl b "par_Dm") (mdl b' "par_Dm")) by (apply HK; [simpl; tauto|inkey]).
      destruct (fits_true _ _ _ (numElasticJoints b) (Dm_order b) B) as [F F']; [lia|].
      destruct (vfits_true _ _ _ (numElasticJoints b) A2) as [G2 G2']; [lia|].
      constructor; simpl; auto; rewrite ?He', ?HDm', ?F, ?F', ?G2, ?G2'; auto.
      intros i j Hi Hj. eapply q_fric; [|exact B|nia]. apply (mr_el _ _ _ _ _ A2); lia.
    - destruct He as [Hel He].
      assert (B : mrel Q (numElasticJoints b * Dm_order b) 1 (mdl b "par_Dm") (mdl b' "par_Dm")) by (apply HK; [simpl; tauto|inkey]).
      rewrite He', HDm'. eapply mr_coefs; [exact B|lia|lia].
    - assert (B : mrel Q (numElasticJoints b) 1 (mdl b "par_Mm") (mdl b' "par_Mm")) by (apply HK; [simpl; tauto|inkey]).
      destruct (vfits_true _ _ _ (numElasticJoints b) B) as [G2 G2']; [lia|].
      constructor; simpl; auto; rewrite ?He', ?G2, ?G2'; auto.
      intros i j Hi Hj. destruct (Nat.eqb i j); [|apply (q_cst Q HQ)]. apply (mr_el _ _ _ _ _ B); lia.
  Qed.
End Fric.

(* sizes and absence of errors for every published function *)
Section Sizes.
  Variables (cv : cvals) (b : robot).
  Hypothesis Hb : base cv b.

  Record dims (m : sx) (r c : nat) : Prop := { d_r : rows m = r; d_c : cols m = c; d_ok : ok m = true }.
  Lemma dims_of r c m m' : mrel TT r c m m' -> dims m r c.
  Proof. intros []. constructor; auto. Qed.

  Lemma sel_in k len x : In (k, len) (keys b) -> In x (sel b k) ->
    ok x = true /\ rows x = 1 /\ cols x = 1 /\ is_sym (sc x) = true.
  Proof.
    intros Hk Hx. pose proof (bs_shape _ _ Hb k len Hk) as P. rewrite (sel_fidx cv b k len P) in Hx.
    apply in_map_iff in Hx. destruct Hx as (i & <- & Hi). apply in_fidx in Hi. destruct Hi as [Hi Hf].
    rewrite (ps_fl _ _ _ _ P) in Hi. simpl. rewrite (ps_ok _ _ _ _ P), (ps_r _ _ _ _ P), (ps_c _ _ _ _ P).
    apply Nat.ltb_lt in Hi. rewrite Hi. simpl. rewrite (ps_el _ _ _ _ P) by (apply Nat.ltb_lt; auto). rewrite Hf. auto.
  Qed.
  Lemma jac_dims e l r c : l <> [] ->
    (forall x, In x l -> ok x = true /\ rows x = 1 /\ cols x = 1 /\ is_sym (sc x) = true) ->
    dims e r c -> dims (jacobian e (vertcat_list l)) (r * c) (List.length l).
  Proof.
    intros Hl Hx [Er Ec Eo]. constructor; cbn [rows cols ok jacobian].
    - now rewrite Er, Ec.
    - reflexivity.
    - destruct l as [|x t]; [congruence|]. rewrite Eo.
      assert (A : forallb (fun s => ok s && Nat.eqb (rows s) 1 && Nat.eqb (cols s) 1) (x :: t) = true).
      { apply forallb_forall. intros y Hy. destruct (Hx y Hy) as (-> & -> & -> & _). reflexivity. }
      cbn [ok cols vertcat_list List.length Nat.eqb]. rewrite A. cbn [andb]. unfold all_syms. apply forallb_forall. intros i Hi. apply in_seq in Hi.
      cbn [el vertcat_list]. apply Hx. apply nth_In. simpl in Hi |- *. lia.
  Qed.

  Lemma core_dims f : core f = true -> enabled b f -> dims (val b f) (vrows b f) (vcols b f).
  Proof.
    intros Hc He.
    eapply dims_of. eapply (core_mrel TT congr_TT cv cv b b Hb Hb eq_refl eq_refl (deps b f)); auto.
    - intros; eapply (mr_key cv); eauto.
    - intros; repeat split.
    - intros; repeat split.
    - intros; repeat split.
    - intros; repeat split.
    - instantiate (1 := fun _ => True). intros; exact I.
  Qed.
  Lemma val_dims f : enabled b f -> dims (val b f) (vrows b f) (vcols b f).
  Proof.
    intros He. destruct (core f) eqn:Hc; [apply core_dims; auto|].
    destruct (fricf f) eqn:Hf.
    { eapply dims_of. eapply (fric_mrel TT congr_TT) with (ds := deps b f); eauto; try (intros; exact I).
      intros; eapply (mr_key cv); eauto. }
    pose proof (bs_e _ _ Hb) as Hne.
    assert (FD : forall g, fricf g = true -> enabled b g -> dims (val b g) (vrows b g) (vcols b g)).
    { intros g Hg Eg. eapply dims_of. eapply (fric_mrel TT congr_TT) with (ds := deps b g); eauto; try (intros; exact I).
      intros; eapply (mr_key cv); eauto. }
    assert (SN : forall k len, In (k, len) (keys b) -> sel b k <> [] -> 0 < len).
    { intros k len Hk Hs. rewrite (sel_fidx cv b k len) in Hs by (apply (bs_shape _ _ Hb); auto).
      destruct (fidx (flags b k)) eqn:E; [simpl in Hs; congruence|].
      assert (In n (fidx (flags b k))) by (rewrite E; simpl; auto). apply in_fidx in H.
      rewrite (ps_fl _ _ _ _ (bs_shape _ _ Hb k len Hk)) in H. lia. }
    assert (KE : ELASTIC b = true -> In ("par_K", numElasticJoints b * K_order b) (keys b) /\
                 In ("par_D", numElasticJoints b * D_order b) (keys b) /\
                 In ("par_Dm", numElasticJoints b * Dm_order b) (keys b) /\
                 In ("par_Mm", numElasticJoints b) (keys b) /\ In ("ddx", numElasticJoints b) (keys b)).
    { intros E. unfold keys, par_keys, state_keys. rewrite E. rewrite !in_app_iff. simpl. tauto. }
    destruct f; try discriminate Hc; try discriminate Hf; cbn [vrows vcols val].
    - destruct He as [He Hs]. unfold reg_dlx. rewrite <- (Nat.mul_1_r (numJoints b)). apply jac_dims; auto.
      + intros x Hx. eapply sel_in; eauto. unfold keys, par_keys. apply Nat.ltb_lt in He. rewrite He.
        rewrite !in_app_iff. simpl. tauto.
      + apply (FD fdl); auto.
    - destruct He as [He Hs]. unfold reg_kx. rewrite <- (Nat.mul_1_r (numElasticJoints b)). apply jac_dims; auto.
      + intros x Hx. eapply sel_in; [|exact Hx]. apply KE; auto.
      + apply (FD fk); auto. split; auto. assert (0 < numElasticJoints b * K_order b) by (eapply SN; [apply KE; auto|auto]). nia.
    - destruct He as [He Hs]. unfold reg_dx. rewrite <- (Nat.mul_1_r (numElasticJoints b)). apply jac_dims; auto.
      + intros x Hx. eapply sel_in; [|exact Hx]. apply KE; auto.
      + apply (FD fd); auto. split; auto. assert (0 < numElasticJoints b * D_order b) by (eapply SN; [apply KE; auto|auto]). nia.
    - destruct He as [He Hs]. unfold reg_dmx. rewrite <- (Nat.mul_1_r (numElasticJoints b)). apply jac_dims; auto.
      + intros x Hx. eapply sel_in; [|exact Hx]. apply KE; auto.
      + apply (FD fdm); auto. split; auto. assert (0 < numElasticJoints b * Dm_order b) by (eapply SN; [apply KE; auto|auto]). nia.
    - destruct He as [He Hs]. unfold reg_Mmx. rewrite <- (Nat.mul_1_r (numElasticJoints b)). apply jac_dims; auto.
      + intros x Hx. eapply sel_in; [|exact Hx]. apply KE; auto.
      + destruct (FD fMm eq_refl He) as [A B C]. cbn [val vrows vcols] in A, B, C.
        pose proof (bs_shape _ _ Hb _ _ (proj2 (proj2 (proj2 (proj2 (KE He)))))) as P.
        constructor; cbn [rows cols ok mtimes]; auto; try apply (ps_c _ _ _ _ P).
        rewrite C, B, (ps_ok _ _ _ _ P), (ps_r _ _ _ _ P), Nat.eqb_refl. reflexivity.
    - assert (HJ := core_dims fJee eq_refl I).
      cbn [val vrows vcols] in HJ. unfold reg_Jdqx. change 6 with (6 * 1). apply jac_dims.
      + intros E. apply He. unfold kin_par. rewrite E. reflexivity.
      + intros x Hx. rewrite !in_app_iff in Hx.
        assert (PK : In ("par_DHtable", 4 * numJoints b) (keys b) /\ In ("par_world2L0", 6) (keys b) /\ In ("par_Ln2EE", 6) (keys b)).
        { unfold keys, par_keys. rewrite !in_app_iff. simpl. tauto. }
        destruct PK as (P1 & P2 & P3). destruct Hx as [Hx|[Hx|Hx]]; (eapply sel_in; [|exact Hx]; eassumption).
      + assert (P1 : In ("dq", numJoints b) (keys b)) by (unfold keys, state_keys; rewrite !in_app_iff; simpl; tauto).
        pose proof (bs_shape _ _ Hb _ _ P1) as P. destruct HJ as [A B C].
        constructor; cbn [rows cols ok mtimes]; auto; try apply (ps_c _ _ _ _ P).
        rewrite C, B, (ps_ok _ _ _ _ P), (ps_r _ _ _ _ P), Nat.eqb_refl. reflexivity.
    - assert (HJ := core_dims fJee eq_refl I).
      cbn [val vrows vcols] in HJ. unfold reg_JTwx. rewrite <- (Nat.mul_1_r (numJoints b)). apply jac_dims.
      + intros E. apply He. unfold kin_par. rewrite E. reflexivity.
      + intros x Hx. rewrite !in_app_iff in Hx.
        assert (PK : In ("par_DHtable", 4 * numJoints b) (keys b) /\ In ("par_world2L0", 6) (keys b) /\ In ("par_Ln2EE", 6) (keys b)).
        { unfold keys, par_keys. rewrite !in_app_iff. simpl. tauto. }
        destruct PK as (P1 & P2 & P3). destruct Hx as [Hx|[Hx|Hx]]; (eapply sel_in; [|exact Hx]; eassumption).
      + assert (P1 : In ("w", 6) (keys b)) by (unfold keys, state_keys; rewrite !in_app_iff; simpl; tauto).
        pose proof (bs_shape _ _ Hb _ _ P1) as P. destruct HJ as [A B C].
        constructor; cbn [rows cols ok mtimes mT]; auto; try apply (ps_c _ _ _ _ P).
        rewrite C, A, (ps_ok _ _ _ _ P), (ps_r _ _ _ _ P), Nat.eqb_refl. reflexivity.
  Qed.
End Sizes.
