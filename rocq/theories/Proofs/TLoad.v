(* load_conf of the generated class, on the file the class was generated from *)
From Coq Require Import Reals List Arith String Bool Lia ZArith.
From Verif.Model Require Import Base Expr SX Robot Kinematics Dynamics Regressors Yaml Inertia Build Template.
From Verif.Spec Require Import Math Setup State Config Template.
From Verif.Proofs Require Import Calc Rel Maps Pure Names Shape Load Init Final Get StateSess Files TSetters TFiles TSync TFacts TAgree HeaderToy.
Import ListNotations.
Open Scope nat_scope.
Open Scope string_scope.

Definition pmap (s : pars) : list (string * list R) :=
  [("par_DYN", p_DYN s); ("par_Dl", p_Dl s); ("par_K", p_K s); ("par_D", p_D s); ("par_Dm", p_Dm s); ("par_Mm", p_Mm s)].
Lemma pars_put t s : pars_of (put_pars t s) = s.
Proof. unfold pars_of. rewrite !put_pars_members. destruct s. reflexivity. Qed.
Lemma tflags_put t s y : tflags (put_pars t s) y = tflags t y. Proof. reflexivity. Qed.
Lemma same_put t s : same_class t (put_pars t s). Proof. split; reflexivity. Qed.
Lemma zero_len r : samelen (zero_pars r) (zero_pars r). Proof. apply samelen_refl. Qed.

Definition elastic_part (r0 : robot) (cfg : ynode) (s1 : pars) : prog pars :=
  if ELASTIC r0 then
    match yidx cfg "elastic" with
    | None => Caught s1
    | Some e => if ydef e then match yidx e "joints" with
                | None => Caught s1
                | Some js => load_elastic (ychildren js) (numElasticJoints r0) 0 (K_order r0) (D_order r0) (Dm_order r0) s1
                end else Go s1
    end
  else Go s1.
Lemma dyn_stage upd cfg r0 t s : facts cfg r0 -> complete_links inertial_keys (numJoints r0) cfg -> sized t ->
  t_n t = numJoints r0 -> t_Dl t = Dl_order r0 -> pars_of t = zero_pars r0 -> ends (load_conf_tree r0 cfg) s ->
  exists t1, t_dynamics upd cfg t = Go t1 /\ sized t1 /\ same_class t t1 /\ (forall y, tflags t1 y = tflags t y) /\
    (forall k, In k compacted -> member t1 k = member t k) /\ ends (elastic_part r0 cfg (pars_of t1)) s.
Proof.
  intros F Hc Hs En El Ep H. destruct (fc_dyn _ _ F) as (dyn & Ed & Hsub). unfold t_dynamics. unfold load_conf_tree in H. rewrite Ed in H |- *.
  assert (G : exists s1, load_links (ychildren dyn) (numJoints r0) 0 (Dl_order r0) (zero_pars r0) = Go s1 /\ ends (elastic_part r0 cfg s1) s /\
    (ydef dyn = true -> t_links (ychildren dyn) (numJoints r0) 0 (Dl_order r0) (zero_pars r0) = Go s1) /\ (ydef dyn = false -> s1 = zero_pars r0)).
  { destruct (ydef dyn) eqn:Dd.
    - pose proof (Hc dyn (yidx_entry _ _ _ Ed Dd)) as Hl.
      assert (A : load_links (ychildren dyn) (numJoints r0) 0 (Dl_order r0) (zero_pars r0) = t_links (ychildren dyn) (numJoints r0) 0 (Dl_order r0) (zero_pars r0)).
      { apply links_agree; auto. unfold zero_pars, STD_PAR_LINK. cbn [p_DYN]. rewrite repeat_length. reflexivity. }
      apply gbind_ends in H. destruct H as [H|(s1 & H1 & H)].
      + rewrite A in H. destruct (t_links_nocatch _ _ _ _ _ Hl _ H).
      + exists s1. split; auto. split; auto. split; [congruence|discriminate].
    - assert (Z : ychildren dyn = []) by (destruct dyn; try discriminate Dd; reflexivity). rewrite Z in *.
      assert (Z2 : load_links [] (numJoints r0) 0 (Dl_order r0) (zero_pars r0) = Go (zero_pars r0)) by (destruct (numJoints r0); reflexivity).
      rewrite Z2 in *. cbn [gbind] in H. exists (zero_pars r0). split; [auto|]. split; [exact H|]. split; [discriminate|reflexivity]. }
  destruct G as (s1 & _ & He & Hd & Hu). destruct (ydef dyn).
  - rewrite En, El, Ep, (Hd eq_refl). cbn [on_pars gbind].
    assert (SL : samelen (pars_of t) s1).
    { rewrite Ep. exact (t_links_len _ _ _ _ _ s1 (or_introl (Hd eq_refl))). }
    destruct (kept_pars t t s1 SL (conj Hs (same_class_refl t))) as [K1 K2].
    assert (C : forall k, In k compacted -> member (put_pars t s1) k = member t k).
    { intros k Hk. rewrite put_pars_members. simpl in Hk. decompose [or] Hk; try contradiction; subst k; reflexivity. }
    destruct upd.
    + rewrite update_REG_eq by auto. cbn [to_prog]. eexists. split; [reflexivity|].
      split. { apply sized_tput; auto. right. rewrite reg_links_len. symmetry. apply sized_DYN; auto. }
      split. { eapply same_class_trans; [exact K2|apply same_class_tput]. }
      split; [reflexivity|]. split.
      * intros k Hk. rewrite member_tput_ne; [auto|]. simpl in Hk. decompose [or] Hk; try contradiction; subst k; discriminate.
      * assert (P : pars_of (tput "par_REG" (map_links (t_n (put_pars t s1)) reg_of_dyn (member (put_pars t s1) "par_DYN")) (put_pars t s1)) = s1).
        { transitivity (pars_of (put_pars t s1)); [|apply pars_put]. unfold pars_of. rewrite !member_tput_ne by discriminate. reflexivity. }
        rewrite P. exact He.
    + eexists. split; [reflexivity|]. split; auto. split; auto. split; [reflexivity|]. split; auto. rewrite pars_put. exact He.
  - exists t. split; [reflexivity|]. split; auto. split; [apply same_class_refl|]. split; auto. split; auto. rewrite Ep, <- (Hu eq_refl). exact He.
Qed.
Lemma put_same t : forall k, member (put_pars t (pars_of t)) k = member t k.
Proof.
  intros k. rewrite put_pars_members. cbn [mfind].
  repeat match goal with |- context [String.eqb k ?x] => destruct (String.eqb_spec k x) as [->|?]; [reflexivity|] end. reflexivity.
Qed.
Lemma elastic_stage cfg r0 t s : loaded r0 -> sized t -> t_e t = numElasticJoints r0 -> t_K t = K_order r0 -> t_D t = D_order r0 -> t_Dm t = Dm_order r0 ->
  ends (elastic_part r0 cfg (pars_of t)) s ->
  exists t1, (t_elastic cfg t = Go t1 \/ t_elastic cfg t = Caught t1) /\ sized t1 /\ same_class t t1 /\
    (forall k, In k compacted -> member t1 k = member t k) /\ member t1 "par_DYN" = p_DYN s /\ member t1 "par_Dl" = p_Dl s /\
    (ELASTIC r0 = true -> pars_of t1 = s).
Proof.
  intros Ld Hs Ee EK ED EDm H.
  assert (Any : forall left i kO dO dmO l s1, ends (load_elastic l left i kO dO dmO (pars_of t)) s1 ->
    sized (put_pars t s1) /\ same_class t (put_pars t s1) /\ (forall k, In k compacted -> member (put_pars t s1) k = member t k) /\
    member (put_pars t s1) "par_DYN" = p_DYN (pars_of t) /\ member (put_pars t s1) "par_Dl" = p_Dl (pars_of t)).
  { intros left i kO dO dmO l s1 E. destruct (kept_pars t t s1 (load_elastic_len _ _ _ _ _ _ _ s1 E) (conj Hs (same_class_refl t))) as [K1 K2].
    split; auto. split; auto. split.
    - intros k Hk. rewrite put_pars_members. simpl in Hk. decompose [or] Hk; try contradiction; subst k; reflexivity.
    - rewrite !put_pars_members. cbn [mfind String.eqb]. split; [exact (load_elastic_D _ _ _ _ _ _ _ _ E)|exact (load_elastic_Dl _ _ _ _ _ _ _ _ E)]. }
  assert (Same : sized t /\ same_class t t /\ (forall k, In k compacted -> member t k = member t k) /\
    member t "par_DYN" = p_DYN (pars_of t) /\ member t "par_Dl" = p_Dl (pars_of t)) by (split; auto; split; [apply same_class_refl|]; auto).
  unfold elastic_part in H. unfold t_elastic. rewrite Ee, EK, ED, EDm.
  destruct (ELASTIC r0) eqn:EL.
  - destruct (yidx cfg "elastic") as [e|].
    + destruct (ydef e).
      * destruct (yidx e "joints") as [js|].
        -- destruct (Any _ _ _ _ _ _ _ H) as (A & B & C & D & E). pose proof (load_elastic_D _ _ _ _ _ _ _ _ H). pose proof (load_elastic_Dl _ _ _ _ _ _ _ _ H).
           exists (put_pars t s). split. { destruct H as [H|H]; rewrite H; cbn [on_pars]; auto. }
           split; auto. split; auto. split; auto. split; [congruence|]. split; [congruence|]. intros _. apply pars_put.
        -- assert (s = pars_of t) as -> by (destruct H as [H|H]; inversion H; reflexivity). exists t. split; [auto|].
           destruct Same as (A & B & C & D & E). repeat (split; auto).
      * assert (s = pars_of t) as -> by (destruct H as [H|H]; inversion H; reflexivity). exists t. split; [auto|].
           destruct Same as (A & B & C & D & E). repeat (split; auto).
    + assert (s = pars_of t) as -> by (destruct H as [H|H]; inversion H; reflexivity). exists t. split; [auto|].
           destruct Same as (A & B & C & D & E). repeat (split; auto).
  - assert (s = pars_of t) as -> by (destruct H as [H|H]; inversion H; reflexivity).
    destruct (ld_ord _ Ld EL) as (-> & -> & ->). destruct Same as (A & B & C & D & E).
    destruct (yidx cfg "elastic") as [e|]; [|exists t; repeat (split; auto); discriminate].
    destruct (ydef e); [|exists t; repeat (split; auto); discriminate].
    destruct (yidx e "joints") as [js|]; [|exists t; repeat (split; auto); discriminate].
    destruct (load_elastic (ychildren js) (numElasticJoints r0) 0 0 0 0 (pars_of t)) as [s1|s1|m] eqn:E1.
    + destruct (Any _ _ _ _ _ _ s1 (or_introl E1)) as (A1 & B1 & C1 & D1 & F1). exists (put_pars t s1). cbn [on_pars]. repeat (split; auto). discriminate.
    + destruct (Any _ _ _ _ _ _ s1 (or_intror E1)) as (A1 & B1 & C1 & D1 & F1). exists (put_pars t s1). cbn [on_pars]. repeat (split; auto). discriminate.
    + destruct (load_elastic_zero _ _ _ _ _ E1).
Qed.

Lemma pars_new r : pars_of (new_class r) = zero_pars r.
Proof.
  unfold pars_of, zero_pars, member, mget.
  assert (Q : forall k len, In (k, len) (member_sizes (numJoints r) (numElasticJoints r) (K_order r) (D_order r) (Dl_order r) (Dm_order r)) ->
    match mfind k (t_val (new_class r)) with Some v => v | None => [] end = repeat 0%R len) by (intros k len Hk; now rewrite (new_count r k len Hk)).
  rewrite (Q "par_DYN" (STD_PAR_LINK * numJoints r)), (Q "par_Dl" (Dl_order r * numJoints r)), (Q "par_K" (K_order r * numElasticJoints r)),
    (Q "par_D" (D_order r * numElasticJoints r)), (Q "par_Dm" (Dm_order r * numElasticJoints r)), (Q "par_Mm" (numElasticJoints r)) by (cbn [member_sizes In]; tauto).
  cbv zeta. rewrite (Nat.mul_comm (K_order r)), (Nat.mul_comm (D_order r)), (Nat.mul_comm (Dm_order r)). reflexivity.
Qed.
Lemma pars_ext t t1 : (forall k, In k (map fst (pmap (pars_of t))) -> member t1 k = member t k) -> pars_of t1 = pars_of t.
Proof. intros H. unfold pars_of. rewrite !H by (cbn; tauto). reflexivity. Qed.
Lemma stage_pars par sy val t t1 : In par compacted -> stage par sy val t t1 -> pars_of t1 = pars_of t.
Proof.
  intros Hp S. apply pars_ext. intros k Hk. apply (sg_oth _ _ _ _ _ S). intros ->.
  simpl in Hp, Hk. decompose [or] Hp; try contradiction; subst; decompose [or] Hk; try contradiction; discriminate.
Qed.

Section J.
  Variable junk : nat -> R.
  Theorem load_conf_agrees name cfg r0 upd : robot_from_file name cfg false = Ok r0 -> well_formed r0 ->
    complete_links inertial_keys (numJoints r0) cfg ->
    exists t, t_load_conf junk (new_class r0) (Some cfg) upd = Ok t /\ sized t /\ same_class (new_class r0) t /\
      (forall k, In k compacted -> selected (flags r0 k) <= List.length (member t k) /\
         firstn (selected (flags r0 k)) (member t k) = pick (flags r0 k) (arg r0 k) /\
         (0 < selected (flags r0 k) -> List.length (member t k) = selected (flags r0 k))) /\
      (forall k len, In (k, len) (par_sizes r0) -> ~ In k compacted -> member t k = arg r0 k).
  Proof.
    intros Hl Hw Hc. destruct (robot_facts _ _ _ Hl) as [F (s & Es & PD & PDl & PK & PDD & PDm & PM)].
    pose proof (file_loaded _ _ _ Hl) as Ld.
    assert (W : forall k len, In (k, len) [("par_DHtable", 4 * numJoints r0); ("par_world2L0", 6); ("par_Ln2EE", 6); ("par_gravity", 3)] ->
      List.length (flags r0 k) = len /\ List.length (arg r0 k) = len).
    { intros k len Hk. apply (wf_sizes _ Hw). unfold par_sizes. apply in_app_iff. left. simpl in Hk |- *. tauto. }
    destruct (W "par_DHtable" _ (or_introl eq_refl)) as [W1 W2].
    destruct (W "par_world2L0" 6) as [W3 _]; [simpl; auto|]. destruct (W "par_Ln2EE" 6) as [W4 _]; [simpl; auto|].
    destruct (W "par_gravity" 3) as [W5 _]; [simpl; auto|]. clear W.
    set (t0 := new_class r0). assert (S0 : sized t0) by apply new_sized.
    assert (N0 : t_n t0 = numJoints r0) by reflexivity. assert (P0 : pars_of t0 = zero_pars r0) by apply pars_new.
    assert (FL : tflags t0 "DHtable_symb" = repeat 0%Z (numJoints r0 * 4) /\ tflags t0 "world2L0_symb" = repeat 0%Z 6 /\
      tflags t0 "Ln2EE_symb" = repeat 0%Z 6 /\ tflags t0 "gravity_symb" = repeat 0%Z 3) by (repeat split).
    assert (CC : (t_e t0, t_K t0, t_D t0, t_Dm t0, t_Dl t0) = (numElasticJoints r0, K_order r0, D_order r0, Dm_order r0, Dl_order r0)) by reflexivity.
    destruct FL as (F1 & F2 & F3 & F4).
    assert (SC0 : same_class t0 t0) by apply same_class_refl.
    clearbody t0.
    destruct (kin_stage junk cfg r0 t0 F S0) as (t1 & E1 & G1); [rewrite N0; exact W2|rewrite N0; exact W1|rewrite N0; exact F1|].
    destruct (sg_kept _ _ _ _ _ G1) as [S1 C1].
    destruct (frame_stage junk cfg r0 t1 "Base_to_L0" "par_world2L0" "world2L0_symb" F S1) as (t2 & E2 & G2); [simpl; auto|auto| |].
    { rewrite (sg_sym _ _ _ _ _ G1) by discriminate. exact F2. }
    destruct (sg_kept _ _ _ _ _ G2) as [S2 C2].
    destruct (frame_stage junk cfg r0 t2 "Ln_to_EE" "par_Ln2EE" "Ln2EE_symb" F S2) as (t3 & E3 & G3); [simpl; auto|auto| |].
    { rewrite (sg_sym _ _ _ _ _ G2), (sg_sym _ _ _ _ _ G1) by discriminate. exact F3. }
    destruct (sg_kept _ _ _ _ _ G3) as [S3 C3].
    assert (C03 : same_class t0 t3) by (eapply same_class_trans; [exact C1|eapply same_class_trans; eauto]).
    assert (P3 : pars_of t3 = zero_pars r0).
    { rewrite (stage_pars "par_Ln2EE" _ _ _ _ ltac:(simpl; auto) G3), (stage_pars "par_world2L0" _ _ _ _ ltac:(simpl; auto) G2), (stage_pars "par_DHtable" _ _ _ _ ltac:(simpl; auto) G1). exact P0. }
    destruct (dyn_stage upd cfg r0 t3 s F Hc S3) as (t4 & E4 & S4 & C4 & Y4 & M4 & H4); auto.
    { destruct C03. congruence. } { destruct C03. congruence. }
    destruct (grav_stage junk cfg r0 t4 F S4) as (t5 & E5 & G5); auto.
    { rewrite Y4, (sg_sym _ _ _ _ _ G3), (sg_sym _ _ _ _ _ G2), (sg_sym _ _ _ _ _ G1) by discriminate. exact F4. }
    assert (G5' : sized t5 /\ same_class t4 t5 /\ pars_of t5 = pars_of t4 /\ (forall k, k <> "par_gravity" -> member t5 k = member t4 k)).
    { destruct G5 as [G5|[-> _]].
      - destruct (sg_kept _ _ _ _ _ G5). split; auto. split; auto. split; [eapply stage_pars; [|exact G5]; simpl; auto|exact (sg_oth _ _ _ _ _ G5)].
      - split; auto. split; [apply same_class_refl|]. auto. }
    destruct G5' as (S5 & C5 & P5 & M5).
    assert (C05 : same_class t0 t5) by (eapply same_class_trans; [exact C03|eapply same_class_trans; eauto]).
    destruct (elastic_stage cfg r0 t5 s Ld S5) as (t6 & E6 & S6 & C6 & M6 & D6 & L6 & A6); try (destruct C05; congruence).
    exists t6. split.
    { unfold t_load_conf. rewrite E1. cbn [gbind]. rewrite E2. cbn [gbind]. rewrite E3. cbn [gbind]. rewrite E4. cbn [gbind]. rewrite E5. cbn [gbind].
      destruct E6 as [-> | ->]; reflexivity. }
    split; auto. split. { eapply same_class_trans; eauto. }
    assert (X : forall k v, v = pick (flags r0 k) (arg r0 k) -> selected (flags r0 k) <= List.length v /\ firstn (selected (flags r0 k)) v = pick (flags r0 k) (arg r0 k) /\
      (0 < selected (flags r0 k) -> List.length v = selected (flags r0 k))).
    { intros k v ->. rewrite <- (pick_selected (flags r0 k) (arg r0 k)). split; [lia|]. split; [apply firstn_all|]. auto. }
    split.
    - intros k Hk. rewrite M6 by auto. simpl in Hk. decompose [or] Hk; try contradiction; subst k.
      + apply X. rewrite M5, M4, (sg_oth _ _ _ _ _ G3), (sg_oth _ _ _ _ _ G2) by (discriminate || simpl; auto). exact (sg_val _ _ _ _ _ G1).
      + apply X. rewrite M5, M4, (sg_oth _ _ _ _ _ G3) by (discriminate || simpl; auto). exact (sg_val _ _ _ _ _ G2).
      + apply X. rewrite M5, M4 by (discriminate || simpl; auto). exact (sg_val _ _ _ _ _ G3).
      + destruct G5 as [G5|[-> Z]]; [apply X; exact (sg_val _ _ _ _ _ G5)|]. rewrite Z. split; [lia|].
        pose proof (pick_selected (flags r0 "par_gravity") (arg r0 "par_gravity")) as Q. rewrite Z in Q. split; [|lia]. destruct (pick (flags r0 "par_gravity") (arg r0 "par_gravity")); [reflexivity|discriminate].
    - intros k len Hk Hn. unfold par_sizes in Hk. apply in_app_iff in Hk. destruct Hk as [Hk|Hk].
      { simpl in Hk. decompose [or] Hk; try contradiction; match goal with E : _ = _ |- _ => injection E as <- <- end; try (destruct Hn; simpl; tauto). congruence. }
      apply in_app_iff in Hk. destruct Hk as [Hk|Hk].
      { destruct (Nat.ltb_spec 0 (Dl_order r0)); [|destruct Hk]. simpl in Hk. destruct Hk as [Hk|[]]. injection Hk as <- <-. rewrite L6, PDl by auto. reflexivity. }
      assert (LL : forall k', In (k', 0) (par_sizes r0) -> arg r0 k' = []).
      { intros k' Hk'. destruct (wf_sizes _ Hw k' 0 Hk') as [_ Q]. destruct (arg r0 k'); [reflexivity|discriminate]. }
      assert (Hk' : In (k, len) (par_sizes r0)) by (unfold par_sizes; apply in_app_iff; right; apply in_app_iff; right; exact Hk).
      destruct (ELASTIC r0) eqn:EL; [|destruct Hk]. pose proof (A6 eq_refl) as Ps.
      assert (SZ : forall k len, In (k, len) (member_sizes (t_n t0) (t_e t0) (t_K t0) (t_D t0) (t_Dl t0) (t_Dm t0)) -> ~ In k compacted -> List.length (member t6 k) = len).
      { intros k1 len1 Hk1. apply S6. destruct (same_class_trans _ _ _ C05 C6) as [Q1 Q2]. injection Q1 as _ -> -> _. injection Q2 as -> -> -> ->. exact Hk1. }
      injection CC as CE CK CD CDm CDl. rewrite CE, CK, CD, CDm, CDl in SZ.
      assert (SQ : forall (o : nat) key f, In (key, o * numElasticJoints r0) [("par_K", K_order r0 * numElasticJoints r0); ("par_D", D_order r0 * numElasticJoints r0); ("par_Dm", Dm_order r0 * numElasticJoints r0)] ->
        In (key, numElasticJoints r0 * o) (par_sizes r0) -> (0 < o -> arg r0 key = f s) -> member t6 key = f s -> member t6 key = arg r0 key).
      { intros o key f A B C D. destruct o as [|o]; [|rewrite C by lia; exact D]. rewrite (LL key) by (rewrite Nat.mul_0_r in B; exact B).
        pose proof (SZ key 0) as Q. cbn [Nat.mul] in A. assert (Q0 : List.length (member t6 key) = 0).
        { cbn [In] in A. apply Q; destruct A as [A|[A|[A|[]]]]; injection A as <- A; try (rewrite <- A; cbn [member_sizes In]; do 30 (first [left; reflexivity|right]));
            cbn [compacted In]; intros Hi; destruct Hi as [Hi|[Hi|[Hi|[Hi|[]]]]]; discriminate Hi. }
        destruct (member t6 key); [reflexivity|discriminate]. }
      unfold pars_of in Ps. destruct s as [a1 a2 a3 a4 a5 a6]. injection Ps as Q1 Q2 Q3 Q4 Q5 Q6.
      simpl in Hk. decompose [or] Hk; try contradiction; match goal with E : _ = _ |- _ => injection E as <- <- end.
      + apply (SQ (K_order r0) "par_K" p_K); auto; simpl; auto.
      + apply (SQ (D_order r0) "par_D" p_D); auto; simpl; auto.
      + apply (SQ (Dm_order r0) "par_Dm" p_Dm); auto; simpl; auto.
      + rewrite PM by auto. exact Q6.
  Qed.
End J.
