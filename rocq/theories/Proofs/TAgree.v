(* The generated class after load_conf of the configuration it was generated from. *)
From Coq Require Import Reals List Arith String Bool Lia ZArith.
From Verif.Model Require Import Base Expr SX Robot Kinematics Dynamics Regressors Yaml Inertia Build Template.
From Verif.Spec Require Import Math Setup State Config Template Api.
From Verif.Proofs Require Import Calc Rel Maps Pure Names Shape Dims Sizes Deps Load Init Final Closed Get State StateSess Files TSetters TFiles TSync TSave TFacts Select Catalogue Api.
Import ListNotations.
Open Scope nat_scope.
Open Scope string_scope.

(* ---- a getter evaluates the published function on prefixes of the members ---- *)
Definition reads (r0 r' : robot) (t : tobj) : Prop :=
  forall k len, In (k, len) (keys r0) -> exists v, mfind k (t_val t) = Some v /\ selected (flags r0 k) <= List.length v /\
    arg r' k = firstn (selected (flags r0 k)) v.
Lemma t_get_sess r0 b r' t f : sess r0 b r' -> reads r0 r' t -> enabled b f -> t_get r' t (name_of f) = get r' (name_of f).
Proof.
  intros S Hr He. destruct (ss_fun _ _ _ S f He) as [F1 F2]. unfold t_get, get. rewrite F1, F2. unfold mget. rewrite F1.
  cbn [f_inputs].
  assert (E : forall al, (forall k, In k al -> exists len, In (k, len) (keys b)) -> read_inputs (ins b al) al t = Ok (map (arg r') al)).
  { induction al as [|k al IH]; intros Hk; [reflexivity|]. cbn [ins map read_inputs]. fold (ins b al).
    destruct (Hk k (or_introl eq_refl)) as [len Hl]. pose proof (bs_shape _ _ (ss_base _ _ _ S) k len Hl) as P.
    assert (R : rows (vertcat_list (sel b k)) = selected (flags r0 k)).
    { cbn [rows vertcat_list]. rewrite (sel_fidx _ b k len P), map_length, (flags_b _ _ _ S). apply fidx_selected. }
    rewrite R. rewrite (keys_b _ _ _ S) in Hl. destruct (Hr k len Hl) as (v & E1 & E2 & E3). rewrite E1, (proj2 (Nat.leb_le _ _) E2).
    rewrite IH by (intros; apply Hk; right; auto). cbn [bind]. now rewrite <- E3. }
  rewrite E; [reflexivity|]. intros k Hk. apply (deps_keys b f k He (alist_deps _ _ _ Hk)).
Qed.

(* ---- picking the flagged elements ---- *)
Lemma picked_pick : forall fl v, List.length fl <= List.length v -> picked (List.length fl) fl v = Some (pick fl v).
Proof.
  induction fl as [|z fl IH]; intros v H; [reflexivity|]. destruct v as [|x v]; [simpl in H; lia|].
  cbn [List.length picked tl]. rewrite IH by (simpl in H; lia). rewrite pick_cons. destruct (flag_set z); reflexivity.
Qed.
Lemma picked_more : forall k fl fl' v, k = List.length fl -> picked k (fl ++ fl') v = picked k fl v.
Proof.
  induction k as [|k IH]; intros fl fl' v H; [reflexivity|]. destruct fl as [|z fl]; [discriminate|].
  cbn [app picked]. rewrite IH by (simpl in H; lia). reflexivity.
Qed.
Lemma pick_more fl : forall v v', List.length fl <= List.length v -> pick fl (v ++ v') = pick fl v.
Proof.
  induction fl as [|z fl IH]; intros v v' H; [reflexivity|]. destruct v as [|x v]; [simpl in H; lia|].
  cbn [app]. rewrite !pick_cons, IH by (simpl in H; lia). reflexivity.
Qed.
Lemma pick_app f1 : forall f2 a b, List.length f1 = List.length a -> pick (f1 ++ f2) (a ++ b) = (pick f1 a ++ pick f2 b)%list.
Proof.
  induction f1 as [|z f1 IH]; intros f2 a b H; destruct a as [|x a]; try discriminate; [reflexivity|].
  cbn [app]. rewrite !pick_cons, IH by (simpl in H; lia). destruct (flag_set z); reflexivity.
Qed.
Lemma three_split v l : three v = POk l -> exists w, v = (l ++ w)%list /\ List.length l = 3.
Proof.
  unfold three, vec_at. destruct v as [|a [|b [|c w]]]; cbn; intros H; try discriminate. injection H as <-. exists w. auto.
Qed.
Lemma pick_selected fl v : List.length (pick fl v) = selected fl.
Proof. rewrite pick_length. apply fidx_selected. Qed.

(* a stage of load_conf that writes one parameter and one flag vector *)
Record stage (par sy : string) (val : list R) (t t1 : tobj) : Prop := {
  sg_val : member t1 par = val;
  sg_oth : forall k, k <> par -> member t1 k = member t k;
  sg_sym : forall s, s <> sy -> tflags t1 s = tflags t s;
  sg_kept : sized t1 /\ same_class t t1
}.
Lemma section_new_flags sec k fl cur : section_symb sec k = POk fl -> cur = repeat 0%Z k -> new_flags sec cur = Some fl.
Proof.
  unfold section_symb, new_flags. intros H ->. destruct (yidx sec "symb") as [s|]; cbn [ofy pbind ybind] in *; [|discriminate].
  destruct (ydef s); [apply ofy_inv in H; exact H|]. injection H as <-. reflexivity.
Qed.
Lemma yidx_vec n k m v : yidx n k = Some m -> as_vector as_double m = Some v -> ydef n = true.
Proof. destruct n; cbn; intros H Hv; try discriminate; auto; injection H as <-; discriminate. Qed.
Lemma tflags_symb_ne k k' v t : k' <> k -> tflags (tput_symb k v t) k' = tflags t k'.
Proof. intros. unfold tflags, tput_symb; cbn. now apply mget_mset_ne. Qed.
Lemma stage_intro par sy val fl w t : In par compacted -> sized t ->
  stage par sy val t (tput par val (tput_symb sy fl (tput par w t))).
Proof.
  intros Hp Hs. constructor.
  - apply member_tput.
  - intros k Hk. rewrite member_tput_ne, member_symb, member_tput_ne by auto. reflexivity.
  - intros s Hk. change (tflags (tput_symb sy fl (tput par w t)) s = tflags t s). rewrite tflags_symb_ne by auto. reflexivity.
  - split; [|split; reflexivity]. apply sized_tput; auto. apply sized_symb. apply sized_tput; auto.
Qed.

Section J.
  Variable junk : nat -> R.
  Lemma kin_stage cfg r0 t : facts cfg r0 -> sized t -> List.length (arg r0 "par_DHtable") = 4 * t_n t ->
    List.length (flags r0 "par_DHtable") = 4 * t_n t ->
    tflags t "DHtable_symb" = repeat 0%Z (t_n t * 4) ->
    exists t1, t_kinematics junk cfg t = Go t1 /\ stage "par_DHtable" "DHtable_symb" (pick (flags r0 "par_DHtable") (arg r0 "par_DHtable")) t t1.
  Proof.
    intros F Hs Ha Hf Ht. destruct (fc_kin _ _ F) as (kin & dhN & dh & E1 & E2 & E3 & <- & E5).
    unfold t_kinematics. rewrite E1, (yidx_vec _ _ _ _ E2 E3), E2. cbn [ybind]. rewrite E3. cbv zeta.
    rewrite (section_new_flags _ _ _ _ E5) by (change (tflags (tput _ _ t) "DHtable_symb") with (tflags t "DHtable_symb"); rewrite Ht, Ha; f_equal; lia).
    replace (List.length (arg r0 "par_DHtable")) with (List.length (flags r0 "par_DHtable")) by congruence.
    rewrite picked_pick by lia. rewrite (proj2 (Nat.leb_le _ _)).
    - eexists. split; [reflexivity|]. apply stage_intro; auto. simpl; auto.
    - rewrite pick_length. rewrite fidx_selected. change (t_n (tput_symb _ _ _)) with (t_n t).
      assert (selected (flags r0 "par_DHtable") <= List.length (flags r0 "par_DHtable")); [|lia].
      unfold selected. generalize (flags r0 "par_DHtable"). induction l as [|z l IH]; simpl; [lia|]. destruct (flag_set z); simpl; lia.
  Qed.
  Lemma frame_stage cfg r0 t sec par sy : facts cfg r0 -> sized t -> In (sec, par) [("Base_to_L0", "par_world2L0"); ("Ln_to_EE", "par_Ln2EE")] ->
    List.length (flags r0 par) = 6 -> tflags t sy = repeat 0%Z 6 ->
    exists t1, t_frame junk sec par sy cfg t = Go t1 /\ stage par sy (pick (flags r0 par) (arg r0 par)) t t1.
  Proof.
    intros F Hs Hi Hf Ht. destruct (fc_frame _ _ F sec par Hi) as (fr & tN & tr & yN & ypr & a & b & E1 & E2 & E3 & E4 & E5 & Ea & Eb & -> & E6).
    assert (Hp : In par compacted) by (simpl in Hi; destruct Hi as [Q|[Q|[]]]; injection Q as <- <-; simpl; auto).
    unfold t_frame. rewrite E1, (yidx_vec _ _ _ _ E2 E3). cbv zeta.
    rewrite (section_new_flags _ _ _ _ E6) by (change (tflags (tput _ _ t) sy) with (tflags t sy); exact Ht).
    rewrite E2, E4. cbn [ybind]. rewrite E3, E5.
    destruct (three_split _ _ Ea) as (wa & -> & La). destruct (three_split _ _ Eb) as (wb & -> & Lb).
    set (fl := flags r0 par) in *. clearbody fl.
    assert (Hfl : fl = (firstn 3 fl ++ skipn 3 fl)%list) by (symmetry; apply firstn_skipn).
    assert (L1 : List.length (firstn 3 fl) = 3) by (rewrite firstn_length; lia).
    assert (L2 : List.length (skipn 3 fl) = 3) by (rewrite skipn_length; lia).
    assert (P1 : picked 3 fl (a ++ wa) = Some (pick (firstn 3 fl) a)).
    { rewrite Hfl at 1. rewrite picked_more by auto. rewrite <- L1 at 1. rewrite picked_pick by (rewrite app_length; lia).
      now rewrite pick_more by lia. }
    assert (P2 : picked 3 (skipn 3 fl) (b ++ wb) = Some (pick (skipn 3 fl) b)).
    { rewrite <- L2 at 1. rewrite picked_pick by (rewrite app_length; lia). now rewrite pick_more by lia. }
    rewrite P1, P2. replace (pick fl (a ++ b)) with (pick (firstn 3 fl) a ++ pick (skipn 3 fl) b)%list by (rewrite <- pick_app by lia; now rewrite firstn_skipn).
    eexists. split; [reflexivity|]. apply stage_intro; auto.
  Qed.
  Lemma grav_stage cfg r0 t : facts cfg r0 -> sized t -> List.length (flags r0 "par_gravity") = 3 ->
    tflags t "gravity_symb" = repeat 0%Z 3 ->
    exists t1, t_gravity junk cfg t = Go t1 /\
      (stage "par_gravity" "gravity_symb" (pick (flags r0 "par_gravity") (arg r0 "par_gravity")) t t1 \/
       t1 = t /\ selected (flags r0 "par_gravity") = 0).
  Proof.
    intros F Hs Hf Ht. destruct (fc_grav _ _ F) as (g & E1 & E2 & E3). unfold t_gravity. rewrite E1.
    destruct (ydef g) eqn:D.
    - destruct (E3 eq_refl) as (vN & v & V1 & V2 & V3). cbv zeta.
      rewrite (section_new_flags _ _ _ _ E2) by (change (tflags (tput _ _ t) "gravity_symb") with (tflags t "gravity_symb"); exact Ht).
      rewrite V1. cbn [ybind]. rewrite V2. destruct (three_split _ _ V3) as (w & -> & L).
      assert (P1 : picked 3 (flags r0 "par_gravity") (arg r0 "par_gravity" ++ w) = Some (pick (flags r0 "par_gravity") (arg r0 "par_gravity"))).
      { rewrite <- Hf at 1. rewrite picked_pick by (rewrite app_length; lia). now rewrite pick_more by lia. }
      rewrite P1. eexists. split; [reflexivity|]. left. apply stage_intro; auto. simpl; auto.
    - exists t. split; [reflexivity|]. right. split; [reflexivity|].
      assert (flags r0 "par_gravity" = repeat 0%Z 3).
      { unfold section_symb in E2. destruct g; try discriminate D; cbn [yidx ofy pbind ydef] in E2; try discriminate E2. injection E2 as E2. symmetry. exact E2. }
      rewrite H. reflexivity.
  Qed.
End J.

(* ---- the links ---- *)
Lemma read_list_holds nd : forall keys v, read_list nd keys = Some v -> holds nd keys v.
Proof.
  induction keys as [|k keys IH]; cbn [read_list]; intros v E; [injection E as <-; exact I|].
  destruct (ybind (yidx nd k) as_double) as [x|] eqn:Ex; cbn [ybind] in E; [|discriminate].
  destruct (read_list nd keys) as [l|]; cbn [ybind] in E; [|discriminate]. injection E as <-. cbn [holds]. auto.
Qed.
Lemma read_keys_splice nd keys v i p : read_list nd keys = Some v -> 10 * i + List.length v <= List.length p ->
  read_keys nd keys (10 * i) p = Go (firstn (10 * i) p ++ v ++ skipn (10 * i + List.length v) p)%list.
Proof.
  intros E L. pose proof (read_list_holds _ _ _ E) as H.
  assert (F : List.length (firstn (10 * i) p) = 10 * i) by (rewrite firstn_length; lia).
  assert (D : p = (firstn (10 * i) p ++ firstn (List.length v) (skipn (10 * i) p) ++ skipn (10 * i + List.length v) p)%list).
  { rewrite <- (firstn_skipn (10 * i) p) at 1. f_equal. rewrite <- (firstn_skipn (List.length v) (skipn (10 * i) p)) at 1. f_equal.
    apply InertiaConv.skipn_skipn'. }
  rewrite D at 1. rewrite <- F at 1. apply read_holds; auto. rewrite firstn_length, skipn_length. lia.
Qed.
Lemma links_agree dlO l : (forall k nd, In (k, nd) l -> exists sub, yidx_c nd "inertial" = Some sub) ->
  forall left i s, (forall k nd, In (k, nd) (firstn left l) -> complete_link inertial_keys nd) -> List.length (p_DYN s) = 10 * (i + left) ->
  load_links l left i dlO s = t_links l left i dlO s.
Proof.
  induction l as [|[k nd] l IH]; intros Hsub left i s Hc Hp; cbn [load_links t_links]; [destruct left; reflexivity|].
  destruct (Hsub k nd (or_introl eq_refl)) as [sub Es]. rewrite Es. destruct left as [|left]; [reflexivity|].
  cbn [firstn] in Hc. destruct (complete_inertial _ _ (Hc k nd (or_introl eq_refl))) as [v Ev]. rewrite Es in Ev. cbn [ybind] in Ev |- *.
  rewrite Ev. pose proof (read_list_len _ _ _ Ev) as Lv. cbn in Lv.
  unfold STD_PAR_LINK. rewrite (read_keys_splice _ _ v) by (auto; lia). rewrite splice_ok by lia. cbn [lift_DYN gbind].
  destruct (yidx_c nd "friction") as [fr|]; [|reflexivity].
  match goal with |- gbind ?x _ = gbind ?x _ => destruct x as [s1|s1|m] eqn:Ex end; cbn [gbind]; auto.
  apply IH; auto.
  - intros; eapply Hsub; right; eauto.
  - intros; eapply Hc; right; eauto.
  - assert (Q : List.length (p_DYN s1) = List.length (firstn (10 * i) (p_DYN s) ++ v ++ skipn (10 * i + List.length v) (p_DYN s))).
    { destruct (ydef fr); [|injection Ex as <-; reflexivity]. destruct (ybind _ _); [|discriminate].
      unfold lift_Dl in Ex. destruct (read_vec _ _ _ _ _); try discriminate. injection Ex as <-. reflexivity. }
    rewrite Q, !app_length, firstn_length, skipn_length. lia.
Qed.
Lemma load_elastic_Dl : forall l left i kO dO dmO s s', ends (load_elastic l left i kO dO dmO s) s' -> p_Dl s' = p_Dl s.
Proof.
  induction l as [|[k nd] l IH]; cbn [load_elastic]; intros left i kO dO dmO s s' H.
  - destruct H as [H|H]; inversion H; reflexivity.
  - destruct left; [destruct H as [H|H]; inversion H; reflexivity|].
    apply gbind_ends in H.
    destruct H as [H|(s1 & H1 & H)]; [destruct (load_order nd "K" _ _ _); simpl in H; inversion H; reflexivity|].
    assert (E1 : p_Dl s1 = p_Dl s) by (destruct (load_order nd "K" _ _ _); simpl in H1; inversion H1; reflexivity). rewrite <- E1. clear H1 E1.
    apply gbind_ends in H.
    destruct H as [H|(s2 & H1 & H)]; [destruct (load_order nd "D" _ _ _); simpl in H; inversion H; reflexivity|].
    assert (E1 : p_Dl s2 = p_Dl s1) by (destruct (load_order nd "D" _ _ _); simpl in H1; inversion H1; reflexivity). rewrite <- E1. clear H1 E1.
    apply gbind_ends in H.
    destruct H as [H|(s3 & H1 & H)]; [destruct (load_order nd "Dm" _ _ _); simpl in H; inversion H; reflexivity|].
    assert (E1 : p_Dl s3 = p_Dl s2) by (destruct (load_order nd "Dm" _ _ _); simpl in H1; inversion H1; reflexivity). rewrite <- E1. clear H1 E1.
    destruct (ybind _ _); [apply IH in H; exact H|destruct H as [H|H]; inversion H; reflexivity].
Qed.
Lemma load_elastic_zero l : forall left i s m, load_elastic l left i 0 0 0 s <> Bad m.
Proof.
  induction l as [|[k nd] l IH]; intros left i s m; cbn [load_elastic]; destruct left; try discriminate.
  cbn. destruct (ybind _ _); [apply IH|discriminate].
Qed.

(* ---- what the robot holds after loading ---- *)
Lemma robot_facts name cfg r0 : robot_from_file name cfg false = Ok r0 -> facts cfg r0 /\
  exists s, ends (load_conf_tree r0 cfg) s /\ arg r0 "par_DYN" = p_DYN s /\ (0 < Dl_order r0 -> arg r0 "par_Dl" = p_Dl s) /\
    (0 < K_order r0 -> arg r0 "par_K" = p_K s) /\ (0 < D_order r0 -> arg r0 "par_D" = p_D s) /\
    (0 < Dm_order r0 -> arg r0 "par_Dm" = p_Dm s) /\ (ELASTIC r0 = true -> arg r0 "par_Mm" = p_Mm s).
Proof.
  unfold robot_from_file. destruct (new_robot name cfg) as [r1| |] eqn:E; cbn [bind]; try discriminate.
  destruct (load_conf_par r1 cfg true) as [r2| |] eqn:E2; cbn [bind]; try discriminate.
  intros H; injection H as <-. rename r2 into r0.
  unfold new_robot in E. destruct (parse_config name cfg) as [rp| | |] eqn:Ep; try discriminate.
  pose proof (parse_facts _ _ _ Ep) as F. pose proof (parse_inv _ _ _ Ep) as PI.
  unfold initVarsFuns in E. rewrite (pa_jt _ _ PI), Nat.eqb_refl in E. cbn [negb] in E. injection E as E1.
  destruct (pa_args _ _ PI) as (g0 & w0 & e0 & dh0 & Hargs & _).
  destruct (pa_symb _ _ PI) as (sG & sE & sW & sDH & sMm & sDm & sD & sK & sDl & sDYN & Hsy & _).
  pose proof (load_conf_argsonly _ _ _ _ E2) as AO.
  assert (G : forall k, In k compacted -> arg r0 k = arg rp k /\ flags r0 k = flags rp k).
  { intros k Hk. split.
    - rewrite (load_conf_arg _ _ _ _ k E2) by (simpl in Hk |- *; intuition (subst; discriminate)).
      rewrite <- E1. unfold arg, mget. cbn [args with_symb with_args with_model]. unfold ins_args. rewrite mfind_ins.
      rewrite Hargs. simpl in Hk. decompose [or] Hk; try contradiction; subst k; reflexivity.
    - rewrite AO, <- E1. unfold flags, mget. cbn [symb with_symb with_args with_model]. unfold ins_symb. rewrite mfind_ins.
      rewrite Hsy. simpl in Hk. decompose [or] Hk; try contradiction; subst k; reflexivity. }
  split.
  - destruct F as [Fk Ff Fg Fd]. constructor.
    + destruct (G "par_DHtable" ltac:(simpl; auto)) as [-> ->]. exact Fk.
    + intros sec par Hi. destruct (G par) as [-> ->]; [simpl in Hi; destruct Hi as [Q|[Q|[]]]; injection Q as <- <-; simpl; auto|]. apply Ff; auto.
    + destruct (G "par_gravity" ltac:(simpl; auto 10)) as [-> ->]. exact Fg.
    + exact Fd.
  - assert (T : load_conf_tree r0 cfg = load_conf_tree r1 cfg) by (rewrite AO; reflexivity).
    assert (U : forall s, update_inertial_REG (set_pars r1 s) = Ok r0 -> forall k, k <> "par_REG" -> arg r0 k = arg (set_pars r1 s) k).
    { intros s. unfold update_inertial_REG. destruct (get_par_DYN (set_pars r1 s)) as [a| |]; cbn [bind]; try discriminate.
      destruct (all_some a) as [v|]; try discriminate.
      destruct (set_par_REG (set_pars r1 s) _) as [[r3 c]| |] eqn:E3; simpl; intros H1; inversion H1; subst.
      intros k Hk. eapply assign_sized_arg; [exact E3|exact Hk]. }
    rewrite T. unfold load_conf_par in E2.
    assert (X : exists s, ends (load_conf_tree r1 cfg) s /\ update_inertial_REG (set_pars r1 s) = Ok r0).
    { destruct (load_conf_tree r1 cfg) as [s|s|m]; try discriminate; exists s; split; auto; [left|right]; reflexivity. }
    destruct X as (s & Es & Eu). exists s. split; [exact Es|].
    assert (O : forall {A} (f : robot -> A), (forall a, f (with_args r1 a) = f r1) -> f r0 = f r1) by (intros A f Hf; rewrite AO; apply Hf).
    rewrite (O _ Dl_order), (O _ K_order), (O _ D_order), (O _ Dm_order), (O _ ELASTIC) by reflexivity.
    rewrite !(U s Eu) by discriminate. unfold arg, set_pars. cbn [args with_args].
    split; [|split; [|split; [|split; [|split]]]]; intros;
      repeat match goal with Hz : 0 < ?x |- context [Nat.ltb 0 ?x] => rewrite (proj2 (Nat.ltb_lt 0 x) Hz) end;
      repeat match goal with Hz : ELASTIC _ = true |- _ => rewrite Hz end;
      repeat match goal with |- context [if ?b then mset _ _ _ else _] => destruct b end;
      repeat (rewrite mget_mset_ne by discriminate); apply mget_mset.
Qed.
