(* load_conf of the generated class, on the file the class was generated from, after any calls. *)
From Coq Require Import Reals List Arith String Bool Lia ZArith.
From Verif.Model Require Import Base Expr SX Robot Kinematics Dynamics Regressors Yaml Inertia Build Template.
From Verif.Spec Require Import Math Setup State Config Template TReload.
From Verif.Spec Require Api.
From Verif.Proofs Require Import Calc Rel Maps Pure Names Shape Load State Values Init Final Get StateSess Files TSetters TFiles TSync TFacts TAgree TLoad TGet TSave TToy HeaderToy.
Import ListNotations.
Open Scope nat_scope.
Open Scope string_scope.

(* what a getter reads of a parameter is what the file says *)
Definition restored (r0 : robot) (k : string) (v : list R) : Prop :=
  selected (flags r0 k) <= List.length v /\ firstn (selected (flags r0 k)) v = pick (flags r0 k) (arg r0 k).
Lemma selected_zero k : selected (repeat 0%Z k) = 0.
Proof. induction k; [reflexivity|exact IHk]. Qed.
Lemma pick_none fl v : selected fl = 0 -> pick fl v = [].
Proof. intros H. pose proof (pick_selected fl v) as Q. rewrite H in Q. destruct (pick fl v); [reflexivity|discriminate]. Qed.
Lemma restored_none r0 k v : selected (flags r0 k) = 0 -> restored r0 k v.
Proof. intros H. unfold restored. rewrite H, (pick_none _ _ H). split; [lia|reflexivity]. Qed.
Lemma restored_pick r0 k : restored r0 k (pick (flags r0 k) (arg r0 k)).
Proof. unfold restored. rewrite <- (pick_selected (flags r0 k) (arg r0 k)). split; [lia|apply firstn_all]. Qed.

(* the flags of the section are those of the robot, unless the file has none: then no element is symbolic *)
Lemma section_any sec k fl : section_symb sec k = POk fl -> (forall cur, new_flags sec cur = Some fl) \/ (selected fl = 0 /\ forall cur, new_flags sec cur = Some cur).
Proof.
  unfold section_symb, new_flags. intros H. destruct (yidx sec "symb") as [s|]; cbn [ofy pbind ybind] in *; [|discriminate].
  destruct (ydef s).
  - left. intros cur. apply ofy_inv in H. exact H.
  - right. injection H as <-. split; [apply selected_zero|reflexivity].
Qed.

Section J.
  Variable junk : nat -> R.
  (* a stage that ends, on any object *)
  Definition stage_any (r0 : robot) (par sy : string) (x : prog tobj) (t : tobj) : Prop :=
    (exists m, x = Bad m) \/ (exists t1 val, x = Go t1 /\ stage par sy val t t1 /\ restored r0 par val).

  Lemma kin_any cfg r0 t : facts cfg r0 -> sized t -> List.length (arg r0 "par_DHtable") = 4 * t_n t ->
    List.length (flags r0 "par_DHtable") = 4 * t_n t -> stage_any r0 "par_DHtable" "DHtable_symb" (t_kinematics junk cfg t) t.
  Proof.
    intros F Hs Ha Hf. destruct (fc_kin _ _ F) as (kin & dhN & dh & E1 & E2 & E3 & <- & E5).
    unfold t_kinematics. rewrite E1, (yidx_vec _ _ _ _ E2 E3), E2. cbn [ybind]. rewrite E3. cbv zeta.
    destruct (section_any _ _ _ E5) as [N|[Z N]]; rewrite N.
    - replace (List.length (arg r0 "par_DHtable")) with (List.length (flags r0 "par_DHtable")) by congruence.
      rewrite picked_pick by lia. destruct (Nat.leb _ _); [|left; eauto]. right. eexists. eexists. split; [reflexivity|].
      split; [apply stage_intro; auto; simpl; auto|apply restored_pick].
    - destruct (picked _ _ _) as [l|]; [|left; eauto]. destruct (Nat.leb _ _); [|left; eauto]. right. eexists. eexists. split; [reflexivity|].
      split; [apply stage_intro; auto; simpl; auto|apply restored_none; exact Z].
  Qed.
  Lemma frame_any cfg r0 t sec par sy : facts cfg r0 -> sized t -> In (sec, par) [("Base_to_L0", "par_world2L0"); ("Ln_to_EE", "par_Ln2EE")] ->
    List.length (flags r0 par) = 6 -> stage_any r0 par sy (t_frame junk sec par sy cfg t) t.
  Proof.
    intros F Hs Hi Hf. destruct (fc_frame _ _ F sec par Hi) as (fr & tN & tr & yN & ypr & a & b & E1 & E2 & E3 & E4 & E5 & Ea & Eb & Ep & E6).
    assert (Hp : In par compacted) by (simpl in Hi; destruct Hi as [Q|[Q|[]]]; injection Q as <- <-; simpl; auto).
    unfold t_frame. rewrite E1, (yidx_vec _ _ _ _ E2 E3). cbv zeta.
    destruct (section_any _ _ _ E6) as [N|[Z N]]; rewrite N, E2, E4; cbn [ybind]; rewrite E3, E5.
    - destruct (three_split _ _ Ea) as (wa & -> & La). destruct (three_split _ _ Eb) as (wb & -> & Lb).
      pose proof (restored_pick r0 par) as RP. rewrite Ep in RP. unfold restored in RP.
      set (fl := flags r0 par) in *.
      assert (Hfl : fl = (firstn 3 fl ++ skipn 3 fl)%list) by (symmetry; apply firstn_skipn).
      assert (L1 : List.length (firstn 3 fl) = 3) by (rewrite firstn_length; lia).
      assert (L2 : List.length (skipn 3 fl) = 3) by (rewrite skipn_length; lia).
      assert (P1 : picked 3 fl (a ++ wa) = Some (pick (firstn 3 fl) a)).
      { rewrite Hfl at 1. rewrite picked_more by auto. rewrite <- L1 at 1. rewrite picked_pick by (rewrite app_length; lia).
        now rewrite pick_more by lia. }
      assert (P2 : picked 3 (skipn 3 fl) (b ++ wb) = Some (pick (skipn 3 fl) b)).
      { rewrite <- L2 at 1. rewrite picked_pick by (rewrite app_length; lia). now rewrite pick_more by lia. }
      assert (P3 : (pick (firstn 3 fl) a ++ pick (skipn 3 fl) b)%list = pick fl (a ++ b)) by (rewrite <- pick_app by lia; now rewrite firstn_skipn).
      rewrite P1, P2. right. eexists. eexists. split; [reflexivity|]. split; [apply stage_intro; auto|]. rewrite P3, <- Ep. apply restored_pick.
    - destruct (picked _ _ _); [|left; eauto]. destruct (picked _ _ _); [|left; eauto]. right. eexists. eexists. split; [reflexivity|].
      split; [apply stage_intro; auto|apply restored_none; exact Z].
  Qed.
  Lemma grav_any cfg r0 t : facts cfg r0 -> sized t -> List.length (flags r0 "par_gravity") = 3 ->
    stage_any r0 "par_gravity" "gravity_symb" (t_gravity junk cfg t) t.
  Proof.
    intros F Hs Hf. destruct (fc_grav _ _ F) as (g & E1 & E2 & E3). unfold t_gravity. rewrite E1.
    destruct (ydef g) eqn:D.
    - destruct (E3 eq_refl) as (vN & v & V1 & V2 & V3). cbv zeta.
      destruct (section_any _ _ _ E2) as [N|[Z N]]; rewrite N, V1; cbn [ybind]; rewrite V2.
      + destruct (three_split _ _ V3) as (w & -> & L).
        assert (P1 : picked 3 (flags r0 "par_gravity") (arg r0 "par_gravity" ++ w) = Some (pick (flags r0 "par_gravity") (arg r0 "par_gravity"))).
        { rewrite <- Hf at 1. rewrite picked_pick by (rewrite app_length; lia). now rewrite pick_more by lia. }
        rewrite P1. right. eexists. eexists. split; [reflexivity|]. split; [apply stage_intro; auto; simpl; auto|apply restored_pick].
      + destruct (picked _ _ _); [|left; eauto]. right. eexists. eexists. split; [reflexivity|].
        split; [apply stage_intro; auto; simpl; auto|apply restored_none; exact Z].
    - right. exists t, (member t "par_gravity"). split; [reflexivity|]. split.
      + constructor; auto. split; [exact Hs|apply same_class_refl].
      + apply restored_none.
        assert (flags r0 "par_gravity" = repeat 0%Z 3) as ->; [|reflexivity].
        unfold section_symb in E2. destruct g; try discriminate D; cbn [yidx ofy pbind ydef] in E2; try discriminate E2. injection E2 as E2. symmetry. exact E2.
  Qed.
End J.

(* ---- the links overwrite par_DYN completely ---- *)
Lemma splice_some p off v p' : splice p off v = Some p' -> p' = (firstn off p ++ v ++ skipn (off + List.length v) p)%list /\ off + List.length v <= List.length p.
Proof. unfold splice. destruct (Nat.leb_spec (off + List.length v) (List.length p)); [|discriminate]. intros E. injection E as <-. auto. Qed.
Lemma read_list_len nd : forall keys v, read_list nd keys = Some v -> List.length v = List.length keys.
Proof.
  induction keys as [|k keys IH]; cbn [read_list]; intros v E; [injection E as <-; reflexivity|].
  destruct (ybind (yidx nd k) as_double) as [x|]; cbn [ybind] in E; [|discriminate].
  destruct (read_list nd keys) as [l|]; cbn [ybind] in E; [|discriminate]. injection E as <-. cbn [List.length]. f_equal. apply IH. reflexivity.
Qed.
Lemma links_determine dlO l : forall left i s s' s1 s1', t_links l left i dlO s = Go s1 -> t_links l left i dlO s' = Go s1' ->
  left <= List.length l -> List.length (p_DYN s) = 10 * (i + left) -> List.length (p_DYN s') = 10 * (i + left) ->
  firstn (10 * i) (p_DYN s) = firstn (10 * i) (p_DYN s') -> p_DYN s1 = p_DYN s1'.
Proof.
  induction l as [|[k nd] l IH]; intros left i s s' s1 s1' E E' Hl L L' Q.
  - cbn [t_links] in E, E'. injection E as <-. injection E' as <-. cbn [List.length] in Hl. replace left with 0 in * by lia.
    rewrite Nat.add_0_r in *. rewrite <- L in Q at 1. rewrite <- L' in Q. rewrite !firstn_all in Q. exact Q.
  - destruct left as [|left].
    { cbn [t_links] in E, E'. injection E as <-. injection E' as <-. rewrite Nat.add_0_r in *. rewrite <- L in Q at 1. rewrite <- L' in Q. rewrite !firstn_all in Q. exact Q. }
    cbn [t_links] in E, E'. unfold STD_PAR_LINK in E, E'.
    destruct (ybind (yidx_c nd "inertial") (fun inertial => read_list inertial inertial_keys)) as [v|] eqn:Ev; [|discriminate].
    assert (Lv : List.length v = 10).
    { destruct (yidx_c nd "inertial") as [inr|]; cbn [ybind] in Ev; [|discriminate]. apply read_list_len in Ev. exact Ev. }
    destruct (splice (p_DYN s) (10 * i) v) as [p|] eqn:Ep; [|discriminate]. destruct (splice (p_DYN s') (10 * i) v) as [p'|] eqn:Ep'; [|discriminate].
    apply splice_some in Ep. apply splice_some in Ep'. destruct Ep as [-> B]. destruct Ep' as [-> B'].
    destruct (yidx_c nd "friction") as [fr|]; [|discriminate].
    set (P := (firstn (10 * i) (p_DYN s) ++ v ++ skipn (10 * i + List.length v) (p_DYN s))%list) in *.
    set (P' := (firstn (10 * i) (p_DYN s') ++ v ++ skipn (10 * i + List.length v) (p_DYN s'))%list) in *.
    assert (LP : List.length P = 10 * (S i + left)) by (unfold P; rewrite !app_length, firstn_length, skipn_length; lia).
    assert (LP' : List.length P' = 10 * (S i + left)) by (unfold P'; rewrite !app_length, firstn_length, skipn_length; lia).
    assert (QP : firstn (10 * S i) P = firstn (10 * S i) P').
    { unfold P, P'. rewrite !app_assoc.
      assert (X : forall q, 10 * i + List.length v <= List.length q -> firstn (10 * S i) ((firstn (10 * i) q ++ v) ++ skipn (10 * i + List.length v) q) = (firstn (10 * i) q ++ v)%list).
      { intros q Hq. rewrite firstn_app. assert (List.length (firstn (10 * i) q ++ v) = 10 * S i) as Y by (rewrite app_length, firstn_length; lia).
        rewrite Y, Nat.sub_diag. cbn [firstn]. rewrite app_nil_r. rewrite <- Y. apply firstn_all. }
      rewrite !X by assumption. now rewrite Q. }
    assert (G : forall s0 s2, gbind (if ydef fr then match ybind (yidx_c fr "Dl") (as_vector as_double) with
        | None => Caught s0 | Some v => lift_Dl s0 (read_vec v dlO 0 (dlO * i) (p_Dl s0)) end else Go s0) (fun s => t_links l left (S i) dlO s) = Go s2 ->
      exists s3, p_DYN s3 = p_DYN s0 /\ t_links l left (S i) dlO s3 = Go s2).
    { intros s0 s2 H. destruct (ydef fr); [|cbn [gbind] in H; eauto].
      destruct (ybind (yidx_c fr "Dl") (as_vector as_double)) as [w|]; [|discriminate].
      destruct (read_vec w dlO 0 (dlO * i) (p_Dl s0)) as [x|x|m]; cbn [lift_Dl gbind] in H; try discriminate. eexists. split; [|exact H]. reflexivity. }
    apply G in E. apply G in E'. destruct E as (s3 & D3 & E). destruct E' as (s3' & D3' & E'). cbn [p_DYN] in D3, D3'.
    apply (IH left (S i) s3 s3' s1 s1' E E'); [simpl in Hl; lia| | |]; rewrite ?D3, ?D3'; assumption.
Qed.

Lemma dyn_any upd cfg r0 t : facts cfg r0 -> complete_links inertial_keys (numJoints r0) cfg -> sized t -> t_n t = numJoints r0 ->
  (exists m, t_dynamics upd cfg t = Bad m) \/
  exists t1, t_dynamics upd cfg t = Go t1 /\ sized t1 /\ same_class t t1 /\
    (forall k, ~ In k ["par_DYN"; "par_Dl"; "par_K"; "par_D"; "par_Dm"; "par_Mm"; "par_REG"] -> member t1 k = member t k).
Proof.
  intros F Hc Hs En. destruct (fc_dyn _ _ F) as (dyn & Ed & _). unfold t_dynamics. rewrite Ed.
  destruct (ydef dyn) eqn:Dd; [|right; exists t; repeat (split; auto using same_class_refl)].
  pose proof (Hc dyn (yidx_entry _ _ _ Ed Dd)) as Hl. rewrite <- En in Hl.
  pose proof (t_links_nocatch (ychildren dyn) (t_n t) 0 (t_Dl t) (pars_of t) Hl) as N.
  pose proof (t_links_len (ychildren dyn) (t_n t) 0 (t_Dl t) (pars_of t)) as L.
  destruct (t_links _ _ _ _ _) as [s|s|m]; cbn [on_pars gbind]; [|exfalso; eapply N; reflexivity|left; eauto].
  destruct (kept_pars t t s (L s (or_introl eq_refl)) (conj Hs (same_class_refl t))) as [K1 K2].
  assert (O : forall k, ~ In k ["par_DYN"; "par_Dl"; "par_K"; "par_D"; "par_Dm"; "par_Mm"; "par_REG"] -> member (put_pars t s) k = member t k).
  { intros k Hk. rewrite put_pars_members. cbn [mfind].
    repeat match goal with |- context [String.eqb k ?x] => destruct (String.eqb_spec k x) as [->|?]; [exfalso; apply Hk; simpl; tauto|] end. reflexivity. }
  right. destruct upd.
  - rewrite update_REG_eq by auto. cbn [to_prog]. eexists. split; [reflexivity|].
    split. { apply sized_tput; auto. right. rewrite reg_links_len. symmetry. apply sized_DYN; auto. }
    split. { eapply same_class_trans; [exact K2|apply same_class_tput]. }
    intros k Hk. rewrite member_tput_ne; [apply O; exact Hk|]. intros ->. apply Hk. simpl. tauto.
  - eexists. split; [reflexivity|]. auto.
Qed.
Lemma elastic_any cfg t : sized t -> (exists m, t_elastic cfg t = Bad m) \/
  exists t1, (t_elastic cfg t = Go t1 \/ t_elastic cfg t = Caught t1) /\ sized t1 /\ same_class t t1 /\
    (forall k, ~ In k ["par_K"; "par_D"; "par_Dm"; "par_Mm"] -> member t1 k = member t k).
Proof.
  intros Hs. unfold t_elastic.
  assert (Same : exists t1, (Go t = Go t1 \/ Go t = Caught t1) /\ sized t1 /\ same_class t t1 /\
    (forall k, ~ In k ["par_K"; "par_D"; "par_Dm"; "par_Mm"] -> member t1 k = member t k)) by (exists t; repeat (split; auto using same_class_refl)).
  assert (Same' : exists t1, (Caught t = Go t1 \/ Caught t = Caught t1) /\ sized t1 /\ same_class t t1 /\
    (forall k, ~ In k ["par_K"; "par_D"; "par_Dm"; "par_Mm"] -> member t1 k = member t k)) by (exists t; repeat (split; auto using same_class_refl)).
  destruct (yidx cfg "elastic") as [e|]; [|right; exact Same']. destruct (ydef e); [|right; exact Same].
  destruct (yidx e "joints") as [js|]; [|right; exact Same'].
  assert (A : forall s, ends (load_elastic (ychildren js) (t_e t) 0 (t_K t) (t_D t) (t_Dm t) (pars_of t)) s ->
    sized (put_pars t s) /\ same_class t (put_pars t s) /\ forall k, ~ In k ["par_K"; "par_D"; "par_Dm"; "par_Mm"] -> member (put_pars t s) k = member t k).
  { intros s E. destruct (kept_pars t t s (load_elastic_len _ _ _ _ _ _ _ s E) (conj Hs (same_class_refl t))) as [K1 K2].
    pose proof (load_elastic_D _ _ _ _ _ _ _ _ E) as D1. pose proof (load_elastic_Dl _ _ _ _ _ _ _ _ E) as D2. cbn [pars_of p_DYN p_Dl] in D1, D2.
    split; [exact K1|]. split; [exact K2|]. intros k Hk. rewrite put_pars_members. cbn [mfind].
    destruct (String.eqb_spec k "par_DYN") as [->|?]; [exact D1|]. destruct (String.eqb_spec k "par_Dl") as [->|?]; [exact D2|].
    repeat match goal with |- context [String.eqb k ?x] => destruct (String.eqb_spec k x) as [->|?]; [exfalso; apply Hk; simpl; tauto|] end. reflexivity. }
  destruct (load_elastic _ _ _ _ _ _ _) as [s|s|m] eqn:E; cbn [on_pars]; [right|right|left; eauto].
  - destruct (A s (or_introl eq_refl)) as (A1 & A2 & A3). eexists. split; [left; reflexivity|]. auto.
  - destruct (A s (or_intror eq_refl)) as (A1 & A2 & A3). eexists. split; [right; reflexivity|]. auto.
Qed.

(* ---- rows of coefficients ---- *)
Lemma read_vec_go v : forall o j base p q, read_vec v o j base p = Go q -> j + o <= List.length v \/ o = 0.
Proof.
  induction o as [|o IH]; intros j base p q E; [right; reflexivity|]. cbn [read_vec] in E. destruct (nth_error v j) as [x|] eqn:Ex; [|discriminate].
  left. assert (j < List.length v) by (apply nth_error_Some; congruence). destruct (IH _ _ _ _ E); lia.
Qed.
Lemma rows_agree v o i N p p' q q' : read_vec v o 0 (o * i) p = Go q -> read_vec v o 0 (o * i) p' = Go q' -> i < N ->
  List.length p = o * N -> List.length p' = o * N -> firstn (o * i) p = firstn (o * i) p' ->
  List.length q = o * N /\ List.length q' = o * N /\ firstn (o * S i) q = firstn (o * S i) q'.
Proof.
  intros E E' Hi L L' Q.
  destruct (read_vec_go _ _ _ _ _ _ E) as [Hv|Ho].
  2: { subst o. cbn [read_vec] in E, E'. injection E as <-. injection E' as <-. cbn [Nat.mul firstn] in *. auto. }
  assert (B : o * i + o <= o * N) by (replace (o * i + o) with (o * S i) by lia; apply Nat.mul_le_mono_l; lia).
  rewrite read_vec_all in E, E' by lia. injection E as <-. injection E' as <-. rewrite !Nat.add_0_r in *. cbn [skipn].
  assert (Lv : List.length (firstn o v) = o) by (rewrite firstn_length; lia).
  assert (X : forall w, List.length w = o * N -> List.length (firstn (o * i) w ++ firstn o v ++ skipn (o * i + o) w) = o * N /\
    firstn (o * S i) (firstn (o * i) w ++ firstn o v ++ skipn (o * i + o) w) = (firstn (o * i) w ++ firstn o v)%list).
  { intros w Hw. split; [rewrite !app_length, Lv, firstn_length, skipn_length; lia|]. rewrite app_assoc, firstn_app.
    assert (Y : List.length (firstn (o * i) w ++ firstn o v) = o * S i) by (rewrite app_length, Lv, firstn_length; lia).
    rewrite Y, Nat.sub_diag. cbn [firstn]. rewrite app_nil_r, <- Y. apply firstn_all. }
  destruct (X p L) as [X1 X2]. destruct (X p' L') as [X3 X4]. split; [exact X1|]. split; [exact X3|]. rewrite X2, X4, Q. reflexivity.
Qed.
Lemma whole_prefix (o N : nat) (p p' : list R) : List.length p = o * N -> List.length p' = o * N -> firstn (o * N) p = firstn (o * N) p' -> p = p'.
Proof. intros L L' Q. rewrite <- L in Q at 1. rewrite <- L' in Q. rewrite !firstn_all in Q. exact Q. Qed.

(* the friction coefficients, when every link has some *)
Lemma links_determine_Dl dlO l : forall left i s s' s1 s1', t_links l left i dlO s = Go s1 -> t_links l left i dlO s' = Go s1' ->
  (forall k nd, In (k, nd) (firstn left l) -> exists fr, yidx_c nd "friction" = Some fr /\ ydef fr = true) ->
  left <= List.length l -> List.length (p_Dl s) = dlO * (i + left) -> List.length (p_Dl s') = dlO * (i + left) ->
  firstn (dlO * i) (p_Dl s) = firstn (dlO * i) (p_Dl s') -> p_Dl s1 = p_Dl s1'.
Proof.
  induction l as [|[k nd] l IH]; intros left i s s' s1 s1' E E' Hf Hl L L' Q.
  - cbn [t_links] in E, E'. injection E as <-. injection E' as <-. cbn [List.length] in Hl. replace left with 0 in * by lia.
    rewrite Nat.add_0_r in *. exact (whole_prefix _ _ _ _ L L' Q).
  - destruct left as [|left].
    { cbn [t_links] in E, E'. injection E as <-. injection E' as <-. rewrite Nat.add_0_r in *. exact (whole_prefix _ _ _ _ L L' Q). }
    cbn [t_links] in E, E'. destruct (ybind (yidx_c nd "inertial") (fun inertial => read_list inertial inertial_keys)) as [v|]; [|discriminate].
    destruct (splice (p_DYN s) _ v) as [p|]; [|discriminate]. destruct (splice (p_DYN s') _ v) as [p'|]; [|discriminate].
    destruct (Hf k nd (or_introl eq_refl)) as (fr & Ef & Df). rewrite Ef, Df in E, E'.
    destruct (ybind (yidx_c fr "Dl") (as_vector as_double)) as [w|]; [|discriminate]. cbn [p_Dl] in E, E'.
    destruct (read_vec w dlO 0 (dlO * i) (p_Dl s)) as [x|x|m] eqn:Ex; cbn [lift_Dl gbind p_DYN p_K p_D p_Dm p_Mm] in E; try discriminate.
    destruct (read_vec w dlO 0 (dlO * i) (p_Dl s')) as [x'|x'|m] eqn:Ex'; cbn [lift_Dl gbind p_DYN p_K p_D p_Dm p_Mm] in E'; try discriminate.
    destruct (rows_agree w dlO i (i + S left) _ _ _ _ Ex Ex' ltac:(lia) L L' Q) as (L1 & L2 & Q1).
    refine (IH left (S i) _ _ s1 s1' E E' _ _ _ _ _); cbn [p_Dl]; [|simpl in Hl; lia| | |exact Q1].
    + intros k' nd' Hi. apply (Hf k' nd'). right. exact Hi.
    + rewrite L1. f_equal. lia.
    + rewrite L2. f_equal. lia.
Qed.

(* the elastic coefficients, when every elastic joint has them *)
Record four (kO dO dmO N i : nat) (s s' : pars) : Prop := {
  fo_K : List.length (p_K s) = kO * N /\ List.length (p_K s') = kO * N /\ firstn (kO * i) (p_K s) = firstn (kO * i) (p_K s');
  fo_D : List.length (p_D s) = dO * N /\ List.length (p_D s') = dO * N /\ firstn (dO * i) (p_D s) = firstn (dO * i) (p_D s');
  fo_Dm : List.length (p_Dm s) = dmO * N /\ List.length (p_Dm s') = dmO * N /\ firstn (dmO * i) (p_Dm s) = firstn (dmO * i) (p_Dm s');
  fo_Mm : List.length (p_Mm s) = N /\ List.length (p_Mm s') = N /\ firstn i (p_Mm s) = firstn i (p_Mm s')
}.
Lemma order_agree nd key o i N p p' q q' : load_order nd key o (o * i) p = Go q -> load_order nd key o (o * i) p' = Go q' -> i < N ->
  List.length p = o * N /\ List.length p' = o * N /\ firstn (o * i) p = firstn (o * i) p' ->
  List.length q = o * N /\ List.length q' = o * N /\ firstn (o * S i) q = firstn (o * S i) q'.
Proof.
  intros E E' Hi (L & L' & Q). unfold load_order in E, E'. destruct (Nat.ltb_spec 0 o) as [Ho|Ho].
  - destruct (read_vector_key nd key) as [v|]; [|discriminate]. eapply rows_agree; eauto.
  - injection E as <-. injection E' as <-. assert (o = 0) as -> by lia. cbn [Nat.mul firstn] in *. auto.
Qed.
Lemma elastic_determine kO dO dmO N l : forall left i s s' s1 s1',
  load_elastic l left i kO dO dmO s = Go s1 -> load_elastic l left i kO dO dmO s' = Go s1' -> left <= List.length l -> i + left = N ->
  four kO dO dmO N i s s' -> p_K s1 = p_K s1' /\ p_D s1 = p_D s1' /\ p_Dm s1 = p_Dm s1' /\ p_Mm s1 = p_Mm s1'.
Proof.
  assert (Fin : forall i s s', i = N -> four kO dO dmO N i s s' -> p_K s = p_K s' /\ p_D s = p_D s' /\ p_Dm s = p_Dm s' /\ p_Mm s = p_Mm s').
  { intros i s s' -> [(a1 & a2 & a3) (b1 & b2 & b3) (c1 & c2 & c3) (d1 & d2 & d3)].
    repeat split; try (eapply whole_prefix; eauto; fail). apply (whole_prefix 1 N); rewrite ?Nat.mul_1_l; auto. }
  induction l as [|[k nd] l IH]; intros left i s s' s1 s1' E E' Hl Hn H4.
  - cbn [load_elastic] in E, E'. injection E as <-. injection E' as <-. apply (Fin i); [simpl in Hl; lia|exact H4].
  - destruct left as [|left].
    { cbn [load_elastic] in E, E'. injection E as <-. injection E' as <-. apply (Fin i); [lia|exact H4]. }
    cbn [load_elastic] in E, E'. destruct H4 as [HK HD HM HMm].
    destruct (load_order nd "K" kO (kO * i) (p_K s)) as [a|a|m] eqn:Ea; cbn [lift_K gbind p_DYN p_Dl p_K p_D p_Dm p_Mm] in E; try discriminate.
    destruct (load_order nd "K" kO (kO * i) (p_K s')) as [a'|a'|m] eqn:Ea'; cbn [lift_K gbind p_DYN p_Dl p_K p_D p_Dm p_Mm] in E'; try discriminate.
    destruct (load_order nd "D" dO (dO * i) (p_D s)) as [b|b|m] eqn:Eb; cbn [lift_D gbind p_DYN p_Dl p_K p_D p_Dm p_Mm] in E; try discriminate.
    destruct (load_order nd "D" dO (dO * i) (p_D s')) as [b'|b'|m] eqn:Eb'; cbn [lift_D gbind p_DYN p_Dl p_K p_D p_Dm p_Mm] in E'; try discriminate.
    destruct (load_order nd "Dm" dmO (dmO * i) (p_Dm s)) as [c|c|m] eqn:Ec; cbn [lift_Dm gbind p_DYN p_Dl p_K p_D p_Dm p_Mm] in E; try discriminate.
    destruct (load_order nd "Dm" dmO (dmO * i) (p_Dm s')) as [c'|c'|m] eqn:Ec'; cbn [lift_Dm gbind p_DYN p_Dl p_K p_D p_Dm p_Mm] in E'; try discriminate.
    destruct (ybind (yidx_c nd "Mm") as_double) as [x|]; [|discriminate].
    refine (IH left (S i) _ _ s1 s1' E E' _ _ _); [simpl in Hl; lia|lia|]. constructor; cbn [p_K p_D p_Dm p_Mm].
    + apply (order_agree nd "K" kO i N _ _ _ _ Ea Ea' ltac:(lia) HK).
    + apply (order_agree nd "D" dO i N _ _ _ _ Eb Eb' ltac:(lia) HD).
    + apply (order_agree nd "Dm" dmO i N _ _ _ _ Ec Ec' ltac:(lia) HM).
    + destruct HMm as (L & L' & Q). rewrite !Values.upd_len. split; [exact L|]. split; [exact L'|].
      assert (X : forall w : list R, List.length w = N -> firstn (S i) (Build.upd w i x) = (firstn i w ++ [x])%list).
      { intros w Hw. unfold Build.upd. rewrite lset_spec by lia. rewrite firstn_app, firstn_firstn, firstn_length.
        replace (Nat.min (S i) i) with i by lia. replace (S i - Nat.min i (List.length w)) with 1 by lia. reflexivity. }
      rewrite !X by assumption. now rewrite Q.
Qed.

Lemma entry_yidx nd k v : entry nd k = Some v -> yidx nd k = Some v.
Proof. destruct nd; cbn [entry yidx]; try discriminate. unfold mget. now intros ->. Qed.
(* the friction coefficients of every link: the class could not have been generated without *)
Definition frictions_given (n : nat) (cfg : ynode) : Prop :=
  forall dyn, entry cfg "dynamics" = Some dyn -> forall k nd, In (k, nd) (firstn n (ychildren dyn)) -> entry nd "friction" <> None.

Lemma link_flags_defined key w : forall l i acc r, link_flags key w l i acc = POk r -> forall k nd, In (k, nd) l -> entry nd key <> None.
Proof.
  induction l as [|[k nd] l IH]; intros i acc r H k' nd' Hi; [destruct Hi|].
  cbn [link_flags] in H. destruct (yidx_c nd key) as [sub|] eqn:E; cbn [ofy pbind] in H; [|discriminate].
  destruct (yidx sub "symb") as [s|] eqn:Es; cbn [ofy pbind] in H; [|discriminate].
  destruct Hi as [Hi|Hi].
  - injection Hi as <- <-. intros N. destruct nd; cbn [yidx_c entry] in *; try discriminate E; try (injection E as <-; discriminate Es).
    unfold mget in E. rewrite N in E. injection E as <-. discriminate Es.
  - destruct (if ydef s then _ else _); cbn [pbind] in H; try discriminate.
    destruct (copy_at acc (i * w) a); cbn [pbind] in H; try discriminate. eapply IH; eauto.
Qed.
Lemma firstn_in {A} (x : A) n l : In x (firstn n l) -> In x l.
Proof. intros H. rewrite <- (firstn_skipn n l). apply in_app_iff. auto. Qed.
Lemma parse_friction name cfg r n : parse_config name cfg = POk r -> 0 < Dl_order r -> frictions_given n cfg.
Proof.
  unfold parse_config. intros H. pinv H.
  match type of H with (let (_, _) := ?x in _) = _ => destruct x as [[[sK sD] sDm] sMm] eqn:Ex end.
  pinv H.
  match type of H with (if negb (Nat.eqb ?x ?y) then _ else _) = _ => destruct (Nat.eqb x y) eqn:Hjt end;
    cbn [negb] in H; [|discriminate].
  pinv H. injection H as <-. cbn [Dl_order]. intros Hd.
  repeat match goal with E : ofy _ = POk _ |- _ => apply ofy_inv in E end.
  intros dyn Ed k nd Hi. apply firstn_in in Hi.
  match goal with E : (if Nat.ltb 0 ?x then link_flags "friction" _ _ _ _ else _) = POk _ |- _ =>
    apply Nat.ltb_lt in Hd; rewrite Hd in E; refine (link_flags_defined _ _ _ _ _ _ E k nd _) end.
  match goal with E : yidx cfg "dynamics" = Some ?d |- _ => assert (d = dyn) by (pose proof (entry_yidx _ _ _ Ed); congruence); subst end. exact Hi.
Qed.
Lemma file_friction name cfg r0 n : robot_from_file name cfg false = Ok r0 -> 0 < Dl_order r0 -> frictions_given n cfg.
Proof.
  unfold robot_from_file. destruct (new_robot name cfg) as [r1| |] eqn:E; cbn [bind]; try discriminate.
  destruct (load_conf_par r1 cfg true) as [r2| |] eqn:E2; cbn [bind]; try discriminate.
  intros H; injection H as <-. unfold new_robot in E. destruct (parse_config name cfg) as [rp| | |] eqn:Ep; try discriminate.
  pose proof (parse_inv _ _ _ Ep) as PI. unfold initVarsFuns in E. rewrite (pa_jt _ _ PI), Nat.eqb_refl in E. cbn [negb] in E. injection E as E1.
  pose proof (load_conf_argsonly _ _ _ _ E2) as AO. intros Hd. apply (parse_friction _ _ _ n Ep).
  rewrite AO in Hd. rewrite <- E1 in Hd. exact Hd.
Qed.

(* ---- the two stages that keep what the file does not give ---- *)
Lemma sized_len k len t : sized t -> In (k, len) (member_sizes (t_n t) (t_e t) (t_K t) (t_D t) (t_Dl t) (t_Dm t)) -> ~ In k compacted -> List.length (member t k) = len.
Proof. intros Hs H. apply (Hs k len H). Qed.
Lemma put_pars_get t s : member (put_pars t s) "par_DYN" = p_DYN s /\ member (put_pars t s) "par_Dl" = p_Dl s /\ member (put_pars t s) "par_K" = p_K s /\
  member (put_pars t s) "par_D" = p_D s /\ member (put_pars t s) "par_Dm" = p_Dm s /\ member (put_pars t s) "par_Mm" = p_Mm s.
Proof. rewrite !put_pars_members. cbn [mfind]. repeat split. Qed.
Lemma class_same t0 t t' : same_class t0 t -> same_class t0 t' -> t_n t' = t_n t /\ t_e t' = t_e t /\ t_K t' = t_K t /\ t_D t' = t_D t /\ t_Dl t' = t_Dl t /\ t_Dm t' = t_Dm t.
Proof. intros [A B] [C D]. injection A as _ A1 A2 _. injection B as B1 B2 B3 B4. injection C as _ C1 C2 _. injection D as D1 D2 D3 D4. repeat split; congruence. Qed.

Lemma dyn_same upd cfg t0 t t' t1 t1' : sized t -> sized t' -> same_class t0 t -> same_class t0 t' -> links_given (t_n t0) cfg ->
  complete_links inertial_keys (t_n t0) cfg ->
  t_dynamics upd cfg t = Go t1 -> t_dynamics upd cfg t' = Go t1' ->
  member t1 "par_DYN" = member t1' "par_DYN" /\ (upd = true -> member t1 "par_REG" = member t1' "par_REG") /\
  (frictions_given (t_n t0) cfg -> member t1 "par_Dl" = member t1' "par_Dl").
Proof.
  intros Hs Hs' C C' (l & Ed & Hn) Hc E E'.
  destruct (same_class_ne _ _ C) as [N0 _].
  destruct (class_same t0 t t' C C') as (Cn & _ & _ & _ & CD & _). unfold t_dynamics in E, E'. rewrite (entry_yidx _ _ _ Ed) in E, E'. rewrite Cn, CD in E'.
  cbn [ydef ychildren] in E, E'.
  pose proof (Hc _ Ed) as Hc'. cbn [ychildren] in Hc'. rewrite <- N0 in Hn, Hc'.
  assert (LL : forall t, sized t -> List.length (member t "par_DYN") = 10 * t_n t /\ List.length (member t "par_Dl") = t_Dl t * t_n t).
  { intros u Hu. split; (apply sized_len; [exact Hu| |simpl; intuition discriminate]); unfold member_sizes; simpl; tauto. }
  destruct (LL t Hs) as [L1 L2]. destruct (LL t' Hs') as [L1' L2']. rewrite Cn in L1'. rewrite Cn, CD in L2'.
  pose proof (t_links_len l (t_n t) 0 (t_Dl t) (pars_of t)) as K. pose proof (t_links_len l (t_n t) 0 (t_Dl t) (pars_of t')) as K'.
  destruct (t_links l (t_n t) 0 (t_Dl t) (pars_of t)) as [s|s|m] eqn:Es; cbn [on_pars gbind] in E; try discriminate.
  destruct (t_links l (t_n t) 0 (t_Dl t) (pars_of t')) as [s'|s'|m] eqn:Es'; cbn [on_pars gbind] in E'; try discriminate.
  destruct (kept_pars t t s (K s (or_introl eq_refl)) (conj Hs (same_class_refl t))) as [S1 S2].
  destruct (kept_pars t' t' s' (K' s' (or_introl eq_refl)) (conj Hs' (same_class_refl t'))) as [S1' S2'].
  assert (QD : p_DYN s = p_DYN s') by (apply (links_determine _ _ _ _ _ _ _ _ Es Es'); cbn [pars_of p_DYN Nat.add]; auto).
  assert (QF : frictions_given (t_n t0) cfg -> p_Dl s = p_Dl s').
  { intros Hf. refine (links_determine_Dl _ _ _ _ _ _ _ _ Es Es' _ Hn L2 L2' _); [|rewrite Nat.mul_0_r; reflexivity].
    intros k nd Hi. pose proof (Hf _ Ed k nd) as X. cbn [ychildren] in X. rewrite <- N0 in X. specialize (X Hi).
    destruct (Hc' k nd Hi) as [_ [Y|(fr & dl & v & Y1 & Y2 & _)]]; [congruence|]. exists fr. split; [apply entry_yidx_c; exact Y1|].
    destruct fr; try discriminate Y2. reflexivity. }
  destruct (put_pars_get t s) as (G1 & G2 & _). destruct (put_pars_get t' s') as (G1' & G2' & _).
  set (u := put_pars t s) in *. set (u' := put_pars t' s') in *. clearbody u u'.
  destruct upd.
  - rewrite update_REG_eq in E by auto. rewrite update_REG_eq in E' by auto. cbn [to_prog] in E, E'. injection E as <-. injection E' as <-.
    rewrite !(member_tput_ne _ "par_DYN"), !(member_tput_ne _ "par_Dl") by discriminate. rewrite !member_tput, G1, G1', G2, G2', QD.
    destruct (same_class_ne _ _ S2) as [-> _]. destruct (same_class_ne _ _ S2') as [-> _]. rewrite Cn. auto.
  - injection E as <-. injection E' as <-. rewrite G1, G1', G2, G2'. split; [exact QD|]. split; [discriminate|exact QF].
Qed.

Lemma order_nocatch nd key o base p q : vector_at nd key -> load_order nd key o base p <> Caught q.
Proof.
  intros (v & l & E1 & E2). unfold load_order, read_vector_key. rewrite (entry_yidx_c _ _ _ E1). cbn [ybind]. rewrite E2.
  destruct (Nat.ltb 0 o); [|discriminate].
  assert (X : forall o j base p, read_vec l o j base p <> Caught q).
  { clear. induction o; intros j base p; cbn [read_vec]; [discriminate|]. destruct (nth_error l j); [|discriminate]. apply IHo. }
  apply X.
Qed.
Lemma elastic_nocatch kO dO dmO l : forall left i s s1,
  (forall k nd, In (k, nd) (firstn left l) -> vector_at nd "K" /\ vector_at nd "D" /\ vector_at nd "Dm" /\ number_at nd "Mm") ->
  load_elastic l left i kO dO dmO s <> Caught s1.
Proof.
  induction l as [|[k nd] l IH]; intros left i s s1 H; cbn [load_elastic]; [discriminate|]. destruct left as [|left]; [discriminate|].
  destruct (H k nd (or_introl eq_refl)) as (A & B & C & (v & x & D1 & D2)).
  destruct (load_order nd "K" kO (kO * i) (p_K s)) as [a|a|m] eqn:Ea; cbn [lift_K gbind p_DYN p_Dl p_K p_D p_Dm p_Mm]; try discriminate; [|exact (fun _ => order_nocatch _ _ _ _ _ _ A Ea)].
  destruct (load_order nd "D" dO (dO * i) (p_D s)) as [b|b|m] eqn:Eb; cbn [lift_D gbind p_DYN p_Dl p_K p_D p_Dm p_Mm]; try discriminate; [|exact (fun _ => order_nocatch _ _ _ _ _ _ B Eb)].
  destruct (load_order nd "Dm" dmO (dmO * i) (p_Dm s)) as [c|c|m] eqn:Ec; cbn [lift_Dm gbind p_DYN p_Dl p_K p_D p_Dm p_Mm]; try discriminate; [|exact (fun _ => order_nocatch _ _ _ _ _ _ C Ec)].
  rewrite (entry_yidx_c _ _ _ D1). cbn [ybind]. rewrite D2. apply IH. intros k' nd' Hi. apply (H k' nd'). right. exact Hi.
Qed.
Lemma elastic_same cfg t0 t t' t1 t1' : sized t -> sized t' -> same_class t0 t -> same_class t0 t' -> elastic_given (t_e t0) cfg ->
  t_elastic cfg t = Go t1 \/ t_elastic cfg t = Caught t1 -> t_elastic cfg t' = Go t1' \/ t_elastic cfg t' = Caught t1' ->
  forall k, In k ["par_K"; "par_D"; "par_Dm"; "par_Mm"] -> member t1 k = member t1' k.
Proof.
  intros Hs Hs' C C' (js & Ej & Hn & Hj) E E'.
  destruct (same_class_ne _ _ C) as [_ N0].
  destruct (class_same t0 t t' C C') as (_ & Ce & CK & CDD & _ & CDm).
  unfold entry2 in Ej. destruct (entry cfg "elastic") as [e|] eqn:Ee; [|discriminate].
  assert (De : ydef e = true) by (destruct e; try discriminate Ej; reflexivity).
  unfold t_elastic in E, E'. rewrite (entry_yidx _ _ _ Ee), De, (entry_yidx _ _ _ Ej) in E, E'. rewrite Ce, CK, CDD, CDm in E'. cbn [ychildren] in E, E'.
  rewrite <- N0 in Hn, Hj.
  pose proof (elastic_nocatch (t_K t) (t_D t) (t_Dm t) js (t_e t) 0 (pars_of t)) as NC.
  pose proof (elastic_nocatch (t_K t) (t_D t) (t_Dm t) js (t_e t) 0 (pars_of t')) as NC'.
  destruct (load_elastic js (t_e t) 0 (t_K t) (t_D t) (t_Dm t) (pars_of t)) as [s|s|m] eqn:Es; cbn [on_pars] in E.
  2: { exfalso. exact (NC s Hj eq_refl). } 2: { destruct E; discriminate. }
  destruct (load_elastic js (t_e t) 0 (t_K t) (t_D t) (t_Dm t) (pars_of t')) as [s'|s'|m] eqn:Es'; cbn [on_pars] in E'.
  2: { exfalso. exact (NC' s' Hj eq_refl). } 2: { destruct E'; discriminate. }
  destruct E as [E|E]; [injection E as <-|discriminate]. destruct E' as [E'|E']; [injection E' as <-|discriminate].
  assert (LL : forall t, sized t -> List.length (member t "par_K") = t_K t * t_e t /\ List.length (member t "par_D") = t_D t * t_e t /\
    List.length (member t "par_Dm") = t_Dm t * t_e t /\ List.length (member t "par_Mm") = t_e t).
  { intros u Hu. repeat split; (apply sized_len; [exact Hu| |simpl; intuition discriminate]); unfold member_sizes; simpl; tauto. }
  destruct (LL t Hs) as (a1 & a2 & a3 & a4). destruct (LL t' Hs') as (b1 & b2 & b3 & b4). rewrite Ce, CK in b1. rewrite Ce, CDD in b2. rewrite Ce, CDm in b3. rewrite Ce in b4.
  destruct (elastic_determine (t_K t) (t_D t) (t_Dm t) (t_e t) js (t_e t) 0 _ _ s s' Es Es' Hn eq_refl) as (Q1 & Q2 & Q3 & Q4).
  { constructor; cbn [pars_of p_K p_D p_Dm p_Mm]; rewrite ?Nat.mul_0_r; auto. }
  destruct (put_pars_get t s) as (_ & _ & G3 & G4 & G5 & G6). destruct (put_pars_get t' s') as (_ & _ & G3' & G4' & G5' & G6').
  intros k Hk. simpl in Hk. decompose [or] Hk; try contradiction; subst k; congruence.
Qed.

(* ---- the whole load ---- *)
Section L.
  Variable junk : nat -> R.
  Definition mid (cfg : ynode) (upd : bool) (r0 : robot) (t t' ta tb tc : tobj) : Prop :=
    sized ta /\ same_class (new_class r0) ta /\ t_dynamics upd cfg ta = Go tb /\
    sized tc /\ same_class (new_class r0) tc /\ (t_elastic cfg tc = Go t' \/ t_elastic cfg tc = Caught t') /\
    (forall k, In k ["par_DYN"; "par_Dl"; "par_REG"] -> member tc k = member tb k).
  Lemma load_any name cfg r0 upd t t' : robot_from_file name cfg false = Ok r0 -> well_formed r0 ->
    complete_links inertial_keys (numJoints r0) cfg -> sized t -> same_class (new_class r0) t ->
    t_load_conf junk t (Some cfg) upd = Ok t' ->
    sized t' /\ same_class (new_class r0) t' /\ (forall k, In k compacted -> restored r0 k (member t' k)) /\
    (forall k, ~ In k (compacted ++ ["par_DYN"; "par_Dl"; "par_K"; "par_D"; "par_Dm"; "par_Mm"; "par_REG"])%list -> member t' k = member t k) /\
    exists ta tb tc, mid cfg upd r0 t t' ta tb tc /\ (forall k, In k ["par_DYN"; "par_Dl"; "par_REG"] -> member t' k = member tb k).
  Proof.
    intros Hl Hw Hc S0 C0 E. destruct (robot_facts _ _ _ Hl) as [F _].
    assert (W : forall k len, In (k, len) [("par_DHtable", 4 * numJoints r0); ("par_world2L0", 6); ("par_Ln2EE", 6); ("par_gravity", 3)] ->
      List.length (flags r0 k) = len /\ List.length (arg r0 k) = len).
    { intros k len Hk. apply (wf_sizes _ Hw). unfold par_sizes. apply in_app_iff. left. simpl in Hk |- *. tauto. }
    destruct (W "par_DHtable" _ (or_introl eq_refl)) as [W1 W2].
    destruct (W "par_world2L0" 6) as [W3 _]; [simpl; auto|]. destruct (W "par_Ln2EE" 6) as [W4 _]; [simpl; auto|].
    destruct (W "par_gravity" 3) as [W5 _]; [simpl; auto|]. clear W.
    destruct (same_class_ne _ _ C0) as [N0 _]. change (t_n (new_class r0)) with (numJoints r0) in N0.
    unfold t_load_conf in E.
    destruct (kin_any junk cfg r0 t F S0) as [[m X]|(t1 & v1 & X & G1 & R1)]; [now rewrite N0|now rewrite N0|rewrite X in E; discriminate|]. rewrite X in E. cbn [gbind] in E. clear X.
    destruct (sg_kept _ _ _ _ _ G1) as [S1 C1].
    destruct (frame_any junk cfg r0 t1 "Base_to_L0" "par_world2L0" "world2L0_symb" F S1) as [[m X]|(t2 & v2 & X & G2 & R2)]; [simpl; auto|auto|rewrite X in E; discriminate|]. rewrite X in E. cbn [gbind] in E. clear X.
    destruct (sg_kept _ _ _ _ _ G2) as [S2 C2].
    destruct (frame_any junk cfg r0 t2 "Ln_to_EE" "par_Ln2EE" "Ln2EE_symb" F S2) as [[m X]|(t3 & v3 & X & G3 & R3)]; [simpl; auto|auto|rewrite X in E; discriminate|]. rewrite X in E. cbn [gbind] in E. clear X.
    destruct (sg_kept _ _ _ _ _ G3) as [S3 C3].
    assert (C03 : same_class (new_class r0) t3) by (eapply same_class_trans; [exact C0|eapply same_class_trans; [exact C1|eapply same_class_trans; eauto]]).
    destruct (same_class_ne _ _ C03) as [N3 _]. change (t_n (new_class r0)) with (numJoints r0) in N3.
    destruct (dyn_any upd cfg r0 t3 F Hc S3 N3) as [[m X]|(t4 & X4 & S4 & C4 & M4)]; [rewrite X in E; discriminate|]. rewrite X4 in E. cbn [gbind] in E.
    destruct (grav_any junk cfg r0 t4 F S4 W5) as [[m X]|(t5 & v5 & X & G5 & R5)]; [rewrite X in E; discriminate|]. rewrite X in E. cbn [gbind] in E. clear X.
    destruct (sg_kept _ _ _ _ _ G5) as [S5 C5].
    assert (C05 : same_class (new_class r0) t5) by (eapply same_class_trans; [exact C03|eapply same_class_trans; eauto]).
    destruct (elastic_any cfg t5 S5) as [[m X]|(t6 & X6 & S6 & C6 & M6)]; [rewrite X in E; discriminate|].
    assert (t6 = t') by (destruct X6 as [X|X]; rewrite X in E; injection E as <-; reflexivity). subst t6. clear E.
    split; [exact S6|]. split; [eapply same_class_trans; eauto|].
    assert (M5 : forall k, In k ["par_DYN"; "par_Dl"; "par_REG"] -> member t5 k = member t4 k).
    { intros k Hk. apply (sg_oth _ _ _ _ _ G5). intros ->. simpl in Hk. intuition discriminate. }
    split; [|split].
    - intros k Hk. rewrite M6 by (simpl in Hk |- *; intros Hi; decompose [or] Hk; subst; intuition discriminate).
      simpl in Hk. decompose [or] Hk; try contradiction; subst k.
      + rewrite (sg_oth _ _ _ _ _ G5), M4, (sg_oth _ _ _ _ _ G3), (sg_oth _ _ _ _ _ G2), (sg_val _ _ _ _ _ G1) by (discriminate || (simpl; intuition discriminate)). exact R1.
      + rewrite (sg_oth _ _ _ _ _ G5), M4, (sg_oth _ _ _ _ _ G3), (sg_val _ _ _ _ _ G2) by (discriminate || (simpl; intuition discriminate)). exact R2.
      + rewrite (sg_oth _ _ _ _ _ G5), M4, (sg_val _ _ _ _ _ G3) by (discriminate || (simpl; intuition discriminate)). exact R3.
      + rewrite (sg_val _ _ _ _ _ G5). exact R5.
    - intros k Hk. assert (Hk1 : ~ In k compacted) by (intros Hi; apply Hk; apply in_app_iff; auto).
      assert (Hk2 : ~ In k ["par_DYN"; "par_Dl"; "par_K"; "par_D"; "par_Dm"; "par_Mm"; "par_REG"]) by (intros Hi; apply Hk; apply in_app_iff; auto).
      assert (Hne : forall x, In x compacted -> k <> x) by (intros x Hx ->; exact (Hk1 Hx)).
      rewrite M6 by (simpl in Hk2 |- *; tauto). rewrite (sg_oth _ _ _ _ _ G5), M4, (sg_oth _ _ _ _ _ G3), (sg_oth _ _ _ _ _ G2), (sg_oth _ _ _ _ _ G1); auto; apply Hne; simpl; auto.
    - exists t3, t4, t5. split; [repeat (split; auto)|]. intros k Hk. rewrite M6 by (simpl in Hk |- *; intros Hi; decompose [or] Hk; subst; intuition discriminate). auto.
  Qed.
End L.

Section M.
  Variable junk : nat -> R.
  Theorem load_restores name cfg r0 r r' t t1 upd : session name cfg r0 r r' -> reached r t ->
    complete_links inertial_keys (numJoints r0) cfg -> links_given (numJoints r0) cfg ->
    (ELASTIC r0 = true -> elastic_given (numElasticJoints r0) cfg) ->
    t_load_conf junk t (Some cfg) upd = Ok t1 ->
    (forall k len, In (k, len) (state_sizes r0) -> member t1 k = member t k) /\
    (forall k, In k compacted -> selected (flags r0 k) <= List.length (member t1 k) /\ firstn (selected (flags r0 k)) (member t1 k) = pick (flags r0 k) (arg r0 k)) /\
    (forall k len, In (k, len) (par_sizes r0) -> ~ In k compacted -> member t1 k = arg r0 k) /\
    (upd = true -> same_links (numJoints r0) (arg r0 "par_DYN") (member t1 "par_REG")).
  Proof.
    intros S H Hc Hg He E. destruct (reached_kept r t H) as [Hs Hk]. rewrite (new_class_eq _ _ _ _ _ S) in Hk.
    pose proof (se_load _ _ _ _ _ S) as Hl. pose proof (se_wf _ _ _ _ _ S) as Hw.
    destruct (load_conf_agrees junk name cfg r0 upd Hl Hw Hc) as (tf & Ef & _ & Cf & _ & Af).
    destruct (load_any junk name cfg r0 upd t t1 Hl Hw Hc Hs Hk E) as (S1 & C1 & R1 & O1 & ta & tb & tc & (A1 & A2 & A3 & A4 & A5 & A6 & A7) & B1).
    destruct (load_any junk name cfg r0 upd _ tf Hl Hw Hc (new_sized r0) (same_class_refl _) Ef) as (S2 & C2 & _ & _ & ua & ub & uc & (U1 & U2 & U3 & U4 & U5 & U6 & U7) & V1).
    destruct (dyn_same upd cfg (new_class r0) ta ua tb ub A1 U1 A2 U2 Hg Hc A3 U3) as (Q1 & Q2 & Q3).
    assert (PD : member t1 "par_DYN" = member tf "par_DYN") by (rewrite B1, V1 by (simpl; auto); exact Q1).
    assert (DA : member tf "par_DYN" = arg r0 "par_DYN").
    { apply (Af "par_DYN" (10 * numJoints r0)); [unfold par_sizes; apply in_app_iff; left; simpl; tauto|simpl; intuition discriminate]. }
    split; [|split; [exact R1|split]].
    - intros k len Hi. apply O1. intros Hn. pose proof (state_mem _ _ _ Hi) as X. apply existsb_exists in X. destruct X as (x & Hx & Ex). apply String.eqb_eq in Ex. subst x.
      simpl in Hx, Hn. decompose [or] Hx; try contradiction; subst k; intuition discriminate.
    - intros k len Hi Hn. rewrite <- (Af k len Hi Hn). unfold par_sizes in Hi. apply in_app_iff in Hi. destruct Hi as [Hi|Hi].
      { simpl in Hi. decompose [or] Hi; try contradiction; match goal with X : _ = _ |- _ => injection X as <- <- end; try (destruct Hn; simpl; tauto). exact PD. }
      apply in_app_iff in Hi. destruct Hi as [Hi|Hi].
      { destruct (Nat.ltb_spec 0 (Dl_order r0)) as [Hd|Hd]; [|destruct Hi]. simpl in Hi. destruct Hi as [Hi|[]]. injection Hi as <- <-.
        rewrite B1, V1 by (simpl; auto). exact (Q3 (file_friction _ _ _ _ Hl Hd)). }
      destruct (ELASTIC r0); [|destruct Hi]. pose proof (elastic_same cfg (new_class r0) tc uc t1 tf A4 U4 A5 U5 (He eq_refl) A6 U6 k) as X. apply X.
      simpl in Hi. decompose [or] Hi; try contradiction; match goal with X : _ = _ |- _ => injection X as <- <- end; simpl; tauto.
    - intros ->. assert (Y : t_sync tf).
      { refine (history_sync junk r0 [CLoadConf (Some cfg) true] _ tf _).
        - intros c [<-|[]]. split; [reflexivity|]. intros cfg' X. injection X as <-. exact Hc.
        - cbn [t_do_all t_do]. rewrite Ef. reflexivity. }
      unfold t_sync in Y. destruct (same_class_ne _ _ C2) as [N _]. rewrite N in Y. change (t_n (new_class r0)) with (numJoints r0) in Y.
      rewrite DA in Y. rewrite B1 by (simpl; auto). rewrite (Q2 eq_refl), <- V1 by (simpl; auto). exact Y.
  Qed.
  Theorem load_restores_built name cfg r0 r r' t t1 upd : session name cfg r0 r r' -> reached r t ->
    complete_links inertial_keys (numJoints r0) cfg -> links_given (numJoints r0) cfg ->
    (ELASTIC r0 = true -> elastic_given (numElasticJoints r0) cfg) ->
    t_load_conf junk t (Some cfg) upd = Ok t1 ->
    (forall k len, In (k, len) (state_sizes r0) -> member t1 k = member t k) /\
    (forall k len, In (k, len) (par_sizes r0) -> In k compacted -> firstn (List.length (arg r k)) (member t1 k) = arg r k) /\
    (forall k len, In (k, len) (par_sizes r0) -> ~ In k compacted -> member t1 k = arg r0 k) /\
    (upd = true -> same_links (numJoints r0) (arg r0 "par_DYN") (member t1 "par_REG")).
  Proof.
    intros S H Hc Hg He E. destruct (load_restores name cfg r0 r r' t t1 upd S H Hc Hg He E) as (A & B & C & D). split; [exact A|]. split; [|auto].
    intros k len Hi Hk. destruct (session_sess _ _ _ _ _ S) as (b & _ & Bt).
    rewrite (bt_arg _ _ _ Bt k len) by (unfold keys; apply in_app_iff; right; exact Hi). rewrite pick_selected. apply B. exact Hk.
  Qed.
  Theorem load_answers name cfg r0 r r' t t1 upd : session name cfg r0 r r' -> reached r t ->
    complete_links inertial_keys (numJoints r0) cfg -> links_given (numJoints r0) cfg ->
    (ELASTIC r0 = true -> elastic_given (numElasticJoints r0) cfg) ->
    (forall k len, In (k, len) (par_sizes r0) -> ~ In k compacted -> uniform (flags r0 k)) ->
    t_load_conf junk t (Some cfg) upd = Ok t1 ->
    (forall k len, In (k, len) (state_sizes r0) -> arg r' k = member t k) ->
    (forall k len, In (k, len) (par_sizes r0) -> arg r' k = arg r k) ->
    forall nm, Api.published r nm -> t_get r t1 nm = get r' nm.
  Proof.
    intros S H Hc Hg He Hu E Hst Hpa nm Hp. destruct (load_restores name cfg r0 r r' t t1 upd S H Hc Hg He E) as (A & B & C & _).
    destruct (reached_kept r t H) as [Hs Hk]. pose proof Hk as Hk'. rewrite (new_class_eq _ _ _ _ _ S) in Hk'.
    destruct (load_any junk name cfg r0 upd t t1 (se_load _ _ _ _ _ S) (se_wf _ _ _ _ _ S) Hc Hs Hk' E) as (S1 & C1 & _).
    apply (getter_reads name cfg r0 r r' t1 S S1); auto; [rewrite (new_class_eq _ _ _ _ _ S); exact C1| |].
    - intros k len Hi. rewrite (A k len Hi). eauto.
    - intros k len Hi. rewrite (Hpa k len Hi). destruct (session_sess _ _ _ _ _ S) as (b & _ & Bt).
      rewrite (bt_arg _ _ _ Bt k len) by (unfold keys; apply in_app_iff; right; exact Hi).
      destruct (in_dec string_dec k compacted) as [X|X]; [symmetry; apply B; exact X|].
      rewrite (C k len Hi X). symmetry. destruct (wf_sizes _ (se_wf _ _ _ _ _ S) k len Hi). apply uniform_pick; [eapply Hu; eauto|congruence].
  Qed.
End M.
