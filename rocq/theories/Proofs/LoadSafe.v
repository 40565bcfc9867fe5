(* Loading the numeric parameters of a configuration stays inside the lists it reads. *)
From Coq Require Import Reals List Arith String Bool Lia ZArith.
From Verif.Model Require Import Base Expr SX Robot Yaml Inertia Build.
From Verif.Spec Require Import Setup Config State.
From Verif.Proofs Require Import Maps Load InertiaConv StateSess Parse.
Import ListNotations.
Open Scope nat_scope.
Open Scope string_scope.

Lemma read_keys_bad nd keys : forall pos p m, read_keys nd keys pos p <> Bad m.
Proof. induction keys as [|k t IH]; cbn [read_keys]; intros pos p m; [discriminate|]. destruct (ybind _ _); [apply IH|discriminate]. Qed.
Lemma read_vec_bad v : forall order j base p m, j + order <= List.length v -> read_vec v order j base p <> Bad m.
Proof.
  induction order as [|o IH]; cbn [read_vec]; intros j base p m H; [discriminate|].
  destruct (nth_error v j) eqn:E; [apply IH; lia|]. apply nth_error_None in E. lia.
Qed.
Lemma gbind_bad {S} (x : prog S) f m : gbind x f = Bad m -> x = Bad m \/ exists s, x = Go s /\ f s = Bad m.
Proof. destruct x; cbn; intros H; try discriminate; eauto. Qed.
Lemma lift_DYN_bad s x m : lift_DYN s x = Bad m -> x = Bad m. Proof. destruct x; cbn; congruence. Qed.
Lemma lift_Dl_bad s x m : lift_Dl s x = Bad m -> x = Bad m. Proof. destruct x; cbn; congruence. Qed.
Lemma lift_K_bad s x m : lift_K s x = Bad m -> x = Bad m. Proof. destruct x; cbn; congruence. Qed.
Lemma lift_D_bad s x m : lift_D s x = Bad m -> x = Bad m. Proof. destruct x; cbn; congruence. Qed.
Lemma lift_Dm_bad s x m : lift_Dm s x = Bad m -> x = Bad m. Proof. destruct x; cbn; congruence. Qed.

Lemma load_links_bad dlO l : (forall k link v, In (k, link) l -> entry2 link "friction" "Dl" = Some v -> dlO <= items v) ->
  forall left i s m, load_links l left i dlO s <> Bad m.
Proof.
  induction l as [|(k & nd) l IH]; intros Hl left i s m H; cbn [load_links] in H; [discriminate|].
  destruct (yidx_c nd "inertial") as [inertial|]; [|discriminate]. destruct left as [|left]; [discriminate|].
  apply gbind_bad in H. destruct H as [H|(s1 & _ & H)]; [apply lift_DYN_bad in H; eapply read_keys_bad; eauto|].
  destruct (yidx_c nd "friction") as [fr|] eqn:Ef; [|discriminate].
  apply gbind_bad in H. destruct H as [H|(s2 & _ & H)].
  - destruct (ydef fr) eqn:Ed; [|discriminate]. destruct (yidx_c fr "Dl") as [dl|] eqn:Edl; [|discriminate]. cbn [ybind] in H.
    destruct (as_vector as_double dl) as [v|] eqn:Ev; [|discriminate]. apply lift_Dl_bad in H.
    apply read_vec_bad in H; auto. cbn. rewrite <- (as_vector_items _ _ _ Ev). apply (Hl k nd); [left; reflexivity|].
    apply yidx_c_entry in Ef, Edl. unfold entry2. destruct (entry nd "friction") as [n|]; subst fr; [|discriminate].
    destruct (entry n "Dl"); subst dl; [reflexivity|discriminate].
  - eapply IH; [|exact H]. intros k' nd' v' Hi. apply (Hl k'). right; exact Hi.
Qed.
Lemma load_order_bad nd key order base p m : (forall v, entry nd key = Some v -> order <= items v) -> load_order nd key order base p <> Bad m.
Proof.
  intros Hl H. unfold load_order in H. destruct (Nat.ltb 0 order); [|discriminate]. unfold read_vector_key in H.
  destruct (yidx_c nd key) as [n|] eqn:En; [|discriminate]. cbn [ybind] in H. destruct (as_vector as_double n) as [v|] eqn:Ev; [|discriminate].
  apply read_vec_bad in H; auto. cbn. rewrite <- (as_vector_items _ _ _ Ev). apply Hl. apply yidx_c_entry in En.
  destruct (entry nd key); subst n; [reflexivity|discriminate].
Qed.
Lemma load_elastic_bad kO dO dmO l :
  (forall k joint key v, In (k, joint) l -> In key [("K", kO); ("D", dO); ("Dm", dmO)] -> entry joint (fst key) = Some v -> snd key <= items v) ->
  forall left i s m, load_elastic l left i kO dO dmO s <> Bad m.
Proof.
  induction l as [|(k & nd) l IH]; intros Hl left i s m H; destruct left as [|left]; cbn [load_elastic] in H; try discriminate.
  apply gbind_bad in H. destruct H as [H|(s1 & _ & H)].
  { apply lift_K_bad, load_order_bad in H; auto. intros v. apply (Hl k nd ("K", kO)); simpl; auto. }
  apply gbind_bad in H. destruct H as [H|(s2 & _ & H)].
  { apply lift_D_bad, load_order_bad in H; auto. intros v. apply (Hl k nd ("D", dO)); simpl; auto. }
  apply gbind_bad in H. destruct H as [H|(s3 & _ & H)].
  { apply lift_Dm_bad, load_order_bad in H; auto. intros v. apply (Hl k nd ("Dm", dmO)); simpl; auto. }
  destruct (ybind _ _); [|discriminate].
  eapply IH; [|exact H]. intros k' nd' key v' Hi. apply (Hl k'). right; exact Hi.
Qed.
Lemma load_tree_bad r cfg m : fills r cfg -> load_conf_tree r cfg <> Bad m.
Proof.
  intros F H. unfold load_conf_tree in H. destruct (yidx cfg "dynamics") as [d|] eqn:Ed; [|discriminate].
  apply gbind_bad in H. destruct H as [H|(s & _ & H)].
  - destruct (ychildren d) as [|c cs] eqn:Ec; [discriminate|]. rewrite <- Ec in H. eapply load_links_bad; [|exact H].
    intros k link v Hi Hv. apply (fl_friction _ _ F d k link v); auto. apply yidx_entry in Ed.
    destruct (entry cfg "dynamics"); subst d; [reflexivity|discriminate].
  - destruct (ELASTIC r); [|discriminate]. destruct (yidx cfg "elastic") as [e|] eqn:Ee; [|discriminate]. destruct (ydef e) eqn:Ede; [|discriminate].
    destruct (yidx e "joints") as [js|] eqn:Ej; [|discriminate].
    destruct (ychildren js) as [|c cs] eqn:Ec; [discriminate|]. rewrite <- Ec in H. eapply load_elastic_bad; [|exact H].
    intros k joint key v Hi. apply (fl_elastic _ _ F js k joint key v); auto. apply yidx_entry in Ee, Ej. unfold entry2.
    destruct (entry cfg "elastic") as [n|]; subst e; [|discriminate]. destruct (entry n "joints"); subst js; [reflexivity|discriminate].
Qed.

Lemma new_robot_parsed name cfg r : new_robot name cfg = Ok r -> exists r1, parse_config name cfg = POk r1 /\ initVarsFuns r1 = Ok r.
Proof. unfold new_robot. destruct (parse_config name cfg); try discriminate. eauto. Qed.
Theorem load_safe name cfg m : fits cfg -> (forall r, reports cfg r -> fills r cfg) -> robot_from_file name cfg false <> UB m.
Proof.
  intros F FL H. unfold robot_from_file in H.
  destruct (new_robot name cfg) as [r1| |] eqn:E; cbn [bind] in H; try discriminate.
  - destruct (load_conf_par r1 cfg true) as [r2| |m0] eqn:E2; cbn [bind] in H; try discriminate. clear H.
    unfold load_conf_par in E2. destruct (new_robot_parsed _ _ _ E) as (rp & Ep & Ei).
    assert (FF : fills r1 cfg).
    { pose proof (FL rp (parse_reports _ _ _ Ep)) as FP. unfold initVarsFuns in Ei. destruct (negb _); [discriminate|].
      inversion Ei; subst r1. destruct FP. constructor; assumption. }
    assert (G : forall s, ends (load_conf_tree r1 cfg) s -> update_inertial_REG (set_pars r1 s) <> UB m0).
    { intros s Hs Hu. destruct (to_REG (set_pars r1 s)) as (r2 & E3 & _).
      - rewrite set_pars_DYN. exact (load_tree_len _ _ _ Hs).
      - rewrite set_pars_REG. exact (new_robot_REG _ _ _ E).
      - congruence. }
    destruct (load_conf_tree r1 cfg) as [s|s|] eqn:ET.
    + apply (G s); [left; reflexivity|exact E2].
    + apply (G s); [right; reflexivity|exact E2].
    + eapply load_tree_bad; eauto.
  - unfold new_robot in E. destruct (parse_config name cfg) as [rp| | |] eqn:Ep; try discriminate.
    + unfold initVarsFuns in E. destruct (negb _); discriminate.
    + eapply parse_safe; eauto.
Qed.
