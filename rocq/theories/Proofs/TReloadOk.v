(* Loading the own configuration again returns normally, whatever was called before. *)
From Coq Require Import Reals List Arith String Bool Lia ZArith.
From Verif.Model Require Import Base Expr SX Robot Kinematics Dynamics Regressors Yaml Inertia Build Template.
From Verif.Spec Require Import Math Setup State Config Template TReload.
From Verif.Proofs Require Import Calc Rel Maps Pure Names Shape Load State Values Init Final Get StateSess Files TSetters TFiles TSync TFacts TAgree TLoad TGet TSave TToy TReload.
Import ListNotations.
Open Scope nat_scope.
Open Scope string_scope.

(* the two runs end in the same way *)
Definition alike {S} (x y : prog S) : Prop :=
  match x, y with Go _, Go _ | Caught _, Caught _ | Bad _, Bad _ => True | _, _ => False end.
Lemma read_vec_alike v : forall o j base p p', alike (read_vec v o j base p) (read_vec v o j base p').
Proof. induction o as [|o IH]; intros j base p p'; cbn [read_vec]; [exact I|]. destruct (nth_error v j); [apply IH|exact I]. Qed.
Lemma order_alike nd key o base p p' : alike (load_order nd key o base p) (load_order nd key o base p').
Proof. unfold load_order. destruct (Nat.ltb 0 o); [|exact I]. destruct (read_vector_key nd key); [apply read_vec_alike|exact I]. Qed.
Lemma links_alike dlO l : forall left i s s', List.length (p_DYN s) = List.length (p_DYN s') -> alike (t_links l left i dlO s) (t_links l left i dlO s').
Proof.
  induction l as [|[k nd] l IH]; intros left i s s' L; cbn [t_links]; [exact I|]. destruct left as [|left]; [exact I|].
  destruct (ybind (yidx_c nd "inertial") (fun inertial => read_list inertial inertial_keys)) as [v|]; [|exact I].
  unfold splice. rewrite L. destruct (Nat.leb_spec (STD_PAR_LINK * i + List.length v) (List.length (p_DYN s'))) as [B|B]; [|exact I].
  destruct (yidx_c nd "friction") as [fr|]; [|exact I].
  assert (X : forall q q' : list R, List.length q = List.length q' -> STD_PAR_LINK * i + List.length v <= List.length q ->
    List.length (firstn (STD_PAR_LINK * i) q ++ v ++ skipn (STD_PAR_LINK * i + List.length v) q) =
    List.length (firstn (STD_PAR_LINK * i) q' ++ v ++ skipn (STD_PAR_LINK * i + List.length v) q')).
  { intros q q' E _. rewrite !app_length, !firstn_length, !skipn_length, E. reflexivity. }
  specialize (X _ _ L ltac:(lia)). destruct (ydef fr); cbn [gbind]; [|apply IH; exact X].
  destruct (ybind (yidx_c fr "Dl") (as_vector as_double)) as [w|]; [|exact I]. cbn [p_Dl].
  pose proof (read_vec_alike w dlO 0 (dlO * i) (p_Dl s) (p_Dl s')) as A.
  destruct (read_vec w dlO 0 (dlO * i) (p_Dl s)), (read_vec w dlO 0 (dlO * i) (p_Dl s')); try destruct A; cbn [lift_Dl gbind]; try exact I. apply IH. exact X.
Qed.
Lemma elastic_alike kO dO dmO l : forall left i s s', alike (load_elastic l left i kO dO dmO s) (load_elastic l left i kO dO dmO s').
Proof.
  induction l as [|[k nd] l IH]; intros left i s s'; cbn [load_elastic]; [exact I|]. destruct left as [|left]; [exact I|].
  pose proof (order_alike nd "K" kO (kO * i) (p_K s) (p_K s')) as A.
  destruct (load_order nd "K" kO (kO * i) (p_K s)), (load_order nd "K" kO (kO * i) (p_K s')); try destruct A; cbn [lift_K gbind p_DYN p_Dl p_K p_D p_Dm p_Mm]; try exact I.
  pose proof (order_alike nd "D" dO (dO * i) (p_D s) (p_D s')) as A.
  destruct (load_order nd "D" dO (dO * i) (p_D s)), (load_order nd "D" dO (dO * i) (p_D s')); try destruct A; cbn [lift_D gbind p_DYN p_Dl p_K p_D p_Dm p_Mm]; try exact I.
  pose proof (order_alike nd "Dm" dmO (dmO * i) (p_Dm s) (p_Dm s')) as A.
  destruct (load_order nd "Dm" dmO (dmO * i) (p_Dm s)), (load_order nd "Dm" dmO (dmO * i) (p_Dm s')); try destruct A; cbn [lift_Dm gbind p_DYN p_Dl p_K p_D p_Dm p_Mm]; try exact I.
  destruct (ybind (yidx_c nd "Mm") as_double); [apply IH|exact I].
Qed.

Lemma dynamics_alike upd cfg t0 t t' : sized t -> sized t' -> same_class t0 t -> same_class t0 t' -> alike (t_dynamics upd cfg t) (t_dynamics upd cfg t').
Proof.
  intros Hs Hs' C C'. destruct (class_same t0 t t' C C') as (Cn & _ & _ & _ & CD & _). unfold t_dynamics. rewrite Cn, CD.
  destruct (yidx cfg "dynamics") as [dyn|]; [|exact I]. destruct (ydef dyn); [|exact I].
  pose proof (links_alike (t_Dl t) (ychildren dyn) (t_n t) 0 (pars_of t) (pars_of t')) as A.
  assert (L : List.length (p_DYN (pars_of t)) = List.length (p_DYN (pars_of t'))).
  { destruct (sized_DYN t Hs) as [L _]. destruct (sized_DYN t' Hs') as [L' _]. cbn [pars_of p_DYN]. rewrite L, L', Cn. reflexivity. }
  specialize (A L). pose proof (t_links_len (ychildren dyn) (t_n t) 0 (t_Dl t) (pars_of t)) as K. pose proof (t_links_len (ychildren dyn) (t_n t) 0 (t_Dl t) (pars_of t')) as K'.
  destruct (t_links (ychildren dyn) (t_n t) 0 (t_Dl t) (pars_of t)) as [s|s|m], (t_links (ychildren dyn) (t_n t) 0 (t_Dl t) (pars_of t')) as [s'|s'|m']; try destruct A; cbn [on_pars gbind]; try exact I.
  destruct upd; [|exact I].
  destruct (kept_pars t t s (K s (or_introl eq_refl)) (conj Hs (same_class_refl t))) as [S1 _].
  destruct (kept_pars t' t' s' (K' s' (or_introl eq_refl)) (conj Hs' (same_class_refl t'))) as [S1' _].
  rewrite !update_REG_eq by assumption. exact I.
Qed.
Lemma telastic_alike cfg t0 t t' : same_class t0 t -> same_class t0 t' -> alike (t_elastic cfg t) (t_elastic cfg t').
Proof.
  intros C C'. destruct (class_same t0 t t' C C') as (_ & Ce & CK & CDD & _ & CDm). unfold t_elastic. rewrite Ce, CK, CDD, CDm.
  destruct (yidx cfg "elastic") as [e|]; [|exact I]. destruct (ydef e); [|exact I]. destruct (yidx e "joints") as [js|]; [|exact I].
  pose proof (elastic_alike (t_K t) (t_D t) (t_Dm t) (ychildren js) (t_e t) 0 (pars_of t) (pars_of t')) as A.
  destruct (load_elastic _ _ _ _ _ _ (pars_of t)), (load_elastic _ _ _ _ _ _ (pars_of t')); try destruct A; exact I.
Qed.

(* the kinematic stages do not fail when the flags are given *)
Lemma section_given sec k fl v : section_symb sec k = POk fl -> entry sec "symb" = Some (YSeq v) -> forall cur, new_flags sec cur = Some fl.
Proof.
  intros H E cur. unfold section_symb in H. unfold new_flags. rewrite (entry_yidx _ _ _ E) in *. cbn [ofy pbind ybind ydef] in *. apply ofy_inv in H. exact H.
Qed.
Lemma entry2_idx cfg a b v sec : entry2 cfg a b = Some v -> yidx cfg a = Some sec -> entry sec b = Some v.
Proof. unfold entry2. destruct (entry cfg a) as [m|] eqn:E; [|discriminate]. intros H Q. rewrite (entry_yidx _ _ _ E) in Q. injection Q as <-. exact H. Qed.
Section J.
  Variable junk : nat -> R.
  Lemma kin_ok cfg r0 t m : facts cfg r0 -> List.length (arg r0 "par_DHtable") = 4 * t_n t -> List.length (flags r0 "par_DHtable") = 4 * t_n t ->
    flags_given cfg -> t_kinematics junk cfg t <> Bad m.
  Proof.
    intros F Ha Hf [G _]. destruct (fc_kin _ _ F) as (kin & dhN & dh & E1 & E2 & E3 & <- & E5).
    destruct (G "kinematics") as [v Ev]; [simpl; auto|]. pose proof (section_given _ _ _ _ E5 (entry2_idx _ _ _ _ _ Ev E1)) as N.
    unfold t_kinematics. rewrite E1, (yidx_vec _ _ _ _ E2 E3), E2. cbn [ybind]. rewrite E3. cbv zeta. rewrite N.
    replace (List.length (arg r0 "par_DHtable")) with (List.length (flags r0 "par_DHtable")) by congruence.
    rewrite picked_pick by lia. rewrite pick_selected.
    match goal with |- context [Nat.leb ?x ?y] => change y with (t_n t * 4) end.
    destruct (Nat.leb_spec (selected (flags r0 "par_DHtable")) (t_n t * 4)) as [B|B]; [discriminate|].
    exfalso.
    assert (Y : forall fl, selected fl <= List.length fl) by (intros fl; unfold selected; induction fl as [|z fl IH]; cbn; [lia|destruct (flag_set z); cbn; lia]).
    pose proof (Y (flags r0 "par_DHtable")). lia.
  Qed.
  Lemma frame_ok cfg r0 t sec par sy m : facts cfg r0 -> In (sec, par) [("Base_to_L0", "par_world2L0"); ("Ln_to_EE", "par_Ln2EE")] ->
    List.length (flags r0 par) = 6 -> flags_given cfg -> t_frame junk sec par sy cfg t <> Bad m.
  Proof.
    intros F Hi Hf [G _]. destruct (fc_frame _ _ F sec par Hi) as (fr & tN & tr & yN & ypr & a & b & E1 & E2 & E3 & E4 & E5 & Ea & Eb & Ep & E6).
    destruct (G sec) as [v Ev]; [simpl in Hi; destruct Hi as [Q|[Q|[]]]; injection Q as <- <-; simpl; auto|].
    pose proof (section_given _ _ _ _ E6 (entry2_idx _ _ _ _ _ Ev E1)) as N.
    unfold t_frame. rewrite E1, (yidx_vec _ _ _ _ E2 E3). cbv zeta. rewrite N, E2, E4. cbn [ybind]. rewrite E3, E5.
    destruct (three_split _ _ Ea) as (wa & -> & La). destruct (three_split _ _ Eb) as (wb & -> & Lb).
    set (fl := flags r0 par) in *.
    assert (Hfl : fl = (firstn 3 fl ++ skipn 3 fl)%list) by (symmetry; apply firstn_skipn).
    assert (L1 : List.length (firstn 3 fl) = 3) by (rewrite firstn_length; lia).
    assert (L2 : List.length (skipn 3 fl) = 3) by (rewrite skipn_length; lia).
    assert (P1 : picked 3 fl (a ++ wa) = Some (pick (firstn 3 fl) a)).
    { rewrite Hfl at 1. rewrite picked_more by auto. rewrite <- L1 at 1. rewrite picked_pick by (rewrite app_length; lia). now rewrite pick_more by lia. }
    assert (P2 : picked 3 (skipn 3 fl) (b ++ wb) = Some (pick (skipn 3 fl) b)).
    { rewrite <- L2 at 1. rewrite picked_pick by (rewrite app_length; lia). now rewrite pick_more by lia. }
    rewrite P1, P2. discriminate.
  Qed.
  Lemma grav_ok cfg r0 t m : facts cfg r0 -> List.length (flags r0 "par_gravity") = 3 -> flags_given cfg -> t_gravity junk cfg t <> Bad m.
  Proof.
    intros F Hf [_ G]. destruct (fc_grav _ _ F) as (g & E1 & E2 & E3). unfold t_gravity. rewrite E1.
    destruct (ydef g) eqn:D; [|discriminate]. destruct (E3 eq_refl) as (vN & v & V1 & V2 & V3). cbv zeta.
    destruct G as [G|[w Ew]]; [pose proof (TSync.yidx_entry _ _ _ E1 D); congruence|].
    rewrite (section_given _ _ _ _ E2 (entry2_idx _ _ _ _ _ Ew E1)), V1. cbn [ybind]. rewrite V2.
    destruct (three_split _ _ V3) as (u & -> & L).
    assert (P1 : picked 3 (flags r0 "par_gravity") (arg r0 "par_gravity" ++ u) = Some (pick (flags r0 "par_gravity") (arg r0 "par_gravity"))).
    { rewrite <- Hf at 1. rewrite picked_pick by (rewrite app_length; lia). now rewrite pick_more by lia. }
    rewrite P1. discriminate.
  Qed.

  Theorem load_returns name cfg r0 r r' t upd : session name cfg r0 r r' -> reached r t -> complete_links inertial_keys (numJoints r0) cfg ->
    flags_given cfg -> exists t1, t_load_conf junk t (Some cfg) upd = Ok t1.
  Proof.
    intros S H Hc Hg. destruct (reached_kept r t H) as [S0 C0]. rewrite (new_class_eq _ _ _ _ _ S) in C0.
    pose proof (se_load _ _ _ _ _ S) as Hl. pose proof (se_wf _ _ _ _ _ S) as Hw.
    destruct (load_conf_agrees junk name cfg r0 upd Hl Hw Hc) as (tf & Ef & _).
    destruct (load_any junk name cfg r0 upd _ tf Hl Hw Hc (new_sized r0) (same_class_refl _) Ef) as (_ & _ & _ & _ & ua & ub & uc & (U1 & U2 & U3 & U4 & U5 & U6 & _) & _).
    destruct (robot_facts _ _ _ Hl) as [F _].
    assert (W : forall k len, In (k, len) [("par_DHtable", 4 * numJoints r0); ("par_world2L0", 6); ("par_Ln2EE", 6); ("par_gravity", 3)] ->
      List.length (flags r0 k) = len /\ List.length (arg r0 k) = len).
    { intros k len Hk. apply (wf_sizes _ Hw). unfold par_sizes. apply in_app_iff. left. simpl in Hk |- *. tauto. }
    destruct (W "par_DHtable" _ (or_introl eq_refl)) as [W1 W2].
    destruct (W "par_world2L0" 6) as [W3 _]; [simpl; auto|]. destruct (W "par_Ln2EE" 6) as [W4 _]; [simpl; auto|].
    destruct (W "par_gravity" 3) as [W5 _]; [simpl; auto|]. clear W.
    destruct (same_class_ne _ _ C0) as [N0 _]. change (t_n (new_class r0)) with (numJoints r0) in N0.
    unfold t_load_conf.
    destruct (kin_any junk cfg r0 t F S0) as [[m X]|(t1 & v1 & X & G1 & _)]; [now rewrite N0|now rewrite N0|exfalso; refine (kin_ok _ _ _ m F _ _ Hg X); rewrite N0; auto|]. rewrite X. cbn [gbind]. clear X.
    destruct (sg_kept _ _ _ _ _ G1) as [S1 C1].
    destruct (frame_any junk cfg r0 t1 "Base_to_L0" "par_world2L0" "world2L0_symb" F S1) as [[m X]|(t2 & v2 & X & G2 & _)]; [simpl; auto|auto|exfalso; refine (frame_ok _ _ _ _ _ _ m F _ W3 Hg X); simpl; auto|]. rewrite X. cbn [gbind]. clear X.
    destruct (sg_kept _ _ _ _ _ G2) as [S2 C2].
    destruct (frame_any junk cfg r0 t2 "Ln_to_EE" "par_Ln2EE" "Ln2EE_symb" F S2) as [[m X]|(t3 & v3 & X & G3 & _)]; [simpl; auto|auto|exfalso; refine (frame_ok _ _ _ _ _ _ m F _ W4 Hg X); simpl; auto|]. rewrite X. cbn [gbind]. clear X.
    destruct (sg_kept _ _ _ _ _ G3) as [S3 C3].
    assert (C03 : same_class (new_class r0) t3) by (eapply same_class_trans; [exact C0|eapply same_class_trans; [exact C1|eapply same_class_trans; eauto]]).
    destruct (same_class_ne _ _ C03) as [N3 _]. change (t_n (new_class r0)) with (numJoints r0) in N3.
    destruct (dyn_any upd cfg r0 t3 F Hc S3 N3) as [[m X]|(t4 & X4 & S4 & C4 & _)].
    { exfalso. pose proof (dynamics_alike upd cfg (new_class r0) t3 ua S3 U1 C03 U2) as A. rewrite X, U3 in A. exact A. }
    rewrite X4. cbn [gbind].
    destruct (grav_any junk cfg r0 t4 F S4 W5) as [[m X]|(t5 & v5 & X & G5 & _)]; [exfalso; exact (grav_ok _ _ _ m F W5 Hg X)|]. rewrite X. cbn [gbind]. clear X.
    destruct (sg_kept _ _ _ _ _ G5) as [S5 C5].
    assert (C05 : same_class (new_class r0) t5) by (eapply same_class_trans; [exact C03|eapply same_class_trans; eauto]).
    destruct (elastic_any cfg t5 S5) as [[m X]|(t6 & [X|X] & _)].
    - exfalso. pose proof (telastic_alike cfg (new_class r0) t5 uc C05 U5) as A. rewrite X in A. destruct U6 as [U|U]; rewrite U in A; exact A.
    - rewrite X. eexists. reflexivity.
    - rewrite X. eexists. reflexivity.
  Qed.
End J.
