(* When the getters of the generated class stay inside the vectors of the object. *)
From Coq Require Import Reals List Arith String Bool Lia ZArith.
From Verif.Model Require Import Base Expr SX Robot Yaml Build Template.
From Verif.Spec Require Import Math Setup Config Template Safe.
From Verif.Spec Require Api.
From Verif.Proofs Require Import Calc Rel Maps Pure Names Shape Dims Sizes Deps Load Init Final Get StateSess Files TSetters TFiles TSync TFacts TAgree TLoad TToy TGet.
From Verif.Proofs Require Api.
Import ListNotations.
Open Scope nat_scope.
Open Scope string_scope.

Definition enough (r0 : robot) (t : tobj) : Prop := forall k, In k compacted -> selected (flags r0 k) <= List.length (member t k).

Lemma selected_le fl : selected fl <= List.length fl.
Proof. unfold selected. induction fl as [|z fl IH]; simpl; [lia|]. destruct (flag_set z); simpl; lia. Qed.
Lemma selected_app a b : selected (a ++ b) = selected a + selected b.
Proof. unfold selected. rewrite filter_app, app_length. reflexivity. Qed.
Lemma picked_length : forall k fl v l, picked k fl v = Some l -> k <= List.length fl /\ List.length l = selected (firstn k fl).
Proof.
  induction k as [|k IH]; intros fl v l E; cbn [picked] in E; [injection E as <-; split; [lia|reflexivity]|].
  destruct fl as [|z fl]; [discriminate|]. destruct (picked k fl (tl v)) as [l1|] eqn:E1; [|discriminate]. destruct (IH _ _ _ E1) as [A B].
  unfold selected in *. cbn [firstn filter List.length]. destruct (flag_set z).
  - destruct v as [|x v]; [discriminate|]. injection E as <-. cbn [List.length]. split; lia.
  - injection E as <-. split; lia.
Qed.
Lemma vresize_len junk k v : List.length (vresize junk k v) = k.
Proof. unfold vresize. destruct (Nat.eqb_spec (List.length v) k); [assumption|]. now rewrite map_length, seq_length. Qed.

(* lengths of the members *)
Lemma member_len r0 t k len : sized t -> same_class (new_class r0) t -> In (k, len) (keys r0) -> ~ In k compacted ->
  mcount k (t_val t) = true /\ List.length (member t k) = len.
Proof.
  intros Hs Hc Hk Hn. assert (H : In (k, len) (member_sizes (t_n t) (t_e t) (t_K t) (t_D t) (t_Dl t) (t_Dm t))).
  { destruct Hc as [Q1 Q2]. injection Q1 as _ -> -> _. injection Q2 as -> -> -> ->. cbn [new_class t_n t_e t_K t_D t_Dl t_Dm].
    change (In (k, len) (state_sizes r0 ++ par_sizes r0)%list) in Hk. unfold state_sizes, par_sizes in Hk. cbv zeta in Hk. unfold member_sizes, STD_PAR_LINK.
    rewrite (Nat.mul_comm (numJoints r0) (Dl_order r0)), !(Nat.mul_comm (numElasticJoints r0)) in Hk.
    assert (X : forall l, In (k, len) l -> (forall p, In p l -> In (fst p) compacted \/ In p (member_sizes (numJoints r0) (numElasticJoints r0) (K_order r0) (D_order r0) (Dl_order r0) (Dm_order r0))) ->
      In (k, len) (member_sizes (numJoints r0) (numElasticJoints r0) (K_order r0) (D_order r0) (Dl_order r0) (Dm_order r0))).
    { intros l H1 H2. destruct (H2 _ H1) as [H3|H3]; [contradiction|exact H3]. }
    apply (X _ Hk). clear. unfold member_sizes, STD_PAR_LINK, compacted. intros p Hp.
    assert (Y : forall a l, In p (a :: l) -> p = a \/ In p l) by (intros a l [<-|Q]; auto).
    destruct (ELASTIC r0), (Nat.ltb 0 (Dl_order r0)); cbn [app] in Hp;
      repeat (apply Y in Hp; destruct Hp as [->|Hp]; [cbn [fst In]; tauto|]); destruct Hp. }
  destruct (Hs k len H) as [A B]. auto.
Qed.
Lemma member_there r0 t k len : sized t -> same_class (new_class r0) t -> In (k, len) (keys r0) -> mcount k (t_val t) = true.
Proof.
  intros Hs Hc Hk. destruct (in_members r0 k len Hk) as [len' Hl]. apply (Hs k len').
  destruct Hc as [Q1 Q2]. injection Q1 as _ -> -> _. injection Q2 as -> -> -> ->. exact Hl.
Qed.
Lemma state_plain r0 k len : In (k, len) (state_sizes r0) -> ~ In k compacted.
Proof.
  assert (E : forallb (fun p => negb (existsb (String.eqb (fst p)) compacted)) (state_sizes r0) = true) by (unfold state_sizes; cbv zeta; destruct (ELASTIC r0); reflexivity).
  intros H C. rewrite forallb_forall in E. specialize (E _ H). cbn [fst] in E. apply negb_true_iff in E.
  assert (existsb (String.eqb k) compacted = true) by (apply existsb_exists; exists k; split; [exact C|apply String.eqb_refl]). congruence.
Qed.
Lemma member_enough r0 t k len : loaded r0 -> well_formed r0 -> sized t -> same_class (new_class r0) t -> enough r0 t -> In (k, len) (keys r0) ->
  selected (flags r0 k) <= List.length (member t k) /\ (In (k, len) (state_sizes r0) -> List.length (member t k) = len).
Proof.
  intros L W Hs Hc He Hk. destruct (in_dec string_dec k compacted) as [C|C].
  - split; [now apply He|]. intros H. destruct (state_plain r0 k len H C).
  - destruct (member_len r0 t k len Hs Hc Hk C) as [_ E]. split; [|auto]. rewrite E. unfold keys in Hk. apply in_app_iff in Hk. destruct Hk as [Hk|Hk].
    + rewrite (state_flags r0 k len L Hk). lia.
    + destruct (wf_sizes _ W k len Hk) as [<- _]. apply selected_le.
Qed.

(* ---- enough elements: every getter returns ---- *)
Theorem enough_get name cfg r0 r r' t : session name cfg r0 r r' -> sized t -> same_class (new_class r) t -> enough r0 t ->
  forall fo, In fo (get_functions r) -> exists m, t_get r t (fo_name fo) = Ok m /\ m_rows m = fo_rows fo /\ m_cols m = fo_cols fo.
Proof.
  intros S Hs Hc He fo Hf. pose proof Hc as Hc'. rewrite (new_class_eq _ _ _ _ _ S) in Hc'.
  pose proof (file_loaded _ _ _ (se_load _ _ _ _ _ S)) as L. pose proof (se_wf _ _ _ _ _ S) as W.
  set (ks := (state_sizes r0 ++ par_sizes r0)%list).
  set (v := fun k => firstn (selected (flags r0 k)) (member t k)).
  set (r1 := with_args r (map (fun p => (fst p, v (fst p))) ks)).
  assert (A : forall k len, In (k, len) ks -> arg r1 k = v k).
  { intros k len H. unfold r1, arg, mget. cbn [args with_args]. clearbody v. clear - H. induction ks as [|[k1 l1] ks IH]; [destruct H|].
    cbn [map mfind fst]. destruct (String.eqb_spec k k1) as [->|N]; [reflexivity|]. apply IH. destruct H as [H|H]; [congruence|exact H]. }
  assert (V : forall k len, In (k, len) ks -> List.length (v k) = selected (flags r0 k)).
  { intros k len H. unfold v. rewrite firstn_length. destruct (member_enough r0 t k len L W Hs Hc' He H). lia. }
  assert (S1 : session name cfg r0 r r1).
  { constructor; [apply (se_load _ _ _ _ _ S)|exact W|apply (se_build _ _ _ _ _ S)|reflexivity| |].
    - intros k len H. assert (H' : In (k, len) ks) by (apply in_app_iff; now left). rewrite (A k len H'), (V k len H').
      now apply state_flags.
    - intros k len H. assert (H' : In (k, len) ks) by (apply in_app_iff; now right). now rewrite (A k len H'), (V k len H'). }
  assert (G : t_get r t (fo_name fo) = get r1 (fo_name fo)).
  { apply (getter_reads name cfg r0 r r1 t S1 Hs Hc).
    - intros k len H. assert (H' : In (k, len) ks) by (apply in_app_iff; now left). rewrite (A k len H'). unfold v.
      rewrite (state_flags r0 k len L H). destruct (member_enough r0 t k len L W Hs Hc' He H') as [_ E]. rewrite <- (E H). apply firstn_all.
    - intros k len H. assert (H' : In (k, len) ks) by (apply in_app_iff; now right). now rewrite (A k len H').
    - unfold Api.published. now apply in_map. }
  rewrite G. destruct (session_sess _ _ _ _ _ S1) as (b & SS & B). apply (Api.fun_obj_iff _ _ _ B) in Hf. destruct Hf as (f & Hf & ->).
  cbn [fo_name fo_rows fo_cols]. destruct (get_value r0 b r1 SS f Hf) as (m & E & R & C & _). now exists m.
Qed.

(* ---- calls that keep enough elements ---- *)
Lemma enough_new r0 : well_formed r0 -> enough r0 (new_class r0).
Proof.
  intros W k Hk. assert (H : exists len, In (k, len) (par_sizes r0) /\ List.length (member (new_class r0) k) = len).
  { unfold compacted in Hk. cbn [In] in Hk. destruct Hk as [<-|[<-|[<-|[<-|[]]]]].
    - exists (4 * numJoints r0). split; [left; reflexivity|]. unfold member, mget. cbn. rewrite repeat_length. lia.
    - exists 6. split; [right; left; reflexivity|]. reflexivity.
    - exists 6. split; [right; right; left; reflexivity|]. reflexivity.
    - exists 3. split; [right; right; right; left; reflexivity|]. reflexivity. }
  destruct H as (len & H & ->). destruct (wf_sizes _ W k len H) as [<- _]. apply selected_le.
Qed.
Lemma enough_changes r0 ks t t1 : t_changes ks t t1 -> (forall k, In k ks -> ~ In k compacted) -> enough r0 t -> enough r0 t1.
Proof.
  intros (_ & _ & H) Hk He k C. rewrite H; [now apply He|]. intros Q. exact (Hk k Q C).
Qed.

Section Load.
  Variables (junk : nat -> R) (cfg : ynode) (r0 : robot) (F : facts cfg r0) (W : well_formed r0).
  Lemma par_len k len : In (k, len) [("par_DHtable", 4 * numJoints r0); ("par_world2L0", 6); ("par_Ln2EE", 6); ("par_gravity", 3)] ->
    List.length (flags r0 k) = len.
  Proof. intros Hk. apply (wf_sizes _ W). unfold par_sizes. apply in_app_iff. left. simpl in Hk |- *. tauto. Qed.
  Definition good (t : tobj) : Prop := kept (new_class r0) t /\ enough r0 t.
  Lemma good_put k v t : In k compacted -> selected (flags r0 k) <= List.length v -> good t -> good (tput k v t).
  Proof.
    intros Hk Hv [K E]. split; [apply kept_tput; auto|]. intros k' C. destruct (string_dec k' k) as [->|N].
    - now rewrite member_tput.
    - rewrite member_tput_ne by auto. now apply E.
  Qed.
  Lemma good_symb k v t : good t -> good (tput_symb k v t).
  Proof. intros [K E]. split; [apply kept_symb; auto|]. intros k' C. rewrite member_symb. now apply E. Qed.
  Lemma entry_idx n k : match entry n k with Some m => yidx n k = Some m | None => yidx n k = None \/ yidx n k = Some YUndef end.
  Proof. destruct n; cbn [entry yidx]; auto. unfold mget. destruct (mfind k l); auto. Qed.
  Lemma section_nothing sec k fl : section_symb sec k = POk fl -> entry sec "symb" = None \/ entry sec "symb" = Some YUndef \/ entry sec "symb" = Some YZombie -> fl = repeat 0%Z k.
  Proof.
    unfold section_symb. intros H E. pose proof (entry_idx sec "symb") as X. destruct E as [E|[E|E]]; rewrite E in X; try (destruct X as [X|X]); rewrite X in H; cbn in H; congruence.
  Qed.
  (* the flags a section of the file gives, if the file selects what cfg selects *)
  Lemma file_flags file sec sub csub k fl cur : In sec kin_sections -> entry file sec = None \/ entry2 file sec "symb" = entry2 cfg sec "symb" ->
    yidx file sec = Some sub -> ydef sub = true -> yidx cfg sec = Some csub -> section_symb csub k = POk fl ->
    forall fl', new_flags sub cur = Some fl' -> selected fl = 0 \/ fl' = fl.
  Proof.
    intros Hs Hf E1 D E2 E3 fl' N. assert (Z : selected (repeat 0%Z k) = 0) by (unfold selected; clear; induction k; auto).
    pose proof (entry_idx file sec) as X. destruct (entry file sec) as [sub'|] eqn:Ef; [|destruct X as [X|X]; rewrite X in E1; [discriminate|injection E1 as <-; discriminate]].
    rewrite X in E1. injection E1 as ->. destruct Hf as [Hf|Hf]; [discriminate|]. unfold entry2 in Hf. rewrite Ef in Hf.
    pose proof (entry_idx cfg sec) as Y. destruct (entry cfg sec) as [csub'|] eqn:Ec.
    - rewrite Y in E2. injection E2 as ->. pose proof (entry_idx sub "symb") as P. pose proof (entry_idx csub "symb") as Q. rewrite Hf in P.
      destruct (entry csub "symb") as [s|] eqn:Es.
      + unfold new_flags in N. unfold section_symb in E3. rewrite P in N. rewrite Q in E3. cbn [ybind ofy pbind] in N, E3.
        destruct (ydef s); [right; apply ofy_inv in E3; congruence|]. left. injection E3 as <-. exact Z.
      + left. rewrite (section_nothing csub k fl E3) by auto. exact Z.
    - left. assert (csub = YUndef) as -> by (destruct Y as [Y|Y]; rewrite Y in E2; congruence). cbn in E3. injection E3 as <-. exact Z.
  Qed.

  Variables (file : ynode) (M : same_selection (numJoints r0) cfg file).
  Lemma kinematics_good t : good t -> okp good (t_kinematics junk file t).
  Proof.
    intros H. unfold t_kinematics. destruct (yidx file "kinematics") as [kin|] eqn:E1; [|apply okp_caught; auto].
    destruct (ydef kin) eqn:D; [|apply okp_go; auto]. cbv zeta.
    assert (Lf : List.length (flags r0 "par_DHtable") = 4 * numJoints r0) by (apply par_len; simpl; auto).
    pose proof (selected_le (flags r0 "par_DHtable")) as Le.
    assert (Hn : t_n t = numJoints r0). { destruct H as [[_ C] _]. destruct C as [Q _]. injection Q as _ -> _ _. reflexivity. }
    assert (C : In "par_DHtable" compacted) by (simpl; auto).
    assert (H1 : good (tput "par_DHtable" (vresize junk (t_n t * 4) (member t "par_DHtable")) t)).
    { apply good_put; auto. rewrite vresize_len. lia. }
    destruct (ybind _ _) as [dh|] eqn:E2; [|apply okp_caught; auto].
    destruct (new_flags _ _) as [fl|] eqn:E3; [|apply okp_caught; auto].
    destruct (picked _ _ _) as [l|] eqn:E4; [|apply okp_bad]. destruct (Nat.leb _ _); [|apply okp_bad].
    apply okp_go. apply good_put; [exact C| |apply good_symb; exact H1].
    destruct (fc_kin _ _ F) as (ck & dN & d0 & K1 & K2 & K3 & K4 & K5). destruct M as [M1 M2].
    destruct (file_flags file "kinematics" kin ck _ _ _ ltac:(simpl; auto) (M1 "kinematics" ltac:(simpl; auto)) E1 D K1 K5 _ E3) as [Z|Z]; [lia|].
    subst fl. destruct (picked_length _ _ _ _ E4) as [P1 P2]. rewrite P2, firstn_all2; [lia|].
    destruct (yidx kin "DH") as [dn|] eqn:E5; cbn [ybind] in E2; [|discriminate].
    assert (Ed : entry2 file "kinematics" "DH" = Some dn).
    { unfold entry2. pose proof (entry_idx file "kinematics") as X. destruct (entry file "kinematics") as [y|]; [|destruct X as [X|X]; rewrite X in E1; [discriminate|injection E1 as <-; discriminate]].
      rewrite X in E1. injection E1 as ->. pose proof (entry_idx kin "DH") as Y. destruct (entry kin "DH") as [y|]; [congruence|].
      destruct Y as [Y|Y]; rewrite Y in E5; [discriminate|]. injection E5 as <-. discriminate E2. }
    rewrite (M2 _ _ Ed E2). lia.
  Qed.
  Lemma frame_good sec par sy t : In (sec, par) [("Base_to_L0", "par_world2L0"); ("Ln_to_EE", "par_Ln2EE")] -> good t -> okp good (t_frame junk sec par sy file t).
  Proof.
    intros Hi H. assert (C : In par compacted) by (simpl in Hi; destruct Hi as [Q|[Q|[]]]; injection Q as <- <-; simpl; auto).
    assert (Hsec : In sec kin_sections) by (simpl in Hi; destruct Hi as [Q|[Q|[]]]; injection Q as <- <-; simpl; auto).
    assert (Lf : List.length (flags r0 par) = 6) by (apply par_len; simpl in Hi; destruct Hi as [Q|[Q|[]]]; injection Q as <- <-; simpl; auto).
    pose proof (selected_le (flags r0 par)) as Le.
    unfold t_frame. destruct (yidx file sec) as [fr|] eqn:E1; [|apply okp_caught; auto].
    destruct (ydef fr) eqn:D; [|apply okp_go; auto]. cbv zeta.
    assert (H1 : good (tput par (vresize junk 6 (member t par)) t)) by (apply good_put; auto; rewrite vresize_len; lia).
    destruct (new_flags _ _) as [fl|] eqn:E3; [|apply okp_caught; auto].
    assert (H2 : good (tput_symb sy fl (tput par (vresize junk 6 (member t par)) t))) by (apply good_symb; auto).
    destruct (ybind _ _); [|apply okp_caught; auto]. destruct (ybind _ _); [|apply okp_caught; auto].
    destruct (picked 3 fl _) as [a|] eqn:Ea; [|apply okp_bad]. destruct (picked 3 (skipn 3 fl) _) as [b|] eqn:Eb; [|apply okp_bad]. apply okp_go. apply good_put; auto.
    destruct (fc_frame _ _ F sec par Hi) as (cf & _ & _ & _ & _ & _ & _ & K1 & _ & _ & _ & _ & _ & _ & _ & K5). destruct M as [M1 M2].
    destruct (file_flags file sec fr cf _ _ _ Hsec (M1 sec Hsec) E1 D K1 K5 _ E3) as [Z|Z]; [lia|]. subst fl.
    destruct (picked_length _ _ _ _ Ea) as [_ P1]. destruct (picked_length _ _ _ _ Eb) as [_ P2]. rewrite app_length, P1, P2, <- selected_app.
    rewrite (firstn_all2 (skipn 3 _)) by (rewrite skipn_length; lia). rewrite firstn_skipn. lia.
  Qed.
  Lemma gravity_good t : good t -> okp good (t_gravity junk file t).
  Proof.
    intros H. assert (C : In "par_gravity" compacted) by (simpl; auto).
    assert (Lf : List.length (flags r0 "par_gravity") = 3) by (apply par_len; simpl; auto 10).
    pose proof (selected_le (flags r0 "par_gravity")) as Le.
    unfold t_gravity. destruct (yidx file "gravity") as [fr|] eqn:E1; [|apply okp_caught; auto].
    destruct (ydef fr) eqn:D; [|apply okp_go; auto]. cbv zeta.
    assert (H1 : good (tput "par_gravity" (vresize junk 3 (member t "par_gravity")) t)) by (apply good_put; auto; rewrite vresize_len; lia).
    destruct (new_flags _ _) as [fl|] eqn:E3; [|apply okp_caught; auto].
    assert (H2 : good (tput_symb "gravity_symb" fl (tput "par_gravity" (vresize junk 3 (member t "par_gravity")) t))) by (apply good_symb; auto).
    destruct (ybind _ _); [|apply okp_caught; auto].
    destruct (picked _ _ _) as [a|] eqn:Ea; [|apply okp_bad]. apply okp_go. apply good_put; auto.
    destruct (fc_grav _ _ F) as (g & K1 & K5 & _). destruct M as [M1 M2].
    destruct (file_flags file "gravity" fr g _ _ _ ltac:(simpl; auto) (M1 "gravity" ltac:(simpl; auto)) E1 D K1 K5 _ E3) as [Z|Z]; [lia|]. subst fl.
    destruct (picked_length _ _ _ _ Ea) as [_ P1]. rewrite P1, firstn_all2 by lia. lia.
  Qed.
  Lemma enough_pars t s : enough r0 t -> enough r0 (put_pars t s).
  Proof.
    intros H k C. rewrite put_pars_members. unfold compacted in C. cbn [In] in C.
    destruct C as [<-|[<-|[<-|[<-|[]]]]]; cbn [mfind String.eqb Ascii.eqb Bool.eqb]; apply H; simpl; auto.
  Qed.
  Lemma dynamics_good upd t : good t -> okp good (t_dynamics upd file t).
  Proof.
    intros H. unfold t_dynamics. destruct (yidx file "dynamics") as [fr|]; [|apply okp_caught; auto].
    destruct (ydef fr); [|apply okp_go; auto].
    apply okp_bind.
    - apply on_pars_okp. eapply okp_weaken; [|apply t_links_len]. intros s Hs. destruct H as [K E]. split; [apply kept_pars; auto|now apply enough_pars].
    - intros t1 [K1 E1]. destruct upd; [|apply okp_go; split; auto].
      destruct (kept_update_REG (new_class r0) t1 K1) as (t2 & E & H2). rewrite E. apply okp_go. split; [exact H2|].
      destruct K1 as [Ks _]. rewrite update_REG_eq in E by auto. injection E as <-. intros k C. rewrite member_tput_ne; [now apply E1|].
      intros ->. unfold compacted in C. cbn [In] in C. intuition discriminate.
  Qed.
  Lemma elastic_good t : good t -> okp good (t_elastic file t).
  Proof.
    intros H. unfold t_elastic. destruct (yidx file "elastic") as [fr|]; [|apply okp_caught; auto].
    destruct (ydef fr); [|apply okp_go; auto]. destruct (yidx fr "joints"); [|apply okp_caught; auto].
    apply on_pars_okp. eapply okp_weaken; [|apply load_elastic_len]. intros s Hs. destruct H as [K E]. split; [apply kept_pars; auto|now apply enough_pars].
  Qed.
  Lemma load_good upd t t1 : good t -> t_load_conf junk t (Some file) upd = Ok t1 -> good t1.
  Proof.
    intros H E. unfold t_load_conf in E.
    match type of E with match ?x with _ => _ end = _ => set (x0 := x) in E; assert (K : okp good x0) end.
    { unfold x0. apply okp_bind; [apply kinematics_good; auto|]. intros a Ha.
      apply okp_bind; [apply frame_good; auto; simpl; auto|]. clear a Ha. intros a Ha.
      apply okp_bind; [apply frame_good; auto; simpl; auto|]. clear a Ha. intros a Ha.
      apply okp_bind; [apply dynamics_good; auto|]. clear a Ha. intros a Ha.
      apply okp_bind; [apply gravity_good; auto|]. clear a Ha. intros a Ha. apply elastic_good; auto. }
    clearbody x0. destruct x0; try discriminate; injection E as <-; apply K; auto.
  Qed.
End Load.

Lemma inertial_plain k : In k ["par_DYN"; "par_REG"] -> ~ In k compacted.
Proof. unfold compacted. cbn [In]. intuition (subst; discriminate). Qed.
Lemma setter_len s : In s tsetters -> In (ts_mem s) compacted -> forall t, ts_len s t = List.length (member t (ts_mem s)).
Proof.
  intros Hs. assert (E : forallb (fun s => negb (existsb (String.eqb (ts_mem s)) compacted)) state_tsetters = true) by reflexivity.
  intros C. unfold tsetters in Hs. apply in_app_iff in Hs. destruct Hs as [Hs|Hs].
  - rewrite forallb_forall in E. specialize (E _ Hs). apply negb_true_iff in E.
    assert (existsb (String.eqb (ts_mem s)) compacted = true) by (apply existsb_exists; exists (ts_mem s); split; [exact C|apply String.eqb_refl]). congruence.
  - unfold par_tsetters in Hs. cbn [In] in Hs. decompose [or] Hs; try contradiction; subst s; reflexivity.
Qed.
Lemma do_good junk cfg r0 c t t1 : facts cfg r0 -> well_formed r0 -> matching (numJoints r0) cfg c -> good r0 t -> t_do junk c t = Ok t1 -> good r0 t1.
Proof.
  intros F W [Kn M] G E. pose proof (do_kept junk _ c t t1 Kn (proj1 G) E) as K. destruct c; cbn [t_do known] in *.
  - split; [exact K|]. injection E as <-. destruct G as [_ G]. destruct (Nat.eq_dec (List.length v) (ts_len s t)) as [L|L]; [|now rewrite tset_refuses].
    destruct (tset_stores s v t Kn L) as [A (_ & _ & B)]. intros k C. destruct (string_dec k (ts_mem s)) as [->|N].
    + rewrite A, L, (setter_len s Kn C). now apply G.
    + rewrite B by (intros [Q|[]]; congruence). now apply G.
  - split; [exact K|]. injection E as <-. destruct G as [_ G]. destruct (tset_args q dq dqr ddqr t) as [A B].
    destruct (Nat.eq_dec (List.length q) (t_n t)), (Nat.eq_dec (List.length dq) (t_n t)),
      (Nat.eq_dec (List.length dqr) (t_n t)), (Nat.eq_dec (List.length ddqr) (t_n t)); try (rewrite B by intuition; exact G).
    eapply (enough_changes r0 ["q"; "dq"; "dqr"; "ddqr"]); [apply A; auto| |exact G]. unfold compacted. cbn [In]. intuition (subst; discriminate).
  - unfold t_set_par_DHtable in E. destruct (Nat.eqb_spec (List.length v) (List.length (member t "par_DHtable"))) as [L|L]; [|injection E as <-; exact G].
    destruct (_ || _); [|discriminate]. injection E as <-. apply good_put; [simpl; auto| |exact G]. rewrite L. apply G. simpl; auto.
  - split; [exact K|]. destruct G as [[Hs _] G]. destruct (tset_DYN v upd t Hs) as (t2 & E2 & S2 & C2 & _). rewrite E2 in E. injection E as <-.
    exact (enough_changes r0 _ _ _ C2 inertial_plain G).
  - split; [exact K|]. destruct G as [[Hs _] G]. destruct (tset_REG v upd t Hs) as (t2 & E2 & S2 & C2 & _). rewrite E2 in E. injection E as <-.
    exact (enough_changes r0 _ _ _ C2 inertial_plain G).
  - split; [exact K|]. destruct G as [[Hs _] G]. destruct (load_REG_ok file upd t Hs) as (t2 & v & E2 & S2 & _ & C2 & _). rewrite E2 in E. cbn in E. injection E as <-.
    exact (enough_changes r0 _ _ _ C2 inertial_plain G).
  - destruct file as [file|]; [|cbn in E; injection E as <-; exact G]. exact (load_good junk cfg r0 F W file M upd t t1 G E).
Qed.
Theorem safe_history junk name cfg r0 r r' h t : session name cfg r0 r r' -> (forall c, In c h -> matching (numJoints r0) cfg c) ->
  t_do_all junk h (new_class r) = Ok t ->
  forall fo, In fo (get_functions r) -> exists m, t_get r t (fo_name fo) = Ok m /\ m_rows m = fo_rows fo /\ m_cols m = fo_cols fo.
Proof.
  intros S Hh E. pose proof (se_wf _ _ _ _ _ S) as W. destruct (robot_facts _ _ _ (se_load _ _ _ _ _ S)) as [F _].
  rewrite (new_class_eq _ _ _ _ _ S) in E.
  assert (G : good r0 t).
  { assert (G0 : good r0 (new_class r0)) by (split; [split; [apply new_sized|apply same_class_refl]|now apply enough_new]).
    clear - Hh E W F G0. revert E G0. generalize (new_class r0). induction h as [|c h IH]; intros t0 E G; cbn [t_do_all] in E; [injection E as <-; exact G|].
    destruct (t_do junk c t0) as [t1| |] eqn:E1; cbn [bind] in E; try discriminate.
    apply (IH (fun c' H => Hh c' (or_intror H)) t1 E). apply (do_good junk cfg r0 c t0 t1 F W); auto. apply Hh. now left. }
  destruct G as [[Hs Hc] He]. apply (enough_get name cfg r0 r r' t S Hs); [|exact He]. now rewrite (new_class_eq _ _ _ _ _ S).
Qed.

(* ---- too few elements ---- *)
Lemma short_get r0 b r' t f k len : sess r0 b r' -> (forall k len, In (k, len) (keys r0) -> mcount k (t_val t) = true) -> enabled b f ->
  In k (alist b f) -> In (k, len) (keys r0) -> List.length (member t k) < selected (flags r0 k) -> t_get r' t (name_of f) = UB "read past the end of a member".
Proof.
  intros S Hr He Hk Hl Hs. destruct (ss_fun _ _ _ S f He) as [F1 F2]. unfold t_get. rewrite F2. unfold mget. rewrite F1. cbn [f_inputs].
  assert (E : forall al, (forall k, In k al -> exists len, In (k, len) (keys b)) -> In k al -> read_inputs (ins b al) al t = UB "read past the end of a member").
  { induction al as [|a al IH]; intros Ha Hin; [destruct Hin|]. cbn [ins map read_inputs]. fold (ins b al).
    destruct (Ha a (or_introl eq_refl)) as [la Hla]. pose proof (bs_shape _ _ (ss_base _ _ _ S) a la Hla) as P.
    assert (R : rows (vertcat_list (sel b a)) = selected (flags r0 a)).
    { cbn [rows vertcat_list]. rewrite (sel_fidx _ b a la P), map_length, (flags_b _ _ _ S). apply fidx_selected. }
    rewrite R. rewrite (keys_b _ _ _ S) in Hla. pose proof (Hr a la Hla) as Hm. unfold mcount in Hm. unfold member, mget in Hs.
    destruct (mfind a (t_val t)) as [v|] eqn:Ev; [|discriminate]. destruct (Nat.leb_spec (selected (flags r0 a)) (List.length v)) as [Hle|Hle]; [|reflexivity].
    destruct Hin as [->|Hin]; [rewrite Ev in Hs; lia|]. rewrite IH; [reflexivity|intros; apply Ha; right; auto|exact Hin]. }
  rewrite E; [reflexivity| |exact Hk]. intros a Ha. apply (deps_keys b f a He (alist_deps _ _ _ Ha)).
Qed.
Lemma zero_picked : forall k v, picked k (repeat 0%Z k) v = Some [].
Proof. induction k as [|k IH]; intros v; [reflexivity|]. cbn [repeat picked]. now rewrite IH. Qed.
Theorem plain_table_reads junk name cfg r0 r r' upd : session name cfg r0 r r' -> 0 < selected (flags r0 "par_DHtable") ->
  exists t, t_load_conf junk (new_class r) (Some (plain_table (arg r0 "par_DHtable"))) upd = Ok t /\ reached r t /\
  forall i, 1 <= i <= numJoints r0 -> Api.published r ("T_" ++ to_string i) /\ t_get r t ("T_" ++ to_string i) = UB "read past the end of a member".
Proof.
  intros S Hsel. pose proof (new_class_eq _ _ _ _ _ S) as NC. pose proof (se_wf _ _ _ _ _ S) as W.
  assert (Hd : List.length (arg r0 "par_DHtable") = numJoints r0 * 4).
  { rewrite Nat.mul_comm. apply (wf_sizes _ W). left. reflexivity. }
  set (t0 := new_class r) in *. set (w := vresize junk (numJoints r0 * 4) (member t0 "par_DHtable")).
  set (t := tput "par_DHtable" [] (tput_symb "DHtable_symb" (repeat 0%Z (numJoints r0 * 4)) (tput "par_DHtable" w t0))).
  assert (V : as_vector as_double (YSeq (map YDbl (arg r0 "par_DHtable"))) = Some (arg r0 "par_DHtable")).
  { cbn [as_vector]. generalize (arg r0 "par_DHtable"). induction l as [|x l IH]; [reflexivity|]. cbn [map]. cbn. cbn in IH. now rewrite IH. }
  assert (E : t_load_conf junk t0 (Some (plain_table (arg r0 "par_DHtable"))) upd = Ok t).
  { unfold t_load_conf, plain_table. unfold t_kinematics.
    assert (N0 : t_n t0 = numJoints r0) by (rewrite NC; reflexivity).
    assert (F0 : tflags (tput "par_DHtable" (vresize junk (t_n t0 * 4) (member t0 "par_DHtable")) t0) "DHtable_symb" = repeat 0%Z (numJoints r0 * 4)) by (rewrite NC; reflexivity).
    cbn [yidx mget mfind String.eqb Ascii.eqb Bool.eqb ydef]. unfold mget. cbn [mfind String.eqb Ascii.eqb Bool.eqb ydef ybind]. cbv zeta. rewrite V.
    unfold new_flags. cbn [yidx]. unfold mget. cbn [mfind String.eqb Ascii.eqb Bool.eqb ydef ybind]. rewrite F0, Hd, zero_picked. cbn [List.length Nat.leb].
    cbn [gbind]. unfold t_frame, t_dynamics, t_gravity, t_elastic. cbn [yidx]. unfold mget. cbn [mfind String.eqb Ascii.eqb Bool.eqb ydef gbind]. rewrite N0. reflexivity. }
  exists t. split; [exact E|]. split.
  { exists junk, [CLoadConf (Some (plain_table (arg r0 "par_DHtable"))) upd]. split; [intros c [<-|[]]; exact I|]. cbn [t_do_all t_do]. fold t0. rewrite E. reflexivity. }
  destruct (session_sess _ _ _ _ _ S) as (b & SS & B). intros i Hi.
  assert (En : enabled b (fT i)). { cbn [enabled]. cbv zeta. rewrite (ss_b _ _ _ SS). exact Hi. }
  split; [apply (Api.published_iff _ _ _ B); now exists (fT i)|].
  assert (Eq : t_get r t ("T_" ++ to_string i) = t_get r' t (name_of (fT i))) by (rewrite (se_args _ _ _ _ _ S); reflexivity).
  rewrite Eq. assert (K : In ("par_DHtable", 4 * numJoints r0) (keys r0)) by (unfold keys; apply in_app_iff; right; left; reflexivity).
  apply (short_get r0 b r' t (fT i) "par_DHtable" (4 * numJoints r0) SS); auto.
  - assert (Kt : kept (new_class r0) t).
    { unfold t. apply kept_tput; [left; simpl; auto|]. apply kept_symb. apply kept_tput; [left; simpl; auto|]. rewrite NC. split; [apply new_sized|apply same_class_refl]. }
    destruct Kt as [K1 K2]. intros k len Hk. exact (member_there r0 t k len K1 K2 Hk).
  - cbn [alist]. unfold al, obtain_symb_parameters. apply in_app_iff. right. apply filter_In. split; [left; reflexivity|].
    unfold has_symb. rewrite (flags_b _ _ _ SS). clear - Hsel. unfold selected in Hsel. induction (flags r0 "par_DHtable") as [|z l IH]; [simpl in Hsel; lia|].
    cbn [filter existsb] in *. destruct (flag_set z); [reflexivity|]. now apply IH.
Qed.
(* the configuration itself is such a file *)
Theorem own_file name cfg r0 : robot_from_file name cfg false = Ok r0 -> well_formed r0 -> same_selection (numJoints r0) cfg cfg.
Proof.
  intros H W. destruct (robot_facts _ _ _ H) as [F _]. split; [intros sec _; now right|]. intros dh v E V.
  destruct (fc_kin _ _ F) as (kin & dN & d & K1 & K2 & K3 & K4 & _). unfold entry2 in E.
  pose proof (entry_idx cfg "kinematics") as X. destruct (entry cfg "kinematics") as [k|]; [|discriminate]. rewrite X in K1. injection K1 as ->.
  pose proof (entry_idx kin "DH") as Y. rewrite E in Y. rewrite Y in K2. injection K2 as ->. rewrite V in K3. injection K3 as ->.
  rewrite <- K4. apply (wf_sizes _ W). left. reflexivity.
Qed.
