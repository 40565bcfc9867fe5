(* Setters of the generated class. *)
From Coq Require Import Reals List String Arith ZArith Bool Lia Lra.
From Verif.Model Require Import Base Expr SX Robot Yaml Inertia Build Template.
From Verif.Spec Require Import Math Setup State Config Template.
From Verif.Proofs Require Import Maps State InertiaConv.
Import ListNotations.
Open Scope nat_scope.
Open Scope string_scope.

Lemma member_tput k v t : member (tput k v t) k = v.
Proof. unfold member, tput; cbn. apply mget_mset. Qed.
Lemma member_tput_ne k k' v t : k' <> k -> member (tput k v t) k' = member t k'.
Proof. intros. unfold member, tput; cbn. now apply mget_mset_ne. Qed.
Lemma member_symb k k' v t : member (tput_symb k v t) k' = member t k'.
Proof. reflexivity. Qed.
Lemma same_class_refl t : same_class t t. Proof. split; reflexivity. Qed.
Lemma same_class_trans t1 t2 t3 : same_class t1 t2 -> same_class t2 t3 -> same_class t1 t3.
Proof. intros [A B] [C D]. split; congruence. Qed.
Lemma same_class_tput t k v : same_class t (tput k v t). Proof. split; reflexivity. Qed.
Lemma same_class_symb t k v : same_class t (tput_symb k v t). Proof. split; reflexivity. Qed.
Lemma changes_tput ks k v t : In k ks -> t_changes ks t (tput k v t).
Proof.
  intros H. split; [apply same_class_tput|split; [reflexivity|]]. intros k' Hk. apply member_tput_ne. congruence.
Qed.
Lemma changes_refl ks t : t_changes ks t t.
Proof. split; [apply same_class_refl|split; [reflexivity|auto]]. Qed.
Lemma changes_trans ks t1 t2 t3 : t_changes ks t1 t2 -> t_changes ks t2 t3 -> t_changes ks t1 t3.
Proof.
  intros (A & B & C) (A' & B' & C'). split; [eapply same_class_trans; eauto|split; [congruence|]].
  intros k Hk. rewrite C', C; auto.
Qed.

(* every plain setter is a guarded store *)
Lemma tsetter_store s : In s tsetters -> forall v t, ts_call s v t = tstore (ts_mem s) (ts_len s t) v t.
Proof.
  intros H. unfold tsetters, state_tsetters, joint_tsetters, motor_tsetters, par_tsetters in H. cbn [app In] in H.
  decompose [or] H; try contradiction; subst s; intros; reflexivity.
Qed.
Lemma tsetter_len s : In s tsetters -> forall t t', same_class t t' -> List.length (member t' (ts_mem s)) = List.length (member t (ts_mem s)) ->
  ts_len s t' = ts_len s t.
Proof.
  intros H t t' [A B] C. unfold tsetters, state_tsetters, joint_tsetters, motor_tsetters, par_tsetters in H. cbn [app In] in H.
  injection A as A1 A2 A3 A4. decompose [or] H; try contradiction; subst s; cbn in *; unfold now; congruence.
Qed.
Theorem tset_stores s v t : In s tsetters -> List.length v = ts_len s t ->
  member (ts_call s v t) (ts_mem s) = v /\ t_changes [ts_mem s] t (ts_call s v t).
Proof.
  intros H L. rewrite tsetter_store by auto. unfold tstore. rewrite (proj2 (Nat.eqb_eq _ _) L).
  split; [apply member_tput|apply changes_tput; left; auto].
Qed.
Theorem tset_refuses s v t : In s tsetters -> List.length v <> ts_len s t -> ts_call s v t = t.
Proof. intros H L. rewrite tsetter_store by auto. unfold tstore. now rewrite (proj2 (Nat.eqb_neq _ _) L). Qed.

Lemma in_sizes_state s t : In s state_tsetters ->
  In (ts_mem s, ts_len s t) (member_sizes (t_n t) (t_e t) (t_K t) (t_D t) (t_Dl t) (t_Dm t)).
Proof.
  intros H. unfold state_tsetters, joint_tsetters, motor_tsetters in H. cbn [app In] in H.
  decompose [or] H; try contradiction; subst s; cbn; auto 20.
Qed.
Lemma state_not_compacted s : In s state_tsetters -> ~ In (ts_mem s) compacted.
Proof.
  intros H. unfold state_tsetters, joint_tsetters, motor_tsetters in H. cbn [app In] in H.
  decompose [or] H; try contradiction; subst s; cbn; intuition discriminate.
Qed.
(* on a sized object the accepted length is the length of the stored vector *)
Lemma tsetter_now s t : In s tsetters -> sized t -> ts_len s t = List.length (member t (ts_mem s)).
Proof.
  intros H Hs. unfold tsetters in H. apply in_app_iff in H. destruct H as [H|H].
  - symmetry. apply (Hs _ _ (in_sizes_state s t H)). apply state_not_compacted; auto.
  - unfold par_tsetters in H. cbn [In] in H. decompose [or] H; try contradiction; subst s; reflexivity.
Qed.

Lemma sized_ext t t' : same_class t t' ->
  (forall k len, In (k, len) (member_sizes (t_n t) (t_e t) (t_K t) (t_D t) (t_Dl t) (t_Dm t)) ->
     mcount k (t_val t') = true /\ (~ In k compacted -> List.length (member t' k) = List.length (member t k))) ->
  sized t -> sized t'.
Proof.
  intros [A B] H Hs k len Hk. injection A as A1 A2 A3 A4. injection B as B1 B2 B3 B4.
  rewrite A2, A3, B1, B2, B3, B4 in Hk. destruct (H k len Hk) as [H1 H2]. split; auto.
  intros Hc. rewrite H2 by auto. apply (Hs k len Hk); auto.
Qed.
Lemma sized_tput k v t : (In k compacted \/ List.length v = List.length (member t k)) -> sized t -> sized (tput k v t).
Proof.
  intros Hv Hs. apply (sized_ext t); auto using same_class_tput. intros k' len Hk. split.
  - unfold tput; cbn. unfold mcount. destruct (String.eqb_spec k' k) as [->|E]; [now rewrite mfind_mset|].
    rewrite mfind_mset_ne by auto. apply (Hs k' len Hk).
  - intros Hc. destruct (String.eqb_spec k' k) as [->|E].
    + rewrite member_tput. destruct Hv; [contradiction|auto].
    + now rewrite member_tput_ne.
Qed.
Lemma sized_symb k v t : sized t -> sized (tput_symb k v t).
Proof. intros Hs. exact Hs. Qed.

Lemma new_count r k len : In (k, len) (member_sizes (numJoints r) (numElasticJoints r) (K_order r) (D_order r) (Dl_order r) (Dm_order r)) ->
  mfind k (t_val (new_class r)) = Some (repeat 0%R len).
Proof.
  intros H. cbn [member_sizes In] in H. decompose [or] H; try contradiction; match goal with E : _ = _ |- _ => injection E as <- <- end; reflexivity.
Qed.
Theorem new_sized r : sized (new_class r).
Proof.
  intros k len H. cbn in H. pose proof (new_count r k len H) as E. split.
  - unfold mcount. now rewrite E.
  - intros _. unfold member, mget. rewrite E. apply repeat_length.
Qed.

Lemma sized_set s v t : In s tsetters -> sized t -> sized (ts_call s v t).
Proof.
  intros H Hs. rewrite tsetter_store by auto. unfold tstore. destruct (Nat.eqb_spec (List.length v) (ts_len s t)); auto.
  apply sized_tput; auto. right. rewrite e. apply tsetter_now; auto.
Qed.
Lemma class_set s v t : In s tsetters -> same_class t (ts_call s v t) /\ t_symb (ts_call s v t) = t_symb t.
Proof.
  intros H. rewrite tsetter_store by auto. unfold tstore. destruct Nat.eqb; split; auto using same_class_refl, same_class_tput.
Qed.

(* histories *)
Theorem t_run_last h : (forall c, In c h -> In (fst c) tsetters) -> forall t, sized t ->
  sized (t_run h t) /\ same_class t (t_run h t) /\ t_symb (t_run h t) = t_symb t /\
  (forall k, member (t_run h t) k = t_last t k h (member t k)).
Proof.
  induction h as [|[s v] h IH]; intros Hh t Hs; cbn [t_run fold_left fst snd t_last].
  - auto using same_class_refl.
  - assert (Hin : In s tsetters) by (apply (Hh (s, v)); left; auto).
    destruct (IH ltac:(intros; apply Hh; right; auto) (ts_call s v t) (sized_set s v t Hin Hs)) as (A & B & C & D).
    destruct (class_set s v t Hin) as [E1 E2].
    split; [exact A|]. split; [eapply same_class_trans; eauto|]. split; [unfold t_run in C; congruence|].
    intros k. unfold t_run in D. rewrite D.
    assert (X : member (ts_call s v t) k = (if String.eqb (ts_mem s) k && Nat.eqb (List.length v) (ts_len s t) then v else member t k)).
    { destruct (Nat.eqb_spec (List.length v) (ts_len s t)) as [E|E].
      - destruct (tset_stores s v t Hin E) as [M N]. destruct (String.eqb_spec (ts_mem s) k) as [<-|Ek]; cbn; [exact M|].
        apply N. simpl. intuition.
      - rewrite tset_refuses by auto. now rewrite andb_false_r. }
    rewrite X. clear X.
    assert (Y : forall v0, t_last (ts_call s v t) k h v0 = t_last t k h v0).
    { assert (Hlen : forall s', In s' tsetters -> ts_len s' (ts_call s v t) = ts_len s' t).
      { intros s' Hs'. apply tsetter_len; auto. rewrite <- !tsetter_now; auto using sized_set.
        destruct (String.eqb_spec (ts_mem s') (ts_mem s)) as [Eq|Eq].
        - (* the same member keeps its length *)
          rewrite !tsetter_now by auto using sized_set. rewrite Eq.
          destruct (Nat.eqb_spec (List.length v) (ts_len s t)) as [E|E].
          + rewrite (proj1 (tset_stores s v t Hin E)), E. apply tsetter_now; auto.
          + now rewrite tset_refuses.
        - rewrite !tsetter_now by auto using sized_set.
          destruct (Nat.eqb_spec (List.length v) (ts_len s t)) as [E|E].
          + destruct (tset_stores s v t Hin E) as [_ (_ & _ & N)]. rewrite N; auto. simpl. intuition.
          + now rewrite tset_refuses. }
      clear - Hh Hlen. assert (Hh' : forall c, In c h -> In (fst c) tsetters) by (intros; apply Hh; right; auto). clear Hh.
      induction h as [|[s' v'] h IH]; intros v0; cbn [t_last]; auto.
      rewrite Hlen by (apply (Hh' (s', v')); left; auto). rewrite IH; auto. intros; apply Hh'; right; auto. }
    apply Y.
Qed.

Theorem tset_args a b c d t :
  (List.length a = t_n t /\ List.length b = t_n t /\ List.length c = t_n t /\ List.length d = t_n t ->
   let t1 := t_setArguments a b c d t in
   member t1 "q" = a /\ member t1 "dq" = b /\ member t1 "dqr" = c /\ member t1 "ddqr" = d /\ t_changes ["q"; "dq"; "dqr"; "ddqr"] t t1) /\
  (~ (List.length a = t_n t /\ List.length b = t_n t /\ List.length c = t_n t /\ List.length d = t_n t) ->
   t_setArguments a b c d t = t).
Proof.
  unfold t_setArguments. split.
  - intros (A & B & C & D). rewrite !(proj2 (Nat.eqb_eq _ _)) by auto. cbn [andb]. cbv zeta.
    repeat split; try (rewrite ?member_tput_ne by discriminate; apply member_tput).
    intros k Hk. simpl in Hk. rewrite !member_tput_ne; intuition.
  - intros H. destruct (Nat.eqb_spec (List.length a) (t_n t)), (Nat.eqb_spec (List.length b) (t_n t)),
      (Nat.eqb_spec (List.length c) (t_n t)), (Nat.eqb_spec (List.length d) (t_n t)); cbn [andb]; auto. exfalso; auto.
Qed.

(* ---- inertial vectors ---- *)
Lemma hhT_hTh m x y z i j : i < 3 -> j < 3 -> hhT m x y z i j = hTh m x y z i j.
Proof. intros Hi Hj. lt3 i; lt3 j; unfold hhT, hTh, sum3, hatR; cbn; ring. Qed.
Lemma t_dyn_eq p : t_dyn_of_reg p = dyn_of_reg p.
Proof. unfold t_dyn_of_reg, dyn_of_reg. cbv zeta. now rewrite !hhT_hTh by lia. Qed.
Lemma t_reg_eq p : t_reg_of_dyn p = reg_of_dyn p.
Proof. unfold t_reg_of_dyn, reg_of_dyn. cbv zeta. now rewrite !hhT_hTh by lia. Qed.
Lemma map_links_ext n f g : (forall p, f p = g p) -> forall p, map_links n f p = map_links n g p.
Proof. intros E. induction n; intros p; cbn [map_links]; auto. now rewrite E, IHn. Qed.

Lemma sized_DYN t : sized t -> List.length (member t "par_DYN") = 10 * t_n t /\ List.length (member t "par_REG") = 10 * t_n t.
Proof.
  intros Hs. split; [apply (Hs "par_DYN" (10 * t_n t))|apply (Hs "par_REG" (10 * t_n t))]; try (cbn -[Nat.mul]; auto 20; fail);
  cbn; intuition discriminate.
Qed.
Lemma convert_eq f from to t : List.length (member t from) = 10 * t_n t -> List.length (member t to) = 10 * t_n t ->
  t_convert f from to t = Ok (tput to (map_links (t_n t) f (member t from)) t).
Proof.
  intros A B. unfold t_convert. change STD_PAR_LINK with 10. rewrite A, B, Nat.leb_refl. cbn [andb].
  rewrite skipn_all2 by (rewrite B; auto). now rewrite app_nil_r.
Qed.
Lemma update_REG_eq t : sized t -> t_update_REG t = Ok (tput "par_REG" (map_links (t_n t) reg_of_dyn (member t "par_DYN")) t).
Proof.
  intros Hs. destruct (sized_DYN t Hs). unfold t_update_REG. rewrite convert_eq by auto.
  now rewrite (map_links_ext _ _ _ t_reg_eq).
Qed.
Lemma update_DYN_eq t : sized t -> t_update_DYN t = Ok (tput "par_DYN" (map_links (t_n t) dyn_of_reg (member t "par_REG")) t).
Proof.
  intros Hs. destruct (sized_DYN t Hs). unfold t_update_DYN. rewrite convert_eq by auto.
  now rewrite (map_links_ext _ _ _ t_dyn_eq).
Qed.
Lemma sized_store_DYN v t : sized t -> sized (tstore "par_DYN" (List.length (member t "par_DYN")) v t).
Proof. intros Hs. unfold tstore. destruct (Nat.eqb_spec (List.length v) (List.length (member t "par_DYN"))); auto. apply sized_tput; auto. Qed.
Lemma sized_store_REG v t : sized t -> sized (tstore "par_REG" (List.length (member t "par_REG")) v t).
Proof. intros Hs. unfold tstore. destruct (Nat.eqb_spec (List.length v) (List.length (member t "par_REG"))); auto. apply sized_tput; auto. Qed.
Lemma reg_links_len n p : List.length (map_links n reg_of_dyn p) = 10 * n.
Proof. apply map_links_len. intros; apply reg10. Qed.
Lemma dyn_links_len n p : List.length (map_links n dyn_of_reg p) = 10 * n.
Proof. apply map_links_len. intros; apply dyn10. Qed.

Theorem tset_DYN v upd t : sized t -> exists t1, t_set_par_DYN v upd t = Ok t1 /\ sized t1 /\
  t_changes ["par_DYN"; "par_REG"] t t1 /\
  member t1 "par_DYN" = (if Nat.eqb (List.length v) (10 * t_n t) then v else member t "par_DYN") /\
  (upd = true -> t_sync t1) /\ (upd = false -> member t1 "par_REG" = member t "par_REG") /\
  (List.length v <> 10 * t_n t -> upd = false \/ t_sync t -> forall k, member t1 k = member t k).
Proof.
  intros Hs. destruct (sized_DYN t Hs) as [LD LR]. unfold t_set_par_DYN. pose proof (sized_store_DYN v t Hs) as S1.
  rewrite LD in S1 |- *. set (t1 := tstore "par_DYN" (10 * t_n t) v t) in *.
  assert (M : member t1 "par_DYN" = (if Nat.eqb (List.length v) (10 * t_n t) then v else member t "par_DYN")).
  { unfold t1, tstore. destruct Nat.eqb; auto. apply member_tput. }
  assert (MR : member t1 "par_REG" = member t "par_REG").
  { unfold t1, tstore. destruct Nat.eqb; auto. apply member_tput_ne; discriminate. }
  assert (C1 : t_changes ["par_DYN"; "par_REG"] t t1).
  { unfold t1, tstore. destruct Nat.eqb; auto using changes_refl. apply changes_tput; simpl; auto. }
  assert (N1 : t_n t1 = t_n t) by (unfold t1, tstore; destruct Nat.eqb; reflexivity).
  destruct upd.
  - rewrite update_REG_eq by auto. eexists. split; [reflexivity|].
    assert (Sy : t_sync (tput "par_REG" (map_links (t_n t1) reg_of_dyn (member t1 "par_DYN")) t1)).
    { unfold t_sync. cbn [tput with_val t_n]. fold (tput "par_REG" (map_links (t_n t1) reg_of_dyn (member t1 "par_DYN")) t1).
      rewrite member_tput, member_tput_ne by discriminate. apply reg_links. rewrite M, N1.
      destruct (Nat.eqb_spec (List.length v) (10 * t_n t)); assumption. }
    split. { apply sized_tput; auto. right. rewrite reg_links_len. rewrite MR, LR, N1. reflexivity. }
    split. { eapply changes_trans; [exact C1|]. apply changes_tput. simpl; auto. }
    split. { rewrite member_tput_ne by discriminate. exact M. }
    split; auto. split; [discriminate|]. intros Hne [E|Hsy]; [discriminate|].
    assert (E1 : t1 = t). { unfold t1, tstore. now rewrite (proj2 (Nat.eqb_neq _ _) Hne). }
    rewrite E1 in *. intros k. destruct (String.eqb_spec k "par_REG") as [->|Ek]; [|now rewrite member_tput_ne].
    rewrite member_tput. apply (links_ext (t_n t)); auto. { apply reg_links_len. }
    intros i c Hi Hc. eapply same_reg_unique; [| |exact Hc].
    + apply (reg_links (t_n t) (member t "par_DYN")); auto.
    + apply Hsy; auto.
  - exists t1. split; [reflexivity|]. split; [exact S1|]. split; [exact C1|]. split; [exact M|]. split; [discriminate|]. split; [auto|].
    intros Hne _ k. unfold t1, tstore. now rewrite (proj2 (Nat.eqb_neq _ _) Hne).
Qed.

Theorem tset_REG v upd t : sized t -> exists t1, t_set_par_REG v upd t = Ok t1 /\ sized t1 /\
  t_changes ["par_DYN"; "par_REG"] t t1 /\
  member t1 "par_REG" = (if Nat.eqb (List.length v) (10 * t_n t) then v else member t "par_REG") /\
  (upd = true -> massive (t_n t) (member t1 "par_REG") -> t_sync t1) /\ (upd = false -> member t1 "par_DYN" = member t "par_DYN") /\
  (List.length v <> 10 * t_n t -> upd = false \/ t_sync t /\ massive (t_n t) (member t "par_REG") -> forall k, member t1 k = member t k).
Proof.
  intros Hs. destruct (sized_DYN t Hs) as [LD LR]. unfold t_set_par_REG. pose proof (sized_store_REG v t Hs) as S1.
  rewrite LR in S1 |- *. set (t1 := tstore "par_REG" (10 * t_n t) v t) in *.
  assert (M : member t1 "par_REG" = (if Nat.eqb (List.length v) (10 * t_n t) then v else member t "par_REG")).
  { unfold t1, tstore. destruct Nat.eqb; auto. apply member_tput. }
  assert (MR : member t1 "par_DYN" = member t "par_DYN").
  { unfold t1, tstore. destruct Nat.eqb; auto. apply member_tput_ne; discriminate. }
  assert (C1 : t_changes ["par_DYN"; "par_REG"] t t1).
  { unfold t1, tstore. destruct Nat.eqb; auto using changes_refl. apply changes_tput; simpl; auto. }
  assert (N1 : t_n t1 = t_n t) by (unfold t1, tstore; destruct Nat.eqb; reflexivity).
  destruct upd.
  - rewrite update_DYN_eq by auto. eexists. split; [reflexivity|].
    split. { apply sized_tput; auto. right. rewrite dyn_links_len. rewrite MR, LD, N1. reflexivity. }
    split. { eapply changes_trans; [exact C1|]. apply changes_tput. simpl; auto. }
    split. { rewrite member_tput_ne by discriminate. exact M. }
    split. { intros _ Hm. rewrite member_tput_ne in Hm by discriminate. unfold t_sync. cbn [tput with_val t_n]. fold (tput "par_DYN" (map_links (t_n t1) dyn_of_reg (member t1 "par_REG")) t1).
      rewrite member_tput, member_tput_ne by discriminate. rewrite N1. apply dyn_links; auto. rewrite M.
      destruct (Nat.eqb_spec (List.length v) (10 * t_n t)); assumption. }
    split; [discriminate|]. intros Hne [E|[Hsy Hm]]; [discriminate|].
    assert (E1 : t1 = t). { unfold t1, tstore. now rewrite (proj2 (Nat.eqb_neq _ _) Hne). }
    rewrite E1 in *. intros k. destruct (String.eqb_spec k "par_DYN") as [->|Ek]; [|now rewrite member_tput_ne].
    rewrite member_tput. apply (links_ext (t_n t)); auto. { apply dyn_links_len. }
    intros i c Hi Hc. eapply (same_dyn_unique _ _ (link_of (member t "par_REG") i)); [apply Hm; auto| | |exact Hc].
    + apply (dyn_links (t_n t) (member t "par_REG")); auto.
    + apply Hsy; auto.
  - exists t1. split; [reflexivity|]. split; [exact S1|]. split; [exact C1|]. split; [exact M|]. split; [discriminate|]. split; [auto|].
    intros Hne _ k. unfold t1, tstore. now rewrite (proj2 (Nat.eqb_neq _ _) Hne).
Qed.

Theorem tset_DH cols v t :
  (List.length v = now "par_DHtable" t -> cols = 1 ->
     exists t1, t_set_par_DHtable cols v t = Ok t1 /\ member t1 "par_DHtable" = v /\ t_changes ["par_DHtable"] t t1) /\
  (List.length v <> now "par_DHtable" t -> t_set_par_DHtable cols v t = Ok t).
Proof.
  unfold t_set_par_DHtable, now. split.
  - intros A ->. rewrite (proj2 (Nat.eqb_eq _ _) A). cbn [Nat.eqb orb]. eexists. split; [reflexivity|].
    split; [apply member_tput|apply changes_tput; left; auto].
  - intros A. now rewrite (proj2 (Nat.eqb_neq _ _) A).
Qed.
