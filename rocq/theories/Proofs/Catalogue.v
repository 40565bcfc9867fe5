(* The published functions as the API reports them. *)
From Coq Require Import Reals Lra Lia Arith List String Bool ZArith.
From Verif.Model Require Import Base Expr SX Robot Kinematics Dynamics Regressors Yaml Build.
From Verif.Spec Require Import Math Setup Kinematics Api.
From Verif.Proofs Require Import Calc Rel Pure PureRel Maps Names Shape Dims Sizes Deps BuildEq BuildReg Load Init Final Closed Get SortedMaps KinThm Select Lagrange.
Import ListNotations.
Open Scope nat_scope.
Open Scope string_scope.

Lemma some_lt k : some_ k = true <-> 0 < k.
Proof. unfold some_. apply Nat.ltb_lt. Qed.
Lemma in_when c l x : In x (when c l) <-> c = true /\ In x l.
Proof. destruct c; simpl; intuition congruence. Qed.
Lemma in_numbered pre from count r c nm rr cc :
  In (nm, (rr, cc)) (numbered pre from count r c) <-> exists i, from <= i < from + count /\ nm = pre ++ to_string i /\ rr = r /\ cc = c.
Proof.
  unfold numbered. rewrite in_map_iff. split.
  - intros (i & [= <- <- <-] & Hi). apply in_seq in Hi. eauto.
  - intros (i & Hi & -> & -> & ->). exists i. split; auto. now apply in_seq.
Qed.

Section Cat.
  Variables (r0 b r' : robot).
  Hypothesis HS : sess r0 b r'.
  Let Hb := ss_base _ _ _ HS.
  Lemma sel_symbolic k len : In (k, len) (keys b) -> List.length (sel b k) = symbolic r0 k.
  Proof.
    intros Hk. pose proof (bs_shape _ _ Hb k len Hk) as P. rewrite (sel_fidx _ b k len P), map_length, fidx_selected.
    unfold symbolic. now rewrite (flags_b _ _ _ HS).
  Qed.
  Lemma kin_par_symbolic : rows (kin_par b) = kin_symbolic r0.
  Proof.
    assert (PK : In ("par_DHtable", 4 * numJoints b) (keys b) /\ In ("par_world2L0", 6) (keys b) /\ In ("par_Ln2EE", 6) (keys b)).
    { unfold keys, par_keys. rewrite !in_app_iff. simpl. tauto. }
    destruct PK as (P1 & P2 & P3). unfold kin_par. cbn [rows vertcat_list]. rewrite !app_length.
    rewrite (sel_symbolic _ _ P1), (sel_symbolic _ _ P2), (sel_symbolic _ _ P3). unfold kin_symbolic. lia.
  Qed.
  Let En : numJoints b = numJoints r0. Proof. now rewrite (ss_b _ _ _ HS). Qed.
  Let Ee : numElasticJoints b = numElasticJoints r0. Proof. now rewrite (ss_b _ _ _ HS). Qed.
  Let Eel : ELASTIC b = ELASTIC r0. Proof. now rewrite (ss_b _ _ _ HS). Qed.
  Let EDl : Dl_order b = Dl_order r0. Proof. now rewrite (ss_b _ _ _ HS). Qed.
  Let EK : K_order b = K_order r0. Proof. now rewrite (ss_b _ _ _ HS). Qed.
  Let ED : D_order b = D_order r0. Proof. now rewrite (ss_b _ _ _ HS). Qed.
  Let EDm : Dm_order b = Dm_order r0. Proof. now rewrite (ss_b _ _ _ HS). Qed.
  Lemma selDl : 0 < Dl_order r0 -> List.length (sel b "par_Dl") = symbolic r0 "par_Dl".
  Proof.
    intros H. apply sel_symbolic with (len := numJoints b * Dl_order b). unfold keys, par_keys. rewrite EDl.
    apply Nat.ltb_lt in H. rewrite H. rewrite !in_app_iff. simpl. tauto.
  Qed.
  Lemma selel : ELASTIC r0 = true -> List.length (sel b "par_K") = symbolic r0 "par_K" /\ List.length (sel b "par_D") = symbolic r0 "par_D" /\
    List.length (sel b "par_Dm") = symbolic r0 "par_Dm" /\ List.length (sel b "par_Mm") = symbolic r0 "par_Mm".
  Proof.
    intros H. rewrite <- Eel in H.
    repeat match goal with |- _ /\ _ => split end;
      (eapply sel_symbolic; unfold keys, par_keys; rewrite H, !in_app_iff; simpl; eauto 10).
  Qed.

  Ltac inl := repeat (first [left; reflexivity | right]).
  Lemma cat_enabled f : enabled b f -> In (name_of f, (vrows b f, vcols b f)) (catalogue r0).
  Proof.
    intros He. unfold catalogue. cbv zeta. rewrite !in_app_iff, !in_when, !in_numbered.
    destruct f; cbn [name_of vrows vcols enabled] in *; rewrite ?En, ?Ee, ?Eel, ?EDl, ?EK, ?ED, ?EDm, ?kin_par_symbolic in *.
    - right; left. exists i. repeat split; auto; lia.
    - right; right; left. exists i. repeat split; auto; lia.
    - left. simpl; auto.
    - do 3 right. left. simpl; auto.
    - do 4 right. left. exists i. repeat split; auto; lia.
    - do 5 right. left. simpl; auto.
    - do 5 right. left. simpl; auto.
    - do 5 right. left. simpl; auto.
    - do 5 right. left. simpl; auto.
    - do 6 right. left. exists i. repeat split; auto; lia.
    - do 7 right. left. inl.
    - do 7 right. left. inl.
    - do 7 right. left. inl.
    - do 7 right. left. inl.
    - do 7 right. left. inl.
    - do 7 right. left. inl.
    - do 7 right. left. inl.
    - do 7 right. left. inl.
    - do 7 right. left. inl.
    - do 7 right. left. inl.
    - do 8 right. left. inl.
    - do 8 right. left. inl.
    - do 8 right. left. inl.
    - do 8 right. left. inl.
    - do 9 right. left. split; [now apply some_lt|]. simpl; auto.
    - do 9 right. left. split; [apply some_lt; lia|]. right. apply in_app_iff. left. apply in_numbered. exists i. repeat split; auto; lia.
    - do 10 right. left. destruct He as [He1 He2]. split; auto. rewrite !in_app_iff. left. apply in_when. split; [now apply some_lt|simpl; auto].
    - do 10 right. left. destruct He as [He1 (o & Ho & ->)]. split; auto. rewrite !in_app_iff. left. apply in_when. split; [apply some_lt; lia|].
      right. apply in_map_iff. exists o. split; auto. apply in_seq. lia.
    - do 10 right. left. destruct He as [He1 He2]. split; auto. rewrite !in_app_iff. right; left. apply in_when. split; [now apply some_lt|simpl; auto].
    - do 10 right. left. destruct He as [He1 He2]. split; auto. rewrite !in_app_iff. right; left. apply in_when. split; [apply some_lt; lia|].
      right. apply in_numbered. exists i. repeat split; auto; lia.
    - do 10 right. left. destruct He as [He1 He2]. split; auto. rewrite !in_app_iff. do 2 right; left. apply in_when. split; [now apply some_lt|simpl; auto].
    - do 10 right. left. destruct He as [He1 He2]. split; auto. rewrite !in_app_iff. do 2 right; left. apply in_when. split; [apply some_lt; lia|].
      right. apply in_numbered. exists i. repeat split; auto; lia.
    - do 10 right. left. split; auto. rewrite !in_app_iff. do 3 right; left. simpl; auto.
    - do 9 right. left. destruct He as [He1 He2]. split; [now apply some_lt|]. right. apply in_app_iff. right.
      rewrite <- selDl by auto. apply in_when. split; [|simpl; auto]. apply some_lt. destruct (sel b "par_Dl"); simpl; [congruence|lia].
    - do 10 right. left. destruct He as [He1 He2]. split; auto. destruct (selel He1) as (S1 & S2 & S3 & S4). rewrite <- S1.
      rewrite !in_app_iff. do 4 right; left. apply in_when. split; [|simpl; auto]. apply some_lt. destruct (sel b "par_K"); simpl; [congruence|lia].
    - do 10 right. left. destruct He as [He1 He2]. split; auto. destruct (selel He1) as (S1 & S2 & S3 & S4). rewrite <- S2.
      rewrite !in_app_iff. do 5 right; left. apply in_when. split; [|simpl; auto]. apply some_lt. destruct (sel b "par_D"); simpl; [congruence|lia].
    - do 10 right. left. destruct He as [He1 He2]. split; auto. destruct (selel He1) as (S1 & S2 & S3 & S4). rewrite <- S3.
      rewrite !in_app_iff. do 6 right; left. apply in_when. split; [|simpl; auto]. apply some_lt. destruct (sel b "par_Dm"); simpl; [congruence|lia].
    - do 10 right. left. destruct He as [He1 He2]. split; auto. destruct (selel He1) as (S1 & S2 & S3 & S4). rewrite <- S4.
      rewrite !in_app_iff. do 7 right. apply in_when. split; [|simpl; auto]. apply some_lt. destruct (sel b "par_Mm"); simpl; [congruence|lia].
    - do 11 right. split; [apply some_lt; lia|simpl; auto].
    - do 11 right. split; [apply some_lt; lia|simpl; auto].
  Qed.
  Ltac pick f := exists f; cbn [name_of vrows vcols enabled]; rewrite ?En, ?Ee, ?Eel, ?EDl, ?EK, ?ED, ?EDm, ?kin_par_symbolic;
    repeat match goal with |- _ /\ _ => split end; auto; try lia.
  Ltac ent H := let E := fresh in destruct H as [E|H]; [injection E as <- <- <-|].
  Lemma cat_inv nm rr cc : In (nm, (rr, cc)) (catalogue r0) ->
    exists f, enabled b f /\ nm = name_of f /\ rr = vrows b f /\ cc = vcols b f.
  Proof.
    unfold catalogue. cbv zeta. rewrite !in_app_iff, !in_when, !in_numbered.
    intros [H|[H|[H|[H|[H|[H|[H|[H|[H|[H|[H|H]]]]]]]]]]].
    - ent H; [pick fTb|destruct H].
    - destruct H as (i & Hi & -> & -> & ->). pick (fT i).
    - destruct H as (i & Hi & -> & -> & ->). pick (fT0 i).
    - ent H; [pick fTee|destruct H].
    - destruct H as (i & Hi & -> & -> & ->). pick (fJ i).
    - ent H; [pick fJee|]. ent H; [pick fJeed|]. ent H; [pick fJeedd|]. ent H; [pick fJeepinv|destruct H].
    - destruct H as (i & Hi & -> & -> & ->). pick (fJcm i).
    - ent H; [pick fM|]. ent H; [pick fC|]. ent H; [pick fCstd|]. ent H; [pick fG|]. ent H; [pick fMd|]. ent H; [pick fMdd|].
      ent H; [pick fCd|]. ent H; [pick fCdd|]. ent H; [pick fGd|]. ent H; [pick fGdd|destruct H].
    - ent H; [pick fYr|]. ent H; [pick fRM|]. ent H; [pick fRC|]. ent H; [pick fRG|destruct H].
    - destruct H as [Hc H]. apply some_lt in Hc. ent H; [pick fdl|]. rewrite in_app_iff, in_numbered, in_when in H.
      destruct H as [(i & Hi & -> & -> & ->)|[Hs H]]; [pick (fDl i)|]. apply some_lt in Hs. ent H; [|destruct H].
      rewrite <- selDl in * by auto. pick frdl. destruct (sel b "par_Dl"); [simpl in Hs; lia|discriminate].
    - destruct H as [Hc H]. destruct (selel Hc) as (S1 & S2 & S3 & S4). rewrite <- S1, <- S2, <- S3, <- S4 in H.
      rewrite !in_app_iff, !in_when in H.
      destruct H as [[Hk H]|[[Hk H]|[[Hk H]|[H|[[Hk H]|[[Hk H]|[[Hk H]|[Hk H]]]]]]]]; try apply some_lt in Hk.
      + ent H; [pick fk|]. apply in_map_iff in H. destruct H as (o & [= <- <- <-] & Ho). apply in_seq in Ho.
        pick (fK (2 * o + 1)). exists o. split; [lia|auto].
      + ent H; [pick fd|]. apply in_numbered in H. destruct H as (i & Hi & -> & -> & ->). pick (fD i).
      + ent H; [pick fdm|]. apply in_numbered in H. destruct H as (i & Hi & -> & -> & ->). pick (fDm i).
      + ent H; [pick fMm|destruct H].
      + ent H; [pick frk|destruct H]. destruct (sel b "par_K"); [simpl in Hk; lia|discriminate].
      + ent H; [pick frd|destruct H]. destruct (sel b "par_D"); [simpl in Hk; lia|discriminate].
      + ent H; [pick frdm|destruct H]. destruct (sel b "par_Dm"); [simpl in Hk; lia|discriminate].
      + ent H; [pick frMm|destruct H]. destruct (sel b "par_Mm"); [simpl in Hk; lia|discriminate].
    - destruct H as [Hc H]. apply some_lt in Hc. ent H; [pick frJdq|]. ent H; [pick frJTw|destruct H].
  Qed.
End Cat.
