(* Runs of the generator at the same time. *)
From Coq Require Import Reals Lia Arith List String Ascii Bool.
From Verif.Model Require Import Base SX Robot Yaml Build Text TemplateText Main Crash Parallel.
From Verif.Spec Require Import Text Generated Runs Parallel.
From Verif.Proofs Require Import Maps Text MainGen MainFiles MainMore Crash.
Import ListNotations.
Open Scope nat_scope.
Open Scope string_scope.

(* a process left alone *)
Fixpoint big (P : proc) (fs : files) : files * option ending :=
  match P with
  | PEnd e => (fs, e)
  | PWrite p c k | PFill p c k => big k (mset p c fs)
  | PRead p k => big (k (mfind p fs)) fs
  end.
(* the paths it may use *)
Fixpoint uses (F : string -> Prop) (P : proc) : Prop :=
  match P with
  | PEnd _ => True
  | PWrite p _ k | PFill p _ k => F p /\ uses F k
  | PRead p k => F p /\ forall c, uses F (k c)
  end.
Definition agree (F : string -> Prop) (a b : files) : Prop := forall p, F p -> mfind p a = mfind p b.
Lemma agree_mset F a b p c : agree F a b -> agree F (mset p c a) (mset p c b).
Proof. intros H q Hq. destruct (string_dec q p) as [->|N]; [now rewrite !mfind_mset|]. rewrite !mfind_mset_ne by exact N. auto. Qed.
Lemma big_agree F P : uses F P -> forall a b, agree F a b -> snd (big P a) = snd (big P b) /\ agree F (fst (big P a)) (fst (big P b)).
Proof.
  induction P as [e|p c k IH|p c k IH|p k IH]; cbn [uses big]; intros U a b A; [split; [reflexivity|exact A]| | |].
  - destruct U as [_ U]. apply IH; [exact U|]. now apply agree_mset.
  - destruct U as [_ U]. apply IH; [exact U|]. now apply agree_mset.
  - destruct U as [Up U]. rewrite (A p Up). apply IH; auto.
Qed.
Lemma step_uses F P fs P' fs1 : proc_step P fs P' fs1 -> uses F P -> uses F P' /\ forall p, ~ F p -> mfind p fs1 = mfind p fs.
Proof.
  intros S. destruct S; cbn [uses]; intros [A B]; (split; [cbn [uses]; auto|]);
  try (intros q N; apply mfind_mset_ne; intros ->; auto; fail). reflexivity.
Qed.
Lemma step_big F P fs P' fs1 : proc_step P fs P' fs1 -> uses F P -> snd (big P' fs1) = snd (big P fs) /\ agree F (fst (big P' fs1)) (fst (big P fs)).
Proof.
  assert (M : forall p (c x : content) fs, agree F (mset p c (mset p x fs)) (mset p c fs)).
  { intros p c x f q _. destruct (string_dec q p) as [->|N]; [now rewrite !mfind_mset|]. now rewrite !mfind_mset_ne by exact N. }
  intros S. destruct S; cbn [uses big]; intros [A B].
  - apply (big_agree F k B). apply M.
  - apply (big_agree F k B). apply M.
  - split; [reflexivity|intros q _; reflexivity].
  - split; [reflexivity|intros q _; reflexivity].
Qed.

(* the process is the run *)
Section Process.
  Variable w : world.
  Lemma copies_big k : forall l fs, big (copies_proc w l k) fs = big k (copy_list w l fs).
  Proof.
    induction l as [|[src [dir dst]] t IH]; intros fs; [reflexivity|]. cbn [copies_proc big copy_list]. unfold copy_one.
    destruct (mfind src fs) as [c|]; [|reflexivity]. destruct (w_dir w dir); [|reflexivity]. cbn [big]. apply IH.
  Qed.
  Lemma process_big : forall l fs, big (process w l) fs = run_steps w l fs.
  Proof.
    induction l as [|s t IH]; intros fs; [reflexivity|]. cbn [run_steps]. unfold after.
    destruct s as [p c|p f|l|e]; cbn [process run_step].
    - cbn [big]. unfold write. apply IH.
    - cbn [big]. unfold rewrite. destruct (mfind p fs) as [[s| | | |]|]; try reflexivity. destruct (f s); try reflexivity. cbn [big]. apply IH.
    - rewrite copies_big. apply IH.
    - reflexivity.
  Qed.
  Lemma copies_uses (F : string -> Prop) l k : (forall x, In x l -> F (fst x) /\ F (fst (snd x) ++ snd (snd x))) -> uses F k -> uses F (copies_proc w l k).
  Proof.
    induction l as [|[src [dir dst]] t IH]; intros H U; [exact U|]. cbn [copies_proc uses].
    destruct (H _ (or_introl eq_refl)) as [A B]. cbn [fst snd] in A, B. split; [exact A|].
    intros [c|]; [|exact U]. destruct (w_dir w dir); [|exact U]. cbn [uses]. split; [exact B|]. apply IH; [|exact U]. intros x Hx. apply H. now right.
  Qed.
  Lemma process_uses (F : string -> Prop) : forall l W, fresh W l -> (forall p, In p W -> F p) -> (forall p, In p (flat_map touches l) -> F p) -> uses F (process w l).
  Proof.
    induction l as [|s t IH]; intros W Fr HW HT; [exact I|]. cbn [flat_map] in HT.
    assert (T : forall p, In p (flat_map touches t) -> F p) by (intros p Hp; apply HT; apply in_app_iff; auto).
    destruct s as [p c|p f|l|e]; cbn [process fresh touches] in *.
    - cbn [uses]. assert (Fp : F p) by (apply HT; now left). split; [exact Fp|]. apply (IH (p :: W)); auto. intros q [<-|Hq]; auto.
    - destruct Fr as [Hp Fr]. cbn [uses]. assert (Fp : F p) by auto. split; [exact Fp|].
      intros [[s| | | |]|]; try exact I. destruct (f s); try exact I. cbn [uses]. split; [exact Fp|]. eapply IH; eauto.
    - destruct Fr as [Hc Fr]. apply copies_uses; [|eapply IH; eauto]. intros x Hx. split; [apply HW, Hc, Hx|].
      apply HT. apply in_app_iff. left. apply in_map_iff. exists x. auto.
    - exact I.
  Qed.
End Process.

Lemma program_alone j fs : big (program j) fs = alone j fs.
Proof. unfold program, alone. rewrite process_big. apply gen_steps_run. Qed.
Lemma program_uses j : placed j -> uses (output_of j) (program j).
Proof.
  intros [Hp [root Hr]]. unfold program. apply (process_uses _ _ _ [] (gen_fresh _ _ _ _ _)); [intros p []|].
  intros p H. destruct (cli_names (j_file j) (o_name (j_opts j))) as [[|d name]|m|m] eqn:E;
    [unfold gen_steps in H; rewrite E in H; destruct H| |unfold gen_steps in H; rewrite E in H; destruct H|unfold gen_steps in H; rewrite E in H; destruct H].
  pose proof (gen_touches _ _ _ _ _ _ _ _ E H) as [[x Ex]|[Ec (q & f & A & B & Eq)]].
  - exists d, name. split; [exact E|]. left. exists x. unfold job_cwd. rewrite Ex, (under_plain _ _ (plain_last _ Hp)). reflexivity.
  - exists d, name. split; [exact E|]. right. split; [exact Ec|]. exists root, q, f. pose proof (root_ok _ _ Hp Hr) as R. unfold job_cwd in R. rewrite R. auto.
    repeat split; auto. rewrite <- R. exact Hr.
Qed.

(* several processes *)
Definition good (fs0 fs : files) (j : job) (P : proc) : Prop :=
  uses (output_of j) P /\ snd (big P fs) = snd (alone j fs0) /\ agree (output_of j) (fst (big P fs)) (fst (alone j fs0)).
Lemma pairs_mid {A} (R : A -> A -> Prop) l1 a l2 : ForallOrdPairs R (l1 ++ a :: l2) ->
  (forall x, In x l1 -> R x a) /\ (forall x, In x l2 -> R a x).
Proof.
  induction l1 as [|y l1 IH]; cbn [app]; intros H; inversion H as [|? ? H1 H2]; subst.
  - split; [intros x []|]. rewrite Forall_forall in H1. exact H1.
  - destruct (IH H2) as [B C]. split; [|exact C]. intros x [->|Hx]; [|auto]. rewrite Forall_forall in H1. apply H1. apply in_app_iff. right. now left.
Qed.
Lemma good_other fs0 fs fs1 a b P : apart a b \/ apart b a -> (forall p, ~ output_of a p -> mfind p fs1 = mfind p fs) -> good fs0 fs b P -> good fs0 fs1 b P.
Proof.
  intros D O (U & E & A). destruct (big_agree _ P U fs1 fs) as [E' A'].
  { intros p Hp. apply O. intros Ha. destruct D as [D|D]; eapply D; eauto. }
  split; [exact U|]. split; [congruence|]. intros p Hp. rewrite (A' p Hp). auto.
Qed.
Lemma forall2_app_r {A B} (R : A -> B -> Prop) l m1 m2 : Forall2 R l (m1 ++ m2) -> exists l1 l2, l = (l1 ++ l2)%list /\ Forall2 R l1 m1 /\ Forall2 R l2 m2.
Proof. intros H. destruct (Forall2_app_inv_r _ _ H) as (l1 & l2 & X1 & X2 & ->). eauto. Qed.
Lemma forall2_imp {A B} (R S : A -> B -> Prop) l m : Forall2 R l m -> (forall a b, In a l -> R a b -> S a b) -> Forall2 S l m.
Proof. intros H I. induction H; constructor; [apply I; [now left|auto]|]. apply IHForall2. intros a b Ha. apply I. now right. Qed.
Lemma pool_inv jobs fs0 : ForallOrdPairs apart jobs -> forall Ps fs Qs fs1, pool_runs Ps fs Qs fs1 ->
  Forall2 (good fs0 fs) jobs Ps -> (forall p, (forall j, In j jobs -> ~ output_of j p) -> mfind p fs = mfind p fs0) ->
  Forall2 (good fs0 fs1) jobs Qs /\ (forall p, (forall j, In j jobs -> ~ output_of j p) -> mfind p fs1 = mfind p fs0).
Proof.
  intros D Ps fs Qs fs1 R. induction R as [Ps fs|l1 P P' l2 fs fs1 Qs fs2 S _ IH]; intros G O; [auto|].
  destruct (forall2_app_r _ _ _ _ G) as (j1 & j2 & Ej & G1 & G2). inversion G2 as [|j P0 j3 ? GP G3]; subst P0 j2 jobs. clear G2.
  destruct (pairs_mid _ _ _ _ D) as [D1 D2]. pose proof GP as (U & E & A).
  destruct (step_uses _ _ _ _ _ S U) as [U' O'].
  apply IH.
  - apply Forall2_app; [|constructor].
    + eapply forall2_imp; [exact G1|]. intros a b Ha. apply (good_other fs0 fs fs1 j a b); [right; auto|exact O'].
    + destruct (step_big _ _ _ _ _ S U) as [E' A']. split; [exact U'|]. split; [congruence|]. intros p Hp. rewrite (A' p Hp). auto.
    + eapply forall2_imp; [exact G3|]. intros a b Ha. apply (good_other fs0 fs fs1 j a b); [left; auto|exact O'].
  - intros p Hp. rewrite O'; [auto|]. apply Hp. apply in_app_iff. right. now left.
Qed.
Theorem independent jobs fs Ps fs1 : (forall j, In j jobs -> placed j) -> ForallOrdPairs apart jobs ->
  pool_runs (map program jobs) fs Ps fs1 ->
  (forall i j e, nth_error jobs i = Some j -> nth_error Ps i = Some (PEnd e) ->
     e = snd (alone j fs) /\ forall p, output_of j p -> mfind p fs1 = mfind p (fst (alone j fs))) /\
  (forall p, (forall j, In j jobs -> ~ output_of j p) -> mfind p fs1 = mfind p fs).
Proof.
  intros Pl D R. destruct (pool_inv jobs fs D _ _ _ _ R) as [G O]; [|auto|].
  - clear -Pl. induction jobs as [|j t IH]; [constructor|]. cbn [map]. constructor.
    + split; [apply program_uses, Pl; now left|]. rewrite program_alone. split; [reflexivity|intros p _; reflexivity].
    + apply IH. intros j' Hj. apply Pl. now right.
  - split; [|exact O]. clear -G. induction G as [|j P js Qs H _ IH]; intros i a e; [destruct i; discriminate|].
    destruct i as [|i]; cbn [nth_error]; [|apply IH]. intros E1 E2. injection E1 as ->. injection E2 as ->.
    destruct H as (_ & E & A). cbn [big fst snd] in E, A. split; [exact E|exact A].
Qed.

(* no run waits for another: the others may stop for ever, this one can go on to its end *)
Lemma solo l1 l2 P : forall fs, exists fs1, pool_runs (l1 ++ P :: l2) fs (l1 ++ PEnd (snd (big P fs)) :: l2) fs1.
Proof.
  induction P as [e|p c k IH|p c k IH|p k IH]; intros fs; cbn [big].
  - exists fs. apply pr_none.
  - destruct (IH (mset p c fs)) as [fs1 H]. assert (X : exists fs2, pool_runs (l1 ++ k :: l2) (mset p c (mset p c fs)) (l1 ++ PEnd (snd (big k (mset p c fs))) :: l2) fs2).
    { destruct (IH (mset p c (mset p c fs))) as [f2 H2]. exists f2.
      replace (snd (big k (mset p c fs))) with (snd (big k (mset p c (mset p c fs)))); [exact H2|].
      assert (UT : uses (fun _ => True) k) by (clear; induction k; cbn [uses]; auto).
      apply (big_agree _ k UT). intros q _. destruct (string_dec q p) as [->|N]; [now rewrite !mfind_mset|]. now rewrite !mfind_mset_ne by exact N. }
    destruct X as [f2 X]. exists f2. eapply pr_more; [apply st_open with (x := c)|]. eapply pr_more; [apply st_close|]. exact X.
  - destruct (IH (mset p c fs)) as [fs1 H]. exists fs1. eapply pr_more; [apply st_close|]. exact H.
  - destruct (IH (mfind p fs) fs) as [fs1 H]. exists fs1. eapply pr_more; [apply st_read|]. exact H.
Qed.
Lemma solo_files l1 l2 P : forall fs, exists fs1, pool_runs (l1 ++ P :: l2) fs (l1 ++ PEnd (snd (big P fs)) :: l2) fs1 /\
  forall p, mfind p fs1 = mfind p (fst (big P fs)).
Proof.
  assert (UT : forall k, uses (fun _ => True) k) by (induction k; cbn [uses]; auto).
  induction P as [e|p c k IH|p c k IH|p k IH]; intros fs; cbn [big].
  - exists fs. split; [apply pr_none|reflexivity].
  - destruct (IH (mset p c (mset p c fs))) as (f2 & H2 & F2).
    destruct (big_agree (fun _ => True) k (UT k) (mset p c (mset p c fs)) (mset p c fs)) as [E A].
    { intros q _. destruct (string_dec q p) as [->|N]; [now rewrite !mfind_mset|]. now rewrite !mfind_mset_ne by exact N. }
    exists f2. split; [|intros q; rewrite F2; now apply A]. rewrite <- E.
    eapply pr_more; [apply st_open with (x := c)|]. eapply pr_more; [apply st_close|]. exact H2.
  - destruct (IH (mset p c fs)) as (fs1 & H & F). exists fs1. split; [|exact F]. eapply pr_more; [apply st_close|]. exact H.
  - destruct (IH (mfind p fs) fs) as (fs1 & H & F). exists fs1. split; [|exact F]. eapply pr_more; [apply st_read|]. exact H.
Qed.
Lemma pool_trans Ps fs Qs fs1 Rs fs2 : pool_runs Ps fs Qs fs1 -> pool_runs Qs fs1 Rs fs2 -> pool_runs Ps fs Rs fs2.
Proof. induction 1; [auto|]. intros H2. eapply pr_more; eauto. Qed.

(* different names in one directory *)
Lemma slash_cut : forall a b x y : string, no_char "/" a -> no_char "/" b -> a ++ "/" ++ x = b ++ "/" ++ y -> a = b.
Proof.
  assert (T : forall c s, no_char "/" (String c s) -> c <> "/"%char /\ no_char "/" s).
  { intros c s H. split; [intros ->; apply (H 0); reflexivity|]. intros i Hi. apply (H (S i)). exact Hi. }
  induction a as [|c a IH]; intros [|d b] x y Ha Hb E; [reflexivity| | |].
  - cbn [append] in E. injection E as E0 _. destruct (T _ _ Hb) as [N _]. congruence.
  - cbn [append] in E. injection E as E0 _. destruct (T _ _ Ha) as [N _]. congruence.
  - cbn [append] in E. injection E as -> E. f_equal. apply (IH b x y); [apply (T _ _ Ha)|apply (T _ _ Hb)|exact E].
Qed.
Lemma no_char_app c a b : no_char c a -> no_char c b -> no_char c (a ++ b).
Proof.
  revert b. induction a as [|d a IH]; intros b Ha Hb; [exact Hb|]. intros [|i] H.
  - apply (Ha 0). exact H.
  - apply (IH b (fun i Hi => Ha (S i) Hi) Hb i). exact H.
Qed.
Lemma cancel_front (p a b : string) : p ++ a = p ++ b -> a = b.
Proof. induction p; cbn [append]; [auto|]. intros E. injection E as E. auto. Qed.
Lemma cancel_back (a b s : string) : a ++ s = b ++ s -> a = b.
Proof.
  revert b. induction a as [|c a IH]; intros [|d b] E; [reflexivity| | |].
  - exfalso. apply (f_equal String.length) in E. cbn [append String.length] in E. rewrite length_app in E. lia.
  - exfalso. apply (f_equal String.length) in E. cbn [append String.length] in E. rewrite length_app in E. lia.
  - cbn [append] in E. injection E as -> E. f_equal. auto.
Qed.
Theorem names_apart a b da na db nb : job_cwd a = job_cwd b -> o_copy (j_opts a) = false -> o_copy (j_opts b) = false ->
  cli_names (j_file a) (o_name (j_opts a)) = Ok (Accepted da na) -> cli_names (j_file b) (o_name (j_opts b)) = Ok (Accepted db nb) ->
  no_char "/" na -> no_char "/" nb -> na <> nb -> apart a b.
Proof.
  intros Ec Oa Ob Ca Cb Na Nb N p (d1 & n1 & C1 & H1) (d2 & n2 & C2 & H2). rewrite Ca in C1. rewrite Cb in C2. injection C1 as <- <-. injection C2 as <- <-.
  destruct H1 as [[x E1]|[X _]]; [|congruence]. destruct H2 as [[y E2]|[X _]]; [|congruence].
  rewrite E1 in E2. unfold output_dir in E2. rewrite Ec, !app_assoc_s in E2. apply cancel_front in E2. cbn [append] in E2. injection E2 as E2.
  apply N. apply (cancel_back na nb "_generatedFiles").
  assert (G : no_char "/" "_generatedFiles").
  { intros i Hi. do 15 (destruct i as [|i]; [discriminate Hi|]). discriminate Hi. }
  apply (slash_cut _ _ x y); [now apply no_char_app|now apply no_char_app|].
  rewrite !app_assoc_s. exact E2.
Qed.
