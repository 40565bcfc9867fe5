(* Killed runs of the generator. *)
From Coq Require Import Reals Lia Arith List String Ascii Bool.
From Verif.Model Require Import Base SX Robot Yaml Build Text TemplateText Main Crash.
From Verif.Spec Require Import Text Generated Runs.
From Verif.Proofs Require Import Maps Text MainGen MainFiles MainMore.
Import ListNotations.
Open Scope nat_scope.
Open Scope string_scope.

Section Run.
  Variable w : world.
  Lemma run_app l1 l2 fs : run_steps w (l1 ++ l2) fs = (run_steps w l1 ;; run_steps w l2) fs.
  Proof.
    revert fs. induction l1 as [|s t IH]; intros fs; cbn [app run_steps]; [reflexivity|].
    unfold after at 1 3. unfold after at 1. destruct (run_step w s fs) as [fs1 [e|]]; [reflexivity|]. apply IH.
  Qed.
  Lemma after_ext p p' q q' fs : (forall fs, p fs = p' fs) -> (forall fs, q fs = q' fs) -> (p ;; q) fs = (p' ;; q') fs.
  Proof. intros A B. unfold after. rewrite A. destruct (p' fs) as [fs1 [e|]]; auto. Qed.
  Lemma run_one s fs : run_steps w [s] fs = run_step w s fs.
  Proof. cbn [run_steps]. unfold after. destruct (run_step w s fs) as [fs1 [e|]]; reflexivity. Qed.
  Lemma run_two s1 s2 fs : run_steps w [s1; s2] fs = (run_step w s1 ;; run_step w s2) fs.
  Proof. cbn [run_steps]. unfold after. destruct (run_step w s1 fs) as [fs1 [e|]]; [reflexivity|]. destruct (run_step w s2 fs1) as [fs2 [e|]]; reflexivity. Qed.
  Lemma run_writes savePath l fs : run_steps w (map (fun kv => SWrite (savePath ++ fst kv ++ ".casadi")%string (CFun (snd kv))) l) fs =
    (fold_left (fun fs kv => mset (savePath ++ fst kv ++ ".casadi") (CFun (snd kv)) fs) l fs, None).
  Proof. revert fs. induction l as [|kv l IH]; intros fs; [reflexivity|]. cbn [map run_steps fold_left]. unfold after. cbn [run_step]. unfold write. apply IH. Qed.
  Lemma library_run r p n c fs : run_steps w (library_steps r p n c) fs = generate_library r p n c fs.
  Proof.
    unfold library_steps, generate_library. destruct c; [|reflexivity]. rewrite run_app. cbn [run_steps]. unfold after. cbn [run_step]. unfold write, skip.
    rewrite run_writes. reflexivity.
  Qed.
  Lemma template_run src dst fs : run_steps w [template_step src dst] fs = copy_template src dst fs.
  Proof. rewrite run_one. destruct src; reflexivity. Qed.
  Lemma class_run from to r descr ph pc py fs : run_steps w (class_steps from to r descr ph pc py) fs = change_to_robot from to r descr ph pc py fs.
  Proof.
    unfold class_steps, change_to_robot. rewrite run_app. apply after_ext; intros fs1; [apply run_one|].
    rewrite run_app. apply after_ext; intros fs2; [|apply run_one]. destruct py; [apply run_one|reflexivity].
  Qed.
  Lemma after_assoc p q r fs : ((p ;; q) ;; r) fs = (p ;; (q ;; r)) fs.
  Proof. unfold after. destruct (p fs) as [fs1 [e|]]; reflexivity. Qed.
  Theorem gen_steps_run descr config_file cfg o fs : run_steps w (gen_steps w descr config_file cfg o) fs = thunder_gen w descr config_file cfg o fs.
  Proof.
    unfold gen_steps, thunder_gen. destruct (cli_names config_file (o_name o)) as [[|d name]| |]; try (rewrite run_one; reflexivity).
    destruct (robot_from_file name cfg true) as [r| |]; try (rewrite run_one; reflexivity). cbv zeta.
    destruct (w_mkdir w); cbn [negb]; [|rewrite run_one; reflexivity].
    rewrite run_app. apply after_ext; [apply library_run|]. intros f1.
    rewrite run_app. apply after_ext; [intros f2; destruct (w_home w); [reflexivity|apply run_one]|]. intros f2.
    rewrite run_app, after_assoc. apply after_ext; [apply template_run|]. intros f3.
    rewrite run_app, after_assoc. apply after_ext; [apply template_run|]. intros f4.
    rewrite run_app. apply after_ext.
    { intros f5. destruct (o_python o); [|reflexivity]. rewrite run_two. apply after_ext; [intros f6; destruct (tp_cmake _); reflexivity|reflexivity]. }
    intros f5. rewrite run_app. apply after_ext; [apply class_run|]. intros f6.
    cbn [app run_steps]. apply after_ext; [reflexivity|]. intros f7. apply after_ext.
    { intros f8. unfold reg_step, save_reg. destruct (save_par_REG r); reflexivity. }
    intros f8. rewrite run_app. apply after_ext; [|apply run_one]. intros f9. destruct (o_copy o); [|reflexivity].
    cbn [app]. rewrite run_two. reflexivity.
  Qed.

  (* the files a run writes *)
  Fixpoint wrote_copies (l : copying) (fs : files) : list string :=
    match l with
    | [] => []
    | (src, (dir, dst)) :: t => match copy_one w src dir dst fs with Some fs1 => (dir ++ dst) :: wrote_copies t fs1 | None => [] end
    end.
  Definition wrote_step (s : step) (fs : files) : list string :=
    match s with
    | SWrite p _ => [p]
    | SRewrite p f => match mfind p fs with Some (Txt s) => match f s with Ok _ => [p] | _ => [] end | _ => [] end
    | SCopies l => wrote_copies l fs
    | SStop _ => []
    end.
  Fixpoint wrote (l : list step) (fs : files) : list string :=
    match l with
    | [] => []
    | s :: t => wrote_step s fs ++ match run_step w s fs with (fs1, None) => wrote t fs1 | _ => [] end
    end.

  (* outside them nothing changes, whether the run is killed or not *)
  Lemma copy_one_out src dir dst fs fs1 p : copy_one w src dir dst fs = Some fs1 -> p <> dir ++ dst -> mfind p fs1 = mfind p fs.
  Proof.
    unfold copy_one. destruct (mfind src fs); [|discriminate]. destruct (w_dir w dir); [|discriminate]. intros E N. injection E as <-.
    now apply mfind_mset_ne.
  Qed.
  Lemma copies_out l : forall fs p, ~ In p (wrote_copies l fs) -> mfind p (copy_list w l fs) = mfind p fs.
  Proof.
    induction l as [|[src [dir dst]] t IH]; intros fs p N; [reflexivity|]. cbn [copy_list wrote_copies] in *.
    destruct (copy_one w src dir dst fs) as [fs1|] eqn:E; [|reflexivity]. cbn [In] in N.
    rewrite IH by tauto. apply (copy_one_out _ _ _ _ _ _ E). intros ->. tauto.
  Qed.
  Lemma step_out s fs p : ~ In p (wrote_step s fs) -> mfind p (fst (run_step w s fs)) = mfind p fs.
  Proof.
    destruct s as [q c|q f|l|e]; cbn [wrote_step run_step In]; intros N.
    - apply mfind_mset_ne. intros ->. tauto.
    - unfold rewrite. destruct (mfind q fs) as [[t| | | |]|]; try reflexivity. destruct (f t); try reflexivity. cbn [fst In] in *.
      apply mfind_mset_ne. intros ->. tauto.
    - now apply copies_out.
    - reflexivity.
  Qed.
  Lemma run_out l : forall fs p, ~ In p (wrote l fs) -> mfind p (fst (run_steps w l fs)) = mfind p fs.
  Proof.
    induction l as [|s t IH]; intros fs p N; [reflexivity|]. cbn [run_steps wrote] in *. rewrite in_app_iff in N. unfold after.
    pose proof (step_out s fs p) as A. destruct (run_step w s fs) as [fs1 [e|]]; cbn [fst] in *; [tauto|].
    rewrite IH by tauto. apply A. tauto.
  Qed.
  Lemma killed_copies_out l fs fs1 p : killed_copies w l fs fs1 -> ~ In p (wrote_copies l fs) -> mfind p fs1 = mfind p fs.
  Proof.
    induction 1 as [|src dir dst t fs fs1 c E|src dir dst t fs fs1 fs2 E _ IH]; intros N; [reflexivity| |]; cbn [wrote_copies] in N; rewrite E in N; cbn [In] in N.
    - apply mfind_mset_ne. intros ->. tauto.
    - rewrite IH by tauto. apply (copy_one_out _ _ _ _ _ _ E). intros ->. tauto.
  Qed.
  Lemma killed_out l fs fs1 p : killed_steps w l fs fs1 -> ~ In p (wrote l fs) -> mfind p fs1 = mfind p fs.
  Proof.
    induction 1 as [|q c t fs x|q f t fs s s' x E F|l t fs fs1 K|s t fs fs1 fs2 E _ IH]; intros N; [reflexivity| | | |]; cbn [wrote] in N; rewrite in_app_iff in N.
    - cbn [wrote_step In] in N. apply mfind_mset_ne. intros ->. tauto.
    - cbn [wrote_step] in N. rewrite E, F in N. cbn [In] in N. apply mfind_mset_ne. intros ->. tauto.
    - apply (killed_copies_out _ _ _ _ K). tauto.
    - rewrite E in N. rewrite IH by tauto. pose proof (step_out s fs p) as A. rewrite E in A. apply A. tauto.
  Qed.

  (* every file that is read has been written before by the same run *)
  Fixpoint fresh (W : list string) (l : list step) : Prop :=
    match l with
    | [] => True
    | SWrite p _ :: t => fresh (p :: W) t
    | SRewrite p _ :: t => In p W /\ fresh W t
    | SCopies c :: t => (forall x, In x c -> In (fst x) W) /\ fresh W t
    | SStop _ :: _ => True
    end.
  Definition same_on (W : list string) (a b : files) : Prop := forall p, In p W -> mfind p a = mfind p b.
  Lemma same_mset W a b p c : same_on W a b -> same_on (p :: W) (mset p c a) (mset p c b).
  Proof.
    intros H q Hq. destruct (string_dec q p) as [->|N]; [now rewrite !mfind_mset|].
    rewrite !mfind_mset_ne by exact N. apply H. destruct Hq; congruence.
  Qed.
  Lemma same_weak V W a b : same_on W a b -> incl V W -> same_on V a b.
  Proof. intros H I p Hp. apply H, I, Hp. Qed.
  Lemma copies_same l : forall W a b, same_on W a b -> (forall x, In x l -> In (fst x) W) ->
    wrote_copies l a = wrote_copies l b /\ same_on (wrote_copies l a ++ W) (copy_list w l a) (copy_list w l b).
  Proof.
    induction l as [|[src [dir dst]] t IH]; intros W a b S R; [split; [reflexivity|exact S]|].
    cbn [wrote_copies copy_list]. unfold copy_one. pose proof (S src (R _ (or_introl eq_refl))) as E. rewrite E.
    destruct (mfind src b) as [c|]; [|split; [reflexivity|exact S]]. destruct (w_dir w dir); [|split; [reflexivity|exact S]].
    destruct (IH ((dir ++ dst) :: W) _ _ (same_mset W a b (dir ++ dst) c S)) as [A B].
    { intros x Hx. right. apply R. now right. }
    split; [now rewrite A|]. eapply same_weak; [exact B|]. intros p. cbn [app In]. rewrite !in_app_iff. cbn [In]. tauto.
  Qed.
  Lemma run_same l : forall W a b, fresh W l -> same_on W a b ->
    snd (run_steps w l a) = snd (run_steps w l b) /\ wrote l a = wrote l b /\
    same_on (wrote l a ++ W) (fst (run_steps w l a)) (fst (run_steps w l b)).
  Proof.
    induction l as [|s t IH]; intros W a b F S; [split; [reflexivity|split; [reflexivity|exact S]]|].
    cbn [run_steps wrote]. unfold after. destruct s as [p c|p f|l|e]; cbn [run_step wrote_step].
    - unfold write. cbn [fresh] in F. destruct (IH _ _ _ F (same_mset W a b p c S)) as (A & B & C). split; [exact A|]. split; [now rewrite B|].
      eapply same_weak; [exact C|]. intros q. cbn [app In]. rewrite !in_app_iff. cbn [In]. tauto.
    - unfold rewrite. destruct F as [Hp F]. rewrite <- (S p Hp). destruct (mfind p a) as [[s| | | |]|]; try (split; [reflexivity|split; [reflexivity|exact S]]).
      destruct (f s) as [s'| |]; try (split; [reflexivity|split; [reflexivity|exact S]]).
      assert (S' : same_on W (mset p (Txt s') a) (mset p (Txt s') b)) by (eapply same_weak; [apply same_mset, S|intros q; now right]).
      destruct (IH _ _ _ F S') as (A & B & C). split; [exact A|]. split; [now rewrite B|].
      intros q Hq. apply C. cbn [app In] in Hq. rewrite in_app_iff in *. destruct Hq as [<-|Hq]; tauto.
    - destruct F as [R F]. destruct (copies_same l W a b S R) as [A B].
      assert (F' : fresh (wrote_copies l a ++ W) t).
      { assert (G : forall l V X, fresh V l -> incl V X -> fresh X l).
        { clear. induction l as [|[p c|p f|l0|e] t IH]; intros V X; cbn [fresh]; auto.
          - intros H I. eapply IH; [exact H|]. intros q [<-|Hq]; [now left|right; auto].
          - intros [H1 H2] I. split; [auto|eapply IH; eauto].
          - intros [H1 H2] I. split; [auto|eapply IH; eauto]. }
        eapply G; [exact F|]. intros q Hq. apply in_app_iff. now right. }
      destruct (IH _ _ _ F' B) as (C & D & E). split; [exact C|]. split; [now rewrite A, D|].
      eapply same_weak; [exact E|]. intros q. rewrite !in_app_iff. tauto.
    - split; [reflexivity|]. split; [reflexivity|exact S].
  Qed.
  (* what has been killed can be run again *)
  Theorem rerun l fs fk : fresh [] l -> (forall p, ~ In p (wrote l fs) -> mfind p fk = mfind p fs) ->
    snd (run_steps w l fk) = snd (run_steps w l fs) /\ wrote l fk = wrote l fs /\
    forall p, mfind p (fst (run_steps w l fk)) = mfind p (fst (run_steps w l fs)).
  Proof.
    intros F K. destruct (run_same l [] fs fk F) as (A & B & C); [intros p []|].
    split; [auto|]. split; [auto|]. intros p. destruct (in_dec string_dec p (wrote l fs)) as [H|H].
    - symmetry. apply C. rewrite app_nil_r. exact H.
    - rewrite run_out by (now rewrite <- B). rewrite (run_out l fs) by exact H. auto.
  Qed.
End Run.

Lemma fresh_incl : forall l V X, fresh V l -> incl V X -> fresh X l.
Proof.
  induction l as [|[p c|p f|l0|e] t IH]; intros V X; cbn [fresh]; auto.
  - intros H I. eapply IH; [exact H|]. intros q [<-|Hq]; [now left|right; auto].
  - intros [H1 H2] I. split; [auto|eapply IH; eauto].
  - intros [H1 H2] I. split; [auto|eapply IH; eauto].
Qed.
Lemma fresh_writes savePath (k : list (string * cfun)) l W : fresh W l ->
  fresh W (map (fun kv => SWrite (savePath ++ fst kv ++ ".casadi")%string (CFun (snd kv))) k ++ l).
Proof. revert W. induction k as [|kv k IH]; intros W H; [exact H|]. cbn [map app fresh]. apply IH. eapply fresh_incl; [exact H|]. intros q. now right. Qed.
Lemma gen_fresh w descr config_file cfg o : fresh [] (gen_steps w descr config_file cfg o).
Proof.
  unfold gen_steps. destruct (cli_names config_file (o_name o)) as [[|d name]| |]; try exact I.
  destruct (robot_from_file name cfg true) as [r| |]; try exact I. cbv zeta. destruct (w_mkdir w); cbn [negb]; [|exact I].
  unfold library_steps. cbn [app fresh].
  set (dir := under (w_cwd w) (name ++ "_generatedFiles/")).
  set (tp := match w_template w with Some t => t | None => mkTemplate None None None end).
  match goal with |- fresh ?W ((if _ then _ else _) ++ ?l) => assert (G : fresh W l) end.
  { destruct (w_home w); [|exact I]. cbn [app]. destruct (tp_h tp); [|exact I]. cbn [template_step fresh]. destruct (tp_cpp tp); [|exact I]. cbn [template_step fresh].
    assert (N : forall s t : string, (name ++ s) ++ t = name ++ s ++ t) by (intros s1 t1; clear; induction name; simpl; congruence).
    destruct (o_python o).
    - cbn [app]. destruct (tp_cmake tp); [|exact I]. cbn [template_step fresh app class_steps]. split; [now left|]. cbn [In]. split; [tauto|]. split; [tauto|]. split; [tauto|].
      unfold reg_step. destruct (save_par_REG r); try exact I. cbn [fresh]. destruct (o_copy o); [|exact I]. cbn [app copy_step fresh].
      split; [|split; [|exact I]]; intros x Hx; cbn [In] in Hx; decompose [or] Hx; subst; cbn [fst In]; rewrite ?N; cbn [append]; try tauto; contradiction.
    - cbn [app]. cbn [template_step fresh app class_steps]. cbn [In]. split; [tauto|]. split; [tauto|].
      unfold reg_step. destruct (save_par_REG r); try exact I. cbn [fresh]. destruct (o_copy o); [|exact I]. cbn [app copy_step fresh].
      split; [|split; [|exact I]]; intros x Hx; cbn [In] in Hx; decompose [or] Hx; subst; cbn [fst In]; rewrite ?N; cbn [append]; try tauto; contradiction. }
  destruct (o_casadi o); [apply fresh_writes, G|exact G].
Qed.

Section Gen.
  Variables (w : world) (descr : string -> string) (config_file : string) (cfg : ynode) (o : options).
  Let l := gen_steps w descr config_file cfg o.
  Lemma killed_runs_out fs fk : killed_runs w descr config_file cfg o fs fk -> forall p, ~ In p (wrote w l fs) -> mfind p fk = mfind p fs.
  Proof.
    induction 1 as [|fs1 fs2 fs3 K _ IH]; intros p N; [reflexivity|].
    pose proof (fun p => killed_out w l fs1 fs2 p K) as A.
    destruct (rerun w l fs1 fs2 (gen_fresh _ _ _ _ _) A) as (_ & E & _). rewrite IH by (now rewrite E). auto.
  Qed.
  Theorem recovered fs fk : killed_runs w descr config_file cfg o fs fk ->
    snd (thunder_gen w descr config_file cfg o fk) = snd (thunder_gen w descr config_file cfg o fs) /\
    forall p, mfind p (fst (thunder_gen w descr config_file cfg o fk)) = mfind p (fst (thunder_gen w descr config_file cfg o fs)).
  Proof.
    intros K. rewrite <- !gen_steps_run. destruct (rerun w l fs fk (gen_fresh _ _ _ _ _) (killed_runs_out fs fk K)) as (A & _ & B). auto.
  Qed.
  (* a run that has come to its end may be killed, too *)
  Lemma killed_run s : forall fs, killed_steps w s fs (fst (run_steps w s fs)).
  Proof.
    induction s as [|x t IH]; intros fs; [apply k_now|]. cbn [run_steps]. unfold after.
    destruct (run_step w x fs) as [fs1 [e|]] eqn:E; [|eapply k_next; [exact E|apply IH]]. cbn [fst].
    replace fs1 with fs; [apply k_now|]. destruct x as [p c|p f|cl|e']; cbn [run_step] in E; try discriminate.
    - unfold rewrite in E. destruct (mfind p fs) as [[s| | | |]|]; try congruence. destruct (f s); congruence.
    - unfold stop in E. congruence.
  Qed.
  Theorem finished_killed fs : killed_gen w descr config_file cfg o fs (fst (thunder_gen w descr config_file cfg o fs)).
  Proof. rewrite <- gen_steps_run. apply killed_run. Qed.

  (* the order of the changes *)
  Definition touches (s : step) : list string :=
    match s with SWrite p _ | SRewrite p _ => [p] | SCopies c => map (fun x => fst (snd x) ++ snd (snd x)) c | SStop _ => [] end.
  Lemma wrote_touches s : forall fs, incl (wrote w s fs) (flat_map touches s).
  Proof.
    induction s as [|x t IH]; intros fs p H; [destruct H|]. cbn [wrote flat_map] in *. rewrite in_app_iff in *. destruct H as [H|H].
    - left. destruct x as [q c|q f|cl|e]; cbn [wrote_step touches] in *; auto.
      + destruct (mfind q fs) as [[s| | | |]|]; try contradiction. destruct (f s); try contradiction. exact H.
      + clear IH. revert fs H. induction cl as [|[src [dir dst]] cl IH]; intros fs H; [exact H|]. cbn [wrote_copies map fst snd In] in *.
        destruct (copy_one w src dir dst fs); [|destruct H]. destruct H as [<-|H]; [now left|right; eauto].
    - right. destruct (run_step w x fs) as [fs1 [e|]]; [destruct H|]. eapply IH, H.
  Qed.
  Lemma killed_app a b fs fk : killed_steps w (a ++ b) fs fk -> killed_steps w a fs fk \/ exists f1, run_steps w a fs = (f1, None) /\ killed_steps w b f1 fk.
  Proof.
    revert fs. induction a as [|x t IH]; intros fs K; [right; exists fs; auto|]. cbn [app] in K.
    inversion K as [ | | | |s' t' fs' f1 f2 E K']; subst; try (left; econstructor; eauto; fail).
    destruct (IH _ K') as [A|(f2 & A & B)]; [left; eapply k_next; eauto|]. right. exists f2. cbn [run_steps]. unfold after. rewrite E. auto.
  Qed.
End Gen.

(* the regressor parameters are written last *)
Theorem written_last w descr config_file cfg o d name fs fk : plain_dir (w_cwd w) -> cli_names config_file (o_name o) = Ok (Accepted d name) -> o_copy o = false ->
  mfind (output_dir (w_cwd w) name ++ reg_yaml name) fs = None ->
  killed_gen w descr config_file cfg o fs fk -> mfind (output_dir (w_cwd w) name ++ reg_yaml name) fk <> None ->
  forall p, p <> output_dir (w_cwd w) name ++ reg_yaml name -> mfind p fk = mfind p (fst (thunder_gen w descr config_file cfg o fs)).
Proof.
  intros Hp Hc Ho N K F p Np. rewrite <- gen_steps_run. unfold killed_gen in K. revert K. unfold gen_steps. rewrite Hc.
  assert (Z : forall e, killed_steps w [SStop e] fs fk -> fk = fs).
  { intros e K. inversion K; subst; [reflexivity|]. discriminate. }
  destruct (robot_from_file name cfg true) as [r| |]; try (intros K; apply Z in K; subst; congruence).
  cbv zeta. destruct (w_mkdir w); cbn [negb]; [|intros K; apply Z in K; subst; congruence]. rewrite Ho.
  rewrite (under_plain _ _ (plain_last _ Hp)). set (dir := output_dir (w_cwd w) name) in *.
  set (tp := match w_template w with Some t => t | None => mkTemplate None None None end).
  set (B := [reg_step r (dir ++ reg_yaml name); SStop (Exit 1)]).
  change (name ++ "_conf.yaml") with (conf_yaml name). change (name ++ "_par_REG.yaml") with (reg_yaml name).
  change ("thunder_" ++ name ++ ".h") with (class_h name). change ("thunder_" ++ name ++ ".cpp") with (class_cpp name).
  match goal with |- context [killed_steps w (?l1 ++ ?l2 ++ ?l3 ++ ?l4 ++ ?l5 ++ ?l6 ++ [?c; _] ++ [] ++ _) fs fk] =>
    set (L0 := (l1 ++ l2 ++ l3 ++ l4 ++ l5 ++ l6 ++ [c] ++ B)%list); pose (A0 := (l1 ++ l2 ++ l3 ++ l4 ++ l5 ++ l6 ++ [c])%list);
    change (l1 ++ l2 ++ l3 ++ l4 ++ l5 ++ l6 ++ [c; reg_step r (dir ++ reg_yaml name)] ++ [] ++ [SStop (Exit 1)])%list with L0 end.
  assert (E : exists A, L0 = (A ++ B)%list /\ ~ In (dir ++ reg_yaml name) (flat_map touches A)).
  { exists A0. split; [unfold L0, A0; rewrite <- !app_assoc; reflexivity|]. unfold A0.
    assert (T : forall src s, s <> SReg -> ~ In (dir ++ reg_yaml name) (touches (template_step src (dir ++ slot_name name s)))).
    { intros src s Hs H. destruct src; cbn [template_step touches In] in H; [|exact H]. destruct H as [H|H]; [|exact H]. exact (slot_ne dir name s SReg Hs H). }
    assert (S0 : forall s, s <> SReg -> dir ++ slot_name name s <> dir ++ reg_yaml name) by (intros s Hs; exact (slot_ne dir name s SReg Hs)).
    pose proof (S0 SGenCpp ltac:(discriminate)) as S1. pose proof (S0 SGenH ltac:(discriminate)) as S2. pose proof (S0 SClassH ltac:(discriminate)) as S3.
    pose proof (S0 SClassCpp ltac:(discriminate)) as S4. pose proof (S0 SCmake ltac:(discriminate)) as S5. pose proof (S0 SConf ltac:(discriminate)) as S6.
    cbn [slot_name] in *. rewrite !flat_map_app, !in_app_iff. intros H. destruct H as [H|[H|[H|[H|[H|[H|H]]]]]].
    - unfold library_steps in H. rewrite flat_map_app, in_app_iff in H. assert (Q : forall s t : string, (name ++ s) ++ t = name ++ s ++ t) by (intros s1 t1; clear; induction name; simpl; congruence).
      rewrite !Q in H. destruct H as [H|H]; [cbn [flat_map touches app In] in H; cbn [append] in H; destruct H as [H|[H|H]]; [exact (S1 H)|exact (S2 H)|exact H]|].
      destruct (o_casadi o); [|exact H]. apply in_flat_map in H. destruct H as (st & H & H2). apply in_map_iff in H. destruct H as (kv & <- & _).
      cbn [touches In] in H2. destruct H2 as [H2|H2]; [|exact H2]. exact (slot_casadi dir name SReg (fst kv) (eq_sym H2)).
    - destruct (w_home w); cbn in H; tauto.
    - cbn [flat_map] in H. rewrite app_nil_r in H. exact (T _ SClassH ltac:(discriminate) H).
    - cbn [flat_map] in H. rewrite app_nil_r in H. exact (T _ SClassCpp ltac:(discriminate) H).
    - destruct (o_python o); [|exact H]. cbn [flat_map] in H. rewrite app_nil_r, in_app_iff in H. destruct H as [H|H]; [exact (T _ SCmake ltac:(discriminate) H)|].
      cbn [touches In] in H. destruct H as [H|H]; [exact (S5 H)|exact H].
    - unfold class_steps in H. destruct (o_python o); cbn [flat_map touches app In] in H.
      + destruct H as [H|[H|[H|H]]]; [exact (S3 H)|exact (S4 H)|exact (S4 H)|exact H].
      + destruct H as [H|[H|H]]; [exact (S3 H)|exact (S4 H)|exact H].
    - cbn [flat_map touches app In] in H. destruct H as [H|H]; [exact (S6 H)|exact H]. }
  destruct E as (A & EL & NI). rewrite EL. clear L0 A0 EL. intros K. destruct (killed_app w A B fs fk K) as [K1|(f1 & R & K2)].
  - exfalso. apply F. rewrite (killed_out w A fs fk _ K1); [exact N|]. intros H. apply NI. eapply wrote_touches, H.
  - rewrite run_app. unfold after. rewrite R. unfold B in *. clear K R NI. unfold reg_step in *. destruct (save_par_REG r) as [y|m|m].
    + cbn [run_steps run_step]. unfold after, write, stop. cbn [fst]. rewrite mfind_mset_ne by exact Np.
      inversion K2 as [ |? ? ? ? x| | |s' t' fs' g1 g2 E K']; subst; [reflexivity|now apply mfind_mset_ne|].
      cbn [run_step] in E. unfold write in E. injection E as <-. inversion K'; subst; [now apply mfind_mset_ne|discriminate].
    + cbn [run_steps run_step]. unfold after, stop. cbn [fst]. inversion K2; subst; [reflexivity|discriminate].
    + cbn [run_steps run_step]. unfold after, stop. cbn [fst]. inversion K2; subst; [reflexivity|discriminate].
Qed.

Lemma gen_touches w descr config_file cfg o d name p : cli_names config_file (o_name o) = Ok (Accepted d name) ->
  In p (flat_map touches (gen_steps w descr config_file cfg o)) -> may_write w o name p.
Proof.
  intros Ec. unfold gen_steps. rewrite Ec. destruct (robot_from_file name cfg true) as [r|m|m]; [|intros []|intros []]. cbv zeta.
  destruct (negb (w_mkdir w)); [intros []|]. set (dir := under (w_cwd w) (name ++ "_generatedFiles/")).
  set (tp := match w_template w with Some t => t | None => mkTemplate None None None end).
  assert (D : forall x, may_write w o name (dir ++ x)) by (intros x; left; now exists x).
  assert (T : forall src x, In p (touches (template_step src (dir ++ x))) -> may_write w o name p).
  { intros src x H. destruct src; cbn [template_step touches In] in H; [|destruct H]. destruct H as [<-|[]]. apply D. }
  assert (C : o_copy o = true -> forall q, In q packages -> let P := copy_prefix (w_cwd w) ++ q in
    In p (touches (copy_step name dir (P ++ "robots/") (P ++ "robots/") (P ++ "library/") (P ++ "src/"))) -> may_write w o name p).
  { intros E q Hq P H. cbn [copy_step touches] in H. apply in_map_iff in H. destruct H as ([s [a b]] & <- & H). right. split; [exact E|].
    cbn [fst snd]. exists q.
    assert (G : forall u v, In (u, v) (package_files name) -> exists f, In q packages /\ In f (package_files name) /\ (P ++ u) ++ v = copy_prefix (w_cwd w) ++ q ++ fst f ++ snd f).
    { intros u v Hv. exists (u, v). split; [exact Hq|]. split; [exact Hv|]. unfold P. cbn [fst snd]. now rewrite !app_assoc_s. }
    cbn [In] in H. repeat destruct H as [H|H]; try (injection H as _ <- <-; apply G; unfold package_files; cbn [In]; tauto). destruct H. }
  rewrite !flat_map_app, !in_app_iff. intros H. destruct H as [H|[H|[H|[H|[H|[H|[H|[H|H]]]]]]]].
  - unfold library_steps in H. rewrite flat_map_app, in_app_iff in H. destruct H as [H|H].
    + cbn [flat_map touches app In] in H. destruct H as [<-|[<-|[]]]; apply D.
    + destruct (o_casadi o); [|destruct H]. apply in_flat_map in H. destruct H as (st & H & H2). apply in_map_iff in H. destruct H as (kv & <- & _).
      cbn [touches In] in H2. destruct H2 as [<-|[]]. apply D.
  - destruct (w_home w); destruct H.
  - cbn [flat_map] in H. rewrite app_nil_r in H. eapply T, H.
  - cbn [flat_map] in H. rewrite app_nil_r in H. eapply T, H.
  - destruct (o_python o); [|destruct H]. cbn [flat_map] in H. rewrite app_nil_r, in_app_iff in H. destruct H as [H|H]; [eapply T, H|].
    cbn [touches In] in H. destruct H as [<-|[]]. apply D.
  - unfold class_steps in H. destruct (o_python o); cbn [flat_map touches app In] in H.
    + destruct H as [<-|[<-|[<-|[]]]]; apply D.
    + destruct H as [<-|[<-|[]]]; apply D.
  - cbn [flat_map touches app In] in H. destruct H as [<-|H]; [apply D|]. rewrite app_nil_r in H. unfold reg_step in H.
    destruct (save_par_REG r); cbn [touches In] in H; [|destruct H|destruct H]. destruct H as [<-|[]]. apply D.
  - destruct (o_copy o) eqn:E; [|destruct H]. cbn [app flat_map] in H. rewrite app_nil_r, in_app_iff in H. destruct H as [H|H].
    + apply (C eq_refl "src/thunder_robot/"); [now left|exact H].
    + apply (C eq_refl "src/thunder_robot_chrono/"); [right; now left|exact H].
  - destruct H.
Qed.
Theorem killed_untouched w descr config_file cfg o d name fs fk path : cli_names config_file (o_name o) = Ok (Accepted d name) ->
  killed_runs w descr config_file cfg o fs fk -> ~ may_write w o name path -> mfind path fk = mfind path fs.
Proof.
  intros Ec K N. apply (killed_runs_out _ _ _ _ _ _ _ K). intros H. apply N. eapply gen_touches; [exact Ec|]. eapply wrote_touches, H.
Qed.
