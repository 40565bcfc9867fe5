(* C65, C66: runs of the generator program that are killed. *)
From Coq Require Import Reals Lra Lia Arith List String Ascii Bool ZArith.
From Verif.Model Require Import Base SX Robot Yaml Build Text Template TemplateText Main Crash.
From Verif.Spec Require Import Math State Api Setup Config Values Template Text Sample Generated Runs.
From Verif.Proofs Require Import TToy TSavePar Text Segments GenText GenFiles MainGen MainFiles MainMore Sample Header Names HeaderToy Crash.
From Verif.Props Require Import P15_Generator.
Import ListNotations.
Open Scope nat_scope.
Open Scope string_scope.

(* C65: killed runs leave nothing that the next run does not repair. However often and wherever the program was killed, a
   run that is left alone ends in the same way and with the same files as if there had been no killed run. *)
Theorem C65_recovers w descr config_file cfg o fs fk : killed_runs w descr config_file cfg o fs fk ->
  snd (thunder_gen w descr config_file cfg o fk) = snd (thunder_gen w descr config_file cfg o fs) /\
  forall p, mfind p (fst (thunder_gen w descr config_file cfg o fk)) = mfind p (fst (thunder_gen w descr config_file cfg o fs)).
Proof. exact (recovered w descr config_file cfg o fs fk). Qed.
Print Assumptions C65_recovers.
(* A second run changes nothing. *)
Theorem C65_again w descr config_file cfg o fs p :
  mfind p (fst (thunder_gen w descr config_file cfg o (fst (thunder_gen w descr config_file cfg o fs)))) =
  mfind p (fst (thunder_gen w descr config_file cfg o fs)).
Proof. apply recovered. eapply runs_more; [apply finished_killed|apply runs_none]. Qed.
Print Assumptions C65_again.
(* a killed run that has damaged a file *)
Example C65_met : exists w descr config_file cfg o fs fk, killed_runs w descr config_file cfg o fs fk /\
  mfind "/home/user/toy_generatedFiles/toy_gen.h" fk = Some (Txt "half") /\ exists r, mfind "/home/user/toy_generatedFiles/toy_gen.cpp" fk = Some (CSource r).
Proof.
  destruct (toy_built (PI / 2)) as [r Hr].
  exists desk, (fun _ => ""), "toy.yaml", (toy_cfg (PI / 2)), no_options, [], (mset "/home/user/toy_generatedFiles/toy_gen.h" (Txt "half")
    (mset "/home/user/toy_generatedFiles/toy_gen.cpp" (CSource (casadi_fun r)) [])).
  split; [|split; [reflexivity|exists (casadi_fun r); reflexivity]].
  eapply runs_more; [|apply runs_none].
  unfold killed_gen, gen_steps. rewrite (toy_cli None : cli_names "toy.yaml" (o_name no_options) = Ok (Accepted "./" "toy")), Hr.
  cbv zeta. cbn [desk w_mkdir negb]. unfold library_steps. cbn [app]. eapply k_next; [reflexivity|]. apply k_write.
Qed.

(* C66: with a kill in mind, is the old output or the new output there? Neither: a run with the very configuration of the
   files that are there can be killed so that one of them is damaged. *)
Theorem C66_refuted : exists w descr config_file cfg o r fs fk p, installed w /\ robot_from_file "toy" cfg true = Ok r /\
  thunder_gen w descr config_file cfg o [] = (fs, Some (Exit 1)) /\ (forall q, mfind q (fst (thunder_gen w descr config_file cfg o fs)) = mfind q fs) /\
  killed_gen w descr config_file cfg o fs fk /\ mfind p fs = Some (CSource (casadi_fun r)) /\ mfind p fk = Some (Txt "").
Proof.
  destruct (toy_built (PI / 2)) as [r Hr]. pose proof (proj1 (toy_session (PI / 2) r 0%R Hr)) as S.
  assert (I : installed desk) by (repeat split).
  destruct (C60_generated desk (fun _ => "") "toy.yaml" (toy_cfg (PI / 2)) no_options "./" "toy" (toy0 (PI / 2)) r [] I desk_plain (toy_cli None)
    (se_load _ _ _ _ _ S) (se_wf _ _ _ _ _ S) Hr toy_no_guard) as (fs & H & Sx & y & A & _ & _ & _ & B & _); [|reflexivity|].
  { intros f i. destruct i; discriminate. }
  exists desk, (fun _ => ""), "toy.yaml", (toy_cfg (PI / 2)), no_options, r, fs, (mset (output_dir (w_cwd desk) "toy" ++ gen_cpp "toy") (Txt "") fs), (output_dir (w_cwd desk) "toy" ++ gen_cpp "toy").
  split; [exact I|]. split; [exact Hr|]. split; [exact A|]. split.
  - intros q. pose proof (C65_again desk (fun _ => "") "toy.yaml" (toy_cfg (PI / 2)) no_options [] q) as E. rewrite A in E. exact E.
  - split; [|split; [exact B|apply Maps.mfind_mset]].
    unfold killed_gen, gen_steps. rewrite (toy_cli None : cli_names "toy.yaml" (o_name no_options) = Ok (Accepted "./" "toy")), Hr.
    cbv zeta. cbn [desk w_mkdir negb]. unfold library_steps. cbn [app]. apply k_write.
Qed.
Print Assumptions C66_refuted.
(* What holds: no file outside the output is touched, and in a directory without old regressor parameters that file shows
   that all the others are complete. Missing: the state before a killed run is not restored. *)
Theorem C66_confined_partial w descr config_file cfg o d name root fs fk path : plain_dir (w_cwd w) -> package_root (w_cwd w) root -> cli_names config_file (o_name o) = Ok (Accepted d name) ->
  killed_runs w descr config_file cfg o fs fk ->
  (forall x, path <> output_dir (w_cwd w) name ++ x) ->
  (o_copy o = true -> forall p f, In p packages -> In f (package_files name) -> path <> root ++ p ++ fst f ++ snd f) ->
  mfind path fk = mfind path fs.
Proof.
  intros Hp Hr Hc K N1 N2. apply (root_ok _ _ Hp) in Hr. subst root. apply (killed_untouched w descr config_file cfg o d name fs fk path Hc K).
  intros [[x E]|[Ec (p & f & A & B & E)]].
  - rewrite (under_plain _ _ (plain_last _ Hp)) in E. exact (N1 x E).
  - exact (N2 Ec p f A B E).
Qed.
Print Assumptions C66_confined_partial.
Theorem C66_last_partial w descr config_file cfg o d name fs fk : plain_dir (w_cwd w) -> cli_names config_file (o_name o) = Ok (Accepted d name) -> o_copy o = false ->
  mfind (output_dir (w_cwd w) name ++ reg_yaml name) fs = None ->
  killed_gen w descr config_file cfg o fs fk -> mfind (output_dir (w_cwd w) name ++ reg_yaml name) fk <> None ->
  forall p, p <> output_dir (w_cwd w) name ++ reg_yaml name -> mfind p fk = mfind p (fst (thunder_gen w descr config_file cfg o fs)).
Proof. exact (written_last w descr config_file cfg o d name fs fk). Qed.
Print Assumptions C66_last_partial.
Example C66_met : exists fk, killed_gen desk (fun _ => "") "toy.yaml" (toy_cfg (PI / 2)) no_options [] fk /\
  mfind (output_dir (w_cwd desk) "toy" ++ reg_yaml "toy") fk <> None.
Proof.
  destruct (toy_built (PI / 2)) as [r Hr]. pose proof (proj1 (toy_session (PI / 2) r 0%R Hr)) as S.
  assert (I : installed desk) by (repeat split).
  destruct (C60_generated desk (fun _ => "") "toy.yaml" (toy_cfg (PI / 2)) no_options "./" "toy" (toy0 (PI / 2)) r [] I desk_plain (toy_cli None)
    (se_load _ _ _ _ _ S) (se_wf _ _ _ _ _ S) Hr toy_no_guard) as (fs & H & Sx & y & A & _ & _ & _ & _ & _ & _ & _ & _ & B & _); [|reflexivity|].
  { intros f i. destruct i; discriminate. }
  exists fs. split; [|congruence].
  pose proof (finished_killed desk (fun _ => "") "toy.yaml" (toy_cfg (PI / 2)) no_options []) as K. rewrite A in K. exact K.
Qed.
