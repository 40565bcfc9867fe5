(* Two runs at the same time in one directory. *)
From Coq Require Import Reals Lia Arith List String Ascii Bool ZArith.
From Verif.Model Require Import Base Expr SX Robot Yaml Build Text TemplateText Main Crash Parallel.
From Verif.Spec Require Import Math Setup Api Sample Text Generated Runs Parallel.
From Verif.Proofs Require Import Closed Reload ReloadToy Maps Pure Names Shape Load Final Get Sample Api Sample1 Text MainGen MainFiles MainMore Crash Parallel.
From Verif.Props Require Import P15_Generator.
Import ListNotations.
Open Scope nat_scope.
Open Scope string_scope.

Definition toy_job (cfg : ynode) : job := mkJob desk (fun _ => "") "toy.yaml" cfg no_options.
Definition toy_dir : string := output_dir "/home/user" "toy".
(* the steps of such a run after the first one *)
Definition toy_rest (cfg : ynode) (r : robot) : list step :=
  [SWrite (toy_dir ++ gen_h "toy") (CHeader (casadi_fun r));
   SWrite (toy_dir ++ class_h "toy") (Txt template_h); SWrite (toy_dir ++ class_cpp "toy") (Txt template_cpp);
   SRewrite (toy_dir ++ class_h "toy") (change_h "robot" "toy" r (fun _ => ""));
   SRewrite (toy_dir ++ class_cpp "toy") (change_cpp "robot" "toy" r (fun _ => "") false);
   SWrite (toy_dir ++ conf_yaml "toy") (Tree cfg); reg_step r (toy_dir ++ reg_yaml "toy"); SStop (Exit 1)].
Lemma toy_steps cfg r : robot_from_file "toy" cfg true = Ok r ->
  gen_steps desk (fun _ => "") "toy.yaml" cfg no_options = SWrite (toy_dir ++ gen_cpp "toy") (CSource (casadi_fun r)) :: toy_rest cfg r.
Proof.
  intros Hr. unfold gen_steps. rewrite (toy_cli None : cli_names "toy.yaml" (o_name no_options) = Ok (Accepted "./" "toy")), Hr. reflexivity.
Qed.
Lemma toy_fresh cfg r : fresh [] (toy_rest cfg r).
Proof. unfold toy_rest, reg_step. destruct (save_par_REG r); cbn [fresh In]; tauto. Qed.

Lemma toy_rest_keeps cfg r p fs : p = toy_dir ++ gen_cpp "toy" -> mfind p (fst (run_steps desk (toy_rest cfg r) fs)) = mfind p fs.
Proof.
  intros ->. apply run_out. intros H. apply wrote_touches in H.
  assert (S0 : forall s, s <> SGenCpp -> toy_dir ++ slot_name "toy" s <> toy_dir ++ gen_cpp "toy") by (intros s Hs; exact (slot_ne toy_dir "toy" s SGenCpp Hs)).
  pose proof (S0 SGenH ltac:(discriminate)) as S2. pose proof (S0 SClassH ltac:(discriminate)) as S3.
  pose proof (S0 SClassCpp ltac:(discriminate)) as S4. pose proof (S0 SConf ltac:(discriminate)) as S6. pose proof (S0 SReg ltac:(discriminate)) as S7.
  cbn [slot_name] in S2, S3, S4, S6, S7. unfold toy_rest, reg_step in H. destruct (save_par_REG r); cbn [flat_map touches app In] in H; tauto.
Qed.

(* one run writes its first file, the other runs from beginning to end, the first one goes on *)
Lemma mixed_schedule cfg1 cfg2 r1 r2 : robot_from_file "toy" cfg1 true = Ok r1 -> robot_from_file "toy" cfg2 true = Ok r2 ->
  exists fs, pool_runs [program (toy_job cfg1); program (toy_job cfg2)] []
    [PEnd (snd (alone (toy_job cfg1) [])); PEnd (snd (alone (toy_job cfg2) []))] fs /\
  mfind (toy_dir ++ gen_cpp "toy") fs = mfind (toy_dir ++ gen_cpp "toy") (fst (alone (toy_job cfg2) [])) /\
  forall p, p <> toy_dir ++ gen_cpp "toy" -> mfind p (fst (alone (toy_job cfg1) [])) <> None -> mfind p fs = mfind p (fst (alone (toy_job cfg1) [])).
Proof.
  intros H1 H2. set (g := toy_dir ++ gen_cpp "toy"). set (c1 := CSource (casadi_fun r1)).
  set (rest := process desk (toy_rest cfg1 r1)).
  assert (P1 : program (toy_job cfg1) = PWrite g c1 rest).
  { unfold program. cbn [toy_job j_world j_descr j_file j_cfg j_opts]. rewrite (toy_steps cfg1 r1 H1). reflexivity. }
  assert (A1 : alone (toy_job cfg1) [] = run_steps desk (toy_rest cfg1 r1) (mset g c1 [])).
  { rewrite <- program_alone, P1. cbn [big]. apply process_big. }
  set (fa := mset g c1 (mset g c1 [])).
  destruct (solo_files [rest] [] (program (toy_job cfg2)) fa) as (fb & R2 & F2). rewrite program_alone in R2, F2.
  destruct (solo_files [] [PEnd (snd (alone (toy_job cfg2) fa))] rest fb) as (fc & R3 & F3).
  unfold rest in R3, F3. rewrite process_big in R3, F3. fold rest in R3.
  destruct (run_same desk (toy_rest cfg1 r1) [] fb (mset g c1 []) (toy_fresh cfg1 r1)) as (E1 & W1 & G1); [intros p []|].
  rewrite E1, <- A1 in R3.
  pose proof (gen_fresh desk (fun _ => "") "toy.yaml" cfg2 no_options) as Fr2.
  destruct (run_same desk _ [] fa [] Fr2) as (E2 & W2 & G2); [intros p []|].
  assert (B2 : forall f, alone (toy_job cfg2) f = run_steps desk (gen_steps desk (fun _ => "") "toy.yaml" cfg2 no_options) f).
  { intros f. unfold alone. cbn [toy_job j_world j_descr j_file j_cfg j_opts]. symmetry. apply gen_steps_run. }
  rewrite <- !B2 in E2, G2.
  exists fc. split; [|split].
  - rewrite P1. rewrite E2 in R2, R3.
    eapply (pr_more [] _ _ [program (toy_job cfg2)]); [apply st_open with (x := c1)|].
    eapply (pr_more [] _ _ [program (toy_job cfg2)]); [apply st_close|].
    eapply pool_trans; [exact R2|exact R3].
  - rewrite F3. rewrite (toy_rest_keeps cfg1 r1 g fb eq_refl). rewrite F2. apply G2. rewrite app_nil_r.
    rewrite (toy_steps cfg2 r2 H2). cbn [wrote wrote_step]. left. reflexivity.
  - intros p Np Hp. rewrite F3, A1. apply G1. rewrite app_nil_r, W1.
    destruct (in_dec string_dec p (wrote desk (toy_rest cfg1 r1) (mset g c1 []))) as [I|N]; [exact I|]. exfalso. apply Hp.
    rewrite A1, (run_out desk _ _ _ N). rewrite mfind_mset_ne by exact Np. reflexivity.
Qed.

(* the functions generated from two selections of symbolic parameters take vectors of different lengths *)
Lemma M_inputs name cfg r0 r r' : session name cfg r0 r r' -> exists f b, mfind "M" (casadi_fun r') = Some f /\
  (forall k, flags b k = flags r0 k) /\ map rows (f_inputs f) = map (fun k => selected (flags r0 k)) (alist b fM).
Proof.
  intros H. destruct (session_sess _ _ _ _ _ H) as (b & Hs & B). destruct (ss_fun _ _ _ Hs fM I) as [_ Fc]. cbn [name_of] in Fc.
  eexists _, b. split; [exact Fc|].
  assert (Fl : forall k, flags b k = flags r0 k) by (intros; rewrite (ss_b _ _ _ Hs); reflexivity). split; [exact Fl|].
  cbn [f_inputs]. unfold ins. rewrite map_map. apply map_ext_in. intros k Hk. cbn [rows vertcat_list].
  assert (Kk : exists len, In (k, len) (keys b)).
  { cbn [alist] in Hk. unfold al, obtain_symb_parameters, kinp in Hk. apply in_app_iff in Hk. destruct Hk as [[<-|[]]|Hk].
    - exists (numJoints b). apply in_keys_q.
    - apply filter_In in Hk. destruct Hk as [Hk _]. cbn [In] in Hk. destruct Hk as [<-|[<-|[<-|[]]]]; eexists; apply in_keys_par; cbn [In]; eauto 6. }
  destruct Kk as [len Kl]. rewrite (sel_fidx _ b k len (bs_shape _ _ (ss_base _ _ _ Hs) k len Kl)), map_length, Fl. apply fidx_selected.
Qed.
Lemma toys_differ h r1 r2 : robot_from_file "toy" (toy_cfg h) true = Ok r1 -> robot_from_file "toy" (resymb 1 (toy_cfg h)) true = Ok r2 ->
  casadi_fun r1 <> casadi_fun r2.
Proof.
  intros H1 H2 E. pose proof (session_r _ _ _ _ _ (proj1 (toy_session h r1 0%R H1))) as S1. pose proof (toy1_session h r2 H2) as S2.
  destruct (M_inputs _ _ _ _ _ S1) as (f1 & b1 & F1 & L1 & I1). destruct (M_inputs _ _ _ _ _ S2) as (f2 & b2 & F2 & L2 & I2).
  rewrite E, F2 in F1. injection F1 as ->. rewrite I2 in I1. clear -L1 L2 I1.
  apply (f_equal (@List.length nat)) in I1 as I3. cbn [alist] in I1, I3. unfold al, obtain_symb_parameters, kinp in I1, I3.
  assert (X1 : filter (has_symb b1) ["par_DHtable"; "par_world2L0"; "par_DYN"] = ["par_DHtable"; "par_world2L0"; "par_DYN"]).
  { cbn [filter]. unfold has_symb. rewrite !L1. reflexivity. }
  assert (X2 : filter (has_symb b2) ["par_DHtable"; "par_world2L0"; "par_DYN"] = ["par_DHtable"; "par_world2L0"; "par_DYN"]).
  { cbn [filter]. unfold has_symb. rewrite !L2. reflexivity. }
  rewrite X1, X2 in I1. vm_compute in I1. discriminate I1.
Qed.

Lemma job_success cfg o name r0 r : cli_names "toy.yaml" (o_name o) = Ok (Accepted "./" name) -> ~ occurs_in "THUNDERROBOT" name -> o_copy o = false ->
  robot_from_file name cfg false = Ok r0 -> well_formed r0 -> robot_from_file name cfg true = Ok r ->
  let j := mkJob desk (fun _ => "") "toy.yaml" cfg o in let d := output_dir "/home/user" name in
  snd (alone j []) = Some (Exit 1) /\ mfind (d ++ gen_cpp name) (fst (alone j [])) = Some (CSource (casadi_fun r)) /\
  mfind (d ++ conf_yaml name) (fst (alone j [])) = Some (Tree cfg).
Proof.
  intros C G Oc L W B. cbv zeta. assert (I : installed desk) by (repeat split).
  destruct (C60_generated desk (fun _ => "") "toy.yaml" cfg o "./" name r0 r [] I desk_plain C L W B G)
    as (fs & H & Sx & y & A & _ & _ & _ & G1 & _ & _ & _ & G2 & _); [|exact Oc|].
  { intros f i. destruct i; discriminate. }
  unfold alone. cbn [j_world j_descr j_file j_cfg j_opts]. rewrite A. cbn [fst snd]. auto.
Qed.
Lemma desk_placed j : j_world j = desk -> placed j.
Proof. intros E. unfold placed, job_cwd. rewrite E. split; [exact desk_plain|eexists; exact desk_root]. Qed.

(* a run reads its header while the other one has just opened it *)
Lemma torn_schedule cfg r : robot_from_file "toy" cfg true = Ok r ->
  exists m Q fs, pool_runs [program (toy_job cfg); program (toy_job cfg)] [] [PEnd (Some (Abort m)); Q] fs.
Proof.
  intros Hr. assert (P : program (toy_job cfg) = process desk (SWrite (toy_dir ++ gen_cpp "toy") (CSource (casadi_fun r)) :: toy_rest cfg r)).
  { unfold program. cbn [toy_job j_world j_descr j_file j_cfg j_opts]. now rewrite (toy_steps cfg r Hr). }
  rewrite P. unfold toy_rest. cbn [process].
  do 3 eexists.
  do 4 (eapply (pr_more [] _ _ [_]); [apply st_open with (x := Txt "")|]; eapply (pr_more [] _ _ [_]); [apply st_close|]).
  do 2 (eapply (pr_more [_] _ _ []); [apply st_open with (x := Txt "")|]; eapply (pr_more [_] _ _ []); [apply st_close|]).
  eapply (pr_more [_] _ _ []); [apply st_open with (x := Txt "")|].
  eapply (pr_more [] _ _ [_]); [apply st_read|]. rewrite mfind_mset. 
  replace (change_h "robot" "toy" r (fun _ : string => "") "") with (@Throw string "basic_string::replace") by reflexivity.
  apply pr_none.
Qed.

(* the same configuration under another name *)
Definition arm_options : options := mkOptions (Some "arm") false false false.
Definition arm0 (h : R) : robot := match robot_from_file "arm" (toy_cfg h) false with Ok r => r | _ => no_robot end.
Lemma arm_loads h : robot_from_file "arm" (toy_cfg h) false = Ok (arm0 h).
Proof. vm_compute. reflexivity. Qed.
Lemma arm_wf h : well_formed (arm0 h).
Proof.
  constructor.
  - apply identifier_check. reflexivity.
  - vm_compute. repeat constructor.
  - intros t. vm_compute. tauto.
  - intros k len Hk. vm_compute in Hk. decompose [or] Hk; try contradiction;
      match goal with E : _ = _ |- _ => injection E as <- <- end; vm_compute; auto.
Qed.
Definition arm_job (cfg : ynode) : job := mkJob desk (fun _ => "") "toy.yaml" cfg arm_options.

Lemma arm_no_guard : ~ occurs_in "THUNDERROBOT" "arm".
Proof.
  intros (a & b & E). apply (f_equal String.length) in E. rewrite !length_app in E. cbn [String.length] in E. lia.
Qed.
Lemma two_jobs h : let jobs := [toy_job (toy_cfg h); arm_job (toy_cfg h)] in
  (forall j, In j jobs -> placed j) /\ ForallOrdPairs apart jobs /\ (forall j, In j jobs -> snd (alone j []) = Some (Exit 1)).
Proof.
  cbv zeta. split; [|split].
  - intros j [<-|[<-|[]]]; now apply desk_placed.
  - constructor; [|constructor; [constructor|constructor]]. constructor; [|constructor].
    apply (names_apart _ _ "./" "toy" "./" "arm"); try reflexivity.
    + intros i. apply (no_slash_lit "toy" eq_refl i).
    + intros i. apply (no_slash_lit "arm" eq_refl i).
    + discriminate.
  - destruct (toy_built h) as [r Hr]. destruct (built_file _ _ _ (arm_loads h) (arm_wf h)) as [ra Hra].
    intros j [<-|[<-|[]]].
    + exact (proj1 (job_success _ no_options "toy" _ r (toy_cli None) toy_no_guard eq_refl (toy_loads h) (toy_wf h) Hr)).
    + exact (proj1 (job_success _ arm_options "arm" _ ra (toy_cli (Some "arm")) arm_no_guard eq_refl (arm_loads h) (arm_wf h) Hra)).
Qed.

(* the two ways of going wrong *)
Lemma mixed h : exists fs r1 r2, let cfg1 := toy_cfg h in let cfg2 := resymb 1 (toy_cfg h) in
  robot_from_file "toy" cfg1 true = Ok r1 /\ robot_from_file "toy" cfg2 true = Ok r2 /\ casadi_fun r1 <> casadi_fun r2 /\
  pool_runs [program (toy_job cfg1); program (toy_job cfg2)] [] [PEnd (Some (Exit 1)); PEnd (Some (Exit 1))] fs /\
  mfind (toy_dir ++ conf_yaml "toy") fs = Some (Tree cfg1) /\ mfind (toy_dir ++ gen_cpp "toy") fs = Some (CSource (casadi_fun r2)).
Proof.
  destruct (toy_built h) as [r1 H1]. destruct (built_file _ _ _ (toy1_loads h) (toy1_wf h)) as [r2 H2].
  destruct (mixed_schedule _ _ _ _ H1 H2) as (fs & R & G & K).
  destruct (job_success _ no_options "toy" _ r1 (toy_cli None) toy_no_guard eq_refl (toy_loads h) (toy_wf h) H1) as (A1 & B1 & C1).
  destruct (job_success _ no_options "toy" _ r2 (toy_cli None) toy_no_guard eq_refl (toy1_loads h) (toy1_wf h) H2) as (A2 & B2 & C2).
  exists fs, r1, r2. cbv zeta. split; [exact H1|]. split; [exact H2|]. split; [exact (toys_differ h r1 r2 H1 H2)|].
  fold (toy_job (toy_cfg h)) in A1, B1, C1. fold (toy_job (resymb 1 (toy_cfg h))) in A2, B2, C2. fold toy_dir in B1, C1, B2, C2.
  rewrite A1, A2 in R. split; [exact R|]. split.
  - rewrite K; [exact C1| |rewrite C1; discriminate]. exact (slot_ne toy_dir "toy" SConf SGenCpp ltac:(discriminate)).
  - rewrite G. exact B2.
Qed.
Lemma twice h : snd (alone (toy_job (toy_cfg h)) []) = Some (Exit 1) /\
  exists m Q fs, pool_runs [program (toy_job (toy_cfg h)); program (toy_job (toy_cfg h))] [] [PEnd (Some (Abort m)); Q] fs.
Proof.
  destruct (toy_built h) as [r1 H1]. split; [|exact (torn_schedule _ _ H1)].
  exact (proj1 (job_success _ no_options "toy" _ r1 (toy_cli None) toy_no_guard eq_refl (toy_loads h) (toy_wf h) H1)).
Qed.
