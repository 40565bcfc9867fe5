(* C72: commands "thunder gen" that run at the same time do not disturb each other: however they are scheduled, and
   whichever of them are killed, each ends as it does alone and leaves the files it leaves alone. True of commands whose
   outputs have no file in common, false of two commands for the same robot name in the same directory. *)
From Coq Require Import Reals Lia Arith List String Ascii Bool ZArith.
From Verif.Model Require Import Base Expr SX Robot Yaml Build Text Main Crash Parallel.
From Verif.Spec Require Import Math Setup Api Sample Text Generated Runs Parallel.
From Verif.Proofs Require Import Sample Sample1 Api MainMore Parallel ParallelToy.
Import ListNotations.
Open Scope nat_scope.
Open Scope string_scope.

(* For any number of commands and any schedule that has got anywhere: a command that has ended (the others may be running
   or dead) ended as alone and its output is as alone; files that are no command's output are as before. *)
Theorem C72_independent_partial jobs fs Ps fs1 : (forall j, In j jobs -> placed j) -> ForallOrdPairs apart jobs ->
  pool_runs (map program jobs) fs Ps fs1 ->
  (forall i j e, nth_error jobs i = Some j -> nth_error Ps i = Some (PEnd e) ->
     e = snd (alone j fs) /\ forall p, output_of j p -> mfind p fs1 = mfind p (fst (alone j fs))) /\
  (forall p, (forall j, In j jobs -> ~ output_of j p) -> mfind p fs1 = mfind p fs).
Proof. exact (independent jobs fs Ps fs1). Qed.
Print Assumptions C72_independent_partial.

(* Commands in one directory, without --copy, for different robot names have no file in common. *)
Theorem C72_names_partial a b da na db nb : job_cwd a = job_cwd b -> o_copy (j_opts a) = false -> o_copy (j_opts b) = false ->
  cli_names (j_file a) (o_name (j_opts a)) = Ok (Accepted da na) -> cli_names (j_file b) (o_name (j_opts b)) = Ok (Accepted db nb) ->
  no_char "/"%char na -> no_char "/"%char nb -> na <> nb -> apart a b.
Proof. exact (names_apart a b da na db nb). Qed.
Print Assumptions C72_names_partial.

(* No command waits for another: from any point on, each of them can run to its end by itself. *)
Theorem C72_no_waiting l1 P l2 fs : exists e fs1, pool_runs (l1 ++ P :: l2) fs (l1 ++ PEnd e :: l2) fs1.
Proof. destruct (solo l1 l2 P fs) as [fs1 H]. eauto. Qed.
Print Assumptions C72_no_waiting.

(* One command given twice: one of the two runs stops with an exception, although alone it succeeds. *)
Theorem C72_twice_refuted : exists j, placed j /\ snd (alone j []) = Some (Exit 1) /\
  exists m Q fs, pool_runs (map program [j; j]) [] [PEnd (Some (Abort m)); Q] fs.
Proof.
  exists (toy_job (toy_cfg 0)). split; [now apply desk_placed|]. exact (twice 0).
Qed.
Print Assumptions C72_twice_refuted.
(* Two configurations with the same file name: both runs succeed, and the library that remains goes with the
   configuration of one robot and computes another one. *)
Theorem C72_mixed_refuted : exists j1 j2 name d r1 r2 fs, placed j1 /\ placed j2 /\
  cli_names (j_file j1) (o_name (j_opts j1)) = Ok (Accepted d name) /\ cli_names (j_file j2) (o_name (j_opts j2)) = Ok (Accepted d name) /\
  robot_from_file name (j_cfg j1) true = Ok r1 /\ robot_from_file name (j_cfg j2) true = Ok r2 /\ casadi_fun r1 <> casadi_fun r2 /\
  pool_runs (map program [j1; j2]) [] [PEnd (Some (Exit 1)); PEnd (Some (Exit 1))] fs /\
  mfind (output_dir (job_cwd j1) name ++ conf_yaml name) fs = Some (Tree (j_cfg j1)) /\
  mfind (output_dir (job_cwd j1) name ++ gen_cpp name) fs = Some (CSource (casadi_fun r2)).
Proof.
  destruct (mixed 0) as (fs & r1 & r2 & H). exists (toy_job (toy_cfg 0)), (toy_job (resymb 1 (toy_cfg 0))), "toy", "./", r1, r2, fs.
  split; [now apply desk_placed|]. split; [now apply desk_placed|]. split; [exact (toy_cli None)|]. split; [exact (toy_cli None)|]. exact H.
Qed.
Print Assumptions C72_mixed_refuted.

(* two robots in one directory, both of them generated *)
Example C72_met : exists jobs Ps fs1, List.length jobs = 2 /\ (forall j, In j jobs -> placed j) /\ ForallOrdPairs apart jobs /\
  pool_runs (map program jobs) [] Ps fs1 /\ Ps = [PEnd (Some (Exit 1)); PEnd (Some (Exit 1))].
Proof.
  destruct (two_jobs 0) as (P & A & E). set (j1 := toy_job (toy_cfg 0)) in *. set (j2 := arm_job (toy_cfg 0)) in *.
  destruct (solo [] [program j2] (program j1) []) as [f1 R1]. destruct (solo [PEnd (snd (big (program j1) []))] [] (program j2) f1) as [f2 R2].
  pose proof (pool_trans _ _ _ _ _ _ R1 R2) as R. cbn [app] in R.
  exists [j1; j2]. eexists _, f2. split; [reflexivity|]. split; [exact P|]. split; [exact A|]. split; [exact R|].
  destruct (independent [j1; j2] [] _ _ P A R) as [K _].
  destruct (K 0 j1 _ eq_refl eq_refl) as [E1 _]. destruct (K 1 j2 _ eq_refl eq_refl) as [E2 _].
  rewrite E1, E2, (E j1 (or_introl eq_refl)), (E j2 (or_intror (or_introl eq_refl))). reflexivity.
Qed.
