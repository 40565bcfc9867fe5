(* Vocabulary for runs of the generator at the same time. *)
From Coq Require Import String List.
From Verif.Model Require Import Base Text Main Parallel.
From Verif.Spec Require Import Text Generated Runs.
Import ListNotations.
Open Scope string_scope.

(* the command on its own: files afterwards and how it ends *)
Definition alone (j : job) (fs : files) : files * option ending :=
  thunder_gen (j_world j) (j_descr j) (j_file j) (j_cfg j) (j_opts j) fs.
Definition job_cwd (j : job) : string := w_cwd (j_world j).
(* where the command may put a file: its output directory and, with --copy, the files of the packages *)
Definition output_of (j : job) (path : string) : Prop :=
  exists d name, cli_names (j_file j) (o_name (j_opts j)) = Ok (Accepted d name) /\
  ((exists x, path = output_dir (job_cwd j) name ++ x) \/
   (o_copy (j_opts j) = true /\ exists root p f, package_root (job_cwd j) root /\ In p packages /\ In f (package_files name) /\
      path = root ++ p ++ fst f ++ snd f)).
Definition apart (a b : job) : Prop := forall path, output_of a path -> output_of b path -> False.
(* a sound working directory *)
Definition placed (j : job) : Prop := plain_dir (job_cwd j) /\ exists root, package_root (job_cwd j) root.
