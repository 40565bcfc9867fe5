(* Several runs of the generator at the same time. Models src/thunder/thunder_main.cpp:96-243 and the functions it calls
   (cited in Model/Main.v and Model/Crash.v) as processes that share the files.
   A file that is opened for writing may hold anything until it is closed (std::ofstream and std::filesystem::copy_file
   truncate it and then write it piece by piece); reading a file at once is a simplification. The configuration and the
   templates are read from files that no run writes. *)
From Coq Require Import String List Bool.
From Verif.Model Require Import Base SX Robot Yaml Build Text Main Crash.
Import ListNotations.
Open Scope string_scope.

Inductive proc :=
| PEnd (e : option ending)                                 (* the process has ended *)
| PWrite (path : string) (c : content) (k : proc)          (* open path, write c into it, close it *)
| PFill (path : string) (c : content) (k : proc)           (* path is open *)
| PRead (path : string) (k : option content -> proc).      (* read path, None when it cannot be opened *)

(* the steps of one run (Model/Crash.v) as a process *)
Fixpoint copies_proc (w : world) (l : copying) (k : proc) : proc :=
  match l with
  | [] => k
  | (src, (dir, dst)) :: t =>
      PRead src (fun c =>
        match c with
        | Some c => if w_dir w dir then PWrite (dir ++ dst) c (copies_proc w t k) else k
        | None => k
        end)
  end.
Fixpoint process (w : world) (l : list step) : proc :=
  match l with
  | [] => PEnd None
  | SWrite p c :: t => PWrite p c (process w t)
  | SRewrite p f :: t =>
      PRead p (fun c =>
        match c with
        | Some (Txt s) => match f s with Ok s' => PWrite p (Txt s') (process w t) | Throw m | UB m => PEnd (Some (Abort m)) end
        | _ => PEnd (Some (Exit 0))
        end)
  | SCopies l :: t => copies_proc w l (process w t)
  | SStop e :: _ => PEnd (Some e)
  end.

(* one atomic action of a process *)
Inductive proc_step : proc -> files -> proc -> files -> Prop :=
| st_open p c k x fs : proc_step (PWrite p c k) fs (PFill p c k) (mset p x fs)
| st_part p c k x fs : proc_step (PFill p c k) fs (PFill p c k) (mset p x fs)
| st_close p c k fs : proc_step (PFill p c k) fs k (mset p c fs)
| st_read p k fs : proc_step (PRead p k) fs (k (mfind p fs)) fs.
(* any of the processes acts; any number of actions *)
Inductive pool_runs : list proc -> files -> list proc -> files -> Prop :=
| pr_none Ps fs : pool_runs Ps fs Ps fs
| pr_more l1 P P' l2 fs fs1 Qs fs2 : proc_step P fs P' fs1 -> pool_runs (l1 ++ P' :: l2) fs1 Qs fs2 ->
    pool_runs (l1 ++ P :: l2) fs Qs fs2.

(* a command: thunder gen <file> with options, in its environment *)
Record job := mkJob { j_world : world; j_descr : string -> string; j_file : string; j_cfg : ynode; j_opts : options }.
Definition program (j : job) : proc :=
  process (j_world j) (gen_steps (j_world j) (j_descr j) (j_file j) (j_cfg j) (j_opts j)).
