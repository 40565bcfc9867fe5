(* Runs of the generator that are killed. Models src/thunder/thunder_main.cpp:96-243 and the functions it calls (cited in
   Model/Main.v) as the list of their changes to files, in the order in which they are made.
   Simplifications: only the process is killed, so the changes made so far are all there; a file that is being written
   may hold anything; a file is written at once after its new content is complete, as the code does with its streams. *)
From Coq Require Import Reals String Ascii List Bool Arith.
From Verif.Model Require Import Base SX Robot Yaml Build Text TemplateText Main.
Import ListNotations.
Open Scope nat_scope.
Open Scope string_scope.

Definition copying : Type := list (string * (string * string)).
Inductive step :=
| SWrite (path : string) (c : content)                    (* a new file, robot.cpp:1031-1057, 808-829, main 134-172 *)
| SRewrite (path : string) (f : string -> res string)     (* a text read, changed and written back, utils.cpp:106-362 *)
| SCopies (l : copying)                                    (* copy_to, thunder_main.cpp:245-282 *)
| SStop (e : ending).                                     (* the end of main *)

Section Steps.
  Variable w : world.
  (* what a step does when it is not interrupted *)
  Definition run_step (s : step) : piece :=
    match s with
    | SWrite p c => write p c
    | SRewrite p f => rewrite p f
    | SCopies l => fun fs => (copy_list w l fs, None)
    | SStop e => stop e
    end.
  Fixpoint run_steps (l : list step) : piece :=
    match l with [] => skip | s :: t => run_step s ;; run_steps t end.

  (* robot.cpp:1031-1057 *)
  Definition library_steps (r : robot) (savePath name_file : string) (SAVE_CASADI : bool) : list step :=
    [SWrite (savePath ++ name_file ++ ".cpp") (CSource (casadi_fun r)); SWrite (savePath ++ name_file ++ ".h") (CHeader (casadi_fun r))] ++
    (if SAVE_CASADI then map (fun kv => SWrite (savePath ++ fst kv ++ ".casadi")%string (CFun (snd kv))) (casadi_fun r) else []).
  Definition template_step (src : option string) (dst : string) : step :=
    match src with Some s => SWrite dst (Txt s) | None => SStop (Abort "filesystem_error: copy_file") end.
  (* utils.cpp:106-256 *)
  Definition class_steps (from to : string) (r : robot) (descr : string -> string) (path_h path_cpp : string) (python : bool) : list step :=
    [SRewrite path_h (change_h from to r descr)] ++
    (if python then [SRewrite path_cpp (fun c => Ok (add_bindings c))] else []) ++
    [SRewrite path_cpp (change_cpp from to r descr python)].
  Definition reg_step (r : robot) (path : string) : step :=
    match save_par_REG r with Ok y => SWrite path (Tree y) | Throw m | UB m => SStop (Abort m) end.
  (* thunder_main.cpp:245-282 *)
  Definition copy_step (name from conf par h cpp : string) : step := SCopies
    [(from ++ name ++ "_gen.h", (h, name ++ "_gen.h"));
     (from ++ name ++ "_gen.cpp", (cpp, name ++ "_gen.cpp"));
     (from ++ name ++ "_par_REG.yaml", (par, name ++ "_par_REG.yaml"));
     (from ++ name ++ "_conf.yaml", (conf, name ++ "_conf.yaml"));
     (from ++ "thunder_" ++ name ++ ".h", (h, "thunder_" ++ name ++ ".h"));
     (from ++ "thunder_" ++ name ++ ".cpp", (cpp, "thunder_" ++ name ++ ".cpp"))].
  (* main from line 96 on; that these steps are the program is gen_steps_run in Proofs/Crash.v *)
  Definition gen_steps (descr : string -> string) (config_file : string) (cfg : ynode) (o : options) : list step :=
    match cli_names config_file (o_name o) with
    | Throw m | UB m => [SStop (Abort m)]
    | Ok Rejected => [SStop (Exit 0)]
    | Ok (Accepted _ name) =>
        match robot_from_file name cfg true with
        | Throw m | UB m => [SStop (Abort m)]
        | Ok r =>
            let dir := under (w_cwd w) (name ++ "_generatedFiles/") in
            if negb (w_mkdir w) then [SStop (Exit 0)]
            else
              let tp := match w_template w with Some t => t | None => mkTemplate None None None end in
              (library_steps r dir (name ++ "_gen") (o_casadi o) ++
              (if w_home w then [] else [SStop (Abort "std::string from a null pointer")]) ++
              [template_step (tp_h tp) (dir ++ "thunder_" ++ name ++ ".h")] ++
              [template_step (tp_cpp tp) (dir ++ "thunder_" ++ name ++ ".cpp")] ++
              (if o_python o then
                 [template_step (tp_cmake tp) (dir ++ "CMakeLists.txt"); SRewrite (dir ++ "CMakeLists.txt") (fun c => Ok (update_cmake "robot" name c))]
               else []) ++
              class_steps "robot" name r descr (dir ++ "thunder_" ++ name ++ ".h") (dir ++ "thunder_" ++ name ++ ".cpp") (o_python o) ++
              [SWrite (dir ++ name ++ "_conf.yaml") (Tree (save_conf cfg)); reg_step r (dir ++ name ++ "_par_REG.yaml")] ++
              (if o_copy o then
                 (let p := (copy_prefix (w_cwd w) ++ "src/thunder_robot/")%string in
                  [copy_step name dir (p ++ "robots/")%string (p ++ "robots/")%string (p ++ "library/")%string (p ++ "src/")%string]) ++
                 (let p := (copy_prefix (w_cwd w) ++ "src/thunder_robot_chrono/")%string in
                  [copy_step name dir (p ++ "robots/")%string (p ++ "robots/")%string (p ++ "library/")%string (p ++ "src/")%string])
               else []) ++
              [SStop (Exit 1)])%list
        end
    end.

  (* the process is killed during copy_to *)
  Inductive killed_copies : copying -> files -> files -> Prop :=
  | kc_now l fs : killed_copies l fs fs
  | kc_torn src dir dst t fs fs1 c : copy_one w src dir dst fs = Some fs1 -> killed_copies ((src, (dir, dst)) :: t) fs (mset (dir ++ dst) c fs)
  | kc_next src dir dst t fs fs1 fs2 : copy_one w src dir dst fs = Some fs1 -> killed_copies t fs1 fs2 ->
      killed_copies ((src, (dir, dst)) :: t) fs fs2.
  (* the process is killed before, during or after one of its steps: the files it leaves *)
  Inductive killed_steps : list step -> files -> files -> Prop :=
  | k_now l fs : killed_steps l fs fs
  | k_write p c t fs x : killed_steps (SWrite p c :: t) fs (mset p x fs)
  | k_rewrite p f t fs s s' x : mfind p fs = Some (Txt s) -> f s = Ok s' -> killed_steps (SRewrite p f :: t) fs (mset p x fs)
  | k_copies l t fs fs1 : killed_copies l fs fs1 -> killed_steps (SCopies l :: t) fs fs1
  | k_next s t fs fs1 fs2 : run_step s fs = (fs1, None) -> killed_steps t fs1 fs2 -> killed_steps (s :: t) fs fs2.
End Steps.
(* a run of the generator on the files fs, killed at any point, leaves fs1 *)
Definition killed_gen (w : world) (descr : string -> string) (config_file : string) (cfg : ynode) (o : options) (fs fs1 : files) : Prop :=
  killed_steps w (gen_steps w descr config_file cfg o) fs fs1.
(* any number of killed runs, one after the other *)
Inductive killed_runs (w : world) (descr : string -> string) (config_file : string) (cfg : ynode) (o : options) : files -> files -> Prop :=
| runs_none fs : killed_runs w descr config_file cfg o fs fs
| runs_more fs1 fs2 fs3 : killed_gen w descr config_file cfg o fs1 fs2 -> killed_runs w descr config_file cfg o fs2 fs3 ->
    killed_runs w descr config_file cfg o fs1 fs3.
