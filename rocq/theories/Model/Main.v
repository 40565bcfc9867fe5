(* The generator program: thunder gen <config_file>. Models src/thunder/thunder_main.cpp:50-282,
   src/thunder/src/robot.cpp:808-829, 1031-1057 and src/thunder/src/utils.cpp:106-362 at the level of files.
   A file is a text, a YAML tree, or the output of CasADi's code generator, which is kept as the functions it holds.
   Simplifications: paths are compared as strings; writing into a directory that exists succeeds; the command line has
   been accepted by argparse (on an error main returns 0 at once, lines 84-90); messages and timing are left out. *)
From Coq Require Import Reals String Ascii List Bool Arith.
From Verif.Model Require Import Base SX Robot Yaml Build Text TemplateText.
Import ListNotations.
Open Scope nat_scope.
Open Scope string_scope.

Inductive content :=
| Txt (s : string)                       (* a text file *)
| Tree (y : ynode)                       (* a YAML file *)
| CSource (l : list (string * cfun))     (* generated C code of these functions *)
| CHeader (l : list (string * cfun))     (* its header *)
| CFun (f : cfun).                       (* a saved CasADi function *)
Definition files := smap content.

(* how a run ends: main returns a status, or an exception or undefined behaviour ends the process *)
Inductive ending := Exit (status : nat) | Abort (why : string).
(* a piece of the program: the files afterwards and, when it does not go on, the ending *)
Definition piece := files -> files * option ending.
Definition stop (e : ending) : piece := fun fs => (fs, Some e).
Definition skip : piece := fun fs => (fs, None).
Definition after (p q : piece) : piece := fun fs =>
  match p fs with (fs1, None) => q fs1 | (fs1, Some e) => (fs1, Some e) end.
Notation "p ;; q" := (after p q) (at level 62, right associativity).
Definition write (path : string) (c : content) : piece := fun fs => (mset path c fs, None).

(* What the run finds: the working directory, whether HOME is set, whether the output directory exists or can be made,
   the installed template directory with the texts of its files, and the directories --copy writes to. *)
Record template := mkTemplate { tp_h : option string; tp_cpp : option string; tp_cmake : option string }.
Record world := mkWorld {
  w_cwd : string; w_home : bool; w_mkdir : bool; w_template : option template; w_dir : string -> bool
}.
(* the options -n, -p, -f, -c *)
Record options := mkOptions { o_name : option string; o_python : bool; o_casadi : bool; o_copy : bool }.

(* currentPath / rel, for a relative rel *)
Fixpoint ends_slash (s : string) : bool :=
  match s with EmptyString => false | String a EmptyString => Ascii.eqb a "/" | String _ t => ends_slash t end.
Definition under (cwd rel : string) : string := if ends_slash cwd then cwd ++ rel else cwd ++ "/" ++ rel.
(* currentPath.filename() *)
Definition filename (p : string) : string :=
  match find_last_of p "/" with None => p | Some i => substring (i + 1) (String.length p - (i + 1)) p end.

(* Robot::generate_library, robot.cpp:1031-1057. savePath ends with a slash; "savePath//f" and "savePath/f" are one file. *)
Definition generate_library (r : robot) (savePath name_file : string) (SAVE_CASADI : bool) : piece :=
  write (savePath ++ name_file ++ ".cpp") (CSource (casadi_fun r)) ;;
  write (savePath ++ name_file ++ ".h") (CHeader (casadi_fun r)) ;;
  (if SAVE_CASADI
   then fun fs => (fold_left (fun fs kv => mset (savePath ++ fst kv ++ ".casadi") (CFun (snd kv)) fs) (casadi_fun r) fs, None)
   else skip).

(* std::filesystem::copy_file of a template file (an empty or missing source raises) *)
Definition copy_template (src : option string) (dst : string) : piece :=
  match src with Some s => write dst (Txt s) | None => stop (Abort "filesystem_error: copy_file") end.

(* add_bindings_template, utils.cpp:281-362, on the content of the file *)
Definition bindings_import : string :=
  "#include <pybind11/pybind11.h>" ++ newline ++ "#include <pybind11/eigen.h>" ++ newline.
Definition add_bindings (content : string) : string :=
  let c := replace_all content "/*#-OPTIONAL SPACE FOR PYTHON BINDINGS-#*/" bindings_template in
  replace_all c "/*OPTIONAL PYBIND11 INCLUDE POINT*/" bindings_import.

(* open a text file, change it and write it back; a file that cannot be opened makes the caller return 0 (the tests of
   main on the results, lines 176-179 and 186-189, then end the program with status 0) *)
Definition rewrite (path : string) (f : string -> res string) : piece := fun fs =>
  match mfind path fs with
  | Some (Txt s) =>
      match f s with
      | Ok s' => (mset path (Txt s') fs, None)
      | Throw m | UB m => (fs, Some (Abort m))
      end
  | _ => (fs, Some (Exit 0))
  end.
(* change_to_robot, utils.cpp:106-256 *)
Definition change_to_robot (from to : string) (r : robot) (descr : string -> string) (path_h path_cpp : string) (python : bool) : piece :=
  rewrite path_h (change_h from to r descr) ;;
  (if python then rewrite path_cpp (fun c => Ok (add_bindings c)) else skip) ;;
  rewrite path_cpp (change_cpp from to r descr python).

(* Robot::save_conf, robot.cpp:808-829: update_conf does nothing, the tree read at construction is written *)
Definition save_conf (cfg : ynode) : ynode := cfg.
Definition save_reg (r : robot) (path : string) : piece :=
  match save_par_REG r with
  | Ok y => write path (Tree y)
  | Throw m | UB m => stop (Abort m)
  end.

(* copy_to, thunder_main.cpp:245-282: six files; the first failure ends the function, which returns 0; main ignores it *)
Definition copy_one (w : world) (src dir dst : string) (fs : files) : option files :=
  match mfind src fs with
  | Some c => if w_dir w dir then Some (mset (dir ++ dst) c fs) else None
  | None => None
  end.
Fixpoint copy_list (w : world) (l : list (string * (string * string))) (fs : files) : files :=
  match l with
  | [] => fs
  | (src, (dir, dst)) :: t => match copy_one w src dir dst fs with Some fs1 => copy_list w t fs1 | None => fs end
  end.
Definition copy_to (w : world) (name from conf par h cpp : string) : piece := fun fs =>
  (copy_list w
    [(from ++ name ++ "_gen.h", (h, name ++ "_gen.h"));
     (from ++ name ++ "_gen.cpp", (cpp, name ++ "_gen.cpp"));
     (from ++ name ++ "_par_REG.yaml", (par, name ++ "_par_REG.yaml"));
     (from ++ name ++ "_conf.yaml", (conf, name ++ "_conf.yaml"));
     (from ++ "thunder_" ++ name ++ ".h", (h, "thunder_" ++ name ++ ".h"));
     (from ++ "thunder_" ++ name ++ ".cpp", (cpp, "thunder_" ++ name ++ ".cpp"))] fs, None).
(* the directories of lines 204-217 *)
Definition copy_prefix (cwd : string) : string :=
  if String.eqb (filename cwd) "build" then under cwd "../../../" else "/home/thunder_dev/thunder_dynamics/".

(* main from line 96 on. cfg: the tree YAML::LoadFile returns for config_file (the null node when it raises). *)
Definition thunder_gen (w : world) (descr : string -> string) (config_file : string) (cfg : ynode) (o : options) : piece :=
  match cli_names config_file (o_name o) with
  | Throw m | UB m => stop (Abort m)
  | Ok Rejected => stop (Exit 0)
  | Ok (Accepted _ name) =>
      match robot_from_file name cfg true with
      | Throw m | UB m => stop (Abort m)
      | Ok r =>
          let dir := under (w_cwd w) (name ++ "_generatedFiles/") in
          if negb (w_mkdir w) then stop (Exit 0)
          else
            generate_library r dir (name ++ "_gen") (o_casadi o) ;;
            (if w_home w then skip else stop (Abort "std::string from a null pointer")) ;;
            (let tp := match w_template w with Some t => t | None => mkTemplate None None None end in
             copy_template (tp_h tp) (dir ++ "thunder_" ++ name ++ ".h") ;;
             copy_template (tp_cpp tp) (dir ++ "thunder_" ++ name ++ ".cpp") ;;
             (if o_python o then
                copy_template (tp_cmake tp) (dir ++ "CMakeLists.txt") ;;
                rewrite (dir ++ "CMakeLists.txt") (fun c => Ok (update_cmake "robot" name c))
              else skip)) ;;
            change_to_robot "robot" name r descr (dir ++ "thunder_" ++ name ++ ".h") (dir ++ "thunder_" ++ name ++ ".cpp") (o_python o) ;;
            write (dir ++ name ++ "_conf.yaml") (Tree (save_conf cfg)) ;;
            save_reg r (dir ++ name ++ "_par_REG.yaml") ;;
            (if o_copy o then
               (let p := copy_prefix (w_cwd w) ++ "src/thunder_robot/" in
                copy_to w name dir (p ++ "robots/") (p ++ "robots/") (p ++ "library/") (p ++ "src/")) ;;
               (let p := copy_prefix (w_cwd w) ++ "src/thunder_robot_chrono/" in
                copy_to w name dir (p ++ "robots/") (p ++ "robots/") (p ++ "library/") (p ++ "src/"))
             else skip) ;;
            stop (Exit 1)
      end
  end.
