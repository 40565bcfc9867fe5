(* Runs of the generator program, as a user sees them. *)
From Coq Require Import String Ascii List Arith.
From Verif.Model Require Import Base Robot Main TemplateText.
From Verif.Spec Require Import Text Generated.
Import ListNotations.
Open Scope string_scope.

(* thunder is installed: HOME is set, the output directory can be made, the templates of the repository are there *)
Definition installed (w : world) : Prop :=
  w_home w = true /\ w_mkdir w = true /\ w_template w = Some (mkTemplate (Some template_h) (Some template_cpp) (Some template_cmake)).
(* the working directory is written without a final slash *)
Definition plain_dir (cwd : string) : Prop := ~ exists s, cwd = s ++ "/".
(* the files of a run in the output directory *)
Definition output_names (name : string) (python casadi : bool) (functions : list string) : list string :=
  ([gen_cpp name; gen_h name; class_h name; class_cpp name; conf_yaml name; reg_yaml name] ++
   (if python then ["CMakeLists.txt"] else []) ++
   (if casadi then map (fun f => f ++ ".casadi")%string functions else []))%list.
(* the option --copy: the package below the repository, and the directory in it, of each file *)
(* where these packages are: three levels above a build directory, otherwise in the development container; the working
   directory is an absolute path *)
Definition package_root (cwd root : string) : Prop :=
  (exists d, cwd = d ++ "/build" /\ root = cwd ++ "/../../../") \/
  (exists s, cwd = "/" ++ s /\ (forall d, cwd <> d ++ "/build") /\ root = "/home/thunder_dev/thunder_dynamics/").
Definition packages : list string := ["src/thunder_robot/"; "src/thunder_robot_chrono/"].
Definition package_files (name : string) : list (string * string) :=
  [("library/", gen_h name); ("src/", gen_cpp name); ("robots/", reg_yaml name); ("robots/", conf_yaml name);
   ("library/", class_h name); ("src/", class_cpp name)].

(* the names of the member functions that the template declares by itself *)
Definition own_members : list string :=
  ["update_inertial_DYN"; "update_inertial_REG"; "fillInertialYaml"; "rpyRot"; "createI"; "hat"; "resizeVariables"; "setArguments";
   "set_q"; "set_dq"; "set_ddq"; "set_d3q"; "set_d4q"; "set_dqr"; "set_ddqr"; "set_x"; "set_dx"; "set_ddx"; "set_ddxr"; "set_w";
   "set_par_REG"; "set_par_DYN"; "set_par_K"; "set_par_D"; "set_par_Dm"; "set_par_Mm"; "set_par_Dl"; "set_par_DHtable";
   "set_par_gravity"; "set_par_world2L0"; "set_par_Ln2EE";
   "get_par_REG"; "get_par_DYN"; "get_par_K"; "get_par_D"; "get_par_Dm"; "get_par_Mm"; "get_par_Dl"; "get_par_DHtable";
   "get_par_gravity"; "get_par_world2L0"; "get_par_Ln2EE";
   "load_par_REG"; "save_par_REG"; "load_conf"; "save_par_DYN"; "save_par"; "get_numJoints"; "get_numParDYN"; "get_numParREG";
   "STD_PAR_LINK"; "q"; "dq"; "ddq"; "d3q"; "d4q"; "dqr"; "ddqr"; "par_DYN"; "par_REG"; "par_Dl"; "x"; "dx"; "ddx"; "ddxr";
   "par_K"; "par_D"; "par_Dm"; "par_Mm"; "w"; "par_DHtable"; "par_gravity"; "par_world2L0"; "par_Ln2EE"; "DHtable_symb";
   "gravity_symb"; "world2L0_symb"; "Ln2EE_symb"; "LinkProp"; "urdf2dh_T"; "n_joints"; "ELASTIC"; "numElasticJoints"; "K_order";
   "D_order"; "Dl_order"; "Dm_order"; "numParDYN"; "numParREG"; "isElasticJoint"].
