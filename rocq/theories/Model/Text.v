(* Text processing: replace_all, the source text of the generated getters, and the robot name taken from the
   command line. Models src/thunder/src/utils.cpp:106-279, 408-433 and src/thunder/thunder_main.cpp:97-117.
   Reading and writing the files themselves is not modelled: contents are strings. *)
From Coq Require Import String Ascii List Bool Arith ZArith.
From Verif.Model Require Import Base Robot.
Import ListNotations.
Open Scope nat_scope.
Open Scope string_scope.

(* source.find(from, pos): String.index has the same meaning, also for empty from *)
Definition find_from (from source : string) (pos : nat) : option nat := String.index pos from source.

(* the while loop of replace_all, utils.cpp:415-423. The loop is unfolded fuel times; None: not finished. *)
Fixpoint replace_loop (fuel : nat) (source from to : string) (lastPos : nat) (newString : string) : option string :=
  match fuel with
  | O => None
  | S k =>
      match find_from from source lastPos with
      | None => Some (newString ++ substring lastPos (String.length source - lastPos) source)
      | Some findPos =>
          replace_loop k source from to (findPos + String.length from)
            (newString ++ substring lastPos (findPos - lastPos) source ++ to)
      end
  end.
(* a call that returns *)
Definition replace_all_returns (source from to result : string) : Prop :=
  exists fuel, replace_loop fuel source from to 0 "" = Some result.
(* the same as a function: for non-empty from every iteration consumes a character *)
Definition replace_all (source from to : string) : string :=
  match replace_loop (S (String.length source)) source from to 0 "" with Some s => s | None => "" end.

Definition newline : string := String (ascii_of_nat 10) "".
Definition tab : string := String (ascii_of_nat 9) "".
Definition quote : string := String (ascii_of_nat 34) "".

(* get_ret_type, utils.cpp:429-433 *)
Definition get_ret_type (fo : fun_obj) : string :=
  "Eigen::Matrix<double," ++ to_string (fo_rows fo) ++ "," ++ to_string (fo_cols fo) ++ ">".

(* the loop of lines 225-227 *)
Fixpoint more_args (l : list string) (acc : string) : string :=
  match l with
  | [] => acc
  | a :: t => more_args t (acc ++ ", " ++ a ++ ".data()")
  end.

(* one iteration of lines 200-235. descr: functions[i].description *)
Definition append_getter (robotName to_robot : string) (descr : string -> string) (acc : string) (fo : fun_obj) : string :=
  let fun_name := "get_" ++ fo_name fo in
  let fun_name_gen := robotName ++ "_" ++ fo_name fo in
  let ret_type := get_ret_type fo in
  let acc := acc ++ "// - " ++ descr (fo_name fo) ++ " - //" ++ newline in
  let acc := acc ++ ret_type ++ " thunder_" ++ to_robot ++ "::" ++ fun_name ++ "(){" ++ newline in
  let size_str := to_string (fo_rows fo * fo_cols fo) in
  let acc := acc ++ tab ++ "thread_local double buffer[" ++ size_str ++ "];" ++ newline in
  let acc := acc ++ tab ++ "thread_local long long p3[" ++ fun_name_gen ++ "_fun_SZ_IW];" ++ newline in
  let acc := acc ++ tab ++ "thread_local double p4[" ++ fun_name_gen ++ "_fun_SZ_W];" ++ newline in
  let acc :=
    match fo_args fo with
    | [] => acc ++ tab ++ "const double** input_ = nullptr;" ++ newline
    | a :: t => more_args t (acc ++ tab ++ "const double* input_[] = {" ++ a ++ ".data()") ++ "};" ++ newline
    end in
  let acc := acc ++ tab ++ "double* output_[] = {buffer};" ++ newline in
  let acc := acc ++ tab ++ "int check = " ++ fun_name_gen ++ "_fun(input_, output_, p3, p4, 0);" ++ newline in
  let acc := acc ++ tab ++ "return Eigen::Map<" ++ ret_type ++ ">(buffer);" ++ newline in
  acc ++ "}" ++ newline ++ newline.
(* functions_string of lines 197-239 *)
Definition functions_cpp (robotName to_robot : string) (descr : string -> string) (fs : list fun_obj) : string :=
  fold_left (append_getter robotName to_robot descr) fs newline.

(* functions_string of lines 163-167 *)
Definition append_decl (descr : string -> string) (acc : string) (fo : fun_obj) : string :=
  let acc := acc ++ tab ++ tab ++ "// - " ++ descr (fo_name fo) ++ " - //" ++ newline in
  acc ++ tab ++ tab ++ get_ret_type fo ++ " get_" ++ fo_name fo ++ "();" ++ newline ++ newline.
Definition functions_h (descr : string -> string) (fs : list fun_obj) : string :=
  fold_left (append_decl descr) fs newline.

(* lines 236-238 and 243-245: pop_back on an empty string is undefined *)
Definition append_binding (to_robot : string) (descr : string -> string) (acc : string) (fo : fun_obj) : string :=
  let fun_name := "get_" ++ fo_name fo in
  acc ++ tab ++ tab ++ ".def(" ++ quote ++ fun_name ++ quote ++ ", &thunder_" ++ to_robot ++ "::" ++ fun_name ++ ", "
      ++ quote ++ descr (fo_name fo) ++ quote ++ ")" ++ newline.
Definition pybindings (to_robot : string) (descr : string -> string) (fs : list fun_obj) : res string :=
  let s := fold_left (append_binding to_robot descr) fs "" in
  if String.eqb s "" then UB "pop_back on an empty string"
  else Ok (substring 0 (String.length s - 1) s ++ ";" ++ newline).

(* s.replace(s.find(what), what.length(), with): throws std::out_of_range when what does not occur *)
Definition replace_first (s what with_ : string) : res string :=
  match find_from what s 0 with
  | None => Throw "basic_string::replace"
  | Some p => Ok (substring 0 p s ++ with_ ++ substring (p + String.length what) (String.length s - (p + String.length what)) s)
  end.

(* std::to_string of an int *)
Definition z_to_string (z : Z) : string :=
  match z with Zneg p => "-" ++ to_string (Pos.to_nat p) | _ => to_string (Z.to_nat z) end.
(* lines 155-159: isElasticJoint[0] is read even when there is no joint, and n_joints elements are read *)
Fixpoint more_flags (l : list Z) (acc : string) : string :=
  match l with [] => acc | z :: t => more_flags t (acc ++ ", " ++ z_to_string z) end.
Definition elastic_string (n : nat) (l : list Z) : res string :=
  match firstn n l with
  | [] => UB "isElasticJoint out of range"
  | z :: t => if Nat.leb n (List.length l) then Ok (more_flags t ("{" ++ z_to_string z) ++ "}")
              else UB "isElasticJoint out of range"
  end.

Definition bool_string (b : bool) : string := if b then "1" else "0".

(* change_to_robot on the header, lines 122-168. fs: robot.get_functions() *)
Definition change_h (from_robot to_robot : string) (r : robot) (descr : string -> string) (content : string) : res string :=
  c <- replace_first content "THUNDERROBOT" ("THUNDER_" ++ to_robot) ;
  c <- replace_first c "THUNDERROBOT" ("THUNDER_" ++ to_robot) ;
  let c := replace_all c from_robot to_robot in
  let c := replace_all c "/*#-ROBOT_NAME-#*/" (robotName r) in
  let c := replace_all c "/*#-n_joints-#*/" (to_string (numJoints r)) in
  let c := replace_all c "/*#-ELASTIC-#*/" (bool_string (ELASTIC r)) in
  let c := replace_all c "/*#-numElasticJoints-#*/" (to_string (numElasticJoints r)) in
  let c := replace_all c "/*#-K_order-#*/" (to_string (K_order r)) in
  let c := replace_all c "/*#-D_order-#*/" (to_string (D_order r)) in
  let c := replace_all c "/*#-Dl_order-#*/" (to_string (Dl_order r)) in
  let c := replace_all c "/*#-Dm_order-#*/" (to_string (Dm_order r)) in
  eJ <- elastic_string (numJoints r) (isElasticJoint r) ;
  let c := replace_all c "/*#-isElasticJoint-#*/" eJ in
  Ok (replace_all c "/*#-FUNCTIONS_H-#*/" (functions_h descr (get_functions r))).

(* change_to_robot on the source, lines 176-253; with gen_python the content has already been through
   add_bindings_template *)
Definition change_cpp (from_robot to_robot : string) (r : robot) (descr : string -> string) (gen_python : bool) (content : string)
  : res string :=
  let c := replace_all content from_robot to_robot in
  let c := replace_all c "/*#-FUNCTIONS_CPP-#*/" (functions_cpp (robotName r) to_robot descr (get_functions r)) in
  if gen_python then
    b <- pybindings to_robot descr (get_functions r) ;
    Ok (replace_all c "/*#-GENERATED_PYTHON_BINDINGS-#*/" b)
  else Ok c.
(* update_cmake, lines 258-279 *)
Definition update_cmake (from_robot to_robot content : string) : string := replace_all content from_robot to_robot.

(* ---- the command line, thunder_main.cpp:97-117 ---- *)

Fixpoint in_chars (a : ascii) (set : string) : bool :=
  match set with EmptyString => false | String b t => Ascii.eqb a b || in_chars a t end.
(* s.find_last_of(set): last position holding one of the characters of set; None is npos *)
Fixpoint find_last_of (s set : string) : option nat :=
  match s with
  | EmptyString => None
  | String a t =>
      match find_last_of t set with
      | Some p => Some (S p)
      | None => if in_chars a set then Some 0 else None
      end
  end.
(* "int index = s.find_last_of(..)": npos becomes -1. Paths longer than an int can count are not modelled. *)
Definition int_of (p : option nat) : Z := match p with Some n => Z.of_nat n | None => (-1)%Z end.
(* s.substr(pos, n) with n an int expression: a negative n is a huge size_t and takes the rest of the string;
   pos beyond the end throws *)
Definition substr (s : string) (pos : nat) (n : Z) : res string :=
  if Nat.ltb (String.length s) pos then Throw "basic_string::substr"
  else if Z.ltb n 0 then Ok (substring pos (String.length s - pos) s)
  else Ok (substring pos (Z.to_nat n) s).

Inductive cli := Rejected | Accepted (path robot_name : string).
(* name: the value of --name when it is used *)
Definition cli_names (config_file : string) (name : option string) : res cli :=
  let index_yaml := int_of (find_last_of config_file ".yaml") in
  if Z.ltb 0 index_yaml then
    p <- match find_last_of config_file "/" with
         | None => n <- substr config_file 0 (index_yaml + 1 - 5) ; Ok ("./", n)
         | Some ip =>
             path <- substr config_file 0 (Z.of_nat ip + 1) ;
             n <- substr config_file (ip + 1) (index_yaml - Z.of_nat ip - 5) ;
             Ok (path, n)
         end ;
    Ok (Accepted (fst p) (match name with Some n => n | None => snd p end))
  else Ok Rejected.
