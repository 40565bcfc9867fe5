(* The place for user functions and the example shipped for it: src/thunder/src/userDefined.cpp. *)
From Coq Require Import Reals List String Bool Arith ZArith.
From Verif.Model Require Import Base Expr SX Robot Kinematics Dynamics Regressors Yaml Build.
Import ListNotations.
Open Scope nat_scope.
Open Scope string_scope.

(* the part of robot_from_file that runs before compute_userDefined, robot.cpp:1138-1147 *)
Definition before_user (r : robot) : res robot :=
  r <- init_symb_parameters r ;
  r <- compute_kinematics r true ;
  r <- compute_dynamics r true ;
  compute_regressors r.
(* robot_from_file with compute = true, robot.cpp:1126-1159, for any body of compute_userDefined (line 1148; its
   result is ignored) *)
Definition compute_with (user : robot -> res robot) (r : robot) : res robot :=
  r <- before_user r ;
  r <- user r ;
  update_symb_parameters r.
Definition robot_from_file_with (user : robot -> res robot) (name : string) (file : ynode) : res robot :=
  r <- new_robot name file ;
  r <- load_conf_par r file true ;
  compute_with user r.

(* compute_userDefined as shipped, userDefined.cpp:8-18: the call of the example is commented out *)
Definition compute_userDefined (r : robot) : res robot := Ok r.

(* User code that adds one function after the other with robot.add_function(name, expression, arguments). *)
Record user_fun := mkUser { u_name : string; u_expr : sx; u_args : list string }.
Definition add_all (l : list user_fun) (r : robot) : res robot :=
  loop_list l (fun u r => addf r (u_name u) (u_expr u) (u_args u)) r.

(* ---- compute_example_fun, userDefined.cpp:20-50 ---- *)
(* casadi::SX::norm_2 of a column: the square root of the sum of the squares *)
Definition norm_2 (m : sx) : sx :=
  mkSX 1 1 (ok m && Nat.eqb (cols m) 1) (fun _ _ => Sqrt (esum (rows m) (fun i => Mul (el m i 0) (el m i 0)))).
(* lines 35-38: q0(i) = q0_vect[i] for i < numJoints, without a look at the length of q0_vect *)
Fixpoint read_q0 (k i : nat) (v : list R) (q0 : sx) : res sx :=
  match k with
  | O => Ok q0
  | S k' =>
      match nth_error v i with
      | None => UB "q0_vect out of range"
      | Some x => read_q0 k' (S i) v (set_at q0 i 0 (scal (Cst x)))
      end
  end.
(* file: robot.config_yaml, the configuration the robot was made from. Exceptions of yaml-cpp are not caught. *)
Definition compute_example_fun (file : ynode) (r : robot) : res (robot * nat) :=
  match yidx file "q0" with
  | None => Throw "yaml: bad subscript"
  | Some nd =>
      if ydef nd then
        match as_vector as_double nd with
        | None => Throw "yaml: bad conversion"
        | Some v =>
            q0 <- read_q0 (numJoints r) 0 v (zeros (numJoints r) 1) ;
            '(r', c) <- add_function r "q0_dist" (norm_2 (msub (mdl r "q") q0)) (obtain_symb_parameters r ["q"; "q0"] []) true ;
            Ok (r', match c with O => 0 | _ => 1 end)
        end
      else Ok (r, 1)
  end.
(* compute_userDefined with line 14 uncommented, as the example asks for *)
Definition userDefined_example (file : ynode) (r : robot) : res robot :=
  '(r', _) <- compute_example_fun file r ; Ok r'.
