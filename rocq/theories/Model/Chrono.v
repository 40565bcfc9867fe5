(* The two programs that time the functions: src/thunder/thunder_test_chrono.cpp (the library) and
   src/thunder_robot_chrono/thunder_robot_test_chrono.cpp (a generated class).
   Idealisations: the readings of high_resolution_clock are an arbitrary sequence of numbers of nanoseconds; what is
   written to std::cout is the list of labelled numbers min_dur, in order (the programs print them divided by 1000); the
   vectors which the source sets to ones, the number of repetitions and the files are parameters. *)
From Coq Require Import Reals List String Arith ZArith Bool.
From Verif.Model Require Import Base SX Robot Yaml Build Template.
Import ListNotations.
Open Scope string_scope.

(* int min_dur = 999999999 *)
Definition MAX_DUR : Z := 999999999.
(* a long int assigned to an int: reduced modulo 2^32 *)
Definition to_int (d : Z) : Z := ((d + 2 ^ 31) mod 2 ^ 32 - 2 ^ 31)%Z.
(* thunder_test_chrono.cpp:91 and its copies *)
Definition keep_fastest (m d : Z) : Z := if (d <? m)%Z then to_int d else m.
(* thunder_robot_test_chrono.cpp:75 and its copies *)
Definition keep_positive (m d : Z) : Z := if ((d <? m) && (0 <? d))%Z then to_int d else m.

(* for (int i=0; i<n_rep; i++){...}: thunder_test_chrono.cpp:86-92, thunder_robot_test_chrono.cpp:70-76. i: the number of
   clock readings taken before. *)
Fixpoint repeat_call (keep : Z -> Z -> Z) (clock : nat -> Z) (call : res mat) (n_rep i : nat) (m : Z) : res (nat * Z) :=
  match n_rep with
  | O => Ok (i, m)
  | S n => _ <- call ; repeat_call keep clock call n (i + 2) (keep m (clock (i + 1)%nat - clock i)%Z)
  end.
(* the seven blocks: thunder_test_chrono.cpp:85-153, thunder_robot_test_chrono.cpp:69-137 *)
Definition timed : list (string * string) :=
  [("time Kin", "T_0_ee"); ("time Jac", "J_ee"); ("time M", "M"); ("time C", "C"); ("time C_std", "C_std"); ("time G", "G"); ("time Yr", "Yr")].
Fixpoint timed_blocks (keep : Z -> Z -> Z) (clock : nat -> Z) (call : string -> res mat) (n_rep i : nat) (l : list (string * string)) : res (nat * list (string * Z)) :=
  match l with
  | [] => Ok (i, [])
  | (label, name) :: t =>
      '(j, m) <- repeat_call keep clock (call name) n_rep i MAX_DUR ;
      '(k, rest) <- timed_blocks keep clock call n_rep j t ;
      Ok (k, (label, m) :: rest)
  end.

(* thunder_test_chrono.cpp:76-83; the returned codes are dropped *)
Definition chrono_state (q dq dqr ddqr : list R) (r : robot) : res robot :=
  '(r, _) <- set_q r q ;
  '(r, _) <- set_dq r dq ;
  '(r, _) <- set_dqr r dqr ;
  '(r, _) <- set_ddqr r ddqr ;
  Ok r.
(* thunder_test_chrono.cpp:42-153, the body of the loop over the robots; the clock is read twice around robot_from_file
   (lines 43, 46) and twice in the declarations (lines 55, 56). nanoseconds to microseconds: duration_cast truncates. *)
Definition chrono_one (clock : nat -> Z) (n_rep : nat) (vec : nat -> list R) (i : nat) (name : string) (cfg : ynode) : res (nat * list (string * Z)) :=
  r <- robot_from_file name cfg true ;
  _ <- get_par_DYN r ;
  let ones := vec (numJoints r) in
  s <- chrono_state ones ones ones ones r ;
  '(j, l) <- timed_blocks keep_fastest clock (get s) n_rep (i + 4)%nat timed ;
  Ok (j, ("robot created in", Z.quot (clock (i + 1)%nat - clock i) 1000) :: l).
(* thunder_test_chrono.cpp:36-157 *)
Fixpoint chrono_main (clock : nat -> Z) (n_rep : nat) (vec : nat -> list R) (i : nat) (files : list (string * ynode)) : res (list (string * list (string * Z))) :=
  match files with
  | [] => Ok []
  | (name, cfg) :: t =>
      '(j, l) <- chrono_one clock n_rep vec i name cfg ;
      rest <- chrono_main clock n_rep vec j t ;
      Ok ((name, l) :: rest)
  end.

(* myG = robot.get_G(), myG being a VectorXd: thunder_robot_test_chrono.cpp:51, 122 *)
Definition t_timed (r : robot) (t : tobj) (name : string) : res mat :=
  m <- t_get r t name ;
  if String.eqb name "G" && negb (Nat.eqb (m_cols m) 1) then UB "Eigen: assignment of a matrix to a vector" else Ok m.
(* thunder_robot_test_chrono.cpp:28-147. r: the robot the class was generated from. The clock is read twice in the
   declarations (lines 38, 39). *)
Definition generated_chrono (junk : nat -> R) (clock : nat -> Z) (n_rep : nat) (vec : nat -> list R) (r : robot) (conf : option ynode) : res (list (string * Z)) :=
  t <- t_load_conf junk (new_class r) conf true ;
  let ones := vec (t_n t) in
  let t := t_setArguments ones ones ones ones t in
  '(_, l) <- timed_blocks keep_positive clock (t_timed r t) n_rep 2 timed ;
  Ok l.
