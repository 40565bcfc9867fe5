(* The two test programs shipped with the library, as clients of its API. Both print a number of quantities and finally
   the difference between the torques of the dynamic model and those of the regressor, for the user to look at.
   Idealisations: what is written to std::cout is the list of labelled matrices, in order; the text itself and the
   clock calls are not modelled. The vectors q, dq, ... which the source sets to ones or zeros (the comments beside them
   say setRandom) are parameters, and so is the configuration file. *)
From Coq Require Import Reals List String Arith ZArith Bool.
From Verif.Model Require Import Base Expr SX Robot Yaml Inertia Build Template.
Import ListNotations.
Open Scope string_scope.

(* ---- the operations of Eigen the programs use; sizes that do not match violate an assertion of Eigen ---- *)
Definition column (v : list R) : mat := mkMat (List.length v) 1 (fun i _ => nth i v 0%R).
Definition mtranspose (A : mat) : mat := mkMat (m_cols A) (m_rows A) (fun i j => m_val A j i).
Definition mmul (A B : mat) : res mat :=
  if Nat.eqb (m_cols A) (m_rows B) then
    Ok (mkMat (m_rows A) (m_cols B)
          (fun i j => fold_left (fun s k => (s + m_val A i k * m_val B k j)%R) (seq 0 (m_cols A)) 0%R))
  else UB "Eigen: invalid matrix product".
Definition mzip (f : R -> R -> R) (A B : mat) : res mat :=
  if Nat.eqb (m_rows A) (m_rows B) && Nat.eqb (m_cols A) (m_cols B) then
    Ok (mkMat (m_rows A) (m_cols A) (fun i j => f (m_val A i j) (m_val B i j)))
  else UB "Eigen: sizes differ".
Definition madd : mat -> mat -> res mat := mzip Rplus.
Definition msub : mat -> mat -> res mat := mzip Rminus.

(* M*ddqr + C*dqr + G - Yr*par_REG: thunder_test.cpp:189-193, thunder_robot_test.cpp:107-113 *)
Definition tau_error (M C G Yr : mat) (ddqr dqr par_REG : list R) : res mat :=
  a <- mmul M (column ddqr) ;
  b <- mmul C (column dqr) ;
  ab <- madd a b ;
  dyn <- madd ab G ;
  reg <- mmul Yr (column par_REG) ;
  msub dyn reg.

(* reading every element of a vector of which some may be indeterminate *)
Definition read_all (l : list (option R)) : res (list R) :=
  match all_some l with Some v => Ok v | None => UB "indeterminate value" end.

(* ---- src/thunder/thunder_test.cpp ---- *)
(* X = robot.get(name); cout << label << X *)
Fixpoint show (r : robot) (l : list (string * string)) : res (list (string * mat)) :=
  match l with
  | [] => Ok []
  | (label, name) :: t => m <- get r name ; rest <- show r t ; Ok ((label, m) :: rest)
  end.
(* lines 124-152 *)
Definition test_block1 : list (string * string) :=
  [("Kin_ee", "T_0_ee"); ("Kin0", "T_0_0"); ("Kin1", "T_0_1"); ("Kin2", "T_0_2"); ("Kin3", "T_0_3");
   ("Jac", "J_ee"); ("Jac1", "J_1"); ("Jac2", "J_2"); ("Jac3", "J_3");
   ("M", "M"); ("C", "C"); ("C_std", "C_std"); ("G", "G")].
(* lines 153-160 *)
Definition test_friction (r : robot) : list (string * string) :=
  if Nat.ltb 0 (Dl_order r) then [("D_link", "dl"); ("reg_Dl", "reg_dl")] else [].
(* lines 161-178 *)
Definition test_elastic (r : robot) : list (string * string) :=
  if ELASTIC r then [("K", "k"); ("D_coupling", "d"); ("D_motor", "dm"); ("M_motor", "Mm");
                     ("reg_K", "reg_k"); ("reg_Dm", "reg_dm"); ("reg_D", "reg_d"); ("reg_Mm", "reg_Mm")] else [].
(* lines 112-119; the returned codes are dropped *)
Definition test_state (q dq dqr ddqr x dx ddx : list R) (r : robot) : res robot :=
  '(r, _) <- set_q r q ;
  '(r, _) <- set_dq r dq ;
  '(r, _) <- set_dqr r dqr ;
  '(r, _) <- set_ddqr r ddqr ;
  '(r, _) <- set_x r x ;
  '(r, _) <- set_dx r dx ;
  '(r, _) <- set_ddx r ddx ;
  Ok r.
(* lines 25-236. The robot's name is "testRobot" in the source; nothing depends on it beyond its being a legal name. *)
Definition robot_test (name : string) (cfg : ynode) (q dq dqr ddqr x dx ddx : list R) : res (list (string * mat)) :=
  r <- robot_from_file name cfg true ;
  pREG <- get_par_REG r ;                                                         (* 85 *)
  pDYN <- get_par_DYN r ;                                                         (* 86 *)
  dh <- get r "par_DHtable" ;                                                     (* 92 *)
  dyn <- read_all pDYN ;                                                          (* 94 *)
  reg <- read_all pREG ;                                                          (* 95 *)
  let arguments := map (fun k => (k, mtranspose (column (get_arg r k)))) ["par_Dl"; "par_K"; "par_D"; "par_Dm"; "par_Mm"] in
  s <- test_state q dq dqr ddqr x dx ddx r ;
  shown <- show s (test_block1 ++ test_friction s ++ test_elastic s) ;
  M <- get s "M" ;
  C <- get s "C" ;
  G <- get s "G" ;
  Yr <- get s "Yr" ;                                                              (* 180 *)
  _ <- get s "reg_M" ; _ <- get s "reg_C" ; _ <- get s "reg_G" ;                  (* 181-183 *)
  e <- tau_error M C G Yr ddqr dqr reg ;
  Ok ([("par_DHtable", mtranspose dh); ("par_DYN", mtranspose (column dyn)); ("par_REG", mtranspose (column reg))]
      ++ arguments ++ shown ++ [("err_dyn_reg", e)])%list.

(* ---- src/thunder_robot/thunder_robot_test.cpp ---- *)
(* lines 34-123. r: the robot the class was generated from; the class is thunder_<name> and its conf file the one
   written beside it. myG and the torques are VectorXd: assigning a matrix with another number of columns than one
   violates an assertion of Eigen. *)
Definition generated_test (junk : nat -> R) (r : robot) (conf : option ynode) (q dq dqr ddqr : list R) : res (list (string * mat)) :=
  t <- t_load_conf junk (new_class r) conf true ;                                 (* 45 *)
  let t := t_setArguments q dq dqr ddqr t in                                      (* 80 *)
  Kin <- t_get r t "T_0_ee" ;
  Jac <- t_get r t "J_ee" ;
  M <- t_get r t "M" ;
  C <- t_get r t "C" ;
  G <- t_get r t "G" ;
  Yr <- t_get r t "Yr" ;
  let reg := member t "par_REG" in
  e <- tau_error M C G Yr ddqr dqr reg ;
  let vec k := (k, mtranspose (column (member t k))) in
  if Nat.eqb (m_cols G) 1 && Nat.eqb (m_cols e) 1 then
    Ok ([vec "par_DYN"; vec "par_REG"; vec "par_Dl"; ("Kin", Kin); ("Jac", Jac); ("M", M); ("C", C); ("G", G); ("Yr", Yr);
         ("diff tau_cmd", e); ("world2L0", column (member t "par_world2L0")); ("par_Ln2EE", column (member t "par_Ln2EE"))])%list
  else UB "Eigen: assignment of a matrix to a vector".
