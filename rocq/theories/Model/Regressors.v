(* Models src/thunder/src/regressors.cpp *)
From Coq Require Import Reals String List Bool Arith ZArith.
From Verif.Model Require Import Base Expr SX Robot Kinematics Dynamics.
Import ListNotations.
Open Scope nat_scope.
Open Scope string_scope.

(* createQ, regressors.cpp:11-29 *)
Definition Q_ (l : nat) : sx :=
  mkSX 3 3 true (fun i j =>
    match l, i, j with
    | 0, 1, 2 => Cst (-1) | 0, 2, 1 => Cst 1
    | 1, 0, 2 => Cst 1    | 1, 2, 0 => Cst (-1)
    | 2, 0, 1 => Cst (-1) | 2, 1, 0 => Cst 1
    | _, _, _ => Cst 0
    end).
(* createE, regressors.cpp:31-54 *)
Definition E_ (l : nat) : sx :=
  mkSX 3 3 true (fun i j =>
    match l, i, j with
    | 0, 0, 0 => Cst 1
    | 1, 0, 1 => Cst 1 | 1, 1, 0 => Cst 1
    | 2, 0, 2 => Cst 1 | 2, 2, 0 => Cst 1
    | 3, 1, 1 => Cst 1
    | 4, 1, 2 => Cst 1 | 4, 2, 1 => Cst 1
    | 5, 2, 2 => Cst 1
    | _, _, _ => Cst 0
    end).

(* loop body of compute_Yr, regressors.cpp:103-180; state = (Yr, reg_M, reg_C, reg_G) *)
Definition Yr_body (r : robot) (i : nat) (st : sx * sx * sx * sx) : sx * sx * sx * sx :=
  let '(Yr, reg_M, reg_C, reg_G) := st in
  let n := numJoints r in
  let q := mdl r "q" in let dq := mdl r "dq" in
  let dqr := mdl r "dqr" in let ddqr := mdl r "ddqr" in
  let g := mdl r "par_gravity" in
  let dq_sel := dq_select dq in
  let T0i := mdl r ("T_0_" ++ to_string (i + 1)) in
  let Ji := mdl r ("J_" ++ to_string (i + 1)) in
  let R0i := rot_of T0i in
  let Jv := sub Ji 0 3 0 n in
  let Jw := sub Ji 3 6 0 n in
  (* Y0 *)
  let M0 := mtimes (mT Jv) Jv in
  let C0 := stdCmatrix M0 q dq dq_sel in
  let dX0 := mtimes M0 ddqr in
  let W0 := mneg (mtimes C0 dqr) in
  let Z0 := mneg (mtimes (mT Jv) g) in
  let Y0 := madd (msub dX0 W0) Z0 in
  (* Y1 *)
  let '(dX1, W1) := for_ 3 0 (fun l st =>
      let '(dX, W) := st in
      let Ql := Q_ l in
      let M1 := msub (mtimes5 (mT Jw) R0i Ql (mT R0i) Jv) (mtimes5 (mT Jv) R0i Ql (mT R0i) Jw) in
      let C := stdCmatrix M1 q dq dq_sel in
      (set_block dX 0 l (mtimes M1 ddqr), set_block W 0 l (mneg (mtimes C dqr))))
    (zeros n 3, zeros n 3) in
  let Z1 := mneg (mT (jacobian (mtimes (mT R0i) g) q)) in
  let Y1 := madd (msub dX1 W1) Z1 in
  (* Y2 *)
  let '(dX2, W2) := for_ 6 0 (fun l st =>
      let '(dX, W) := st in
      let El := E_ l in
      let M2 := mtimes5 (mT Jw) R0i El (mT R0i) Jw in
      let C := stdCmatrix M2 q dq dq_sel in
      (set_block dX 0 l (mtimes M2 ddqr), set_block W 0 l (mneg (mtimes C dqr))))
    (zeros n 6, zeros n 6) in
  let Y2 := msub dX2 W2 in
  let reg_M_i := horzcat3 dX0 dX1 dX2 in
  let reg_C_i := horzcat3 (mneg W0) (mneg W1) (mneg W2) in
  let reg_G_i := horzcat3 Z0 Z1 (zeros n 6) in
  let Yr_i := horzcat3 Y0 Y1 Y2 in
  let c0 := i * STD_PAR_LINK in
  (set_block Yr 0 c0 Yr_i, set_block reg_M 0 c0 reg_M_i,
   set_block reg_C 0 c0 reg_C_i, set_block reg_G 0 c0 reg_G_i).

(* compute_Yr, regressors.cpp:56-192 *)
Definition compute_Yr (r : robot) : res robot :=
  let n := numJoints r in
  let np := STD_PAR_LINK * n in
  r <- ensure "T_0_0" compute_chain r ;
  r <- ensure "J_1" compute_jacobians r ;
  let '(Yr, reg_M, reg_C, reg_G) :=
    for_ n 0 (Yr_body r) (zeros n np, zeros n np, zeros n np, zeros n np) in
  r <- addf r "Yr" Yr (obtain_symb_parameters r ["q"; "dq"; "dqr"; "ddqr"] ["par_DHtable"; "par_world2L0"; "par_gravity"]) ;
  r <- addf r "reg_M" reg_M (obtain_symb_parameters r ["q"; "ddqr"] ["par_DHtable"; "par_world2L0"]) ;
  r <- addf r "reg_C" reg_C (obtain_symb_parameters r ["q"; "dq"; "dqr"] ["par_DHtable"; "par_world2L0"]) ;
  addf r "reg_G" reg_G (obtain_symb_parameters r ["q"] ["par_DHtable"; "par_world2L0"; "par_gravity"]).

(* "for (i < p.size1()) if (symb[i]) par_symb.push_back(p(i))" (regressors.cpp:211-215, 260-282,
   339-355): same loop as in add_function *)
Definition symb_elems (r : robot) (par : string) : res (list sx) :=
  select_symb (flags r par) (mdl r par) 0 (rows (mdl r par)).

(* compute_reg_Dl, regressors.cpp:194-225: model.count("Dl") is always 0, so compute_Dl runs again *)
Definition compute_reg_Dl (r : robot) : res robot :=
  if Nat.eqb (Dl_order r) 0 then Ok r else
  r <- ensure "Dl" compute_Dl r ;
  l <- symb_elems r "par_Dl" ;
  let par := vertcat_list l in
  if Nat.eqb (rows par) 0 then Ok r
  else addf r "reg_dl" (jacobian (mdl r "dl") par) ["dq"].

(* compute_reg_elastic, regressors.cpp:227-306 *)
Definition add_reg (name : string) (e : sx) (l : list sx) (al : list string) (r : robot) : res robot :=
  if Nat.eqb (List.length l) 0 then Ok r else addf r name (jacobian e (vertcat_list l)) al.
Definition compute_reg_elastic (r : robot) : res robot :=
  r <- ensure "k" compute_elastic r ;
  lK <- symb_elems r "par_K" ;
  lD <- symb_elems r "par_D" ;
  lDm <- symb_elems r "par_Dm" ;
  lMm <- symb_elems r "par_Mm" ;
  r <- add_reg "reg_k" (mdl r "k") lK ["q"; "x"] r ;
  r <- add_reg "reg_d" (mdl r "d") lD ["dq"; "dx"] r ;
  r <- add_reg "reg_dm" (mdl r "dm") lDm ["dx"] r ;
  add_reg "reg_Mm" (mtimes (mdl r "Mm") (mdl r "ddx")) lMm ["ddx"] r.

(* compute_reg_J, regressors.cpp:308-383 *)
Definition compute_reg_J (r : robot) : res robot :=
  r <- ensure "T_0_0" compute_chain r ;
  r <- ensure "J_ee" compute_jacobians r ;
  let J := mdl r "J_ee" in
  l1 <- symb_elems r "par_DHtable" ;
  l2 <- symb_elems r "par_world2L0" ;
  l3 <- symb_elems r "par_Ln2EE" ;
  let par := vertcat_list (l1 ++ l2 ++ l3)%list in
  if Nat.eqb (rows par) 0 then Ok r else
  let reg_Jdq := jacobian (mtimes J (mdl r "dq")) par in
  let reg_JTw := jacobian (mtimes (mT J) (mdl r "w")) par in
  r <- addf r "reg_Jdq" reg_Jdq
         (obtain_symb_parameters r ["q"; "dq"] ["par_DHtable"; "par_world2L0"; "par_Ln2EE"]) ;
  addf r "reg_JTw" reg_JTw
    (obtain_symb_parameters r ["q"; "w"] ["par_DHtable"; "par_world2L0"; "par_Ln2EE"]).

(* compute_regressors, regressors.cpp:385-400 *)
Definition compute_regressors (r : robot) : res robot :=
  r <- compute_Yr r ;
  r <- compute_reg_J r ;
  r <- (if Nat.ltb 0 (Dl_order r) then compute_reg_Dl r else Ok r) ;
  if ELASTIC r then compute_reg_elastic r else Ok r.
