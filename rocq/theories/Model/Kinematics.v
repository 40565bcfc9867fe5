(* Models src/thunder/src/kinematics.cpp *)
From Coq Require Import Reals String List Bool Arith ZArith.
From Verif.Model Require Import Base Expr SX Robot.
Import ListNotations.
Open Scope nat_scope.
Open Scope string_scope.

Definition MU : R := (2 / 100)%R.                      (* kinematics.cpp:6 *)
Definition EPSILON : R := (/ 10 ^ 15)%R.               (* kinematics.cpp:7 *)

(* ZIS, kinematics.cpp:10-16 *)
Definition ZIS (x : expr) : expr :=
  if is_constant x then
    (if Rlt_dec (Rabs (const_value x)) EPSILON then Cst 0 else x)
  else x.

(* kinematics.cpp:19-28 *)
Definition R_x (angle : sx) : sx :=
  let a := sc angle in
  mkSX 3 3 (ok angle) (fun i j =>
    match i, j with
    | 0, 0 => Cst 1
    | 1, 1 => ZIS (Cos a) | 1, 2 => ZIS (Opp (Sin a))
    | 2, 1 => ZIS (Sin a) | 2, 2 => ZIS (Cos a)
    | _, _ => Cst 0
    end).
(* kinematics.cpp:29-38 *)
Definition R_y (angle : sx) : sx :=
  let a := sc angle in
  mkSX 3 3 (ok angle) (fun i j =>
    match i, j with
    | 0, 0 => ZIS (Cos a) | 0, 2 => ZIS (Sin a)
    | 1, 1 => Cst 1
    | 2, 0 => ZIS (Opp (Sin a)) | 2, 2 => ZIS (Cos a)
    | _, _ => Cst 0
    end).
(* kinematics.cpp:41-51 *)
Definition R_z (angle : sx) : sx :=
  let a := sc angle in
  mkSX 3 3 (ok angle) (fun i j =>
    match i, j with
    | 0, 0 => ZIS (Cos a) | 0, 1 => ZIS (Opp (Sin a))
    | 1, 0 => ZIS (Sin a) | 1, 1 => ZIS (Cos a)
    | 2, 2 => Cst 1
    | _, _ => Cst 0
    end).

Definition is_P (t : string) : bool := String.eqb t "P" || String.eqb t "P_SEA".
Definition is_R (t : string) : bool := String.eqb t "R" || String.eqb t "R_SEA".

(* T(idx,idx) = R; T(idx,3) = p; T(3,3) = 1  on a 4x4 of zeros (kinematics.cpp:84-86, 104-106) *)
Definition homog (Rm p : sx) : sx :=
  set_at (set_block (set_block (zeros 4 4) 0 0 Rm) 0 3 p) 3 3 (scal (Cst 1)).

(* DHTemplate, kinematics.cpp:53-89 *)
Definition DHTemplate (rowDH qi : sx) (jt : string) : res sx :=
  let a := vat rowDH 0 in
  let alpha := vat rowDH 1 in
  dt <- (if is_P jt then Ok (madd (vat rowDH 2) qi, vat rowDH 3)
         else if is_R jt then Ok (vat rowDH 2, madd (vat rowDH 3) qi)
         else Throw "DHTemplate: Error joint type") ;
  let d := fst dt in
  let theta := snd dt in
  let p_a := set_at (zeros 3 1) 0 0 a in
  let p_d := set_at (zeros 3 1) 2 0 d in
  let Rx := R_x alpha in
  let Rz := R_z theta in
  Ok (homog (mtimes Rx Rz) (madd (mtimes Rx p_d) p_a)).

(* get_transform, kinematics.cpp:91-109 *)
Definition get_transform (frame : sx) : sx :=
  let p := vsub frame 0 3 in
  let psi := vat frame 3 in
  let theta := vat frame 4 in
  let phi := vat frame 5 in
  homog (mtimes (mtimes (R_z psi) (R_y theta)) (R_x phi)) p.

(* compute_chain, kinematics.cpp:111-156. The tests "if (!add_function(...)) return 0" never fire
   (overwrite = true). *)
Definition chain_body (i : nat) (st : robot * sx) : res (robot * sx) :=
  let (r, T0i) := st in
  let row := vsub (mdl r "par_DHtable") (i * 4) (i * 4 + 4) in
  match nth_error (jointsType r) i with
  | None => UB "jointsType out of range"
  | Some jt =>
      Ti <- DHTemplate row (vat (mdl r "q") i) jt ;
      let T0i' := mtimes T0i Ti in
      r <- addf r ("T_" ++ to_string (i + 1)) Ti (obtain_symb_parameters r ["q"] ["par_DHtable"]) ;
      r <- addf r ("T_0_" ++ to_string (i + 1)) T0i'
             (obtain_symb_parameters r ["q"] ["par_DHtable"; "par_world2L0"]) ;
      Ok (r, T0i')
  end.

Definition compute_chain (r : robot) : res robot :=
  let n := numJoints r in
  let T0 := get_transform (mdl r "par_world2L0") in
  r <- addf r "T_0" T0 (obtain_symb_parameters r [] ["par_world2L0"]) ;
  r <- addf r "T_0_0" T0 (obtain_symb_parameters r [] ["par_world2L0"]) ;
  '(r, T0n) <- loop n 0 chain_body (r, T0) ;
  let Tee := mtimes T0n (get_transform (mdl r "par_Ln2EE")) in
  let al := obtain_symb_parameters r ["q"] ["par_DHtable"; "par_world2L0"; "par_Ln2EE"] in
  r <- addf r ("T_0_" ++ to_string (n + 1)) Tee al ;
  addf r "T_0_ee" Tee al.

(* "if (robot.model.count(k) == 0) f(robot);" *)
Definition ensure (k : string) (f : robot -> res robot) (r : robot) : res robot :=
  if mcount k (model r) then Ok r else f r.

(* rotation block and origin of a 4x4 transform *)
Definition rot_of (T : sx) : sx := sub T 0 3 0 3.
Definition tra_of (T : sx) : sx := sub T 0 3 3 4.
Definition axis_of (T : sx) : sx := sub T 0 3 2 3.

(* Inner loop of compute_jacobians (kinematics.cpp:211-237) and of DHJacCM (dynamics.cpp:153-171):
   column j of the position and orientation blocks for the point O. *)
Definition jac_col (r : robot) (O : sx) (j : nat) (st : sx * sx) : res (sx * sx) :=
  let (Jp, Jo) := st in
  let T0j := mdl r ("T_0_" ++ to_string (j + 1)) in
  let kj := axis_of T0j in
  let Oji := msub O (tra_of T0j) in
  match nth_error (jointsType r) j with
  | None => UB "jointsType out of range"
  | Some jt =>
      if is_P jt then Ok (set_block Jp 0 j kj, Jo)
      else if is_R jt then Ok (set_block Jp 0 j (mtimes (hat kj) Oji), set_block Jo 0 j kj)
      else Throw "DHJac: Error joint type"
  end.

(* outer loop of compute_jacobians (kinematics.cpp:182-264); Ji_pos and Ji_or persist across i *)
Definition jac_body (n : nat) (i : nat) (st : robot * (sx * sx)) : res (robot * (sx * sx)) :=
  let (r, J) := st in
  let i_mod := if Nat.ltb i n then i else n - 1 in
  let T0i := mdl r ("T_0_" ++ to_string (i_mod + 1)) in
  let O := tra_of T0i in
  '(Jp, Jo) <- loop (i_mod + 1) 0 (jac_col r O) J ;
  let Jp := if Nat.eqb i n then
              msub Jp (mtimes4 (rot_of T0i) (hat (tra_of (get_transform (mdl r "par_Ln2EE"))))
                         (mT (rot_of T0i)) Jo)
            else Jp in
  let Ji := vertcat2 Jp Jo in
  let al := if Nat.ltb i n then obtain_symb_parameters r ["q"] ["par_DHtable"; "par_world2L0"]
            else obtain_symb_parameters r ["q"] ["par_DHtable"; "par_world2L0"; "par_Ln2EE"] in
  r <- addf r ("J_" ++ to_string (i + 1)) Ji al ;
  Ok (r, (Jp, Jo)).

(* compute_jacobians, kinematics.cpp:158-269 (num_joints >= 1: for 0 joints line 183 indexes -1) *)
Definition compute_jacobians (r : robot) : res robot :=
  let n := numJoints r in
  r <- ensure "T_0_0" compute_chain r ;
  '(r, (Jp, Jo)) <- loop (n + 1) 0 (jac_body n) (r, (zeros 3 n, zeros 3 n)) ;
  addf r "J_ee" (vertcat2 Jp Jo)
    (obtain_symb_parameters r ["q"] ["par_DHtable"; "par_world2L0"; "par_Ln2EE"]).

(* compute_kin_adv, kinematics.cpp:271-298 *)
Definition compute_kin_adv (r : robot) : res robot :=
  r <- ensure "T_0_0" compute_chain r ;
  r <- ensure "J_ee" compute_jacobians r ;
  let q := mdl r "q" in
  let dq := mdl r "dq" in
  let ddq := mdl r "ddq" in
  let Jn := mdl r "J_ee" in
  let dJn := jtimes Jn q dq in
  let ddJn := madd (jtimes dJn q dq) (jtimes dJn dq ddq) in
  r <- addf r "J_ee_dot" dJn
         (obtain_symb_parameters r ["q"; "dq"] ["par_DHtable"; "par_world2L0"; "par_Ln2EE"]) ;
  r <- addf r "J_ee_ddot" ddJn
         (obtain_symb_parameters r ["q"; "dq"; "ddq"] ["par_DHtable"; "par_world2L0"; "par_Ln2EE"]) ;
  let invJ := inv (madd (mtimes Jn (mT Jn)) (scale_r (eye 6) (scal (Cst MU)))) in
  let pinvJ := mtimes (mT Jn) invJ in
  addf r "J_ee_pinv" pinvJ
    (obtain_symb_parameters r ["q"] ["par_DHtable"; "par_world2L0"; "par_Ln2EE"]).

(* compute_kinematics, kinematics.cpp:301-309 *)
Definition compute_kinematics (r : robot) (advanced : bool) : res robot :=
  r <- compute_chain r ;
  r <- compute_jacobians r ;
  if advanced then compute_kin_adv r else Ok r.
