(* A concrete configuration, used to show that the hypotheses of the theorems can be met: a revolute,
   a prismatic and an elastic revolute joint, friction of order 2, elasticity, and a choice of symbolic
   flags in every section. Modelled on src/thunder/robots/RRR_sea/seaRRR.yaml. *)
From Coq Require Import Reals List String ZArith.
From Verif.Model Require Import Base Robot Yaml Build.
Import ListNotations.
Open Scope string_scope.

Definition ys (l : list R) : ynode := YSeq (map YDbl l).
Definition yi (l : list Z) : ynode := YSeq (map YInt l).
Definition toy_link (m : R) : ynode :=
  YMap [("inertial", YMap [("symb", yi [1; 0; 1; 0; 0; 0; 0; 0; 0; 1]%Z);
           ("mass", YDbl m); ("CoM_x", YDbl (1/10)%R); ("CoM_y", YDbl 0%R); ("CoM_z", YDbl (1/5)%R);
           ("Ixx", YDbl 1%R); ("Ixy", YDbl 0%R); ("Ixz", YDbl 0%R); ("Iyy", YDbl 1%R); ("Iyz", YDbl 0%R); ("Izz", YDbl 2%R)]);
        ("friction", YMap [("symb", yi [0; 1]%Z); ("Dl", ys [1; 2]%R)])].

(* h stands for the angle pi/2 *)
Definition toy_cfg (h : R) : ynode :=
  YMap [("num_joints", YInt 3);
        ("type_joints", YSeq [YStr "R"; YStr "P"; YStr "R_SEA"]);
        ("Dl_order", YInt 2);
        ("ELASTIC_MODEL", YBool true);
        ("kinematics", YMap [("symb", yi [1; 0; 0; 0;  0; 0; 1; 0;  0; 1; 0; 0]%Z);
                             ("DH", ys [1; h; 0; 0;  0; 0; 1; h;  1; 0; 0; 0]%R)]);
        ("gravity", YMap [("symb", yi [0; 0; 1]%Z); ("value", ys [0; 0; -10]%R)]);
        ("Base_to_L0", YMap [("symb", yi [0; 0; 0; 0; 0; 1]%Z); ("tr", ys [0; 0; 1]%R); ("ypr", ys [h; 0; 0]%R)]);
        ("Ln_to_EE", YMap [("symb", yi [1; 1; 1; 0; 0; 0]%Z); ("tr", ys [0; 1; 0]%R); ("ypr", ys [0; h; 0]%R)]);
        ("dynamics", YMap [("link1", toy_link 1); ("link2", toy_link 2); ("link3", toy_link 3)]);
        ("elastic", YMap [("K_order", YInt 2); ("D_order", YInt 2); ("Dm_order", YInt 1);
           ("joints", YMap [("joint1", YMap [("K", ys [10; 1]%R); ("D", ys [1; 1]%R); ("Dm", ys [1]%R); ("Mm", YDbl 1%R);
              ("K_symb", yi [1; 1]%Z); ("D_symb", yi [0; 1]%Z); ("Dm_symb", yi [1]%Z); ("Mm_symb", YInt 1)])])])].

Definition no_robot : robot := mkRobot "" 0 0 false [] [] 0 0 0 0 [] [] [] [] [].
(* the robot loaded from it *)
Definition toy0 (h : R) : robot :=
  match robot_from_file "toy" (toy_cfg h) false with Ok r => r | _ => no_robot end.

(* the same configuration with every parameter declared symbolic (z = 1) or none (z = 0) *)
Definition is_flag_key (k : string) : bool := existsb (String.eqb k) ["symb"; "K_symb"; "D_symb"; "Dm_symb"; "Mm_symb"].
Definition set_flags (z : Z) (n : ynode) : ynode :=
  match n with YSeq l => YSeq (map (fun _ => YInt z) l) | _ => YInt z end.
Fixpoint resymb (z : Z) (n : ynode) : ynode :=
  match n with
  | YMap l => YMap (map (fun kv => (fst kv, if is_flag_key (fst kv) then set_flags z (snd kv) else resymb z (snd kv))) l)
  | _ => n
  end.
Definition toy0_flags (z : Z) (h : R) : robot :=
  match robot_from_file "toy" (resymb z (toy_cfg h)) false with Ok r => r | _ => no_robot end.
