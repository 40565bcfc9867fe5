(* The robot configurations shipped with the project, src/thunder/robots/*/*.yaml, as trees of the model of YAML. The text of
   the numbers is kept. The files abbreviate pi/2 by the anchor PI_2 = 1.5707963267948966, and likewise its opposite, its
   double (PI) and its half (PI_4): here the number is h, so that the theorems hold both for that decimal and for pi/2.
   Comments of the files are left out. *)
From Coq Require Import QArith Qreals Reals List String ZArith.
From Verif.Model Require Import Base Robot Yaml Build.
Import ListNotations.
Open Scope string_scope.
Open Scope R_scope.

Definition dec (x : Q) : ynode := YDbl (Q2R x).
Arguments dec x%Q.
Definition yi (l : list Z) : ynode := YSeq (map YInt l).

(* RRR_sea/seaRRR.yaml link1, and every link or joint with the same text *)
Definition part1 : ynode :=
  YMap [("inertial", YMap [("symb", yi [0; 0; 0; 0; 0; 0; 0; 0; 0; 0]%Z); ("mass", dec 1.0); ("CoM_x", dec 1.0); ("CoM_y", dec 1.0);
      ("CoM_z", dec 1.0); ("Ixx", dec 1.0); ("Ixy", dec 1.0); ("Ixz", dec 1.0); ("Iyy", dec 1.0);
      ("Iyz", dec 1.0); ("Izz", dec 1.0)]);
    ("friction", YMap [("symb", yi [0; 0]%Z); ("Dl", YSeq [dec 0.1; dec 0.01])])].
(* RRR_sea/seaRRR.yaml joint1, and every link or joint with the same text *)
Definition part2 : ynode :=
  YMap [("K", YSeq [dec 1.0]); ("D", YSeq []); ("Dm", YSeq [dec 0.1]); ("Mm", dec 1.0); ("K_symb", yi [0]%Z);
    ("D_symb", YSeq []); ("Dm_symb", yi [0]%Z); ("Mm_symb", YInt 0)].
(* bifrank/lewis.yaml link1, and every link or joint with the same text *)
Definition part3 : ynode :=
  YMap [("inertial", YMap [("symb", yi [1; 1; 1; 1; 1; 1; 1; 1; 1; 1]%Z); ("mass", dec 5.43); ("CoM_x", dec (-0.041018));
      ("CoM_y", dec 0.049974); ("CoM_z", dec 0.2); ("Ixx", dec 0.00315); ("Iyy", dec 0.00388);
      ("Izz", dec 0.004285); ("Ixy", dec 8.2904E-07); ("Ixz", dec 0.00015); ("Iyz", dec 8.2299E-06)]);
    ("friction", YMap [("symb", yi [1; 1]%Z); ("Dl", YSeq [dec 0.1; dec 0.01])])].
(* bifrank/lewis.yaml link2, and every link or joint with the same text *)
Definition part4 : ynode :=
  YMap [("inertial", YMap [("symb", yi [1; 1; 1; 1; 1; 1; 1; 1; 1; 1]%Z); ("mass", dec 2.9274653454); ("CoM_x", dec 0.0000004128);
      ("CoM_y", dec (-0.0181251324)); ("CoM_z", dec (-0.0386035970)); ("Ixx", dec 0.0239273164851079);
      ("Ixy", dec 0.0000133179034557); ("Ixz", dec (-0.000114047749186)); ("Iyy", dec 0.0224821613275756);
      ("Iyz", dec (-0.001995032062824)); ("Izz", dec 0.0063500982585300)]);
    ("friction", YMap [("symb", yi [1; 1]%Z); ("Dl", YSeq [dec 0.1; dec 0.01])])].
(* bifrank/lewis.yaml link3, and every link or joint with the same text *)
Definition part5 : ynode :=
  YMap [("inertial", YMap [("symb", yi [1; 1; 1; 1; 1; 1; 1; 1; 1; 1]%Z); ("mass", dec 2.9355370338); ("CoM_x", dec 0.0031828864);
      ("CoM_y", dec (-0.0743221644)); ("CoM_z", dec 0.0088146084); ("Ixx", dec 0.0419389462576094);
      ("Ixy", dec 0.0002025733152109); ("Ixz", dec 0.0040777842271799); ("Iyy", dec 0.0251451488501472);
      ("Iyz", dec (-0.004225215800657)); ("Izz", dec 0.0617021447288883)]);
    ("friction", YMap [("symb", yi [1; 1]%Z); ("Dl", YSeq [dec 0.1; dec 0.01])])].
(* bifrank/lewis.yaml link4, and every link or joint with the same text *)
Definition part6 : ynode :=
  YMap [("inertial", YMap [("symb", yi [1; 1; 1; 1; 1; 1; 1; 1; 1; 1]%Z); ("mass", dec 2.2449013699); ("CoM_x", dec 0.0407015686);
      ("CoM_y", dec (-0.0048200565)); ("CoM_z", dec (-0.0289730823)); ("Ixx", dec 0.0241014254724088);
      ("Ixy", dec 0.0024046945590421); ("Ixz", dec (-0.002856269270114)); ("Iyy", dec 0.0197405326670817);
      ("Iyz", dec (-0.002104212683891)); ("Izz", dec 0.0190444944822448)]);
    ("friction", YMap [("symb", yi [1; 1]%Z); ("Dl", YSeq [dec 0.1; dec 0.01])])].
(* bifrank/lewis.yaml link5, and every link or joint with the same text *)
Definition part7 : ynode :=
  YMap [("inertial", YMap [("symb", yi [1; 1; 1; 1; 1; 1; 1; 1; 1; 1]%Z); ("mass", dec 2.6155955791); ("CoM_x", dec (-0.0459100965));
      ("CoM_y", dec 0.0630492960); ("CoM_z", dec (-0.0085187868)); ("Ixx", dec 0.0345299832191320);
      ("Ixy", dec 0.0132255226598281); ("Ixz", dec 0.0101514299848411); ("Iyy", dec 0.0288816219330490);
      ("Iyz", dec (-0.000976283387070)); ("Izz", dec 0.0412547117114664)]);
    ("friction", YMap [("symb", yi [1; 1]%Z); ("Dl", YSeq [dec 0.1; dec 0.01])])].
(* bifrank/lewis.yaml link6, and every link or joint with the same text *)
Definition part8 : ynode :=
  YMap [("inertial", YMap [("symb", yi [1; 1; 1; 1; 1; 1; 1; 1; 1; 1]%Z); ("mass", dec 2.3271207594); ("CoM_x", dec (-0.0016039605));
      ("CoM_y", dec 0.0292536262); ("CoM_z", dec (-0.0972965990)); ("Ixx", dec 0.0516102784636628);
      ("Ixy", dec (-0.005715173387783)); ("Ixz", dec (-0.003567316762587)); ("Iyy", dec 0.0478772971337148);
      ("Iyz", dec 0.0106739851085359); ("Izz", dec 0.0164236255793572)]);
    ("friction", YMap [("symb", yi [1; 1]%Z); ("Dl", YSeq [dec 0.1; dec 0.01])])].
(* bifrank/lewis.yaml link7, and every link or joint with the same text *)
Definition part9 : ynode :=
  YMap [("inertial", YMap [("symb", yi [1; 1; 1; 1; 1; 1; 1; 1; 1; 1]%Z); ("mass", dec 1.8170376524); ("CoM_x", dec 0.0597131221);
      ("CoM_y", dec (-0.0410294666)); ("CoM_z", dec (-0.0101692726)); ("Ixx", dec 0.0054123335943834);
      ("Ixy", dec 0.0061934563602858); ("Ixz", dec 0.0014219289306117); ("Iyy", dec 0.0140583295455099);
      ("Iyz", dec (-0.001314075374112)); ("Izz", dec 0.0160808179242125)]);
    ("friction", YMap [("symb", yi [1; 1]%Z); ("Dl", YSeq [dec 0.1; dec 0.01])])].
(* bifrank/lewis.yaml link8, and every link or joint with the same text *)
Definition part10 : ynode :=
  YMap [("inertial", YMap [("symb", yi [1; 1; 1; 1; 1; 1; 1; 1; 1; 1]%Z); ("mass", dec 0.6271432862); ("CoM_x", dec 0.0045225817);
      ("CoM_y", dec 0.0086261921); ("CoM_z", dec (-0.0161633251)); ("Ixx", dec 0.0002109238915010);
      ("Ixy", dec (-0.000024332991144)); ("Ixz", dec 0.0000456448039377); ("Iyy", dec 0.0001771856800241);
      ("Iyz", dec 0.0000874407022322); ("Izz", dec 0.0000599319059965)]);
    ("friction", YMap [("symb", yi [1; 1]%Z); ("Dl", YSeq [dec 0.1; dec 0.01])])].
(* ego/egoRightArm.yaml link2, and every link or joint with the same text *)
Definition part11 : ynode :=
  YMap [("inertial", YMap [("symb", yi [1; 1; 1; 1; 1; 1; 1; 1; 1; 1]%Z); ("mass", dec 0.6); ("CoM_x", dec 0.0); ("CoM_y", dec 0.0);
      ("CoM_z", dec 0.0); ("Ixx", dec 0.01); ("Ixy", dec 0.0); ("Ixz", dec 0.0); ("Iyy", dec 0.01);
      ("Iyz", dec 0.0); ("Izz", dec 0.01)]);
    ("friction", YMap [("symb", yi [1]%Z); ("Dl", YSeq [dec 0.1])])].
(* ego/egoRightArm.yaml joint1, and every link or joint with the same text *)
Definition part12 : ynode :=
  YMap [("K", YSeq [dec 2.5; dec 0.0; dec 50.0]); ("D", YSeq []); ("Dm", YSeq [YInt 10; dec 0.1]);
    ("Mm", dec 0.1); ("K_symb", yi [1; 1; 1]%Z); ("D_symb", YSeq []); ("Dm_symb", yi [1; 1]%Z);
    ("Mm_symb", YInt 1)].
(* testRobots/R3.yaml link1, and every link or joint with the same text *)
Definition part13 : ynode :=
  YMap [("inertial", YMap [("symb", yi [1; 1; 1; 1; 1; 1; 1; 1; 1; 1]%Z); ("mass", dec 1.0); ("CoM_x", dec 1.0); ("CoM_y", dec 1.0);
      ("CoM_z", dec 1.0); ("Ixx", dec 1.0); ("Ixy", dec 1.0); ("Ixz", dec 1.0); ("Iyy", dec 1.0);
      ("Iyz", dec 1.0); ("Izz", dec 1.0)])].
(* testRobots/R9_noDynSymb.yaml link1, and every link or joint with the same text *)
Definition part14 : ynode :=
  YMap [("inertial", YMap [("symb", yi [0; 0; 0; 0; 0; 0; 0; 0; 0; 0]%Z); ("mass", dec 1.0); ("CoM_x", dec 1.0); ("CoM_y", dec 1.0);
      ("CoM_z", dec 1.0); ("Ixx", dec 1.0); ("Ixy", dec 1.0); ("Ixz", dec 1.0); ("Iyy", dec 1.0);
      ("Iyz", dec 1.0); ("Izz", dec 1.0)])].
(* testRobots/R15.yaml link1, and every link or joint with the same text *)
Definition part15 : ynode :=
  YMap [("mass", dec 1.0); ("CoM_x", dec 1.0); ("CoM_y", dec 1.0); ("CoM_z", dec 1.0); ("Ixx", dec 1.0);
    ("Ixy", dec 1.0); ("Ixz", dec 1.0); ("Iyy", dec 1.0); ("Iyz", dec 1.0); ("Izz", dec 1.0)].

(* src/thunder/robots/RRR/RRR.yaml:1-97 *)
Definition cfg_RRR (h : R) : ynode :=
  YMap [("version", dec 0.2);
    ("PI_2", YDbl h);
    ("PI_2_neg", YDbl (-h));
    ("num_joints", YInt 3);
    ("type_joints", YSeq [YStr "R"; YStr "R"; YStr "R"]);
    ("kinematics", YMap [("symb", yi [0; 0; 0; 0; 0; 0; 0; 0; 0; 0; 0; 0]%Z);
      ("DH", YSeq [YInt 0; YInt 0; YInt 1; YInt 0; YInt 1; YDbl h; YInt 0; YInt 0; YInt 1; YInt 0; YInt 0; YInt 0])]);
    ("gravity", YMap [("symb", yi [0; 0; 0]%Z); ("value", YSeq [YInt 0; YInt 0; dec (-9.81)])]);
    ("Base_to_L0", YMap [("symb", yi [0; 0; 0; 0; 0; 0]%Z); ("tr", yi [0; 0; 0]%Z); ("ypr", yi [0; 0; 0]%Z)]);
    ("Ln_to_EE", YMap [("symb", yi [0; 0; 0; 0; 0; 0]%Z); ("tr", yi [1; 0; 0]%Z); ("ypr", YSeq [YInt 0; YInt 0; YDbl (-h)])]);
    ("dynamics", YMap [("link1", YMap [("inertial", YMap [("symb", yi [1; 1; 1; 1; 1; 1; 1; 1; 1; 1]%Z); ("mass", dec 5.0); ("CoM_x", dec 2.0); ("CoM_y", dec 2.0);
          ("CoM_z", dec 2.0); ("Ixx", dec 2.0); ("Ixy", dec 2.0); ("Ixz", dec 2.0); ("Iyy", dec 2.0);
          ("Iyz", dec 2.0); ("Izz", dec 2.0)]);
        ("friction", YMap [("symb", yi [0; 0]%Z); ("Dl", YSeq [dec 0.1; dec 0.01])])]);
      ("link2", YMap [("inertial", YMap [("symb", yi [1; 1; 1; 1; 1; 1; 1; 1; 1; 1]%Z); ("mass", dec 3.0); ("CoM_x", dec 2.0); ("CoM_y", dec 2.0);
          ("CoM_z", dec 2.0); ("Ixx", dec 2.0); ("Ixy", dec 2.0); ("Ixz", dec 2.0); ("Iyy", dec 2.0);
          ("Iyz", dec 2.0); ("Izz", dec 2.0)]);
        ("friction", YMap [("symb", yi [0; 0]%Z); ("Dl", YSeq [dec 0.1; dec 0.01])])]);
      ("link3", YMap [("inertial", YMap [("symb", yi [1; 1; 1; 1; 1; 1; 1; 1; 1; 1]%Z); ("mass", dec 1.0); ("CoM_x", dec 2.0); ("CoM_y", dec 0.3);
          ("CoM_z", dec 2.0); ("Ixx", dec 2.0); ("Ixy", dec 2.0); ("Ixz", dec 2.0); ("Iyy", dec 2.0);
          ("Iyz", dec 2.0); ("Izz", dec 2.0)]);
        ("friction", YMap [("symb", yi [0; 0]%Z); ("Dl", YSeq [dec 0.1; dec 0.01])])])])].

(* src/thunder/robots/RRR_sea/seaRRR.yaml:1-141 *)
Definition cfg_seaRRR (h : R) : ynode :=
  YMap [("version", dec 0.3);
    ("PI_2", YDbl h);
    ("PI_2_neg", YDbl (-h));
    ("ELASTIC_MODEL", YBool true);
    ("num_joints", YInt 3);
    ("Dl_order", YInt 2);
    ("type_joints", YSeq [YStr "R_SEA"; YStr "R_SEA"; YStr "R_SEA"]);
    ("kinematics", YMap [("symb", yi [0; 0; 0; 0; 0; 0; 0; 0; 0; 0; 0; 0]%Z);
      ("DH", YSeq [YInt 0; YInt 0; YInt 1; YInt 0; YInt 0; YDbl h; YInt 0; YInt 0; YInt 1; YInt 0; YInt 0; YInt 0])]);
    ("gravity", YMap [("symb", yi [0; 0; 0]%Z); ("value", YSeq [YInt 0; YInt 0; dec (-9.81)])]);
    ("Base_to_L0", YMap [("symb", yi [0; 0; 0; 0; 0; 0]%Z); ("tr", yi [0; 0; 0]%Z); ("ypr", yi [0; 0; 0]%Z)]);
    ("Ln_to_EE", YMap [("symb", yi [0; 0; 0; 0; 0; 0]%Z); ("tr", yi [1; 0; 0]%Z); ("ypr", YSeq [YInt 0; YInt 0; YDbl (-h)])]);
    ("dynamics", YMap [("link1", part1);
      ("link2", part1);
      ("link3", part1)]);
    ("elastic", YMap [("K_order", YInt 1);
      ("D_order", YInt 0);
      ("Dm_order", YInt 1);
      ("joints", YMap [("joint1", part2);
        ("joint2", part2);
        ("joint3", part2)])])].

(* src/thunder/robots/franka/franka.yaml:1-170 *)
Definition cfg_franka (h : R) : ynode :=
  YMap [("version", dec 0.2);
    ("PI_2", YDbl h);
    ("PI_2_neg", YDbl (-h));
    ("PI_4_neg", YDbl (-(h / 2)));
    ("num_joints", YInt 7);
    ("Dl_order", YInt 2);
    ("type_joints", YSeq [YStr "R"; YStr "R"; YStr "R"; YStr "R"; YStr "R"; YStr "R"; YStr "R"]);
    ("kinematics", YMap [("symb", yi [0; 0; 0; 0; 0; 0; 0; 0; 0; 0; 0; 0; 0; 0; 0; 0; 0; 0; 0; 0; 0; 0; 0; 0; 0; 0; 0; 0]%Z);
      ("DH", YSeq [YInt 0; YInt 0; dec 0.3330; YInt 0; YInt 0; YDbl (-h); YInt 0; YInt 0; YInt 0; YDbl h; dec 0.3160; YInt 0; dec 0.0825; YDbl h; YInt 0; YInt 0; dec (-0.0825); YDbl (-h); dec 0.384; YInt 0; YInt 0; YDbl h; YInt 0; YInt 0; dec 0.088; YDbl h; dec 0.107; YInt 0])]);
    ("gravity", YMap [("symb", yi [0; 0; 0]%Z); ("value", YSeq [YInt 0; YInt 0; dec (-9.81)])]);
    ("Base_to_L0", YMap [("symb", yi [0; 0; 0; 0; 0; 0]%Z); ("tr", yi [0; 0; 0]%Z); ("ypr", yi [0; 0; 0]%Z)]);
    ("Ln_to_EE", YMap [("symb", yi [1; 1; 1; 0; 0; 0]%Z); ("tr", yi [0; 0; 0]%Z); ("ypr", yi [0; 0; 0]%Z)]);
    ("dynamics", YMap [("link1", YMap [("inertial", YMap [("symb", yi [1; 1; 1; 1; 1; 1; 1; 1; 1; 1]%Z); ("mass", dec 4.970684); ("CoM_x", dec 3.875e-3);
          ("CoM_y", dec 2.081e-3); ("CoM_z", dec (-4.762e-2)); ("Ixx", dec 7.0337e-1); ("Iyy", dec 7.0661e-1);
          ("Izz", dec 9.1170e-3); ("Ixy", dec (-1.3900e-4)); ("Ixz", dec 6.7720e-3); ("Iyz", dec 1.9169e-2)]);
        ("friction", YMap [("symb", yi [1; 1]%Z); ("Dl", YSeq [dec 0.1; dec 0.01])])]);
      ("link2", YMap [("inertial", YMap [("symb", yi [1; 1; 1; 1; 1; 1; 1; 1; 1; 1]%Z); ("mass", dec 0.646926); ("CoM_x", dec (-3.141e-3));
          ("CoM_y", dec (-2.872e-2)); ("CoM_z", dec 3.495e-3); ("Ixx", dec 7.9620e-3); ("Iyy", dec 2.8110e-02);
          ("Izz", dec 2.5995e-02); ("Ixy", dec (-3.9250e-3)); ("Ixz", dec 1.0254e-02); ("Iyz", dec 7.0400e-04)]);
        ("friction", YMap [("symb", yi [1; 1]%Z); ("Dl", YSeq [dec 0.1; dec 0.01])])]);
      ("link3", YMap [("inertial", YMap [("symb", yi [1; 1; 1; 1; 1; 1; 1; 1; 1; 1]%Z); ("mass", dec 3.228604); ("CoM_x", dec 2.7518e-02);
          ("CoM_y", dec 3.9252e-02); ("CoM_z", dec (-6.6502e-02)); ("Ixx", dec 3.7242e-02); ("Iyy", dec 3.6155e-02);
          ("Izz", dec 1.0830e-02); ("Ixy", dec (-4.7610e-03)); ("Ixz", dec (-1.1396e-02));
          ("Iyz", dec (-1.2805e-02))]);
        ("friction", YMap [("symb", yi [1; 1]%Z); ("Dl", YSeq [dec 0.1; dec 0.01])])]);
      ("link4", YMap [("inertial", YMap [("symb", yi [1; 1; 1; 1; 1; 1; 1; 1; 1; 1]%Z); ("mass", dec 3.587895); ("CoM_x", dec (-5.317e-02));
          ("CoM_y", dec 1.04419e-01); ("CoM_z", dec 2.7454e-02); ("Ixx", dec 2.5853e-02); ("Iyy", dec 1.9552e-02);
          ("Izz", dec 2.8323e-02); ("Ixy", dec 7.7960e-03); ("Ixz", dec (-1.3320e-03)); ("Iyz", dec 8.6410e-03)]);
        ("friction", YMap [("symb", yi [1; 1]%Z); ("Dl", YSeq [dec 0.1; dec 0.01])])]);
      ("link5", YMap [("inertial", YMap [("symb", yi [1; 1; 1; 1; 1; 1; 1; 1; 1; 1]%Z); ("mass", dec 1.225946); ("CoM_x", dec (-1.1953e-02));
          ("CoM_y", dec 4.1065e-02); ("CoM_z", dec (-3.8437e-02)); ("Ixx", dec 3.5549e-02); ("Iyy", dec 2.9474e-02);
          ("Izz", dec 8.6270e-03); ("Ixy", dec (-2.1170e-03)); ("Ixz", dec (-4.0370e-03)); ("Iyz", dec 2.2900e-04)]);
        ("friction", YMap [("symb", yi [1; 1]%Z); ("Dl", YSeq [dec 0.1; dec 0.01])])]);
      ("link6", YMap [("inertial", YMap [("symb", yi [1; 1; 1; 1; 1; 1; 1; 1; 1; 1]%Z); ("mass", dec 1.666555); ("CoM_x", dec 6.0149e-02);
          ("CoM_y", dec (-1.4117e-02)); ("CoM_z", dec (-1.0517e-02)); ("Ixx", dec 1.9640e-03);
          ("Iyy", dec 4.3540e-03); ("Izz", dec 5.4330e-03); ("Ixy", dec 1.0900e-04); ("Ixz", dec (-1.1580e-03));
          ("Iyz", dec 3.4100e-04)]);
        ("friction", YMap [("symb", yi [1; 1]%Z); ("Dl", YSeq [dec 0.1; dec 0.01])])]);
      ("link7", YMap [("inertial", YMap [("symb", yi [1; 1; 1; 1; 1; 1; 1; 1; 1; 1]%Z); ("mass", dec 0.735522); ("CoM_x", dec 1.0517e-02);
          ("CoM_y", dec (-4.252e-03)); ("CoM_z", dec (-4.5403e-02)); ("Ixx", dec 1.2516e-02);
          ("Ixy", dec (-4.28e-04)); ("Ixz", dec (-1.196e-03)); ("Iyy", dec 1.0027e-02); ("Iyz", dec (-7.41e-04));
          ("Izz", dec 4.815e-03)]);
        ("friction", YMap [("symb", yi [1; 1]%Z); ("Dl", YSeq [dec 0.1; dec 0.01])])])])].

(* src/thunder/robots/frankaWrist/frankaWrist.yaml:1-210 *)
Definition cfg_frankaWrist (h : R) : ynode :=
  YMap [("version", dec 0.3);
    ("PI_2", YDbl h);
    ("PI_2_neg", YDbl (-h));
    ("PI_4_neg", YDbl (-(h / 2)));
    ("ELASTIC_MODEL", YBool true);
    ("num_joints", YInt 8);
    ("Dl_order", YInt 2);
    ("type_joints", YSeq [YStr "R"; YStr "R"; YStr "R"; YStr "R"; YStr "R"; YStr "R"; YStr "R"; YStr "R_SEA"]);
    ("kinematics", YMap [("symb", yi [0; 0; 0; 0; 0; 0; 0; 0; 0; 0; 0; 0; 0; 0; 0; 0; 0; 0; 0; 0; 0; 0; 0; 0; 0; 0; 0; 0; 0; 0; 0; 0]%Z);
      ("DH", YSeq [YInt 0; YInt 0; dec 0.3330; YInt 0; YInt 0; YDbl (-h); YInt 0; YInt 0; YInt 0; YDbl h; dec 0.3160; YInt 0; dec 0.0825; YDbl h; YInt 0; YInt 0; dec (-0.0825); YDbl (-h); dec 0.384; YInt 0; YInt 0; YDbl h; YInt 0; YInt 0; dec 0.088; YDbl h; dec 0.161; YInt 0; dec 0.10; YDbl h; YInt 0; YInt 0])]);
    ("gravity", YMap [("symb", yi [0; 0; 0]%Z); ("value", YSeq [YInt 0; YInt 0; dec (-9.81)])]);
    ("Base_to_L0", YMap [("symb", yi [0; 0; 0; 0; 0; 0]%Z); ("tr", yi [0; 0; 0]%Z); ("ypr", yi [0; 0; 0]%Z)]);
    ("Ln_to_EE", YMap [("symb", yi [1; 1; 1; 0; 0; 0]%Z); ("tr", yi [0; 0; 0]%Z); ("ypr", yi [0; 0; 0]%Z)]);
    ("dynamics", YMap [("link1", YMap [("inertial", YMap [("symb", yi [0; 0; 0; 0; 0; 0; 0; 0; 0; 0]%Z); ("mass", dec 4.970684); ("CoM_x", dec 3.875e-3);
          ("CoM_y", dec 2.081e-3); ("CoM_z", dec (-4.762e-2)); ("Ixx", dec 7.0337e-1); ("Iyy", dec 7.0661e-1);
          ("Izz", dec 9.1170e-3); ("Ixy", dec (-1.3900e-4)); ("Ixz", dec 6.7720e-3); ("Iyz", dec 1.9169e-2)]);
        ("friction", YMap [("symb", yi [1; 1]%Z); ("Dl", YSeq [dec 0.1; dec 0.01])])]);
      ("link2", YMap [("inertial", YMap [("symb", yi [0; 0; 0; 0; 0; 0; 0; 0; 0; 0]%Z); ("mass", dec 0.646926); ("CoM_x", dec (-3.141e-3));
          ("CoM_y", dec (-2.872e-2)); ("CoM_z", dec 3.495e-3); ("Ixx", dec 7.9620e-3); ("Iyy", dec 2.8110e-02);
          ("Izz", dec 2.5995e-02); ("Ixy", dec (-3.9250e-3)); ("Ixz", dec 1.0254e-02); ("Iyz", dec 7.0400e-04)]);
        ("friction", YMap [("symb", yi [1; 1]%Z); ("Dl", YSeq [dec 0.1; dec 0.01])])]);
      ("link3", YMap [("inertial", YMap [("symb", yi [0; 0; 0; 0; 0; 0; 0; 0; 0; 0]%Z); ("mass", dec 3.228604); ("CoM_x", dec 2.7518e-02);
          ("CoM_y", dec 3.9252e-02); ("CoM_z", dec (-6.6502e-02)); ("Ixx", dec 3.7242e-02); ("Iyy", dec 3.6155e-02);
          ("Izz", dec 1.0830e-02); ("Ixy", dec (-4.7610e-03)); ("Ixz", dec (-1.1396e-02));
          ("Iyz", dec (-1.2805e-02))]);
        ("friction", YMap [("symb", yi [1; 1]%Z); ("Dl", YSeq [dec 0.1; dec 0.01])])]);
      ("link4", YMap [("inertial", YMap [("symb", yi [0; 0; 0; 0; 0; 0; 0; 0; 0; 0]%Z); ("mass", dec 3.587895); ("CoM_x", dec (-5.317e-02));
          ("CoM_y", dec 1.04419e-01); ("CoM_z", dec 2.7454e-02); ("Ixx", dec 2.5853e-02); ("Iyy", dec 1.9552e-02);
          ("Izz", dec 2.8323e-02); ("Ixy", dec 7.7960e-03); ("Ixz", dec (-1.3320e-03)); ("Iyz", dec 8.6410e-03)]);
        ("friction", YMap [("symb", yi [1; 1]%Z); ("Dl", YSeq [dec 0.1; dec 0.01])])]);
      ("link5", YMap [("inertial", YMap [("symb", yi [0; 0; 0; 0; 0; 0; 0; 0; 0; 0]%Z); ("mass", dec 1.225946); ("CoM_x", dec (-1.1953e-02));
          ("CoM_y", dec 4.1065e-02); ("CoM_z", dec (-3.8437e-02)); ("Ixx", dec 3.5549e-02); ("Iyy", dec 2.9474e-02);
          ("Izz", dec 8.6270e-03); ("Ixy", dec (-2.1170e-03)); ("Ixz", dec (-4.0370e-03)); ("Iyz", dec 2.2900e-04)]);
        ("friction", YMap [("symb", yi [1; 1]%Z); ("Dl", YSeq [dec 0.1; dec 0.01])])]);
      ("link6", YMap [("inertial", YMap [("symb", yi [0; 0; 0; 0; 0; 0; 0; 0; 0; 0]%Z); ("mass", dec 1.666555); ("CoM_x", dec 6.0149e-02);
          ("CoM_y", dec (-1.4117e-02)); ("CoM_z", dec (-1.0517e-02)); ("Ixx", dec 1.9640e-03);
          ("Iyy", dec 4.3540e-03); ("Izz", dec 5.4330e-03); ("Ixy", dec 1.0900e-04); ("Ixz", dec (-1.1580e-03));
          ("Iyz", dec 3.4100e-04)]);
        ("friction", YMap [("symb", yi [1; 1]%Z); ("Dl", YSeq [dec 0.1; dec 0.01])])]);
      ("link7", YMap [("inertial", YMap [("symb", yi [0; 0; 0; 0; 0; 0; 0; 0; 0; 0]%Z); ("mass", dec 1.66560124); ("CoM_x", dec 0.0292);
          ("CoM_y", dec 0.0069); ("CoM_z", dec (-0.0413)); ("Ixx", dec 1.2516e-02); ("Iyy", dec 1.0027e-02);
          ("Izz", dec 4.8150e-03); ("Ixy", dec (-4.2800e-04)); ("Ixz", dec (-1.1960e-03));
          ("Iyz", dec (-7.4100e-04))]);
        ("friction", YMap [("symb", yi [1; 1]%Z); ("Dl", YSeq [dec 0.1; dec 0.01])])]);
      ("link8", YMap [("inertial", YMap [("symb", yi [0; 0; 0; 0; 0; 0; 0; 0; 0; 0]%Z); ("mass", dec 0.86); ("CoM_x", dec 0.05);
          ("CoM_y", dec 0.0); ("CoM_z", dec 0.0); ("Ixx", dec 0.001); ("Iyy", dec 0.001); ("Izz", dec 0.001);
          ("Ixy", YInt 0); ("Ixz", YInt 0); ("Iyz", YInt 0)]);
        ("friction", YMap [("symb", yi [1; 1]%Z); ("Dl", YSeq [dec 0.1; dec 0.01])])])]);
    ("elastic", YMap [("K_order", YInt 1);
      ("D_order", YInt 0);
      ("Dm_order", YInt 2);
      ("joints", YMap [("joint1", YMap [("K", YSeq [dec 2.5]); ("D", YSeq []); ("Dm", YSeq [YInt 10; dec 0.1]); ("Mm", dec 0.1);
          ("K_symb", yi [1]%Z); ("D_symb", YSeq []); ("Dm_symb", yi [1; 1]%Z); ("Mm_symb", YInt 1)])])])].

(* src/thunder/robots/bifrank/lewis.yaml:1-189 *)
Definition cfg_lewis (h : R) : ynode :=
  YMap [("version", dec 0.2);
    ("PI_2", YDbl h);
    ("PI_2_neg", YDbl (-h));
    ("PI_4", YDbl (h / 2));
    ("PI_4_neg", YDbl (-(h / 2)));
    ("num_joints", YInt 8);
    ("Dl_order", YInt 2);
    ("type_joints", YSeq [YStr "R"; YStr "R"; YStr "R"; YStr "R"; YStr "R"; YStr "R"; YStr "R"; YStr "R"]);
    ("kinematics", YMap [("symb", yi [0; 0; 0; 0; 0; 0; 0; 0; 0; 0; 0; 0; 0; 0; 0; 0; 0; 0; 0; 0; 0; 0; 0; 0; 0; 0; 0; 0; 0; 0; 0; 0]%Z);
      ("DH", YSeq [YInt 0; YInt 0; dec 0.04; YInt 0; YInt 0; dec (-0.9); dec 0.4430; dec (-0.15); YInt 0; YDbl (-h); YInt 0; YInt 0; YInt 0; YDbl h; dec 0.3160; YInt 0; dec 0.0825; YDbl h; YInt 0; YInt 0; dec (-0.0825); YDbl (-h); dec 0.384; YInt 0; YInt 0; YDbl h; YInt 0; YInt 0; dec 0.088; YDbl h; dec 0.107; YInt 0])]);
    ("gravity", YMap [("symb", yi [0; 0; 0]%Z); ("value", YSeq [YInt 0; YInt 0; dec (-9.81)])]);
    ("Base_to_L0", YMap [("symb", yi [1; 1; 1; 0; 0; 0]%Z); ("tr", yi [0; 0; 0]%Z); ("ypr", yi [0; 0; 0]%Z)]);
    ("Ln_to_EE", YMap [("symb", yi [1; 1; 1; 0; 0; 0]%Z); ("tr", yi [0; 0; 0]%Z); ("ypr", yi [0; 0; 0]%Z)]);
    ("dynamics", YMap [("link1", part3);
      ("link2", part4);
      ("link3", part5);
      ("link4", part6);
      ("link5", part7);
      ("link6", part8);
      ("link7", part9);
      ("link8", part10)])].

(* src/thunder/robots/bifrank/richard.yaml:1-189 *)
Definition cfg_richard (h : R) : ynode :=
  YMap [("version", dec 0.2);
    ("PI_2", YDbl h);
    ("PI_2_neg", YDbl (-h));
    ("PI_4", YDbl (h / 2));
    ("PI_4_neg", YDbl (-(h / 2)));
    ("num_joints", YInt 8);
    ("Dl_order", YInt 2);
    ("type_joints", YSeq [YStr "R"; YStr "R"; YStr "R"; YStr "R"; YStr "R"; YStr "R"; YStr "R"; YStr "R"]);
    ("kinematics", YMap [("symb", yi [0; 0; 0; 0; 0; 0; 0; 0; 0; 0; 0; 0; 0; 0; 0; 0; 0; 0; 0; 0; 0; 0; 0; 0; 0; 0; 0; 0; 0; 0; 0; 0]%Z);
      ("DH", YSeq [YInt 0; YInt 0; dec 0.04; YInt 0; YInt 0; dec 0.9; dec 0.4430; dec 0.15; YInt 0; YDbl (-h); YInt 0; YInt 0; YInt 0; YDbl h; dec 0.3160; YInt 0; dec 0.0825; YDbl h; YInt 0; YInt 0; dec (-0.0825); YDbl (-h); dec 0.384; YInt 0; YInt 0; YDbl h; YInt 0; YInt 0; dec 0.088; YDbl h; dec 0.107; YInt 0])]);
    ("gravity", YMap [("symb", yi [0; 0; 0]%Z); ("value", YSeq [YInt 0; YInt 0; dec (-9.81)])]);
    ("Base_to_L0", YMap [("symb", yi [1; 1; 1; 0; 0; 0]%Z); ("tr", yi [0; 0; 0]%Z); ("ypr", yi [0; 0; 0]%Z)]);
    ("Ln_to_EE", YMap [("symb", yi [1; 1; 1; 0; 0; 0]%Z); ("tr", yi [0; 0; 0]%Z); ("ypr", yi [0; 0; 0]%Z)]);
    ("dynamics", YMap [("link1", part3);
      ("link2", part4);
      ("link3", part5);
      ("link4", part6);
      ("link5", part7);
      ("link6", part8);
      ("link7", part9);
      ("link8", part10)])].

(* src/thunder/robots/ego/egoRightArm.yaml:1-193 *)
Definition cfg_egoRightArm (h : R) : ynode :=
  YMap [("version", dec 0.3);
    ("PI", YDbl (2 * h));
    ("PI_2", YDbl h);
    ("PI_2_neg", YDbl (-h));
    ("ELASTIC_MODEL", YBool true);
    ("num_joints", YInt 5);
    ("Dl_order", YInt 1);
    ("type_joints", YSeq [YStr "R_SEA"; YStr "R_SEA"; YStr "R_SEA"; YStr "R_SEA"; YStr "R_SEA"]);
    ("kinematics", YMap [("symb", yi [0; 0; 0; 0; 0; 0; 0; 0; 0; 0; 0; 0; 0; 0; 0; 0; 0; 0; 0; 0]%Z);
      ("DH", YSeq [YInt 0; YDbl h; dec 0.085; YDbl h; YInt 0; YDbl h; dec 0.0; YDbl h; YInt 0; YDbl (-h); dec 0.17; YDbl (-h); YInt 0; YDbl (-h); YInt 0; YInt 0; YInt 0; YDbl h; dec 0.14; YInt 0])]);
    ("gravity", YMap [("symb", yi [0; 0; 0]%Z); ("value", YSeq [YInt 0; YInt 0; dec (-9.81)])]);
    ("Base_to_L0", YMap [("symb", yi [1; 1; 1; 0; 0; 0]%Z); ("tr", yi [0; 0; 0]%Z);
      ("ypr", YSeq [dec 0.174532922; dec 0.0; dec (-0.1047197530)])]);
    ("Ln_to_EE", YMap [("symb", yi [1; 1; 1; 0; 0; 0]%Z); ("tr", YSeq [YInt 0; YInt 0; dec 0.1]);
      ("ypr", YSeq [YDbl (2 * h); YDbl h; YInt 0])]);
    ("dynamics", YMap [("link1", YMap [("inertial", YMap [("symb", yi [1; 1; 1; 1; 1; 1; 1; 1; 1; 1]%Z); ("mass", dec 0.5); ("CoM_x", dec 0.0); ("CoM_y", dec 0.0);
          ("CoM_z", dec (-0.085)); ("Ixx", dec 0.01); ("Ixy", dec 0.0); ("Ixz", dec 0.0); ("Iyy", dec 0.01);
          ("Iyz", dec 0.0); ("Izz", dec 0.01)]);
        ("friction", YMap [("symb", yi [1]%Z); ("Dl", YSeq [dec 0.1])])]);
      ("link2", part11);
      ("link3", YMap [("inertial", YMap [("symb", yi [1; 1; 1; 1; 1; 1; 1; 1; 1; 1]%Z); ("mass", dec 0.6); ("CoM_x", dec 0.0); ("CoM_y", dec 0.0);
          ("CoM_z", dec (-0.1)); ("Ixx", dec 0.01); ("Ixy", dec 0.0); ("Ixz", dec 0.0); ("Iyy", dec 0.01);
          ("Iyz", dec 0.0); ("Izz", dec 0.01)]);
        ("friction", YMap [("symb", yi [1]%Z); ("Dl", YSeq [dec 0.1])])]);
      ("link4", part11);
      ("link5", YMap [("inertial", YMap [("symb", yi [1; 1; 1; 1; 1; 1; 1; 1; 1; 1]%Z); ("mass", dec 1.0); ("CoM_x", dec 0.0); ("CoM_y", dec 0.0);
          ("CoM_z", dec 0.15); ("Ixx", dec 0.01); ("Ixy", dec 0.0); ("Ixz", dec 0.0); ("Iyy", dec 0.01);
          ("Iyz", dec 0.0); ("Izz", dec 0.01)]);
        ("friction", YMap [("symb", yi [1]%Z); ("Dl", YSeq [dec 0.1])])])]);
    ("elastic", YMap [("K_order", YInt 3);
      ("D_order", YInt 0);
      ("Dm_order", YInt 2);
      ("joints", YMap [("joint1", part12);
        ("joint2", part12);
        ("joint3", part12);
        ("joint4", part12);
        ("joint5", part12)])])].

(* src/thunder/robots/testRobots/R3.yaml:1-85 *)
Definition cfg_R3 (h : R) : ynode :=
  YMap [("version", dec 0.2);
    ("PI_2", YDbl h);
    ("PI_2_neg", YDbl (-h));
    ("num_joints", YInt 3);
    ("type_joints", YSeq [YStr "R"; YStr "R"; YStr "R"]);
    ("kinematics", YMap [("DH", YSeq [YInt 0; YInt 0; YInt 1; YInt 0; YInt 0; YDbl h; YInt 0; YInt 0; YInt 1; YInt 0; YInt 0; YInt 0])]);
    ("gravity", YMap [("symb", yi [0; 0; 0]%Z); ("value", YSeq [YInt 0; YInt 0; dec (-9.81)])]);
    ("Base_to_L0", YMap [("tr", yi [0; 0; 0]%Z); ("ypr", yi [0; 0; 0]%Z)]);
    ("Ln_to_EE", YMap [("tr", yi [1; 0; 0]%Z); ("ypr", YSeq [YInt 0; YInt 0; YDbl (-h)])]);
    ("dynamics", YMap [("link1", part13);
      ("link2", part13);
      ("link3", part13)])].

(* src/thunder/robots/testRobots/R5.yaml:1-114 *)
Definition cfg_R5 (h : R) : ynode :=
  YMap [("version", dec 0.2);
    ("PI_2", YDbl h);
    ("PI_2_neg", YDbl (-h));
    ("num_joints", YInt 5);
    ("type_joints", YSeq [YStr "R"; YStr "R"; YStr "R"; YStr "R"; YStr "R"]);
    ("kinematics", YMap [("DH", YSeq [YInt 0; YInt 0; YInt 1; YInt 0; YInt 0; YDbl h; YInt 0; YInt 0; YInt 0; YDbl (-h); YInt 0; YInt 0; YInt 0; YDbl h; YInt 2; YInt 0; YInt 1; YInt 0; YInt 0; YInt 0])]);
    ("gravity", YMap [("value", YSeq [YInt 0; YInt 0; dec (-9.81)])]);
    ("Base_to_L0", YMap [("tr", yi [0; 0; 0]%Z); ("ypr", yi [0; 0; 0]%Z)]);
    ("Ln_to_EE", YMap [("tr", yi [1; 0; 0]%Z); ("ypr", YSeq [YInt 0; YInt 0; YDbl (-h)])]);
    ("dynamics", YMap [("link1", part13);
      ("link2", part13);
      ("link3", part13);
      ("link4", part13);
      ("link5", part13)])].

(* src/thunder/robots/testRobots/R7.yaml:1-143 *)
Definition cfg_R7 (h : R) : ynode :=
  YMap [("version", dec 0.2);
    ("PI_2", YDbl h);
    ("PI_2_neg", YDbl (-h));
    ("num_joints", YInt 7);
    ("type_joints", YSeq [YStr "R"; YStr "R"; YStr "R"; YStr "R"; YStr "R"; YStr "R"; YStr "R"]);
    ("kinematics", YMap [("DH", YSeq [YInt 0; YInt 0; YInt 1; YInt 0; YInt 0; YDbl h; YInt 0; YInt 0; YInt 0; YDbl (-h); YInt 0; YInt 0; YInt 0; YDbl h; YInt 2; YInt 0; YInt 0; YDbl (-h); YInt 0; YInt 0; YInt 0; YDbl h; YInt 2; YInt 0; YInt 1; YInt 0; YInt 0; YInt 0])]);
    ("gravity", YMap [("value", YSeq [YInt 0; YInt 0; dec (-9.81)])]);
    ("Base_to_L0", YMap [("tr", yi [0; 0; 0]%Z); ("ypr", yi [0; 0; 0]%Z)]);
    ("Ln_to_EE", YMap [("tr", yi [1; 0; 0]%Z); ("ypr", YSeq [YInt 0; YInt 0; YDbl (-h)])]);
    ("dynamics", YMap [("link1", part13);
      ("link2", part13);
      ("link3", part13);
      ("link4", part13);
      ("link5", part13);
      ("link6", part13);
      ("link7", part13)])].

(* src/thunder/robots/testRobots/R9.yaml:1-173 *)
Definition cfg_R9 (h : R) : ynode :=
  YMap [("version", dec 0.2);
    ("PI_2", YDbl h);
    ("PI_2_neg", YDbl (-h));
    ("num_joints", YInt 9);
    ("type_joints", YSeq [YStr "R"; YStr "R"; YStr "R"; YStr "R"; YStr "R"; YStr "R"; YStr "R"; YStr "R"; YStr "R"]);
    ("kinematics", YMap [("DH", YSeq [YInt 0; YInt 0; YInt 1; YInt 0; YInt 0; YDbl h; YInt 0; YInt 0; YInt 0; YDbl (-h); YInt 0; YInt 0; YInt 0; YDbl h; YInt 2; YInt 0; YInt 0; YDbl (-h); YInt 0; YInt 0; YInt 0; YDbl h; YInt 2; YInt 0; YInt 0; YDbl (-h); YInt 0; YInt 0; YInt 0; YDbl h; YInt 2; YInt 0; YInt 1; YInt 0; YInt 0; YInt 0])]);
    ("gravity", YMap [("value", YSeq [YInt 0; YInt 0; dec (-9.81)])]);
    ("Base_to_L0", YMap [("tr", yi [0; 0; 0]%Z); ("ypr", yi [0; 0; 0]%Z)]);
    ("Ln_to_EE", YMap [("tr", yi [1; 0; 0]%Z); ("ypr", YSeq [YInt 0; YInt 0; YDbl (-h)])]);
    ("dynamics", YMap [("link1", part13);
      ("link2", part13);
      ("link3", part13);
      ("link4", part13);
      ("link5", part13);
      ("link6", part13);
      ("link7", part13);
      ("link8", part13);
      ("link9", part13)])].

(* src/thunder/robots/testRobots/R9_noDynSymb.yaml:1-173 *)
Definition cfg_R9_noDynSymb (h : R) : ynode :=
  YMap [("version", dec 0.2);
    ("PI_2", YDbl h);
    ("PI_2_neg", YDbl (-h));
    ("num_joints", YInt 9);
    ("type_joints", YSeq [YStr "R"; YStr "R"; YStr "R"; YStr "R"; YStr "R"; YStr "R"; YStr "R"; YStr "R"; YStr "R"]);
    ("kinematics", YMap [("DH", YSeq [YInt 0; YInt 0; YInt 1; YInt 0; YInt 0; YDbl h; YInt 0; YInt 0; YInt 0; YDbl (-h); YInt 0; YInt 0; YInt 0; YDbl h; YInt 2; YInt 0; YInt 0; YDbl (-h); YInt 0; YInt 0; YInt 0; YDbl h; YInt 2; YInt 0; YInt 0; YDbl (-h); YInt 0; YInt 0; YInt 0; YDbl h; YInt 2; YInt 0; YInt 1; YInt 0; YInt 0; YInt 0])]);
    ("gravity", YMap [("value", YSeq [YInt 0; YInt 0; dec (-9.81)])]);
    ("Base_to_L0", YMap [("tr", yi [0; 0; 0]%Z); ("ypr", yi [0; 0; 0]%Z)]);
    ("Ln_to_EE", YMap [("tr", yi [1; 0; 0]%Z); ("ypr", YSeq [YInt 0; YInt 0; YDbl (-h)])]);
    ("dynamics", YMap [("link1", part14);
      ("link2", part14);
      ("link3", part14);
      ("link4", part14);
      ("link5", part14);
      ("link6", part14);
      ("link7", part14);
      ("link8", part14);
      ("link9", part14)])].

(* src/thunder/robots/testRobots/R9_kinSymb.yaml:1-174 *)
Definition cfg_R9_kinSymb (h : R) : ynode :=
  YMap [("version", dec 0.2);
    ("PI_2", YDbl h);
    ("PI_2_neg", YDbl (-h));
    ("num_joints", YInt 9);
    ("type_joints", YSeq [YStr "R"; YStr "R"; YStr "R"; YStr "R"; YStr "R"; YStr "R"; YStr "R"; YStr "R"; YStr "R"]);
    ("kinematics", YMap [("symb", yi [1; 1; 1; 1; 1; 1; 1; 1; 1; 1; 1; 1; 1; 1; 1; 1; 1; 1; 1; 1; 1; 1; 1; 1; 1; 1; 1; 1; 1; 1; 1; 1; 1; 1; 1; 1]%Z);
      ("DH", YSeq [YInt 0; YInt 0; YInt 1; YInt 0; YInt 0; YDbl h; YInt 0; YInt 0; YInt 0; YDbl (-h); YInt 0; YInt 0; YInt 0; YDbl h; YInt 2; YInt 0; YInt 0; YDbl (-h); YInt 0; YInt 0; YInt 0; YDbl h; YInt 2; YInt 0; YInt 0; YDbl (-h); YInt 0; YInt 0; YInt 0; YDbl h; YInt 2; YInt 0; YInt 1; YInt 0; YInt 0; YInt 0])]);
    ("gravity", YMap [("value", YSeq [YInt 0; YInt 0; dec (-9.81)])]);
    ("Base_to_L0", YMap [("tr", yi [0; 0; 0]%Z); ("ypr", yi [0; 0; 0]%Z)]);
    ("Ln_to_EE", YMap [("tr", yi [1; 0; 0]%Z); ("ypr", YSeq [YInt 0; YInt 0; YDbl (-h)])]);
    ("dynamics", YMap [("link1", part13);
      ("link2", part13);
      ("link3", part13);
      ("link4", part13);
      ("link5", part13);
      ("link6", part13);
      ("link7", part13);
      ("link8", part13);
      ("link9", part13)])].

(* src/thunder/robots/testRobots/R15.yaml:1-234 *)
Definition cfg_R15 (h : R) : ynode :=
  YMap [("version", dec 0.1);
    ("PI_2", YDbl h);
    ("PI_2_neg", YDbl (-h));
    ("num_joints", YInt 15);
    ("type_joints", YSeq [YStr "R"; YStr "R"; YStr "R"; YStr "R"; YStr "R"; YStr "R"; YStr "R"; YStr "R"; YStr "R"; YStr "R"; YStr "R"; YStr "R"; YStr "R"; YStr "R"; YStr "R"]);
    ("DH", YSeq [YInt 0; YInt 0; YInt 1; YInt 0; YInt 0; YDbl h; YInt 0; YInt 0; YInt 0; YDbl (-h); YInt 0; YInt 0; YInt 0; YDbl h; YInt 2; YInt 0; YInt 0; YDbl (-h); YInt 0; YInt 0; YInt 0; YDbl h; YInt 2; YInt 0; YInt 0; YDbl (-h); YInt 0; YInt 0; YInt 0; YDbl h; YInt 2; YInt 0; YInt 0; YDbl (-h); YInt 0; YInt 0; YInt 0; YDbl h; YInt 2; YInt 0; YInt 0; YDbl (-h); YInt 0; YInt 0; YInt 0; YDbl h; YInt 2; YInt 0; YInt 0; YDbl (-h); YInt 0; YInt 0; YInt 0; YDbl h; YInt 2; YInt 0; YInt 1; YInt 0; YInt 0; YInt 0]);
    ("gravity", YSeq [YInt 0; YInt 0; dec (-9.81)]);
    ("Base_to_L0", YMap [("tr", yi [0; 0; 0]%Z); ("ypr", yi [0; 0; 0]%Z)]);
    ("Ln_to_EE", YMap [("tr", yi [1; 0; 0]%Z); ("ypr", YSeq [YInt 0; YInt 0; YDbl (-h)])]);
    ("inertial", YMap [("link1", part15);
      ("link2", part15);
      ("link3", part15);
      ("link4", part15);
      ("link5", part15);
      ("link6", part15);
      ("link7", part15);
      ("link8", part15);
      ("link9", part15);
      ("link10", part15);
      ("link11", part15);
      ("link12", part15);
      ("link13", part15);
      ("link14", part15);
      ("link15", part15)])].

(* src/thunder/robots/testRobots/R30.yaml:1-429 *)
Definition cfg_R30 (h : R) : ynode :=
  YMap [("version", dec 0.1);
    ("PI_2", YDbl h);
    ("PI_2_neg", YDbl (-h));
    ("num_joints", YInt 30);
    ("type_joints", YSeq [YStr "R"; YStr "R"; YStr "R"; YStr "R"; YStr "R"; YStr "R"; YStr "R"; YStr "R"; YStr "R"; YStr "R"; YStr "R"; YStr "R"; YStr "R"; YStr "R"; YStr "R"; YStr "R"; YStr "R"; YStr "R"; YStr "R"; YStr "R"; YStr "R"; YStr "R"; YStr "R"; YStr "R"; YStr "R"; YStr "R"; YStr "R"; YStr "R"; YStr "R"; YStr "R"]);
    ("DH", YSeq [YInt 0; YInt 0; YInt 1; YInt 0; YInt 0; YDbl h; YInt 0; YInt 0; YInt 0; YDbl (-h); YInt 0; YInt 0; YInt 0; YDbl h; YInt 2; YInt 0; YInt 0; YDbl (-h); YInt 0; YInt 0; YInt 0; YDbl h; YInt 2; YInt 0; YInt 0; YDbl (-h); YInt 0; YInt 0; YInt 0; YDbl h; YInt 2; YInt 0; YInt 0; YDbl (-h); YInt 0; YInt 0; YInt 0; YDbl h; YInt 2; YInt 0; YInt 0; YDbl (-h); YInt 0; YInt 0; YInt 0; YDbl h; YInt 2; YInt 0; YInt 0; YDbl (-h); YInt 0; YInt 0; YInt 0; YDbl h; YInt 2; YInt 0; YInt 0; YDbl (-h); YInt 0; YInt 0; YInt 0; YDbl h; YInt 2; YInt 0; YInt 0; YDbl (-h); YInt 0; YInt 0; YInt 0; YDbl h; YInt 2; YInt 0; YInt 0; YDbl (-h); YInt 0; YInt 0; YInt 0; YDbl h; YInt 2; YInt 0; YInt 0; YDbl (-h); YInt 0; YInt 0; YInt 0; YDbl h; YInt 2; YInt 0; YInt 0; YDbl (-h); YInt 0; YInt 0; YInt 0; YDbl h; YInt 2; YInt 0; YInt 0; YDbl (-h); YInt 0; YInt 0; YInt 0; YDbl h; YInt 2; YInt 0; YInt 0; YDbl (-h); YInt 0; YInt 0; YInt 0; YDbl h; YInt 2; YInt 0; YInt 1; YInt 0; YInt 0; YInt 0; YInt 1; YInt 0; YInt 0; YInt 0]);
    ("gravity", YSeq [YInt 0; YInt 0; dec (-9.81)]);
    ("Base_to_L0", YMap [("tr", yi [0; 0; 0]%Z); ("ypr", yi [0; 0; 0]%Z)]);
    ("Ln_to_EE", YMap [("tr", yi [1; 0; 0]%Z); ("ypr", YSeq [YInt 0; YInt 0; YDbl (-h)])]);
    ("inertial", YMap [("link1", part15);
      ("link2", part15);
      ("link3", part15);
      ("link4", part15);
      ("link5", part15);
      ("link6", part15);
      ("link7", part15);
      ("link8", part15);
      ("link9", part15);
      ("link10", part15);
      ("link11", part15);
      ("link12", part15);
      ("link13", part15);
      ("link14", part15);
      ("link15", part15);
      ("link16", part15);
      ("link17", part15);
      ("link18", part15);
      ("link19", part15);
      ("link20", part15);
      ("link21", part15);
      ("link22", part15);
      ("link23", part15);
      ("link24", part15);
      ("link25", part15);
      ("link26", part15);
      ("link27", part15);
      ("link28", part15);
      ("link29", part15);
      ("link30", part15)])].

(* the name of each file, without its extension, and its contents *)
Definition shipped (h : R) : list (string * ynode) :=
  [("RRR", cfg_RRR h);
   ("seaRRR", cfg_seaRRR h);
   ("franka", cfg_franka h);
   ("frankaWrist", cfg_frankaWrist h);
   ("lewis", cfg_lewis h);
   ("richard", cfg_richard h);
   ("egoRightArm", cfg_egoRightArm h);
   ("R3", cfg_R3 h);
   ("R5", cfg_R5 h);
   ("R7", cfg_R7 h);
   ("R9", cfg_R9 h);
   ("R9_noDynSymb", cfg_R9_noDynSymb h);
   ("R9_kinSymb", cfg_R9_kinSymb h);
   ("R15", cfg_R15 h);
   ("R30", cfg_R30 h)].
(* the two files in the format of version 0.1 *)
Definition outdated : list string := ["R15"; "R30"].
(* the robots that exist, as opposed to examples *)
Definition arms : list string := ["franka"; "frankaWrist"; "lewis"; "richard"; "egoRightArm"].
(* the files in which no inertial parameter is declared symbolic *)
Definition numeric_inertia : list string := ["seaRRR"; "frankaWrist"; "R9_noDynSymb"].
