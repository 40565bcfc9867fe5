(* A configuration file that gives every parameter of the robot it describes. *)
From Coq Require Import Reals List String.
From Verif.Model Require Import Base Robot Yaml Build.
From Verif.Spec Require Import Config Template Sample.
Import ListNotations.
Open Scope string_scope.

(* the section "dynamics" has an entry for every link *)
Definition links_given (n : nat) (cfg : ynode) : Prop :=
  exists links, entry cfg "dynamics" = Some (YMap links) /\ n <= List.length links.
(* the section "elastic" describes every elastic joint *)
Definition vector_at (nd : ynode) (k : string) : Prop := exists v l, entry nd k = Some v /\ as_vector as_double v = Some l.
Definition elastic_given (e : nat) (cfg : ynode) : Prop :=
  exists joints, entry2 cfg "elastic" "joints" = Some (YMap joints) /\ e <= List.length joints /\
  forall k nd, In (k, nd) (firstn e joints) -> vector_at nd "K" /\ vector_at nd "D" /\ vector_at nd "Dm" /\ number_at nd "Mm".

(* the sample robot, whose third link is not described *)
Definition two_links_cfg (h : R) : ynode :=
  match resymb 1 (toy_cfg h) with
  | YMap l => YMap (map (fun kv => if String.eqb (fst kv) "dynamics"
                                   then ("dynamics", YMap [("link1", resymb 1 (toy_link 1)); ("link2", resymb 1 (toy_link 2))]) else kv) l)
  | n => n
  end.
Definition two_links0 (h : R) : robot := match robot_from_file "toy" (two_links_cfg h) false with Ok r => r | _ => no_robot end.
(* every kinematic section says which of its elements are symbolic *)
Definition flags_given (cfg : ynode) : Prop :=
  (forall sec, In sec ["kinematics"; "Base_to_L0"; "Ln_to_EE"] -> exists v, entry2 cfg sec "symb" = Some (YSeq v)) /\
  (entry cfg "gravity" = None \/ exists v, entry2 cfg "gravity" "symb" = Some (YSeq v)).
(* the sample robot, whose kinematic section does not say which elements are symbolic, and a file for another robot *)
Definition silent_cfg (h : R) : ynode :=
  match toy_cfg h with
  | YMap l => YMap (map (fun kv => if String.eqb (fst kv) "kinematics"
                                   then ("kinematics", YMap [("DH", ys [1; h; 0; 0;  0; 0; 1; h;  1; 0; 0; 0]%R)]) else kv) l)
  | n => n
  end.
Definition silent0 (h : R) : robot := match robot_from_file "toy" (silent_cfg h) false with Ok r => r | _ => no_robot end.
Definition other_cfg : ynode := YMap [("kinematics", YMap [("symb", yi [1; 1; 1; 1]%Z); ("DH", ys [0; 0; 0; 0]%R)])].
