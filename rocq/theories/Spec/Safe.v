(* Files that can be loaded into an object of the generated class without making its parameter vectors too short. *)
From Coq Require Import Reals String List Arith.
From Verif.Model Require Import Base Robot Yaml Template.
From Verif.Spec Require Import Config Template.
Import ListNotations.
Open Scope nat_scope.
Open Scope string_scope.

Definition kin_sections : list string := ["kinematics"; "Base_to_L0"; "Ln_to_EE"; "gravity"].
(* A file for an n-joint robot that selects the same symbolic parameters as cfg: each of the four kinematic sections is
   absent or has the "symb" entry it has in cfg, and a DH table has four numbers per joint. *)
Definition same_selection (n : nat) (cfg file : ynode) : Prop :=
  (forall sec, In sec kin_sections -> entry file sec = None \/ entry2 file sec "symb" = entry2 cfg sec "symb") /\
  (forall dh v, entry2 file "kinematics" "DH" = Some dh -> as_vector as_double dh = Some v -> List.length v = 4 * n).
(* calls that load only such files *)
Definition matching (n : nat) (cfg : ynode) (c : tcall) : Prop :=
  known c /\ match c with CLoadConf (Some file) _ => same_selection n cfg file | _ => True end.
(* the kinematic table of a robot, as a file without flags *)
Definition plain_table (v : list R) : ynode := YMap [("kinematics", YMap [("DH", YSeq (map YDbl v))])].
