(* When two configuration files say the same: the same entries under the names that the library knows, in any
   order and among any other entries. *)
From Coq Require Import List String.
From Verif.Model Require Import Base Yaml.
Import ListNotations.
Open Scope string_scope.

(* every name under which the library looks for an entry *)
Definition vocabulary : list string :=
  ["num_joints"; "type_joints"; "Dl_order"; "ELASTIC_MODEL"; "elastic"; "kinematics"; "gravity"; "Base_to_L0"; "Ln_to_EE"; "dynamics";
   "K_order"; "D_order"; "Dm_order"; "joints"; "DH"; "symb"; "value"; "tr"; "ypr"; "inertial"; "friction"; "Dl";
   "K_symb"; "D_symb"; "Dm_symb"; "Mm_symb"; "K"; "D"; "Dm"; "Mm";
   "mass"; "CoM_x"; "CoM_y"; "CoM_z"; "Ixx"; "Ixy"; "Ixz"; "Iyy"; "Iyz"; "Izz"].

(* neither has the entry, or both have it and the two are related *)
Inductive both (R : ynode -> ynode -> Prop) : option ynode -> option ynode -> Prop :=
| neither : both R None None
| both_have a b : R a b -> both R (Some a) (Some b).
(* equal, or maps that hold the same under every known name, at every depth *)
Inductive same : ynode -> ynode -> Prop :=
| same_node n : same n n
| same_map l1 l2 : (forall k, In k vocabulary -> both same (mfind k l1) (mfind k l2)) -> same (YMap l1) (YMap l2).

(* lists of links or of elastic joints: one after the other the same, whatever they are called *)
Definition listed (a b : ynode) : Prop := exists l1 l2, a = YMap l1 /\ b = YMap l2 /\
  Forall2 (fun x y => same (snd x) (snd y)) l1 l2.
Definition same_elastic (a b : ynode) : Prop := exists l1 l2, a = YMap l1 /\ b = YMap l2 /\
  forall k, In k vocabulary -> both (if String.eqb k "joints" then listed else same) (mfind k l1) (mfind k l2).
(* the same file, with links and elastic joints in the same order *)
Definition same_file (a b : ynode) : Prop := exists l1 l2, a = YMap l1 /\ b = YMap l2 /\
  forall k, In k vocabulary ->
    both (if String.eqb k "dynamics" then listed else if String.eqb k "elastic" then same_elastic else same) (mfind k l1) (mfind k l2).
