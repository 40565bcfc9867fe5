(* What the theorems range over: a configuration that has been loaded, the robot object built from it,
   and any later contents of its argument vectors. *)
From Coq Require Import Reals List String Ascii Arith ZArith.
From Verif.Model Require Import Base Robot Yaml Build.
Import ListNotations.
Open Scope string_scope.

(* names and lengths of the vectors a robot works with *)
Definition state_sizes (r : robot) : list (string * nat) :=
  let n := numJoints r in let e := numElasticJoints r in
  ([("q", n); ("dq", n); ("ddq", n); ("d3q", n); ("d4q", n); ("dqr", n); ("ddqr", n); ("w", 6)]
   ++ (if ELASTIC r then [("x", e); ("dx", e); ("ddx", e); ("ddxr", e)] else []))%list.
Definition par_sizes (r : robot) : list (string * nat) :=
  let n := numJoints r in let e := numElasticJoints r in
  ([("par_DHtable", 4 * n); ("par_world2L0", 6); ("par_Ln2EE", 6); ("par_gravity", 3); ("par_DYN", 10 * n)]
   ++ (if Nat.ltb 0 (Dl_order r) then [("par_Dl", n * Dl_order r)] else [])
   ++ (if ELASTIC r then [("par_K", e * K_order r); ("par_D", e * D_order r);
                          ("par_Dm", e * Dm_order r); ("par_Mm", e)] else []))%list.

(* A name that can start the name of a generated function: letters, digits and single underscores, beginning with a
   letter and not ending with an underscore. *)
Definition letter (a : ascii) : Prop := (65 <= nat_of_ascii a <= 90 \/ 97 <= nat_of_ascii a <= 122)%nat.
Definition digit (a : ascii) : Prop := (48 <= nat_of_ascii a <= 57)%nat.
Record identifier (s : string) : Prop := {
  id_first : exists a, String.get 0 s = Some a /\ letter a;
  id_chars : forall i a, String.get i s = Some a -> letter a \/ digit a \/ a = "_"%char;
  id_under : forall i, String.get i s = Some "_"%char -> exists a, String.get (S i) s = Some a /\ a <> "_"%char
}.

(* A consistent configuration: a robot name that is an identifier, at least one joint, joint types the library knows,
   and parameter vectors and selection flags of the length the robot's dimensions call for. *)
Record well_formed (r0 : robot) : Prop := {
  wf_name : identifier (robotName r0);
  wf_joints : (1 <= numJoints r0)%nat;
  wf_types : forall t, In t (jointsType r0) -> In t ["R"; "P"; "R_SEA"; "P_SEA"];
  wf_sizes : forall k len, In (k, len) (par_sizes r0) ->
               List.length (flags r0 k) = len /\ List.length (arg r0 k) = len
}.

(* Values of the parameters in force: an element selected as symbolic takes the next value of the current
   (compacted) argument vector, any other element keeps its value from the configuration. *)
Fixpoint merge (fl : list Z) (cfg cur : list R) : list R :=
  match fl, cfg with
  | z :: fl', v :: cfg' =>
      if flag_set z then match cur with x :: cur' => x :: merge fl' cfg' cur' | [] => [] end
      else v :: merge fl' cfg' cur
  | _, _ => []
  end.
Definition selected (fl : list Z) : nat := List.length (filter flag_set fl).

(* r0: robot as loaded from the configuration, before any symbolic computation;
   r: the robot returned by robot_from_file;
   r': the same robot with any argument vectors of the right lengths. *)
Record session (name : string) (cfg : ynode) (r0 r r' : robot) : Prop := {
  se_load : robot_from_file name cfg false = Ok r0;
  se_wf : well_formed r0;
  se_build : robot_from_file name cfg true = Ok r;
  se_args : r' = with_args r (args r');
  se_state : forall k len, In (k, len) (state_sizes r0) -> List.length (arg r' k) = len;
  se_par : forall k len, In (k, len) (par_sizes r0) -> List.length (arg r' k) = selected (flags r0 k)
}.

(* element i of a state vector, of a parameter vector *)
Definition state (r' : robot) (k : string) (i : nat) : R := nth i (arg r' k) 0%R.
Definition param (r0 r' : robot) (k : string) (i : nat) : R :=
  nth i (merge (flags r0 k) (arg r0 k) (arg r' k)) 0%R.
