(* Configuration files, as a reader of the file sees them. *)
From Coq Require Import Reals List String ZArith Bool.
From Verif.Model Require Import Base Robot Yaml.
Import ListNotations.
Open Scope string_scope.

(* the entry stored under a key; nested entries *)
Definition entry (n : ynode) (k : string) : option ynode := match n with YMap l => mfind k l | _ => None end.
Definition entry2 (n : ynode) (k1 k2 : string) : option ynode :=
  match entry n k1 with Some m => entry m k2 | None => None end.
(* number of elements of a sequence node *)
Definition items (n : ynode) : nat := match n with YSeq l => List.length l | _ => 0 end.

Definition elastic_type (t : string) : bool := String.eqb t "R_SEA" || String.eqb t "P_SEA".

(* Files on which the parser stays inside its buffers: not more links than joints, not more flags per link than
   the link has parameters, a type for every joint, three numbers per translation, rotation and gravity vector. *)
Record fits (cfg : ynode) : Prop := {
  ft_types : forall z tj, entry cfg "num_joints" = Some (YInt z) -> entry cfg "type_joints" = Some tj ->
    (z <= Z.of_nat (items tj))%Z;
  ft_links : forall z d, entry cfg "num_joints" = Some (YInt z) -> entry cfg "dynamics" = Some d ->
    (Z.of_nat (List.length (ychildren d)) <= z)%Z;
  ft_inertial : forall d k link s, entry cfg "dynamics" = Some d -> In (k, link) (ychildren d) ->
    entry2 link "inertial" "symb" = Some s -> items s <= 10;
  ft_friction : forall z d k link s, entry cfg "Dl_order" = Some (YInt z) -> entry cfg "dynamics" = Some d ->
    In (k, link) (ychildren d) -> entry2 link "friction" "symb" = Some s -> (Z.of_nat (items s) <= z)%Z;
  ft_vectors : forall sec key v, In (sec, key) [("Base_to_L0", "tr"); ("Base_to_L0", "ypr"); ("Ln_to_EE", "tr");
      ("Ln_to_EE", "ypr"); ("gravity", "value")] -> entry2 cfg sec key = Some v -> 3 <= items v
}.
(* Files whose lists of coefficients are as long as the declared orders *)
Record fills (r : robot) (cfg : ynode) : Prop := {
  fl_friction : forall d k link v, entry cfg "dynamics" = Some d -> In (k, link) (ychildren d) ->
    entry2 link "friction" "Dl" = Some v -> Dl_order r <= items v;
  fl_elastic : forall js k joint key v, entry2 cfg "elastic" "joints" = Some js -> In (k, joint) (ychildren js) ->
    In key [("K", K_order r); ("D", D_order r); ("Dm", Dm_order r)] -> entry joint (fst key) = Some v -> snd key <= items v
}.

(* What a successful parse reports *)
Record reports (cfg : ynode) (r : robot) : Prop := {
  rp_joints : entry cfg "num_joints" = Some (YInt (Z.of_nat (numJoints r)));
  rp_types : exists l, entry cfg "type_joints" = Some (YSeq l) /\ List.length l = numJoints r /\
    List.length (jointsType r) = numJoints r /\
    forall i t, nth_error l i = Some (YStr t) -> nth_error (jointsType r) i = Some t;
  rp_elastic : numElasticJoints r = List.length (filter elastic_type (jointsType r)) /\
    isElasticJoint r = map (fun t => if elastic_type t then 1%Z else 0%Z) (jointsType r);
  (* entries of another kind make the parser fail; undefined nodes count as absent *)
  rp_Dl : match entry cfg "Dl_order" with None => Dl_order r = 0 | Some (YInt z) => z = Z.of_nat (Dl_order r) | Some n => ydef n = false end;
  rp_ELASTIC : match entry cfg "ELASTIC_MODEL" with None => ELASTIC r = false | Some (YBool b) => b = ELASTIC r | Some n => ydef n = false end;
  rp_orders : if ELASTIC r then entry2 cfg "elastic" "K_order" = Some (YInt (Z.of_nat (K_order r))) /\
      entry2 cfg "elastic" "D_order" = Some (YInt (Z.of_nat (D_order r))) /\
      entry2 cfg "elastic" "Dm_order" = Some (YInt (Z.of_nat (Dm_order r)))
    else K_order r = 0 /\ D_order r = 0 /\ Dm_order r = 0;
  rp_gravity : entry cfg "gravity" = None -> arg r "par_gravity" = [0; 0; 0]%R;
  rp_flags : forall sec key, In (sec, key) [("kinematics", "par_DHtable"); ("Base_to_L0", "par_world2L0");
      ("Ln_to_EE", "par_Ln2EE"); ("gravity", "par_gravity")] -> entry2 cfg sec "symb" = None ->
    forall z, In z (flags r key) -> z = 0%Z
}.
