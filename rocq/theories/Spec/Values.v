(* The numbers and flags a configuration file gives, as a reader of the file sees them. *)
From Coq Require Import Reals List String Arith ZArith Bool.
From Verif.Model Require Import Base Robot Yaml.
From Verif.Spec Require Import Config.
Import ListNotations.
Open Scope nat_scope.
Open Scope string_scope.

(* a scalar node that reads as the number x; a sequence node that reads as the numbers v, or as the flags v *)
Inductive reads_as : ynode -> R -> Prop :=
| reads_int z : reads_as (YInt z) (IZR z)
| reads_dbl x : reads_as (YDbl x) x.
Definition lists (n : ynode) (v : list R) : Prop := exists l, n = YSeq l /\ Forall2 reads_as l v.
Definition flag_list (n : ynode) (v : list Z) : Prop := n = YSeq (map YInt v).

Definition link_keys : list string :=
  ["mass"; "CoM_x"; "CoM_y"; "CoM_z"; "Ixx"; "Ixy"; "Ixz"; "Iyy"; "Iyz"; "Izz"].

(* a link whose numbers can all be read, an elastic joint whose numbers can all be read *)
Definition readable_link (nd : ynode) : Prop :=
  (forall k, In k link_keys -> exists m x, entry2 nd "inertial" k = Some m /\ reads_as m x) /\
  (entry nd "friction" = None \/ exists n v, entry2 nd "friction" "Dl" = Some n /\ lists n v).
Definition readable_joint (r : robot) (nd : ynode) : Prop :=
  (forall key order, In (key, order) [("K", K_order r); ("D", D_order r); ("Dm", Dm_order r)] -> 0 < order ->
     exists n v, entry nd key = Some n /\ lists n v) /\
  exists m x, entry nd "Mm" = Some m /\ reads_as m x.
(* the first c entries of a list of children *)
Definition first_ones (P : ynode -> Prop) (c : nat) (l : list (string * ynode)) : Prop :=
  forall i k nd, i < c -> nth_error l i = Some (k, nd) -> P nd.

(* A "symb" entry selects elements; without one nothing is selected. *)
Definition selects (sec : ynode) (key : string) (len : nat) (fl : list Z) : Prop :=
  match entry sec key with
  | Some n => if ydef n then flag_list n fl else fl = repeat 0%Z len
  | None => fl = repeat 0%Z len
  end.

(* The robot holds what the file says. The sections are looked up by name; links and elastic joints are numbered in
   the order of the file. *)
Record as_written (cfg : ynode) (r : robot) : Prop := {
  aw_DH : exists n, entry2 cfg "kinematics" "DH" = Some n /\ lists n (arg r "par_DHtable");
  aw_frames : forall sec par, In (sec, par) [("Base_to_L0", "par_world2L0"); ("Ln_to_EE", "par_Ln2EE")] ->
    exists n t m y, entry2 cfg sec "tr" = Some n /\ lists n t /\ entry2 cfg sec "ypr" = Some m /\ lists m y /\
    3 <= List.length t /\ 3 <= List.length y /\ arg r par = (firstn 3 t ++ firstn 3 y)%list;
  aw_gravity : forall g, entry cfg "gravity" = Some g -> ydef g = true ->
    exists n v, entry g "value" = Some n /\ lists n v /\ 3 <= List.length v /\ arg r "par_gravity" = firstn 3 v;
  aw_flags : forall sec par s, In (sec, par) [("kinematics", "par_DHtable"); ("Base_to_L0", "par_world2L0");
      ("Ln_to_EE", "par_Ln2EE"); ("gravity", "par_gravity")] -> entry cfg sec = Some s -> ydef s = true ->
    selects s "symb" (List.length (arg r par)) (flags r par);
  (* the i-th link: flags, numbers and friction coefficients *)
  aw_link_flags : forall dyn i k nd, entry cfg "dynamics" = Some dyn -> nth_error (ychildren dyn) i = Some (k, nd) ->
    exists sub fl, entry nd "inertial" = Some sub /\ selects sub "symb" 10 fl /\
    forall j z, j < 10 -> nth_error fl j = Some z -> nth_error (flags r "par_DYN") (10 * i + j) = Some z;
  aw_friction_flags : forall dyn i k nd, 0 < Dl_order r -> entry cfg "dynamics" = Some dyn ->
    nth_error (ychildren dyn) i = Some (k, nd) ->
    exists sub fl, entry nd "friction" = Some sub /\ selects sub "symb" (Dl_order r) fl /\
    forall j z, j < Dl_order r -> nth_error fl j = Some z -> nth_error (flags r "par_Dl") (Dl_order r * i + j) = Some z;
  aw_link : forall dyn i k nd, entry cfg "dynamics" = Some dyn -> i < numJoints r ->
    nth_error (ychildren dyn) i = Some (k, nd) -> first_ones readable_link (S i) (ychildren dyn) ->
    forall j key, nth_error link_keys j = Some key -> exists m x, entry2 nd "inertial" key = Some m /\ reads_as m x /\
      nth_error (arg r "par_DYN") (10 * i + j) = Some x;
  aw_friction : forall dyn i k nd n v, 0 < Dl_order r -> entry cfg "dynamics" = Some dyn -> i < numJoints r ->
    nth_error (ychildren dyn) i = Some (k, nd) -> first_ones readable_link (S i) (ychildren dyn) ->
    entry2 nd "friction" "Dl" = Some n -> lists n v ->
    forall j, j < Dl_order r -> exists x, nth_error v j = Some x /\ nth_error (arg r "par_Dl") (Dl_order r * i + j) = Some x;
  (* the i-th elastic joint *)
  aw_joint_flags : forall js i k nd, ELASTIC r = true -> entry2 cfg "elastic" "joints" = Some js -> i < numElasticJoints r ->
    nth_error (ychildren js) i = Some (k, nd) ->
    (forall key par order, In (key, par, order) [("K_symb", "par_K", K_order r); ("D_symb", "par_D", D_order r);
       ("Dm_symb", "par_Dm", Dm_order r)] -> exists fl, selects nd key order fl /\
       forall j, j < order -> nth_error (flags r par) (order * i + j) = Some (nth j fl 0%Z)) /\
    exists z, nth_error (flags r "par_Mm") i = Some z /\
      match entry nd "Mm_symb" with Some n => if ydef n then n = YInt z else z = 0%Z | None => z = 0%Z end;
  aw_joint : forall dyn js i k nd, ELASTIC r = true -> entry cfg "dynamics" = Some dyn ->
    first_ones readable_link (numJoints r) (ychildren dyn) ->
    entry2 cfg "elastic" "joints" = Some js -> i < numElasticJoints r ->
    nth_error (ychildren js) i = Some (k, nd) -> first_ones (readable_joint r) (S i) (ychildren js) ->
    (forall key par order n v, In (key, par, order) [("K", "par_K", K_order r); ("D", "par_D", D_order r);
       ("Dm", "par_Dm", Dm_order r)] -> entry nd key = Some n -> lists n v ->
       forall j, j < order -> exists x, nth_error v j = Some x /\ nth_error (arg r par) (order * i + j) = Some x) /\
    exists m x, entry nd "Mm" = Some m /\ reads_as m x /\ nth_error (arg r "par_Mm") i = Some x;
  (* joints for which the file has no link: zeros *)
  aw_missing : forall dyn p, entry cfg "dynamics" = Some dyn -> List.length (ychildren dyn) * 10 <= p ->
    p < 10 * numJoints r -> nth_error (arg r "par_DYN") p = Some 0%R
}.
