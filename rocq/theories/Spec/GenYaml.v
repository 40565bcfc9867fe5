(* Inertial parameter files, as a reader of the file sees them, and the bodies they describe. *)
From Coq Require Import Reals String List Bool Arith ZArith.
From Verif.Model Require Import Base Yaml Bodies.
From Verif.Spec Require Import Math Config Values State Bodies.
Import ListNotations.
Open Scope nat_scope.
Open Scope string_scope.

Definition reg_link_keys : list string :=
  ["mass"; "m_CoM_x"; "m_CoM_y"; "m_CoM_z"; "Ixx"; "Ixy"; "Ixz"; "Iyy"; "Iyz"; "Izz"].
(* the node gives these numbers under these keys *)
Definition gives (keys : list string) (nd : ynode) (v : list R) : Prop :=
  Forall2 (fun k x => exists m, entry nd k = Some m /\ reads_as m x) keys v.
(* link number i of a parameter file: its name and its ten numbers *)
Definition links_in (file : ynode) : list (string * ynode) :=
  match entry file "dynamics" with Some dyn => ychildren dyn | None => [] end.
Definition link_says (keys : list string) (file : ynode) (i : nat) (name : string) (v : list R) : Prop :=
  exists nd inertial, nth_error (links_in file) i = Some (name, nd) /\ entry nd "inertial" = Some inertial /\ gives keys inertial v.
(* ten numbers per link as functions of the index *)
Definition ten (v : list R) : nat -> R := fun c => nth c v 0%R.

(* every link has a name of its own and ten numbers that can be read *)
Definition readable_file (cfg : ynode) : Prop :=
  NoDup (map fst (links_in cfg)) /\
  forall k nd, In (k, nd) (links_in cfg) -> exists inertial v, entry nd "inertial" = Some inertial /\ gives link_keys inertial v.
(* no link friction *)
Definition no_friction (cfg : ynode) : Prop := entry cfg "Dl_order" = None \/ entry cfg "Dl_order" = Some (YInt 0).

(* a body as ten numbers: mass, centre of mass, inertia about the centre of mass *)
Definition body_numbers (b : body) (v : list R) : Prop :=
  List.length v = 10 /\ nth 0 v 0%R = b_mass b /\ (forall a, a < 3 -> nth (1 + a) v 0%R = com b a) /\
  (forall i j, i < 3 -> j < 3 -> tensor (ten v) i j = inertia b i j).

(* An entry of the URDF file inertial.yaml. scan reads the three numbers of a text such as "0 0 0.1". *)
Definition urdf_entry (scan : string -> list R) (nd : ynode) (b : body) : Prop :=
  (exists m, entry nd "mass" = Some m /\ reads_as m (b_mass b)) /\
  (exists I, entry nd "inertia" = Some I /\ List.length (b_I b) = 6 /\ gives ["xx"; "xy"; "xz"; "yy"; "yz"; "zz"] I (b_I b)) /\
  (exists s, entry2 nd "origin" "xyz" = Some (YStr s) /\ b_xyz b = scan s) /\
  (exists s, entry2 nd "origin" "rpy" = Some (YStr s) /\ b_rpy b = scan s).
(* From the URDF frame of link i+1 of the Franka arm to its Denavit-Hartenberg frame: rotation about x, about z,
   displacement. With the gripper the last two rows are link 7 and the hand. *)
Definition dh_frames (gripper : bool) : list (R * R * (R * R * R)) :=
  ([(PI / 2, 0, (0, 0, 0)); (- (PI / 2), 0, (0, 0, 0)); (- (PI / 2), 0, (-0.0825, 0, 0)); (PI / 2, 0, (0.0825, 0, 0));
    (- (PI / 2), 0, (0, 0, 0)); (- (PI / 2), 0, (-0.088, 0, 0))] ++
   (if gripper then [(0, PI / 4, (0, 0, -0.107 - 0.1034)); (0, 0, (0, 0, 0))] else [(0, 0, (0, 0, -0.107))]))%R%list.
(* body t is body b seen from the new frame *)
Definition seen_from (f : R * R * (R * R * R)) (b t : body) : Prop :=
  let '(roll, yaw, (x, y, z)) := f in
  let A := rmul 4 (hrotz yaw) (hrotx roll) in
  let B := rmul 3 A (ypr_rotation (nth 2 (b_rpy b) 0) (nth 1 (b_rpy b) 0) (nth 0 (b_rpy b) 0))%R in
  b_mass t = b_mass b /\
  (forall a, a < 3 -> com t a = moved A (fun a => nth a [x; y; z] 0%R) (com b) a) /\
  (forall i j, i < 3 -> j < 3 -> inertia t i j = conjugate B (inertia b) i j).
(* the orientation of the link frame is one for which the code's rotation matrix is right (C40) *)
Definition plain_rpy (b : body) : Prop := (sin (nth 2 (b_rpy b) 0) * sin (nth 0 (b_rpy b) 0))%R = 0%R.
(* the files for the regressor, with the size of the perturbation in percent *)
Definition reg_files : list (string * nat) :=
  [("inertial_DH_REG.yaml", 0); ("inertial_DH_REG_p2.yaml", 2); ("inertial_DH_REG_p5.yaml", 5);
   ("inertial_DH_REG_p10.yaml", 10); ("inertial_DH_REG_p20.yaml", 20)].
