(* Rigid bodies and roll-pitch-yaw matrices.
   Models src/thunder/src/utils.cpp:12-104, 449-462 and src/thunder/src/FrameOffset.cpp. *)
From Coq Require Import Reals String List Arith.
From Verif.Model Require Import Base Inertia.
Import ListNotations.
Open Scope R_scope.

(* LinkProp, library/utils.h:14-21. parI, xyz and rpy have lengths 6, 3 and 3 unless a caller replaces them by
   vectors of another length, which is not modelled: elements are read with p_at. *)
Record body := mkBody { b_name : string; b_mass : R; b_I : list R; b_xyz : list R; b_rpy : list R; b_Dl : list R }.

(* Eigen::Matrix3d, Vector3d *)
Definition m3 := nat -> nat -> R.
Definition m3mul (A B : m3) : m3 := fun i j => sum3 (fun k => A i k * B k j).
Definition m3tr (A : m3) : m3 := fun i j => A j i.
Definition m3add (A B : m3) : m3 := fun i j => A i j + B i j.
Definition m3sc (c : R) (A : m3) : m3 := fun i j => c * A i j.
Definition m3v (A : m3) (v : list R) : list R :=
  map (fun i => sum3 (fun k => A i k * p_at v k)) [0; 1; 2]%nat.
Definition v3add (u v : list R) : list R := map (fun i => p_at u i + p_at v i) [0; 1; 2]%nat.
Definition v3sub (u v : list R) : list R := map (fun i => p_at u i - p_at v i) [0; 1; 2]%nat.
Definition v3sc (c : R) (v : list R) : list R := map (fun i => c * p_at v i) [0; 1; 2]%nat.
Definition v3div (v : list R) (c : R) : list R := map (fun i => p_at v i / c) [0; 1; 2]%nat.
Definition hat (v : list R) : m3 := hatR (p_at v 0) (p_at v 1) (p_at v 2).        (* 449-462 *)

(* the matrix written out in rpyRot (utils.cpp:78-86), in thunder_robot.cpp:801-809 and in
   FrameOffset::get_rotation (FrameOffset.cpp:55-63) *)
Definition ypr_entries (cy sy cp sp cr sr : R) : m3 := fun i j =>
  match i, j with
  | 0%nat, 0%nat => cy * cp
  | 0%nat, 1%nat => cy * sp * sr - sy * cr
  | 0%nat, 2%nat => cy * sp * cr - sy * sr
  | 1%nat, 0%nat => sy * cp
  | 1%nat, 1%nat => sy * sp * sr + cy * cr
  | 1%nat, 2%nat => sy * sp * cr - cy * sr
  | 2%nat, 0%nat => - sp
  | 2%nat, 1%nat => cp * sr
  | 2%nat, 2%nat => cp * cr
  | _, _ => 0
  end.
(* rpyRot, utils.cpp:67-89; thunder_robot.cpp:790-812 is the same function *)
Definition rpyRot (rpy : list R) : m3 :=
  ypr_entries (cos (p_at rpy 2)) (sin (p_at rpy 2)) (cos (p_at rpy 1)) (sin (p_at rpy 1)) (cos (p_at rpy 0)) (sin (p_at rpy 0)).
(* FrameOffset: the constructors throw unless every vector has three elements (FrameOffset.cpp:12-42);
   gravity is 0 when not given *)
Record frame := mkFrame { f_ypr : list R; f_tr : list R; f_g : list R }.
Definition new_frame (ypr tr g : list R) : res frame :=
  if (Nat.eqb (List.length ypr) 3 && Nat.eqb (List.length tr) 3 && Nat.eqb (List.length g) 3)%bool
  then Ok (mkFrame ypr tr g) else Throw "in costructor FrameOffset: invalid dimension of arguments".
Definition new_frame2 (ypr tr : list R) : res frame :=
  if (Nat.eqb (List.length ypr) 3 && Nat.eqb (List.length tr) 3)%bool
  then Ok (mkFrame ypr tr [0; 0; 0]) else Throw "in costructor FrameOffset: invalid dimension of arguments".
(* get_rotation, FrameOffset.cpp:45-67: ypr = [yaw, pitch, roll] *)
Definition get_rotation (f : frame) : m3 :=
  let a := f_ypr f in
  ypr_entries (cos (p_at a 0)) (sin (p_at a 0)) (cos (p_at a 1)) (sin (p_at a 1)) (cos (p_at a 2)) (sin (p_at a 2)).
(* get_transform, FrameOffset.cpp:80-109: the rotation block is written again, then the translation into an
   identity matrix *)
Definition get_transform (f : frame) : nat -> nat -> R := fun i j =>
  let a := f_ypr f in
  if (Nat.ltb i 3 && Nat.ltb j 3)%bool then
    ypr_entries (cos (p_at a 0)) (sin (p_at a 0)) (cos (p_at a 1)) (sin (p_at a 1)) (cos (p_at a 2)) (sin (p_at a 2)) i j
  else if (Nat.ltb i 3 && Nat.eqb j 3)%bool then p_at (f_tr f) i
  else if Nat.eqb i j then 1 else 0.

(* createI, utils.cpp:91-104 *)
Definition createI (p : list R) : m3 := fun i j =>
  match i, j with
  | 0%nat, 0%nat => p_at p 0
  | 0%nat, 1%nat => p_at p 1
  | 0%nat, 2%nat => p_at p 2
  | 1%nat, 0%nat => p_at p 1
  | 1%nat, 1%nat => p_at p 3
  | 1%nat, 2%nat => p_at p 4
  | 2%nat, 0%nat => p_at p 2
  | 2%nat, 1%nat => p_at p 4
  | 2%nat, 2%nat => p_at p 5
  | _, _ => 0
  end.
Definition upper (A : m3) : list R :=
  [A 0%nat 0%nat; A 0%nat 1%nat; A 0%nat 2%nat; A 1%nat 1%nat; A 1%nat 2%nat; A 2%nat 2%nat].

(* transformBodyInertial, utils.cpp:12-35. old: the object passed by reference; its rpy and Dl are kept *)
Definition transformBodyInertial (d_i rpy_i : list R) (body_urdf old : body) : body :=
  let Riu := rpyRot rpy_i in
  let Rub := rpyRot (b_rpy body_urdf) in
  let Rib := m3mul Riu Rub in
  let IGi_B := createI (b_I body_urdf) in
  let OiGi := v3add d_i (m3v Riu (b_xyz body_urdf)) in
  let IOi_i := m3mul (m3mul Rib IGi_B) (m3tr Rib) in
  mkBody (b_name body_urdf) (b_mass body_urdf) (upper IOi_i) OiGi (b_rpy old) (b_Dl old).

(* mergeBodyInertial, utils.cpp:37-65. old: the object passed by reference; its name, rpy and Dl are kept *)
Definition mergeBodyInertial (body1 body2 old : body) : body :=
  let m1 := b_mass body1 in let m2 := b_mass body2 in
  let newCoM := v3div (v3add (v3sc m1 (b_xyz body1)) (v3sc m2 (b_xyz body2))) (m1 + m2) in
  let d1 := hat (v3sub newCoM (b_xyz body1)) in
  let d2 := hat (v3sub newCoM (b_xyz body2)) in
  let newI := m3add (m3add (m3add (createI (b_I body1)) (m3mul (m3sc m1 d1) (m3tr d1)))
                           (createI (b_I body2))) (m3mul (m3sc m2 d2) (m3tr d2)) in
  mkBody (b_name old) (m1 + m2) (upper newI) newCoM (b_rpy old) (b_Dl old).
