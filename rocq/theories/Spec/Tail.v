(* Comparing two robots (or one robot in two situations) that have their last k joints in common. *)
From Coq Require Import Reals List String Arith ZArith.
From Verif.Model Require Import Base Robot.
From Verif.Spec Require Import Math Setup Kinematics Dynamics.
Open Scope string_scope.
Open Scope nat_scope.

(* two positions of a joint that cannot be told apart: a revolute joint may differ by whole turns *)
Definition same_place (prismatic : bool) (x y : R) : Prop :=
  if prismatic then x = y else exists z : Z, x = (y + IZR z * (2 * PI))%R.

(* Joints s1, ..., s1+k-1 of the first robot and s2, ..., s2+k-1 of the second are the last ones, of the same
   kind, and carry links with the same inertial parameters; after the first of them the Denavit-Hartenberg
   rows and the joint positions are the same (revolute joints: up to whole turns). Everything before is unrestricted: base frames, earlier joints and
   their number, Denavit-Hartenberg row and position of the first common joint, tool, gravity, flags. *)
Record same_tail (k s1 : nat) (r1 r1' : robot) (s2 : nat) (r2 r2' : robot) : Prop := {
  st_n1 : numJoints r1 = s1 + k;
  st_n2 : numJoints r2 = s2 + k;
  st_kind : forall j, j < k -> prism r1 (s1 + j) = prism r2 (s2 + j);
  st_dh : forall j c, 1 <= j < k -> c < 4 -> dh r1 r1' (s1 + j) c = dh r2 r2' (s2 + j) c;
  st_q : forall j, 1 <= j < k -> same_place (prism r1 (s1 + j)) (state r1' "q" (s1 + j)) (state r2' "q" (s2 + j));
  st_dyn : forall j c, j < k -> c < 10 -> dyn r1 r1' (s1 + j + 1) c = dyn r2 r2' (s2 + j + 1) c
}.

(* the joints before s do not move *)
Definition at_rest (s : nat) (r' : robot) (v : string) : Prop := forall j, j < s -> state r' v j = 0%R.
(* vector v is the same for the common joints *)
Definition same_on_tail (v : string) (k s1 : nat) (r1' : robot) (s2 : nat) (r2' : robot) : Prop :=
  forall j, j < k -> state r1' v (s1 + j) = state r2' v (s2 + j).
(* gravity in the axes of frame i *)
Definition gravity_in (r0 r' : robot) (i a : nat) : R :=
  rsum 3 (fun c => (fwd r0 r' i c a * param r0 r' "par_gravity" c)%R).

(* Two robots with the same base frame and the same first m joints (kind, Denavit-Hartenberg row, position
   up to whole turns).
   Later joints and their number, tool, inertias, gravity, flags are unrestricted. *)
Record same_head (m : nat) (r1 r1' r2 r2' : robot) : Prop := {
  sh_n1 : m <= numJoints r1;
  sh_n2 : m <= numJoints r2;
  sh_base : forall c, c < 6 -> param r1 r1' "par_world2L0" c = param r2 r2' "par_world2L0" c;
  sh_kind : forall j, j < m -> prism r1 j = prism r2 j;
  sh_dh : forall j c, j < m -> c < 4 -> dh r1 r1' j c = dh r2 r2' j c;
  sh_q : forall j, j < m -> same_place (prism r1 j) (state r1' "q" j) (state r2' "q" j)
}.
(* centre of mass of link i in link axes *)
Definition same_com (i : nat) (r1 r1' r2 r2' : robot) : Prop :=
  forall c, 1 <= c < 4 -> dyn r1 r1' i c = dyn r2 r2' i c.

(* the same robot in the same posture, with the same inertial parameters; gravity, tool and flags may differ *)
Definition same_but_gravity (r1 r1' r2 r2' : robot) : Prop :=
  numJoints r1 = numJoints r2 /\ same_head (numJoints r1) r1 r1' r2 r2' /\
  forall i c, 1 <= i <= numJoints r1 -> c < 10 -> dyn r1 r1' i c = dyn r2 r2' i c.
