(* Vocabulary of rigid-body dynamics: masses, inertias, energies and partial derivatives with respect to
   the entries of a state vector. *)
From Coq Require Import Reals List String Arith ZArith.
From Coquelicot Require Import Coquelicot.
From Verif.Model Require Import Base Robot.
From Verif.Spec Require Import Math Setup Kinematics.
Import ListNotations.
Open Scope string_scope.
Open Scope R_scope.

(* the list l with its i-th element replaced by x *)
Fixpoint replace_nth (i : nat) (x : R) (l : list R) : list R :=
  match l, i with
  | [], _ => []
  | _ :: t, O => x :: t
  | h :: t, S i' => h :: replace_nth i' x t
  end.
(* the robot r' with element i of the argument vector k replaced by x *)
Definition set_entry (r' : robot) (k : string) (i : nat) (x : R) : robot :=
  with_args r' (mset k (replace_nth i x (arg r' k)) (args r')).
(* l is the partial derivative of the quantity F with respect to element i of state vector k, at r' *)
Definition is_partial (F : robot -> R) (k : string) (i : nat) (r' : robot) (l : R) : Prop :=
  is_derive (fun x => F (set_entry r' k i x)) (state r' k i) l.

(* inertial parameters of link i (1-based) in par_DYN: mass, centre of mass, inertia tensor at the centre of mass
   in link axes (Ixx Ixy Ixz Iyy Iyz Izz) *)
Definition dyn (r0 r' : robot) (i c : nat) : R := param r0 r' "par_DYN" (10 * (i - 1) + c).
Definition mass (r0 r' : robot) (i : nat) : R := dyn r0 r' i 0.
Definition inertia (r0 r' : robot) (i : nat) : rmat := fun a c =>
  match a, c with
  | 0%nat, 0%nat => dyn r0 r' i 4
  | 0%nat, 1%nat | 1%nat, 0%nat => dyn r0 r' i 5
  | 0%nat, 2%nat | 2%nat, 0%nat => dyn r0 r' i 6
  | 1%nat, 1%nat => dyn r0 r' i 7
  | 1%nat, 2%nat | 2%nat, 1%nat => dyn r0 r' i 8
  | 2%nat, 2%nat => dyn r0 r' i 9
  | _, _ => 0
  end.

(* 3x3 forms *)
Definition psd3 (A : rmat) : Prop := forall x, 0 <= rquad 3 A x x.
Definition pd3 (A : rmat) : Prop := forall x, (exists a, (a < 3)%nat /\ x a <> 0) -> 0 < rquad 3 A x x.

(* sum of f over the links 1..n *)
Definition links (r0 : robot) (f : nat -> R) : R := rsum (numJoints r0) (fun i => f (S i)).

(* Potential energy in the gravity field par_gravity, zero at the world origin *)
Definition potential (r0 r' : robot) : R :=
  - links r0 (fun i => mass r0 r' i * rdot 3 (param r0 r' "par_gravity") (com_point r0 r' i)).
(* Kinetic energy of link i moving with CoM velocity v and angular velocity w (world axes), its frame being
   oriented by A *)
Definition link_energy (r0 r' : robot) (i : nat) (A : rmat) (v w : rvec) : R :=
  / 2 * mass r0 r' i * rdot 3 v v + / 2 * rquad 3 (inertia r0 r' i) (rmv 3 (rtr A) w) (rmv 3 (rtr A) w).
(* The published quantities M, C, G at the current joint velocities *)
Definition kinetic (r0 r' : robot) : R :=
  / 2 * rquad (numJoints r0) (out r' "M") (state r' "dq") (state r' "dq").
(* joint torques of the published model, M ddq + C dq + G *)
Definition torque (r0 r' : robot) (k : nat) : R :=
  rmv (numJoints r0) (out r' "M") (state r' "ddq") k + rmv (numJoints r0) (out r' "C") (state r' "dq") k
  + out r' "G" k 0%nat.

(* At time t of the motion, v is the velocity of the centre of mass of link i and w the angular velocity of
   frame i (the derivative of its rotation matrix A is hat(w) A). *)
Definition link_moves (r0 : robot) (rho : R -> robot) (t : R) (i : nat) (v w : rvec) : Prop :=
  (forall a, (a < 3)%nat -> is_derive (fun s => com_point r0 (rho s) i a) t (v a)) /\
  (forall a c, (a < 3)%nat -> (c < 3)%nat ->
     is_derive (fun s => fwd r0 (rho s) i a c) t (rmul 3 (rhat w) (fwd r0 (rho t) i) a c)).
