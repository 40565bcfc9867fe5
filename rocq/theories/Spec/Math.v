(* Textbook vocabulary used to state the properties: finite sums, matrices as entry functions,
   literal rotation, frame and Denavit-Hartenberg matrices. Independent of the model. *)
From Coq Require Import Reals List Arith ZArith String.
Import ListNotations.
Open Scope R_scope.

(* f 0 + ... + f (n-1) *)
Fixpoint rsum (n : nat) (f : nat -> R) : R :=
  match n with
  | O => 0
  | S k => rsum k f + f k
  end.

Definition rmat := nat -> nat -> R.
Definition rvec := nat -> R.

(* product of matrices with inner dimension n, transpose, matrix-vector product, scalar product *)
Definition rmul (n : nat) (A B : rmat) : rmat := fun i j => rsum n (fun k => A i k * B k j).
Definition rtr (A : rmat) : rmat := fun i j => A j i.
Definition rmv (n : nat) (A : rmat) (x : rvec) : rvec := fun i => rsum n (fun k => A i k * x k).
Definition rdot (n : nat) (x y : rvec) : R := rsum n (fun k => x k * y k).
Definition rid : rmat := fun i j => if Nat.eqb i j then 1 else 0.
(* quadratic form x^T A y *)
Definition rquad (n : nat) (A : rmat) (x y : rvec) : R := rdot n x (rmv n A y).

(* cross-product matrix of a 3-vector *)
Definition rhat (v : rvec) : rmat := fun i j =>
  match i, j with
  | 0%nat, 1%nat => - v 2%nat | 0%nat, 2%nat => v 1%nat
  | 1%nat, 0%nat => v 2%nat   | 1%nat, 2%nat => - v 0%nat
  | 2%nat, 0%nat => - v 1%nat | 2%nat, 1%nat => v 0%nat
  | _, _ => 0
  end.
Definition rcross (u v : rvec) : rvec := fun i =>
  match i with
  | 0%nat => u 1%nat * v 2%nat - u 2%nat * v 1%nat
  | 1%nat => u 2%nat * v 0%nat - u 0%nat * v 2%nat
  | 2%nat => u 0%nat * v 1%nat - u 1%nat * v 0%nat
  | _ => 0
  end.

Definition rdet3 (A : rmat) : R :=
    A 0%nat 0%nat * (A 1%nat 1%nat * A 2%nat 2%nat - A 1%nat 2%nat * A 2%nat 1%nat)
  - A 0%nat 1%nat * (A 1%nat 0%nat * A 2%nat 2%nat - A 1%nat 2%nat * A 2%nat 0%nat)
  + A 0%nat 2%nat * (A 1%nat 0%nat * A 2%nat 1%nat - A 1%nat 1%nat * A 2%nat 0%nat).

(* the 3x3 top-left block of A is a rotation *)
Definition rotation (A : rmat) : Prop :=
  (forall i j, (i < 3)%nat -> (j < 3)%nat -> rsum 3 (fun k => A k i * A k j) = rid i j) /\
  rdet3 A = 1.
(* A is a rigid transformation in homogeneous coordinates *)
Definition rigid (A : rmat) : Prop :=
  rotation A /\ A 3%nat 0%nat = 0 /\ A 3%nat 1%nat = 0 /\ A 3%nat 2%nat = 0 /\ A 3%nat 3%nat = 1.

(* Modified Denavit-Hartenberg transform (Craig): Rot_x(alpha) Trans_x(a) Rot_z(theta) Trans_z(d),
   first in terms of the cosines and sines of the angles *)
Definition DHcs (a ca sa d ct st : R) : rmat := fun i j =>
  match i, j with
  | 0%nat, 0%nat => ct      | 0%nat, 1%nat => - st
  | 0%nat, 2%nat => 0       | 0%nat, 3%nat => a
  | 1%nat, 0%nat => st * ca | 1%nat, 1%nat => ct * ca
  | 1%nat, 2%nat => - sa    | 1%nat, 3%nat => - sa * d
  | 2%nat, 0%nat => st * sa | 2%nat, 1%nat => ct * sa
  | 2%nat, 2%nat => ca      | 2%nat, 3%nat => ca * d
  | 3%nat, 3%nat => 1
  | _, _ => 0
  end.
Definition DHmat (a alpha d theta : R) : rmat := DHcs a (cos alpha) (sin alpha) d (cos theta) (sin theta).

(* Frame with origin (x,y,z) and orientation Rot_z(yaw) Rot_y(pitch) Rot_x(roll) *)
Definition framecs (x y z cy sy cp sp cr sr : R) : rmat := fun i j =>
  match i, j with
  | 0%nat, 0%nat => cy * cp
  | 0%nat, 1%nat => cy * sp * sr - sy * cr
  | 0%nat, 2%nat => cy * sp * cr + sy * sr
  | 0%nat, 3%nat => x
  | 1%nat, 0%nat => sy * cp
  | 1%nat, 1%nat => sy * sp * sr + cy * cr
  | 1%nat, 2%nat => sy * sp * cr - cy * sr
  | 1%nat, 3%nat => y
  | 2%nat, 0%nat => - sp
  | 2%nat, 1%nat => cp * sr
  | 2%nat, 2%nat => cp * cr
  | 2%nat, 3%nat => z
  | 3%nat, 3%nat => 1
  | _, _ => 0
  end.
Definition framemat (x y z yaw pitch roll : R) : rmat :=
  framecs x y z (cos yaw) (sin yaw) (cos pitch) (sin pitch) (cos roll) (sin roll).

(* elementary homogeneous transforms *)
Definition hrotx (a : R) : rmat := fun i j =>
  match i, j with
  | 0%nat, 0%nat => 1 | 1%nat, 1%nat => cos a | 1%nat, 2%nat => - sin a
  | 2%nat, 1%nat => sin a | 2%nat, 2%nat => cos a | 3%nat, 3%nat => 1 | _, _ => 0
  end.
Definition hroty (a : R) : rmat := fun i j =>
  match i, j with
  | 0%nat, 0%nat => cos a | 0%nat, 2%nat => sin a | 1%nat, 1%nat => 1
  | 2%nat, 0%nat => - sin a | 2%nat, 2%nat => cos a | 3%nat, 3%nat => 1 | _, _ => 0
  end.
Definition hrotz (a : R) : rmat := fun i j =>
  match i, j with
  | 0%nat, 0%nat => cos a | 0%nat, 1%nat => - sin a | 1%nat, 0%nat => sin a
  | 1%nat, 1%nat => cos a | 2%nat, 2%nat => 1 | 3%nat, 3%nat => 1 | _, _ => 0
  end.
Definition htrans (x y z : R) : rmat := fun i j =>
  match i, j with
  | 0%nat, 3%nat => x | 1%nat, 3%nat => y | 2%nat, 3%nat => z
  | _, _ => if Nat.eqb i j then 1 else 0
  end.
