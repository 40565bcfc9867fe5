(* Rigid bodies in textbook terms: mass, centre of mass, inertia tensor about the centre of mass. *)
From Coq Require Import Reals String List Arith.
From Verif.Model Require Import Bodies.
From Verif.Spec Require Import Math.
Import ListNotations.
Open Scope R_scope.

(* rotation by roll, pitch, yaw *)
Definition ypr_rotation (yaw pitch roll : R) : rmat := rmul 4 (hrotz yaw) (rmul 4 (hroty pitch) (hrotx roll)).

Definition com (b : body) : rvec := fun a => nth a (b_xyz b) 0.
(* the central inertia tensor, stored as xx, xy, xz, yy, yz, zz *)
Definition inertia (b : body) : rmat := fun i j =>
  match i, j with
  | 0%nat, 0%nat => nth 0 (b_I b) 0
  | 0%nat, 1%nat | 1%nat, 0%nat => nth 1 (b_I b) 0
  | 0%nat, 2%nat | 2%nat, 0%nat => nth 2 (b_I b) 0
  | 1%nat, 1%nat => nth 3 (b_I b) 0
  | 1%nat, 2%nat | 2%nat, 1%nat => nth 4 (b_I b) 0
  | 2%nat, 2%nat => nth 5 (b_I b) 0
  | _, _ => 0
  end.
(* first moment; inertia about the origin of the frame (Steiner) *)
Definition moment (b : body) : rvec := fun a => b_mass b * com b a.
Definition inertia_origin (b : body) : rmat := fun i j =>
  inertia b i j + b_mass b * ((if Nat.eqb i j then rdot 3 (com b) (com b) else 0) - com b i * com b j).

(* a point moves with the body's frame: rotated by A, displaced by d *)
Definition moved (A : rmat) (d c : rvec) : rvec := fun a => d a + rmv 3 A c a.
Definition conjugate (A I : rmat) : rmat := rmul 3 (rmul 3 A I) (rtr A).
Definition trace (I : rmat) : R := I 0%nat 0%nat + I 1%nat 1%nat + I 2%nat 2%nat.

(* same mass, centre of mass and inertia *)
Definition same_body (b b' : body) : Prop :=
  b_mass b = b_mass b' /\ (forall a, (a < 3)%nat -> com b a = com b' a) /\
  (forall i j, (i < 3)%nat -> (j < 3)%nat -> inertia b i j = inertia b' i j).
