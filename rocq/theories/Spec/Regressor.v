(* The parameters in which the robot dynamics is linear: for each link its mass, its mass times the centre of mass,
   and its inertia tensor taken about the origin of the link frame (parallel axis theorem). *)
From Coq Require Import Reals List String Arith ZArith.
From Verif.Model Require Import Base Robot.
From Verif.Spec Require Import Math Setup Kinematics Dynamics.
Open Scope R_scope.

(* centre of mass of link i (1-based) in link axes *)
Definition com_of (r0 r' : robot) (i : nat) : rvec := fun a => dyn r0 r' i (1 + a).
(* inertia about the origin of the link frame: I + m (|c|^2 Id - c c^T) *)
Definition origin_inertia (r0 r' : robot) (i : nat) : rmat := fun a b =>
  let c := com_of r0 r' i in
  inertia r0 r' i a b + mass r0 r' i * ((if Nat.eqb a b then rdot 3 c c else 0) - c a * c b).
(* th lists, link after link, [m; m cx; m cy; m cz; Jxx; Jxy; Jxz; Jyy; Jyz; Jzz] for the links of r' *)
Definition describes (r0 r' : robot) (th : rvec) : Prop :=
  forall i, (1 <= i <= numJoints r0)%nat ->
    let p := fun c => th (10 * (i - 1) + c)%nat in let J := origin_inertia r0 r' i in
    p 0%nat = mass r0 r' i /\
    (forall a, (a < 3)%nat -> p (1 + a)%nat = mass r0 r' i * com_of r0 r' i a) /\
    p 4%nat = J 0%nat 0%nat /\ p 5%nat = J 0%nat 1%nat /\ p 6%nat = J 0%nat 2%nat /\
    p 7%nat = J 1%nat 1%nat /\ p 8%nat = J 1%nat 2%nat /\ p 9%nat = J 2%nat 2%nat.
