(* Conversions between the dynamic (mass, CoM, central inertia) and regressor (mass, m*CoM, inertia
   about the frame origin) parameters of a link.
   robot.cpp:918-973 and thunder_robot_template/thunder_robot.cpp:161-188. *)
From Coq Require Import Reals List Arith.
From Verif.Model Require Import Robot.
Import ListNotations.
Open Scope R_scope.

Definition p_at (p : list R) (i : nat) : R := nth i p 0.

(* hat (utils.cpp:449-462) as a function of indices *)
Definition hatR (x y z : R) (i j : nat) : R :=
  match i, j with
  | 0%nat, 1%nat => - z | 0%nat, 2%nat => y
  | 1%nat, 0%nat => z   | 1%nat, 2%nat => - x
  | 2%nat, 0%nat => - y | 2%nat, 1%nat => x
  | _, _ => 0
  end.
Definition sum3 (f : nat -> R) : R := f 0%nat + f 1%nat + f 2%nat.
(* mass * (hat(CoM).transpose() * hat(CoM)), robot.cpp:926, 955 *)
Definition hTh (m x y z : R) (i j : nat) : R :=
  m * sum3 (fun k => hatR x y z k i * hatR x y z k j).
(* mass * hat(CoM) * hat(CoM).transpose(), thunder_robot.cpp:161-188 *)
Definition hhT (m x y z : R) (i j : nat) : R :=
  sum3 (fun k => m * hatR x y z i k * hatR x y z j k).

(* one link of update_inertial_REG, robot.cpp:948-969 *)
Definition reg_of_dyn (p : list R) : list R :=
  let m := p_at p 0 in let x := p_at p 1 in let y := p_at p 2 in let z := p_at p 3 in
  let I := hTh m x y z in
  [m; m * x; m * y; m * z;
   p_at p 4 + I 0%nat 0%nat; p_at p 5 + I 0%nat 1%nat; p_at p 6 + I 0%nat 2%nat;
   p_at p 7 + I 1%nat 1%nat; p_at p 8 + I 1%nat 2%nat; p_at p 9 + I 2%nat 2%nat].
(* one link of update_inertial_DYN, robot.cpp:923-936 *)
Definition dyn_of_reg (p : list R) : list R :=
  let m := p_at p 0 in
  let x := p_at p 1 / m in let y := p_at p 2 / m in let z := p_at p 3 / m in
  let I := hTh m x y z in
  [m; x; y; z;
   p_at p 4 - I 0%nat 0%nat; p_at p 5 - I 0%nat 1%nat; p_at p 6 - I 0%nat 2%nat;
   p_at p 7 - I 1%nat 1%nat; p_at p 8 - I 1%nat 2%nat; p_at p 9 - I 2%nat 2%nat].

(* for (i < n) segment(10 i, 10) = f(segment(10 i, 10)) *)
Fixpoint map_links (n : nat) (f : list R -> list R) (p : list R) : list R :=
  match n with
  | O => []
  | S k => (f (firstn 10 p) ++ map_links k f (skipn 10 p))%list
  end.
