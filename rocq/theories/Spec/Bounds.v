(* Vocabulary for bounds that hold in every state. *)
From Coq Require Import Reals List String Arith.
From Verif.Model Require Import Base Robot.
From Verif.Spec Require Import Math Setup Kinematics Dynamics.
Open Scope string_scope.
Open Scope R_scope.

(* The entries of the argument vectors ks other than q and the positions of the prismatic joints are at most L.
   Nothing is said about the positions of revolute joints. *)
Definition limited (r0 r' : robot) (ks : list string) (L : R) : Prop :=
  (forall k l, In k ks -> k <> "q" -> Rabs (nth l (arg r' k) 0) <= L) /\
  (forall i, (i < numJoints r0)%nat -> prism r0 i = true -> Rabs (state r' "q" i) <= L).
(* the parameters of geometry and inertia *)
Definition body_pars : list string := cons "par_DHtable" (cons "par_world2L0" (cons "par_DYN" nil)).
