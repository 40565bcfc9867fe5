(* The kinematic parameters reg_Jdq and reg_JTw refer to. *)
From Coq Require Import Reals List String Arith.
From Verif.Model Require Import Base Robot.
From Verif.Spec Require Import Math Setup Api.
Import ListNotations.
Open Scope nat_scope.
Open Scope string_scope.

(* the symbolic entries of parameter vector k occupy the columns off, off+1, ... *)
Definition kin_block (r0 : robot) (k : string) (off : nat) : Prop :=
  (k, off) = ("par_DHtable", 0) \/ (k, off) = ("par_world2L0", symbolic r0 "par_DHtable") \/
  (k, off) = ("par_Ln2EE", symbolic r0 "par_DHtable" + symbolic r0 "par_world2L0").
(* their current values, in the order of the columns *)
Definition kin_values (r' : robot) : rvec :=
  fun j => nth j (arg r' "par_DHtable" ++ arg r' "par_world2L0" ++ arg r' "par_Ln2EE")%list 0%R.
