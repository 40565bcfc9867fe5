(* Vocabulary for loading a configuration again into a robot that has already been built from it. *)
From Coq Require Import List String Arith Bool.
From Verif.Model Require Import Robot.
Import ListNotations.
Open Scope string_scope.

(* the parameters whose values Robot::load_conf_par takes from the configuration: inertial parameters in both
   descriptions, link friction, and the elastic parameters of a robot that declares them *)
Definition file_parameters (r0 : robot) : list string :=
  (["par_DYN"; "par_REG"]
   ++ (if Nat.ltb 0 (Dl_order r0) then ["par_Dl"] else [])
   ++ (if Nat.ltb 0 (K_order r0) then ["par_K"] else [])
   ++ (if Nat.ltb 0 (D_order r0) then ["par_D"] else [])
   ++ (if Nat.ltb 0 (Dm_order r0) then ["par_Dm"] else [])
   ++ (if ELASTIC r0 then ["par_Mm"] else []))%list.
