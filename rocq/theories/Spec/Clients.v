(* Vocabulary for the theorems about the shipped test programs. *)
From Coq Require Import Reals List String Arith ZArith Bool.
From Verif.Model Require Import Base Robot Yaml Build.
From Verif.Spec Require Import Math Setup.
Import ListNotations.
Open Scope nat_scope.
Open Scope string_scope.

(* an n-vector of zeros *)
Definition zero_vector (n : nat) (e : mat) : Prop := m_rows e = n /\ m_cols e = 1 /\ forall i, i < n -> m_val e i 0 = 0%R.
(* either the elastic model is on or no joint is elastic *)
Definition has_motors (r0 : robot) : Prop := ELASTIC r0 = true \/ numElasticJoints r0 = 0.
(* the state the test program sets *)
Definition test_keys : list string := ["q"; "dq"; "dqr"; "ddqr"; "x"; "dx"; "ddx"].
(* what the test of the library prints, in order: the label, and the name asked for *)
Definition test_prints (r0 : robot) : list (string * string) :=
  ([("Kin_ee", "T_0_ee"); ("Kin0", "T_0_0"); ("Kin1", "T_0_1"); ("Kin2", "T_0_2"); ("Kin3", "T_0_3");
    ("Jac", "J_ee"); ("Jac1", "J_1"); ("Jac2", "J_2"); ("Jac3", "J_3");
    ("M", "M"); ("C", "C"); ("C_std", "C_std"); ("G", "G")]
   ++ (if Nat.ltb 0 (Dl_order r0) then [("D_link", "dl"); ("reg_Dl", "reg_dl")] else [])
   ++ (if ELASTIC r0 then [("K", "k"); ("D_coupling", "d"); ("D_motor", "dm"); ("M_motor", "Mm");
        ("reg_K", "reg_k"); ("reg_Dm", "reg_dm"); ("reg_D", "reg_d"); ("reg_Mm", "reg_Mm")] else []))%list.
Definition generated_prints : list (string * string) :=
  [("Kin", "T_0_ee"); ("Jac", "J_ee"); ("M", "M"); ("C", "C"); ("G", "G"); ("Yr", "Yr")].
