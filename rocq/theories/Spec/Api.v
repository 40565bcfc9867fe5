(* The functions a robot publishes: names and sizes, as the documentation lists them, and what it means for two
   configurations to describe the same robot. *)
From Coq Require Import Reals List String Arith ZArith Bool.
From Verif.Model Require Import Base Robot.
From Verif.Spec Require Import Setup.
Import ListNotations.
Open Scope nat_scope.
Open Scope string_scope.

(* number of parameters declared symbolic *)
Definition symbolic (r0 : robot) (k : string) : nat := selected (flags r0 k).
Definition kin_symbolic (r0 : robot) : nat :=
  symbolic r0 "par_DHtable" + symbolic r0 "par_world2L0" + symbolic r0 "par_Ln2EE".

Definition entry : Type := string * (nat * nat).
Definition numbered (pre : string) (from count : nat) (r c : nat) : list entry :=
  map (fun i => (pre ++ to_string i, (r, c))) (seq from count).
Definition when (c : bool) (l : list entry) : list entry := if c then l else [].
Definition some_ (k : nat) : bool := Nat.ltb 0 k.

(* name, rows, columns of every published function of a robot with n joints of which e are elastic *)
Definition catalogue (r0 : robot) : list entry :=
  let n := numJoints r0 in let e := numElasticJoints r0 in
  ( (* transforms: base frame, each joint, base to each frame, end effector *)
    [("T_0", (4, 4))] ++ numbered "T_" 1 n 4 4 ++ numbered "T_0_" 0 (n + 2) 4 4 ++ [("T_0_ee", (4, 4))]
    (* Jacobians *)
    ++ numbered "J_" 1 (n + 1) 6 n ++ [("J_ee", (6, n)); ("J_ee_dot", (6, n)); ("J_ee_ddot", (6, n)); ("J_ee_pinv", (n, 6))]
    ++ numbered "J_cm_" 1 n 6 n
    (* dynamics and its derivatives *)
    ++ [("M", (n, n)); ("C", (n, n)); ("C_std", (n, n)); ("G", (n, 1));
        ("M_dot", (n, n)); ("M_ddot", (n, n)); ("C_dot", (n, n)); ("C_ddot", (n, n)); ("G_dot", (n, 1)); ("G_ddot", (n, 1))]
    (* regressors of the inertial parameters *)
    ++ [("Yr", (n, 10 * n)); ("reg_M", (n, 10 * n)); ("reg_C", (n, 10 * n)); ("reg_G", (n, 10 * n))]
    (* link friction *)
    ++ when (some_ (Dl_order r0))
         (("dl", (n, 1)) :: numbered "Dl" 1 (Dl_order r0) n n ++ when (some_ (symbolic r0 "par_Dl")) [("reg_dl", (n, symbolic r0 "par_Dl"))])
    (* elastic joints *)
    ++ when (ELASTIC r0)
         (when (some_ (K_order r0)) (("k", (e, 1)) :: map (fun o => (("K" ++ to_string (2 * o + 1))%string, (e, e))) (seq 0 (K_order r0)))
          ++ when (some_ (D_order r0)) (("d", (e, 1)) :: numbered "D" 1 (D_order r0) e e)
          ++ when (some_ (Dm_order r0)) (("dm", (e, 1)) :: numbered "Dm" 1 (Dm_order r0) e e)
          ++ [("Mm", (e, e))]
          ++ when (some_ (symbolic r0 "par_K")) [("reg_k", (e, symbolic r0 "par_K"))]
          ++ when (some_ (symbolic r0 "par_D")) [("reg_d", (e, symbolic r0 "par_D"))]
          ++ when (some_ (symbolic r0 "par_Dm")) [("reg_dm", (e, symbolic r0 "par_Dm"))]
          ++ when (some_ (symbolic r0 "par_Mm")) [("reg_Mm", (e, symbolic r0 "par_Mm"))])
    (* regressors of the kinematic parameters *)
    ++ when (some_ (kin_symbolic r0)) [("reg_Jdq", (6, kin_symbolic r0)); ("reg_JTw", (n, kin_symbolic r0))])%list.

(* what get_functions reports *)
Definition published (r : robot) (nm : string) : Prop := In nm (map fo_name (get_functions r)).

(* functions whose columns are the symbolic parameters themselves *)
Definition parameter_regressors : list string :=
  ["reg_dl"; "reg_k"; "reg_d"; "reg_dm"; "reg_Mm"; "reg_Jdq"; "reg_JTw"].

(* two configurations with the same joints and the same friction and elasticity orders *)
Record same_shape (r s : robot) : Prop := {
  sm_n : numJoints s = numJoints r; sm_jt : jointsType s = jointsType r;
  sm_e : numElasticJoints s = numElasticJoints r; sm_el : ELASTIC s = ELASTIC r;
  sm_Dl : Dl_order s = Dl_order r; sm_K : K_order s = K_order r;
  sm_D : D_order s = D_order r; sm_Dm : Dm_order s = Dm_order r }.
(* two sessions with the same parameter values and the same state *)
Definition same_values_of (r0 r' s0 s' : robot) : Prop :=
  forall k len, In (k, len) (state_sizes r0 ++ par_sizes r0)%list ->
    forall i, i < len -> param r0 r' k i = param s0 s' k i.

(* the elements of a vector that are flagged, in order *)
Definition flagged {A} (fl : list Z) (v : list A) : list A := map snd (filter (fun p => flag_set (fst p)) (combine fl v)).
