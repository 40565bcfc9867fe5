(* C26, C27, C28, C31, C35, C46: the published functions, their inputs, sizes and values. *)
From Coq Require Import Reals Lra Lia Arith List String Bool ZArith.
From Verif.Model Require Import Base Expr SX Robot Yaml Build.
From Verif.Spec Require Import Math Setup Kinematics Dynamics Api Sample.
From Verif.Proofs Require Import Load Final Get Sample Api Sample1 RobotName.
Import ListNotations.
Open Scope nat_scope.
Open Scope string_scope.

(* C28: a consistent configuration always builds; every function has its documented size *)
Theorem C28_build_succeeds name cfg r0 : robot_from_file name cfg false = Ok r0 -> well_formed r0 ->
  exists r, robot_from_file name cfg true = Ok r.
Proof. exact (built_file name cfg r0). Qed.
Print Assumptions C28_build_succeeds.
(* the robot's name takes part: it is a prefix of every function's name, and a name that is not an identifier never builds *)
Theorem C28_name_needed name cfg r : robot_from_file name cfg true = Ok r -> identifier name.
Proof. exact (built_named name cfg r). Qed.
Print Assumptions C28_name_needed.
Example C28_name_met : Forall (fun s => ~ identifier s) [""; "7dof"; "franka-fr3"; "seven.dof"; "arm_"; "my__arm"; "_arm"].
Proof. exact not_identifiers. Qed.
Theorem C28_sizes name cfg r0 r r' : session name cfg r0 r r' ->
  forall nm rr cc, In (nm, (rr, cc)) (catalogue r0) -> answers r' nm rr cc.
Proof. exact (catalogue_answers name cfg r0 r r'). Qed.
Print Assumptions C28_sizes.

(* C46: get_functions reports exactly the documented names, once each, with the documented sizes *)
Theorem C46_published_names name cfg r0 r r' : session name cfg r0 r r' ->
  (forall nm rr cc, In (nm, (rr, cc)) (catalogue r0) <->
    exists fo, In fo (get_functions r) /\ fo_name fo = nm /\ fo_rows fo = rr /\ fo_cols fo = cc) /\
  NoDup (map fo_name (get_functions r)).
Proof. exact (catalogue_published name cfg r0 r r'). Qed.
Print Assumptions C46_published_names.

(* C26: a published function depends only on the arguments get_functions reports for it *)
Theorem C26_depends_on_inputs name cfg r0 r r1 r2 fo : session name cfg r0 r r1 -> session name cfg r0 r r2 ->
  In fo (get_functions r) -> (forall k, In k (fo_args fo) -> arg r1 k = arg r2 k) ->
  agree (fo_rows fo) (fo_cols fo) (out r1 (fo_name fo)) (out r2 (fo_name fo)).
Proof. exact (depends_only name cfg r0 r r1 r2 fo). Qed.
Print Assumptions C26_depends_on_inputs.
(* and mentions only symbols that are elements of those arguments *)
Theorem C26_no_free_symbol name cfg r0 r r' fo cf : session name cfg r0 r r' ->
  In fo (get_functions r) -> mfind (fo_name fo) (casadi_fun r) = Some cf ->
  forall i j, i < fo_rows fo -> j < fo_cols fo -> forall s, occurs s (el (f_out cf) i j) = true ->
  exists k, In k (fo_args fo) /\ In (Var s) (map (fun l => el (mdl r k) l 0) (seq 0 (rows (mdl r k)))).
Proof. exact (fun Hs => closed_names name cfg r0 r r' Hs fo cf). Qed.
Print Assumptions C26_no_free_symbol.

(* C27: two configurations of the same robot, with the same parameter values and state but any choice of what is
   symbolic, publish the same functions with the same values (apart from the regressors of the symbolic parameters) *)
Theorem C27_selection_irrelevant n1 n2 cfg1 cfg2 r0 r r' s0 s s' :
  session n1 cfg1 r0 r r' -> session n2 cfg2 s0 s s' -> same_shape r0 s0 -> exact_angles r0 -> exact_angles s0 ->
  same_values_of r0 r' s0 s' ->
  forall nm rr cc, In (nm, (rr, cc)) (catalogue r0) -> ~ In nm parameter_regressors ->
  In (nm, (rr, cc)) (catalogue s0) /\ answers r' nm rr cc /\ answers s' nm rr cc /\ agree rr cc (out r' nm) (out s' nm).
Proof. exact (fun H1 H2 HS X1 X2 => selection_irrelevant n1 n2 cfg1 cfg2 r0 r r' s0 s s' H1 H2 HS X1 X2). Qed.
Print Assumptions C27_selection_irrelevant.

(* C20, across configurations: robots that differ in nothing but their inertial parameters (numeric or symbolic)
   have the same dynamics regressors *)
Theorem C20_independent_across n1 n2 cfg1 cfg2 r0 r r' s0 s s' :
  session n1 cfg1 r0 r r' -> session n2 cfg2 s0 s s' -> same_shape r0 s0 -> exact_angles r0 -> exact_angles s0 ->
  (forall k len, In (k, len) (state_sizes r0 ++ par_sizes r0)%list -> k <> "par_DYN" ->
     forall i, i < len -> param r0 r' k i = param s0 s' k i) ->
  forall nm, In nm ["Yr"; "reg_M"; "reg_C"; "reg_G"] -> agree (numJoints r0) (10 * numJoints r0) (out r' nm) (out s' nm).
Proof. exact (fun H1 H2 HS X1 X2 => regressors_no_inertia n1 n2 cfg1 cfg2 r0 r r' s0 s s' H1 H2 HS X1 X2). Qed.
Print Assumptions C20_independent_across.

(* C31: get evaluates the expression published under a name at the current arguments; 1x1 zero for any other name *)
Theorem C31_get_published name cfg r0 r r' fo : session name cfg r0 r r' -> In fo (get_functions r) ->
  answers r' (fo_name fo) (fo_rows fo) (fo_cols fo) /\
  forall env, (forall k len, In (k, len) (state_sizes r0 ++ par_sizes r0)%list ->
      map (fun l => eval env (el (mdl r k) l 0)) (seq 0 (rows (mdl r k))) = arg r' k) ->
    forall i j, i < fo_rows fo -> j < fo_cols fo -> out r' (fo_name fo) i j = eval env (el (mdl r (fo_name fo)) i j).
Proof.
  intros Hs Hf. destruct (get_evaluates name cfg r0 r r' Hs fo Hf) as [A B]. split; [exact A|].
  intros env HE. apply B. intros k len Hk. unfold entries. rewrite map_map. exact (HE k len Hk).
Qed.
Print Assumptions C31_get_published.
(* such an assignment of values to symbols always exists *)
Theorem C31_assignment name cfg r0 r r' : session name cfg r0 r r' ->
  exists env, forall k len, In (k, len) (state_sizes r0 ++ par_sizes r0)%list ->
    map (fun l => eval env (el (mdl r k) l 0)) (seq 0 (rows (mdl r k))) = arg r' k.
Proof.
  intros Hs. destruct (env_exists name cfg r0 r r' Hs) as [env E]. exists env. intros k len Hk.
  rewrite <- (E k len Hk). unfold entries. now rewrite map_map.
Qed.
Print Assumptions C31_assignment.
Theorem C31_get_unknown name cfg r0 r r' nm : session name cfg r0 r r' -> ~ In nm (map fst (catalogue r0)) ->
  get r' nm = Ok (mkMat 1 1 (fun _ _ => 0%R)).
Proof.
  intros Hs Hn. apply (unpublished name cfg r0 r r' Hs). intros Hp. apply Hn.
  unfold published in Hp. apply in_map_iff in Hp. destruct Hp as (fo & <- & Hf).
  apply in_map_iff. exists (fo_name fo, (fo_rows fo, fo_cols fo)). split; [reflexivity|].
  apply (catalogue_published name cfg r0 r r' Hs). exists fo. auto.
Qed.
Print Assumptions C31_get_unknown.

(* C35: compaction. The argument of a parameter holds its flagged elements in order; the symbols likewise; the inputs
   of a published function are these symbol vectors, in the order of its arguments; and the values in force right
   after construction are those of the configuration. *)
Theorem C35_compaction name cfg r0 r r' : session name cfg r0 r r' ->
  let elements m := map (fun i => el m i 0) (seq 0 (rows m)) in
  (forall k len, In (k, len) (par_sizes r0) -> arg r k = flagged (flags r0 k) (arg r0 k) /\
     (forall i, param r0 r k i = nth i (arg r0 k) 0%R)) /\
  (forall k len, In (k, len) (state_sizes r0) -> arg r k = repeat 0%R len) /\
  (forall k len, In (k, len) (state_sizes r0 ++ par_sizes r0)%list ->
     elements (mdl r k) = flagged (flags r0 k) (elements (mdl r0 k)) /\
     exists nm, elements (mdl r0 k) = map (fun i => Var (nm, i)) (seq 0 len)) /\
  (forall fo, In fo (get_functions r) -> exists cf, mfind (fo_name fo) (casadi_fun r) = Some cf /\
     map elements (f_inputs cf) = map (fun k => elements (mdl r k)) (fo_args fo)).
Proof.
  intros Hs elements. split; [|split; [|split]].
  - intros k len Hk. split; [exact (arg_compact name cfg r0 r r' Hs k len Hk)|exact (fun i => param_built name cfg r0 r r' Hs k len i Hk)].
  - exact (arg_state_init name cfg r0 r r' Hs).
  - intros k len Hk. split; [exact (compact_entries name cfg r0 r r' Hs k len Hk)|].
    exists (Shape.symname k). unfold elements. rewrite (mdl_r0_rows name cfg r0 r r' Hs k len Hk). apply map_ext_in.
    intros i Hi. apply in_seq in Hi. apply (mdl_r0 name cfg r0 r r' Hs k len); [exact Hk|lia].
  - intros fo Hf. destruct (inputs_of name cfg r0 r r' Hs fo Hf) as (cf & A & _ & _ & _ & B & _). exists cf. split; [exact A|exact B].
Qed.
Print Assumptions C35_compaction.

(* Non-vacuity: the sample robot, and the sample robot with every parameter symbolic *)
Example selection_hypotheses_met : exists r s, let r0 := toy0 (PI / 2) in let s0 := toy0_flags 1 (PI / 2) in
  session "toy" (toy_cfg (PI / 2)) r0 r r /\ session "toy" (resymb 1 (toy_cfg (PI / 2))) s0 s s /\ same_shape r0 s0 /\
  exact_angles r0 /\ exact_angles s0 /\ same_values_of r0 r s0 s /\
  symbolic r0 "par_DHtable" = 3 /\ symbolic s0 "par_DHtable" = 12 /\ In ("reg_Jdq", (6, 7)) (catalogue r0) /\ In ("k", (1, 1)) (catalogue r0).
Proof.
  destruct (toy_built (PI / 2)) as [r Hr].
  destruct (built_file _ _ _ (toy1_loads (PI / 2)) (toy1_wf (PI / 2))) as [s Hs].
  exists r, s. intros r0 s0.
  pose proof (session_r _ _ _ _ _ (proj1 (toy_session (PI / 2) r 0%R Hr))) as S1.
  pose proof (toy1_session (PI / 2) s Hs) as S2.
  split; [exact S1|]. split; [exact S2|]. split; [apply toy_shape|].
  split; [exact toy_exact|]. split; [apply toy1_exact|].
  split; [exact (same_flag_values _ _ _ _ _ _ _ _ S1 S2 (proj1 (toy_flag_values (PI / 2))) (proj2 (toy_flag_values (PI / 2))))|].
  exact (toy_counts (PI / 2)).
Qed.
