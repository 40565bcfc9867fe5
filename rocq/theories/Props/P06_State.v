(* C21, C29, C30, C32, C33, C36: setters, inertial parameter vectors, parameter files, user functions. *)
From Coq Require Import Reals Lra Lia Arith List String Bool ZArith.
From Verif.Model Require Import Base Expr SX Robot Yaml Inertia Build.
From Verif.Spec Require Import Math Setup Kinematics Dynamics Regressor Api State Sample.
From Verif.Proofs Require Import Load Final Get Sample Api Sample1 State InertiaConv Files AddFun StateSess UserFun StateToy.
Import ListNotations.
Open Scope nat_scope.
Open Scope string_scope.

(* C29: a setter accepts exactly the vectors of its declared length ... *)
Theorem C29_accepts s r v : In s setters -> List.length (get_arg r (s_arg s)) = s_len s r ->
  List.length v = s_len s r ->
  exists r1, s_call s r v = Ok (r1, 1) /\ get_arg r1 (s_arg s) = v /\ changes_only (s_arg s) r r1.
Proof. exact (setter_accepts s r v). Qed.
Print Assumptions C29_accepts.
Theorem C29_refuses s r v : In s setters -> List.length v <> s_len s r ->
  exists r1, s_call s r v = Ok (r1, 0) /\ changes_nothing r r1.
Proof. exact (setter_refuses s r v). Qed.
Print Assumptions C29_refuses.
(* ... after any history of calls of the state setters of a robot built from a configuration *)
Theorem C29_history name cfg r0 r r' h : session name cfg r0 r r' ->
  (forall s v, In (s, v) h -> In s state_setters \/ ELASTIC r0 = true /\ In s motor_setters) ->
  exists r1, run h r' = Ok (r1, map (result_code r0) h) /\ session name cfg r0 r r1 /\
    forall k, get_arg r1 k = last_accepted r0 k h (get_arg r' k).
Proof.
  intros Hs Hh. apply session_history; auto. intros s v Hi. unfold usable. apply in_app_iff.
  destruct (Hh s v Hi) as [A|[-> A]]; auto.
Qed.
Print Assumptions C29_history.
(* false of set_par_DYN: once a robot with a numeric inertial parameter is built, no vector is accepted *)
Theorem C29_par_DYN_refuted : exists name cfg r0 r, session name cfg r0 r r /\ forall v,
  (exists m, set_par_DYN r v = Throw m) \/ (exists r1, set_par_DYN r v = Ok (r1, 0) /\ changes_nothing r r1).
Proof. exact (toy_par_DYN (PI / 2)). Qed.
Print Assumptions C29_par_DYN_refuted.
Example C29_met : exists r r1, session "toy" (toy_cfg (PI / 2)) (toy0 (PI / 2)) r r /\
  run [(mkSetter "q" numJoints set_q, [1; 2; 3]%R); (mkSetter "q" numJoints set_q, [7]%R); (mkSetter "x" numElasticJoints set_x, [4]%R)] r = Ok (r1, [1; 0; 1]) /\
  get_arg r1 "q" = [1; 2; 3]%R /\ get_arg r1 "x" = [4]%R.
Proof. exact (toy_setters (PI / 2)). Qed.

(* C21: the conversions, and their round trips *)
Theorem C21_to_REG r : List.length (get_arg r "par_DYN") = 10 * numJoints r ->
  List.length (get_arg r "par_REG") = 10 * numJoints r ->
  exists r1, update_inertial_REG r = Ok r1 /\ changes_only "par_REG" r r1 /\ in_sync r1.
Proof. intros A B. destruct (to_REG r A B) as (r1 & E & C & _ & S). eauto. Qed.
Print Assumptions C21_to_REG.
Theorem C21_to_DYN r : List.length (get_arg r "par_DYN") = 10 * numJoints r ->
  List.length (get_arg r "par_REG") = 10 * numJoints r -> massive (numJoints r) (get_arg r "par_REG") ->
  exists r1, update_inertial_DYN r = Ok r1 /\ changes_only "par_DYN" r r1 /\ in_sync r1.
Proof. intros A B M. destruct (to_DYN r A B M) as (r1 & E & C & _ & S). eauto. Qed.
Print Assumptions C21_to_DYN.
Theorem C21_round_trip_DYN r : List.length (get_arg r "par_DYN") = 10 * numJoints r ->
  List.length (get_arg r "par_REG") = 10 * numJoints r -> massive (numJoints r) (get_arg r "par_DYN") ->
  exists r1 r2, update_inertial_REG r = Ok r1 /\ update_inertial_DYN r1 = Ok r2 /\
    get_arg r2 "par_DYN" = get_arg r "par_DYN" /\ changes_only "par_REG" r r2 /\ in_sync r2.
Proof. exact (round_trip_DYN r). Qed.
Print Assumptions C21_round_trip_DYN.
Theorem C21_round_trip_REG r : List.length (get_arg r "par_DYN") = 10 * numJoints r ->
  List.length (get_arg r "par_REG") = 10 * numJoints r -> massive (numJoints r) (get_arg r "par_REG") ->
  exists r1 r2, update_inertial_DYN r = Ok r1 /\ update_inertial_REG r1 = Ok r2 /\
    get_arg r2 "par_REG" = get_arg r "par_REG" /\ changes_only "par_DYN" r r2 /\ in_sync r2.
Proof. exact (round_trip_REG r). Qed.
Print Assumptions C21_round_trip_REG.

Example C21_met : List.length (get_arg (toy0 (PI / 2)) "par_DYN") = 10 * numJoints (toy0 (PI / 2)) /\
  List.length (get_arg (toy0 (PI / 2)) "par_REG") = 10 * numJoints (toy0 (PI / 2)) /\ numJoints (toy0 (PI / 2)) = 3 /\
  massive (numJoints (toy0 (PI / 2))) (get_arg (toy0 (PI / 2)) "par_DYN") /\ massive (numJoints (toy0 (PI / 2))) (get_arg (toy0 (PI / 2)) "par_REG").
Proof. exact (toy_lengths (PI / 2)). Qed.

(* C30: the two descriptions agree after loading and after construction ... *)
Theorem C30_loaded name cfg r0 : robot_from_file name cfg false = Ok r0 -> in_sync r0.
Proof. exact (loaded_sync name cfg r0). Qed.
Print Assumptions C30_loaded.
Theorem C30_built name cfg r0 r r' : session name cfg r0 r r' ->
  describes r0 r (fun i => nth i (get_arg r "par_REG") 0%R).
Proof. exact (built_describes name cfg r0 r r'). Qed.
Print Assumptions C30_built.
(* ... but set_par_DYN changes one and leaves the other *)
Theorem C30_refuted : exists name cfg r0 r v r1, session name cfg r0 r r /\ in_sync r /\
  set_par_DYN r v = Ok (r1, 1) /\ ~ in_sync r1.
Proof. exact (toy_desync (PI / 2)). Qed.
Print Assumptions C30_refuted.

(* C32: a file written by save_par restores the saved arguments and nothing else *)
Theorem C32_round_trip r r2 names :
  (forall k, In k names -> List.length (get_arg r2 k) = List.length (get_arg r k)) ->
  exists r3, load_par r2 (save_par r names) [] = Ok (r3, 1) /\ r3 = with_args r2 (args r3) /\
    forall k, (In k names -> get_arg r3 k = get_arg r k) /\ (~ In k names -> get_arg r3 k = get_arg r2 k).
Proof.
  intros H. destruct (save_load_all r r2 names H) as (r3 & E & A & B). exists r3. split; [exact E|]. split; [exact A|].
  intros k. rewrite B. destruct (in_dec string_dec k names); tauto.
Qed.
Print Assumptions C32_round_trip.
Theorem C32_selection r r2 names sel : sel <> [] -> incl sel names ->
  (forall k, In k sel -> List.length (get_arg r2 k) = List.length (get_arg r k)) ->
  exists r3, load_par r2 (save_par r names) sel = Ok (r3, 1) /\ r3 = with_args r2 (args r3) /\
    forall k, (In k sel -> get_arg r3 k = get_arg r k) /\ (~ In k sel -> get_arg r3 k = get_arg r2 k).
Proof.
  intros Hn Hi H. destruct (save_load_some r r2 names sel Hn Hi H) as (r3 & E & A & B). exists r3. split; [exact E|]. split; [exact A|].
  intros k. rewrite B. destruct (in_dec string_dec k sel); tauto.
Qed.
Print Assumptions C32_selection.
Example C32_met : let r := fst (set_arg (toy0 (PI / 2)) "q" [1; 2; 3]%R) in
  exists r3, load_par (toy0 (PI / 2)) (save_par r ["q"; "par_gravity"; "q"]) ["q"] = Ok (r3, 1) /\ get_arg r3 "q" = [1; 2; 3]%R.
Proof. exact (toy_files (PI / 2)). Qed.

(* C33: false. The file save_par_REG writes is not the file load_par_REG reads: every parameter becomes zero *)
Theorem C33_refuted : (forall r, List.length (get_arg r "par_REG") = 10 * numJoints r ->
  exists file r1, save_par_REG r = Ok file /\ load_par_REG r file false = Ok r1 /\
    get_arg r1 "par_REG" = repeat 0%R (10 * numJoints r)) /\
  exists r, List.length (get_arg r "par_REG") = 10 * numJoints r /\ 0 < numJoints r /\ get_arg r "par_REG" <> repeat 0%R (10 * numJoints r).
Proof. exact (toy_reg_lost (PI / 2)). Qed.
Print Assumptions C33_refuted.
(* with the section layout that load_par_REG reads, the vector is restored *)
Theorem C33_read_layout_partial r p : List.length p = 10 * numJoints r ->
  exists r1, load_par_REG r (reg_file (numJoints r) p) false = Ok r1 /\ get_arg r1 "par_REG" = p /\
    r1 = with_args r (args r1) /\ forall k, k <> "par_REG" -> k <> "par_Dl" -> get_arg r1 k = get_arg r k.
Proof. intros H. exact (reg_file_read r p false H eq_refl). Qed.
Print Assumptions C33_read_layout_partial.

(* C36: add_function *)
Theorem C36_kept r f e fa : mcount f (model r) = true -> add_function r f e fa false = Ok (r, 0).
Proof. exact (add_kept r f e fa). Qed.
Print Assumptions C36_kept.
Theorem C36_redefined r f e fa ow r1 c : add_function r f e fa ow = Ok (r1, c) -> ow = true \/ mcount f (model r) = false ->
  c = 1 /\
  (args r1 = args r /\ numJoints r1 = numJoints r /\ numElasticJoints r1 = numElasticJoints r /\ jointsType r1 = jointsType r) /\
  (forall nm, nm <> f -> get r1 nm = get r nm /\ mdl r1 nm = mdl r nm) /\
  (forall k, flags r1 k = flags r k) /\ mdl r1 f = e /\
  (forall fo, In fo (get_functions r1) -> fo_name fo = f -> fo_args fo = fa /\ fo_rows fo = rows e /\ fo_cols fo = cols e) /\
  (forall nm, In nm (map fo_name (get_functions r1)) <-> nm = f \/ In nm (map fo_name (get_functions r))).
Proof. exact (add_effect r f e fa ow r1 c). Qed.
Print Assumptions C36_redefined.

Example C36_met : exists r, session "toy" (toy_cfg (PI / 2)) (toy0 (PI / 2)) r r /\ forall e, add_function r "q" e [] false = Ok (r, 0).
Proof. exact (toy_kept (PI / 2)). Qed.

(* C47: a function added to a built robot over fully symbolic arguments is accepted and evaluates its expression *)
Theorem C47_user_function name cfg r0 r r' nm e fa (rho : sym -> R) : session name cfg r0 r r' -> identifier nm ->
  ok e = true -> NoDup fa -> ~ In nm fa ->
  (forall k, In k fa -> exists len, In (k, len) (state_sizes r0) \/ In (k, len) (par_sizes r0) /\ selected (flags r0 k) = len) ->
  (forall i j, i < rows e -> j < cols e -> forall s, occurs s (el e i j) = true ->
     exists k l, In k fa /\ l < rows (mdl r' k) /\ el (mdl r' k) l 0 = Var s) ->
  (forall k l, In k fa -> l < rows (mdl r' k) -> eval rho (el (mdl r' k) l 0) = state r' k l) ->
  exists r1 m, add_function r' nm e fa true = Ok (r1, 1) /\ get r1 nm = Ok m /\ m_rows m = rows e /\ m_cols m = cols e /\
    forall i j, i < rows e -> j < cols e -> m_val m i j = eval rho (el e i j).
Proof. exact (fun Hs => user_function name cfg r0 r r' Hs nm e fa rho). Qed.
Print Assumptions C47_user_function.
(* over a partially symbolic parameter it can fail: the flags are not compacted with the vectors *)
Theorem C47_refuted : exists name cfg r0 r k, session name cfg r0 r r /\
  let e := vat (mdl r k) 0 in
  ok e = true /\ (exists s, el e 0 0 = Var s) /\ add_function r "mine" e [k] true = Throw "casadi: free variables".
Proof. exact (toy_user_lost (PI / 2)). Qed.
Print Assumptions C47_refuted.
Example C47_met : exists r r1 m, session "toy" (toy_cfg (PI / 2)) (toy0 (PI / 2)) r r /\
  add_function r "twice" (vat (mdl r "q") 1) ["q"] true = Ok (r1, 1) /\ get r1 "twice" = Ok m /\ m_val m 0 0 = state r "q" 1.
Proof. exact (toy_user (PI / 2)). Qed.
