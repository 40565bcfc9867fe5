(* C86: changing the symbolic elements of a parameter at run time, in the generated class. *)
From Coq Require Import Reals List Arith String Bool Lia ZArith.
From Verif.Model Require Import Base SX Robot Yaml Build Template.
From Verif.Spec Require Import Math Setup Kinematics State Config Template Sample Shipped.
From Verif.Spec Require Api.
From Verif.Proofs Require Import Sample MainFiles TGet TToy SetPar SetParToy.
From Verif.Proofs Require Shipped.
Import ListNotations.
Open Scope nat_scope.
Open Scope string_scope.

(* C86: after load_conf, and whatever state is set, a parameter setter called with one number for each symbolic element
   replaces these elements: every getter answers as the robot whose symbolic elements of that parameter are the given
   numbers and whose other parameters are as configured. Missing: parameters other than the DH table, the two frames and
   gravity when only some of their elements are symbolic, and objects that have not loaded the configuration. *)
Theorem C86_set_partial junk name cfg r0 r r' upd : session name cfg r0 r r' -> complete_links inertial_keys (numJoints r0) cfg ->
  (forall k len, In (k, len) (par_sizes r0) -> ~ In k compacted -> uniform (flags r0 k)) ->
  exists t, t_load_conf junk (new_class r) (Some cfg) upd = Ok t /\
  forall h s len v, (forall c, In c h -> In (fst c) state_tsetters) -> In s par_tsetters -> In (ts_mem s, len) (par_sizes r0) ->
  0 < selected (flags r0 (ts_mem s)) -> List.length v = selected (flags r0 (ts_mem s)) ->
  let t1 := ts_call s v (t_run h t) in
  (forall k len, In (k, len) (state_sizes r0) -> member t1 k = arg r' k) ->
  arg r' (ts_mem s) = v -> (forall k len, In (k, len) (par_sizes r0) -> k <> ts_mem s -> arg r' k = arg r k) ->
  forall nm, Api.published r nm -> t_get r t1 nm = get r' nm.
Proof. exact (set_symbolic junk name cfg r0 r r' upd). Qed.
Print Assumptions C86_set_partial.
(* the DH table and the inertial parameters, which have setters of their own; the table is passed as a column *)
Theorem C86_table_partial junk name cfg r0 r r' upd : session name cfg r0 r r' -> complete_links inertial_keys (numJoints r0) cfg ->
  (forall k len, In (k, len) (par_sizes r0) -> ~ In k compacted -> uniform (flags r0 k)) ->
  exists t, t_load_conf junk (new_class r) (Some cfg) upd = Ok t /\
  forall h v, (forall c, In c h -> In (fst c) state_tsetters) ->
  0 < selected (flags r0 "par_DHtable") -> List.length v = selected (flags r0 "par_DHtable") ->
  exists t1, t_set_par_DHtable 1 v (t_run h t) = Ok t1 /\
  ((forall k len, In (k, len) (state_sizes r0) -> member t1 k = arg r' k) ->
   arg r' "par_DHtable" = v -> (forall k len, In (k, len) (par_sizes r0) -> k <> "par_DHtable" -> arg r' k = arg r k) ->
   forall nm, Api.published r nm -> t_get r t1 nm = get r' nm).
Proof. exact (set_table junk name cfg r0 r r' upd). Qed.
Print Assumptions C86_table_partial.
Theorem C86_inertia_partial junk name cfg r0 r r' upd : session name cfg r0 r r' -> complete_links inertial_keys (numJoints r0) cfg ->
  (forall k len, In (k, len) (par_sizes r0) -> ~ In k compacted -> uniform (flags r0 k)) ->
  exists t, t_load_conf junk (new_class r) (Some cfg) upd = Ok t /\
  forall h v b, (forall c, In c h -> In (fst c) state_tsetters) -> List.length v = 10 * numJoints r0 ->
  exists t1, t_set_par_DYN v b (t_run h t) = Ok t1 /\
  ((forall k len, In (k, len) (state_sizes r0) -> member t1 k = arg r' k) ->
   arg r' "par_DYN" = v -> (forall k len, In (k, len) (par_sizes r0) -> k <> "par_DYN" -> arg r' k = arg r k) ->
   forall nm, Api.published r nm -> t_get r t1 nm = get r' nm).
Proof. exact (set_inertia junk name cfg r0 r r' upd). Qed.
Print Assumptions C86_inertia_partial.
(* it applies to the robots that ship with the generator *)
Theorem C86_shipped junk h0 name cfg r0 r r' upd : In (name, cfg) (shipped h0) -> session name cfg r0 r r' ->
  exists t, t_load_conf junk (new_class r) (Some cfg) upd = Ok t /\
  forall h s len v, (forall c, In c h -> In (fst c) state_tsetters) -> In s par_tsetters -> In (ts_mem s, len) (par_sizes r0) ->
  0 < selected (flags r0 (ts_mem s)) -> List.length v = selected (flags r0 (ts_mem s)) ->
  let t1 := ts_call s v (t_run h t) in
  (forall k len, In (k, len) (state_sizes r0) -> member t1 k = arg r' k) ->
  arg r' (ts_mem s) = v -> (forall k len, In (k, len) (par_sizes r0) -> k <> ts_mem s -> arg r' k = arg r k) ->
  forall nm, Api.published r nm -> t_get r t1 nm = get r' nm.
Proof.
  intros H S. destruct (Shipped.shipped_meets h0 name cfg r0 r r' H S) as (_ & _ & C & U & _).
  exact (set_symbolic junk name cfg r0 r r' upd S C U).
Qed.
Print Assumptions C86_shipped.

(* What the full claim meets in the code. After load_conf, the symbolic elements of a partly symbolic inertial, friction
   or elastic parameter cannot be set: the call is ignored. *)
Theorem C86_ignored_refuted junk name cfg r0 r upd : session name cfg r0 r r -> complete_links inertial_keys (numJoints r0) cfg ->
  exists t, t_load_conf junk (new_class r) (Some cfg) upd = Ok t /\
  forall s len v, In s par_tsetters -> In (ts_mem s, len) (par_sizes r0) -> ~ In (ts_mem s) compacted ->
  selected (flags r0 (ts_mem s)) < len -> List.length v = selected (flags r0 (ts_mem s)) -> ts_call s v t = t.
Proof. exact (set_ignored junk name cfg r0 r upd). Qed.
Print Assumptions C86_ignored_refuted.
(* In an object that has not loaded the configuration, no partly symbolic parameter can: vectors that are not as long as
   the whole parameter are ignored. *)
Theorem C86_fresh_refuted name cfg r0 r s len v : session name cfg r0 r r -> In s par_tsetters -> In (ts_mem s, len) (par_sizes r0) ->
  List.length v <> len -> ts_call s v (new_class r) = new_class r.
Proof. exact (set_fresh name cfg r0 r s len v). Qed.
Print Assumptions C86_fresh_refuted.
(* Nor does the whole parameter: it is taken, and its first elements are used as the symbolic ones. Here every element
   given equals that of the robot r', and the getter still answers something else. *)
Theorem C86_whole_refuted : exists name cfg r0 r r' v h, let t1 := t_set_par_Dl v (t_run h (new_class r)) in
  session name cfg r0 r r' /\ In ("par_Dl", List.length v) (par_sizes r0) /\
  (forall k len, In (k, len) (state_sizes r0) -> arg r' k = member t1 k) /\
  (forall i, i < List.length v -> param r0 r' "par_Dl" i = nth i v 0%R) /\
  (forall k len, In (k, len) (par_sizes r0) -> k <> "par_Dl" -> arg r' k = firstn (selected (flags r0 k)) (member t1 k)) /\
  Api.published r "dl" /\ t_get r t1 "dl" <> get r' "dl".
Proof.
  destruct (set_fresh_toy (PI / 2)) as (r & r' & H).
  exists "toy", (toy_cfg (PI / 2)), (toy0 (PI / 2)), r, r', [1; 2; 1; 2; 1; 2]%R, toy_calls. exact H.
Qed.
Print Assumptions C86_whole_refuted.

(* the tool of the ego arm, of which the translation is symbolic and the rotation is not *)
Example C86_met junk : exists cfg r0 r r' t s, In ("egoRightArm", cfg) (shipped (PI / 2)) /\ session "egoRightArm" cfg r0 r r' /\
  complete_links inertial_keys (numJoints r0) cfg /\
  (forall k len, In (k, len) (par_sizes r0) -> ~ In k compacted -> uniform (flags r0 k)) /\
  t_load_conf junk (new_class r) (Some cfg) true = Ok t /\ In s par_tsetters /\ ts_mem s = "par_Ln2EE" /\
  In ("par_Ln2EE", 6) (par_sizes r0) /\ selected (flags r0 "par_Ln2EE") = 3 /\
  (forall k' len, In (k', len) (state_sizes r0) -> member (ts_call s [1; 2; 3]%R t) k' = arg r' k') /\ arg r' "par_Ln2EE" = [1; 2; 3]%R /\
  (forall k' len, In (k', len) (par_sizes r0) -> k' <> "par_Ln2EE" -> arg r' k' = arg r k').
Proof. exact (ego_meets junk). Qed.
(* a robot with a partly symbolic friction vector *)
Example C86_partly_met : exists r, let r0 := toy0 (PI / 2) in session "toy" (toy_cfg (PI / 2)) r0 r r /\
  complete_links inertial_keys (numJoints r0) (toy_cfg (PI / 2)) /\ In ("par_Dl", 6) (par_sizes r0) /\ ~ In "par_Dl" compacted /\
  selected (flags r0 "par_Dl") < 6.
Proof.
  destruct (toy_built (PI / 2)) as [r Hr]. exists r. cbv zeta.
  split; [exact (fresh_session _ _ _ _ (toy_loads (PI / 2)) (toy_wf (PI / 2)) Hr)|]. split; [apply toy_complete|].
  split; [vm_compute; tauto|]. split; [cbn; intros [E|[E|[E|[E|[]]]]]; discriminate|]. vm_compute. repeat constructor.
Qed.
