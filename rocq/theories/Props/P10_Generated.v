(* C21, C30, C43, C44, C45, C49: objects of the generated class. *)
From Coq Require Import Reals Lra Lia Arith List String Bool ZArith.
From Verif.Model Require Import Base Expr SX Robot Yaml Inertia Build Template.
From Verif.Spec Require Import Math Setup Kinematics State Config Template Sample.
From Verif.Spec Require Api.
From Verif.Proofs Require Import State StateSess StateToy TSetters TFiles TSync TSave TLoad TGet TToy Sample Sample1.
Import ListNotations.
Open Scope nat_scope.
Open Scope string_scope.

(* C43: on every reachable object, each plain setter stores a vector of the right length, touching nothing else, and
   otherwise does nothing. The right length is the number of joints, of elastic joints, six for the wrench, and for a
   parameter the length of the stored one. *)
Theorem C43_setters r t s v : reached r t -> In s tsetters ->
  (List.length v = ts_len s t -> member (ts_call s v t) (ts_mem s) = v /\ t_changes [ts_mem s] t (ts_call s v t)) /\
  (List.length v <> ts_len s t -> ts_call s v t = t) /\
  (In s joint_tsetters -> ts_len s t = numJoints r) /\ (In s motor_tsetters -> ts_len s t = numElasticJoints r) /\
  (ts_mem s = "w" -> ts_len s t = 6).
Proof.
  intros H Hs. destruct (reached_n r t H) as [N E]. split; [exact (tset_stores s v t Hs)|]. split; [exact (tset_refuses s v t Hs)|].
  split; [|split].
  - intros Hj. rewrite <- N. cbn [joint_tsetters In] in Hj. decompose [or] Hj; try contradiction; subst s; reflexivity.
  - intros Hj. rewrite <- E. cbn [motor_tsetters In] in Hj. decompose [or] Hj; try contradiction; subst s; reflexivity.
  - intros Hw. cbn [tsetters state_tsetters joint_tsetters motor_tsetters par_tsetters app In] in Hs.
    decompose [or] Hs; try contradiction; subst s; cbn in Hw; try discriminate; reflexivity.
Qed.
Print Assumptions C43_setters.
(* over a history of such calls, each member is the last vector of the right length given to it *)
Theorem C43_history r t h : reached r t -> (forall c, In c h -> In (fst c) tsetters) ->
  same_class t (t_run h t) /\ t_symb (t_run h t) = t_symb t /\ forall k, member (t_run h t) k = t_last t k h (member t k).
Proof. intros H Hh. destruct (reached_kept r t H) as [Hs _]. destruct (t_run_last h Hh t Hs) as (_ & A & B & C). auto. Qed.
Print Assumptions C43_history.
(* setArguments takes all four vectors or none *)
Theorem C43_arguments a b c d t :
  let right := List.length a = t_n t /\ List.length b = t_n t /\ List.length c = t_n t /\ List.length d = t_n t in
  (right -> let t1 := t_setArguments a b c d t in
     member t1 "q" = a /\ member t1 "dq" = b /\ member t1 "dqr" = c /\ member t1 "ddqr" = d /\ t_changes ["q"; "dq"; "dqr"; "ddqr"] t t1) /\
  (~ right -> t_setArguments a b c d t = t).
Proof. exact (tset_args a b c d t). Qed.
Print Assumptions C43_arguments.
(* the kinematic table, given as a column *)
Theorem C43_table_partial cols v t :
  (List.length v = now "par_DHtable" t -> cols = 1 ->
     exists t1, t_set_par_DHtable cols v t = Ok t1 /\ member t1 "par_DHtable" = v /\ t_changes ["par_DHtable"] t t1) /\
  (List.length v <> now "par_DHtable" t -> t_set_par_DHtable cols v t = Ok t).
Proof. exact (tset_DH cols v t). Qed.
Print Assumptions C43_table_partial.
(* the inertial vectors. Missing: a vector of the wrong length is ignored only if no conversion is asked for or the two
   descriptions already agree *)
Theorem C43_inertial_partial r t v upd : reached r t ->
  (exists t1, t_set_par_DYN v upd t = Ok t1 /\ t_changes ["par_DYN"; "par_REG"] t t1 /\
     member t1 "par_DYN" = (if Nat.eqb (List.length v) (10 * numJoints r) then v else member t "par_DYN") /\
     (upd = true -> t_sync t1) /\ (upd = false -> member t1 "par_REG" = member t "par_REG") /\
     (List.length v <> 10 * numJoints r -> upd = false \/ t_sync t -> forall k, member t1 k = member t k)) /\
  (exists t1, t_set_par_REG v upd t = Ok t1 /\ t_changes ["par_DYN"; "par_REG"] t t1 /\
     member t1 "par_REG" = (if Nat.eqb (List.length v) (10 * numJoints r) then v else member t "par_REG") /\
     (upd = true -> massive (numJoints r) (member t1 "par_REG") -> t_sync t1) /\ (upd = false -> member t1 "par_DYN" = member t "par_DYN") /\
     (List.length v <> 10 * numJoints r -> upd = false \/ t_sync t /\ massive (numJoints r) (member t "par_REG") ->
        forall k, member t1 k = member t k)).
Proof.
  intros H. destruct (reached_kept r t H) as [Hs _]. destruct (reached_n r t H) as [N _]. rewrite <- N. split.
  - destruct (tset_DYN v upd t Hs) as (t1 & A & _ & B). exists t1. auto.
  - destruct (tset_REG v upd t Hs) as (t1 & A & _ & B). exists t1. auto.
Qed.
Print Assumptions C43_inertial_partial.
(* a rejected vector still rewrites the other description, and a matrix of the right number of elements is not rejected *)
Theorem C43_refuted r : 1 <= numJoints r ->
  (exists t v t1, reached r t /\ List.length v <> List.length (member t "par_DYN") /\
     t_set_par_DYN v true t = Ok t1 /\ member t1 "par_REG" <> member t "par_REG") /\
  (exists t v cols m, reached r t /\ List.length v = now "par_DHtable" t /\ t_set_par_DHtable cols v t = UB m).
Proof. intros H. split; [exact (DYN_overwrites r H)|exact (DHtable_asserts r H)]. Qed.
Print Assumptions C43_refuted.
Example C43_met : exists t, reached (toy0 (PI / 2)) t /\ t_n t = 3 /\ massive 3 (member t "par_DYN") /\ t_sync t.
Proof.
  destruct (toy_loaded_object (PI / 2) (fun _ => 0%R)) as (t & E & Hc & N & M & _). exists t. split.
  - exists (fun _ => 0%R), [CLoadConf (Some (toy_cfg (PI / 2))) true]. split; [intros c [<-|[]]; exact I|exact E].
  - split; [exact N|]. split; [exact M|]. exact (history_sync _ _ _ Hc t E).
Qed.

(* C21: the conversions of the generated class are those of the robot class, and undo each other *)
Theorem C21_generated_REG r t r2 : reached r t -> numJoints r2 = numJoints r ->
  get_arg r2 "par_DYN" = member t "par_DYN" -> List.length (get_arg r2 "par_REG") = 10 * numJoints r2 ->
  exists r3 t1, update_inertial_REG r2 = Ok r3 /\ t_update_REG t = Ok t1 /\ get_arg r3 "par_REG" = member t1 "par_REG" /\
    t_changes ["par_REG"] t t1 /\ t_sync t1.
Proof. exact (same_to_REG r t r2). Qed.
Print Assumptions C21_generated_REG.
Theorem C21_generated_DYN r t r2 : reached r t -> numJoints r2 = numJoints r ->
  get_arg r2 "par_REG" = member t "par_REG" -> List.length (get_arg r2 "par_DYN") = 10 * numJoints r2 -> massive (numJoints r) (member t "par_REG") ->
  exists r3 t1, update_inertial_DYN r2 = Ok r3 /\ t_update_DYN t = Ok t1 /\ get_arg r3 "par_DYN" = member t1 "par_DYN" /\
    t_changes ["par_DYN"] t t1 /\ t_sync t1.
Proof. exact (same_to_DYN r t r2). Qed.
Print Assumptions C21_generated_DYN.
Theorem C21_generated_round_trip r t : reached r t ->
  (massive (numJoints r) (member t "par_DYN") -> exists t1 t2, t_update_REG t = Ok t1 /\ t_update_DYN t1 = Ok t2 /\ member t2 "par_DYN" = member t "par_DYN") /\
  (massive (numJoints r) (member t "par_REG") -> exists t1 t2, t_update_DYN t = Ok t1 /\ t_update_REG t1 = Ok t2 /\ member t2 "par_REG" = member t "par_REG").
Proof. exact (t_round_trip r t). Qed.
Print Assumptions C21_generated_round_trip.
Example C21_generated_met : exists t, reached (toy0 (PI / 2)) t /\ massive (numJoints (toy0 (PI / 2))) (member t "par_DYN") /\
  massive (numJoints (toy0 (PI / 2))) (member t "par_REG").
Proof.
  destruct (toy_loaded_object (PI / 2) (fun _ => 0%R)) as (t & E & Hc & N & M & M2). exists t. split.
  - exists (fun _ => 0%R), [CLoadConf (Some (toy_cfg (PI / 2))) true]. split; [intros c [<-|[]]; exact I|exact E].
  - rewrite (proj1 (proj2 (proj2 (toy_lengths (PI / 2))))). auto.
Qed.

(* C30: the two descriptions of the generated class agree after every history of careful calls ... *)
Theorem C30_generated_partial junk r h t : (forall c, In c h -> careful (numJoints r) c) -> t_do_all junk h (new_class r) = Ok t -> t_sync t.
Proof. intros H. exact (history_sync junk r h H t). Qed.
Print Assumptions C30_generated_partial.
(* ... but a configuration file with an incomplete link leaves them apart, even when the update is asked for *)
Theorem C30_generated_refuted junk r : 2 <= numJoints r ->
  exists file t, t_load_conf junk (new_class r) (Some file) true = Ok t /\ ~ t_sync t.
Proof. intros H. exists half_file. exact (load_conf_half junk r H). Qed.
Print Assumptions C30_generated_refuted.
Example C30_generated_met : exists h t, h <> [] /\ (forall c, In c h -> careful (numJoints (toy0 (PI / 2))) c) /\
  t_do_all (fun _ => 0%R) h (new_class (toy0 (PI / 2))) = Ok t /\ massive 3 (member t "par_DYN").
Proof.
  destruct (toy_loaded_object (PI / 2) (fun _ => 0%R)) as (t & E & Hc & _ & M & _).
  exists [CLoadConf (Some (toy_cfg (PI / 2))) true], t. split; [discriminate|]. auto.
Qed.

(* C44: inertial parameters survive a save and a load, from any reachable object into any other of the same class *)
Theorem C44_REG r t t2 upd : reached r t -> reached r t2 ->
  exists file t3, t_save_par_REG t = Ok file /\ t_load_par_REG t2 (Some file) upd = Ok (t3, member t "par_REG") /\
    member t3 "par_REG" = member t "par_REG" /\ t_changes ["par_DYN"; "par_REG"] t2 t3 /\
    (upd = false -> member t3 "par_DYN" = member t2 "par_DYN") /\
    (upd = true -> massive (numJoints r) (member t "par_REG") -> t_sync t3).
Proof.
  intros H H2. destruct (reached_kept r t H) as [Hs _]. destruct (reached_kept r t2 H2) as [Hs2 _].
  destruct (reached_n r t H) as [N _]. destruct (reached_n r t2 H2) as [N2 _]. rewrite <- N.
  apply save_REG_load; auto. congruence.
Qed.
Print Assumptions C44_REG.
Theorem C44_DYN junk r t t2 upd : reached r t -> reached r t2 ->
  exists file t3, t_save_par_DYN t = Ok file /\ t_load_conf junk t2 (Some file) upd = Ok t3 /\
    member t3 "par_DYN" = member t "par_DYN" /\ member t3 "par_Dl" = member t "par_Dl" /\
    t_changes ["par_DYN"; "par_Dl"; "par_REG"] t2 t3 /\
    (upd = false -> member t3 "par_REG" = member t2 "par_REG") /\ (upd = true -> t_sync t3).
Proof.
  intros H H2. destruct (reached_kept r t H) as [Hs _]. destruct (reached_kept r t2 H2) as [Hs2 _].
  destruct (reached_n r t H) as [N _]. destruct (reached_n r t2 H2) as [N2 _].
  apply save_DYN_load; auto; [congruence|]. now rewrite (reached_Dl r t H), (reached_Dl r t2 H2).
Qed.
Print Assumptions C44_DYN.
Example C44_met : exists t t2, reached (toy0 (PI / 2)) t /\ reached (toy0 (PI / 2)) t2 /\ member t "par_DYN" <> member t2 "par_DYN".
Proof.
  destruct (toy_loaded_object (PI / 2) (fun _ => 0%R)) as (t & E & _ & N & M & _). exists t, (new_class (toy0 (PI / 2))). split.
  - exists (fun _ => 0%R), [CLoadConf (Some (toy_cfg (PI / 2))) true]. split; [intros c [<-|[]]; exact I|exact E].
  - split; [exists (fun _ => 0%R), []; split; [intros c []|reflexivity]|]. intros Q. apply (M 0); [lia|]. rewrite Q.
    rewrite (new_member _ "par_DYN" (10 * 3)); [reflexivity|]. cbn [member_sizes In]. do 13 right. left. reflexivity.
Qed.

(* C49: the regressor parameters saved by the robot class are read back by the generated class *)
Theorem C49_robot_to_generated r r1 t2 upd : numJoints r1 = numJoints r -> List.length (get_arg r1 "par_REG") = 10 * numJoints r1 -> reached r t2 ->
  exists file t3, save_par_REG r1 = Ok file /\ t_load_par_REG t2 (Some file) upd = Ok (t3, get_arg r1 "par_REG") /\
    member t3 "par_REG" = get_arg r1 "par_REG" /\ t_changes ["par_DYN"; "par_REG"] t2 t3 /\
    (upd = false -> member t3 "par_DYN" = member t2 "par_DYN") /\
    (upd = true -> massive (numJoints r1) (get_arg r1 "par_REG") -> t_sync t3).
Proof.
  intros En L H. destruct (reached_kept r t2 H) as [Hs2 _]. destruct (reached_n r t2 H) as [N2 _].
  apply robot_REG_load; auto. congruence.
Qed.
Print Assumptions C49_robot_to_generated.
Example C49_met : let r1 := toy0 (PI / 2) in exists t2, List.length (get_arg r1 "par_REG") = 10 * numJoints r1 /\ reached r1 t2 /\
  massive (numJoints r1) (get_arg r1 "par_REG").
Proof.
  cbv zeta. destruct (toy_lengths (PI / 2)) as (_ & A & _ & _ & B). exists (new_class (toy0 (PI / 2))). split; [exact A|]. split; [|exact B].
  exists (fun _ => 0%R), []. split; [intros c []|reflexivity].
Qed.

(* C45: a getter of the generated class returns what the robot returns when, for every argument, the robot holds as many
   leading elements of the member as the robot's own vector has elements *)
Theorem C45_getters name cfg r0 r r' t : session name cfg r0 r r' -> reached r t ->
  (forall k len, In (k, len) (state_sizes r0) -> arg r' k = member t k) ->
  (forall k len, In (k, len) (par_sizes r0) -> arg r' k = firstn (selected (flags r0 k)) (member t k)) ->
  forall nm, Api.published r nm -> t_get r t nm = get r' nm.
Proof. intros S H. destruct (reached_kept r t H) as [Hs Hc]. exact (getter_reads name cfg r0 r r' t S Hs Hc). Qed.
Print Assumptions C45_getters.
(* After load_conf of the configuration the class was generated from: the same answers as the robot, whatever state is set
   in both, and whatever parameters are then set to the same values in both. Missing: inertial, friction and elastic
   parameters that are only partly symbolic, and configurations whose link entries lack numbers. *)
Theorem C45_agrees_partial junk name cfg r0 r r' upd : session name cfg r0 r r' -> complete_links inertial_keys (numJoints r0) cfg ->
  (forall k len, In (k, len) (par_sizes r0) -> ~ In k compacted -> uniform (flags r0 k)) ->
  exists t, t_load_conf junk (new_class r) (Some cfg) upd = Ok t /\
  forall h, (forall c, In c h -> In (fst c) tsetters) -> let t1 := t_run h t in
  (forall k len, In (k, len) (state_sizes r0) -> member t1 k = arg r' k) ->
  (forall k len, In (k, len) (par_sizes r0) -> (member t1 k = member t k /\ arg r' k = arg r k) \/ member t1 k = arg r' k) ->
  forall nm, Api.published r nm -> t_get r t1 nm = get r' nm.
Proof. exact (load_then_get junk name cfg r0 r r' upd). Qed.
Print Assumptions C45_agrees_partial.
Theorem C45_refuted junk : exists name cfg r0 r r' t h, let t1 := t_run h t in
  session name cfg r0 r r' /\ complete_links inertial_keys (numJoints r0) cfg /\
  t_load_conf junk (new_class r) (Some cfg) true = Ok t /\ (forall c, In c h -> In (fst c) state_tsetters) /\
  (forall k len, In (k, len) (state_sizes r0) -> member t1 k = arg r' k) /\
  (forall k len, In (k, len) (par_sizes r0) -> arg r' k = arg r k) /\
  Api.published r "dl" /\ t_get r t1 "dl" <> get r' "dl".
Proof.
  destruct (load_partly_symbolic (PI / 2) junk) as (r & r' & t & H).
  exists "toy", (toy_cfg (PI / 2)), (toy0 (PI / 2)), r, r', t, toy_calls. exact H.
Qed.
Print Assumptions C45_refuted.
Example C45_met junk : exists r r' t h, let r0 := toy0_flags 1 (PI / 2) in let cfg := resymb 1 (toy_cfg (PI / 2)) in
  session "toy" cfg r0 r r' /\ complete_links inertial_keys (numJoints r0) cfg /\
  (forall k len, In (k, len) (par_sizes r0) -> ~ In k compacted -> uniform (flags r0 k)) /\
  t_load_conf junk (new_class r) (Some cfg) true = Ok t /\ (forall c, In c h -> In (fst c) tsetters) /\
  (forall k len, In (k, len) (state_sizes r0) -> member (t_run h t) k = arg r' k) /\
  (forall k len, In (k, len) (par_sizes r0) -> member (t_run h t) k = member t k /\ arg r' k = arg r k) /\
  selected (flags r0 "par_DYN") = 30 /\ Api.published r "M".
Proof. destruct (toy1_meets (PI / 2) junk) as (r & r' & t & H). exists r, r', t, toy_calls. exact H. Qed.
