(* C67, C68: getters of the generated class used from several threads, and the memory they read. *)
From Coq Require Import Reals String List Bool Arith Lia ZArith.
From Verif.Model Require Import Base SX Robot Yaml Build Template Threads.
From Verif.Spec Require Import Math Setup Config Kinematics Template Safe Sample Threads.
From Verif.Spec Require Api.
From Verif.Proofs Require Import Files TSafe TGet TToy HeaderToy Sample MainFiles Threads ThreadsMain.
From Verif.Proofs Require Api.
Import ListNotations.
Open Scope nat_scope.
Open Scope string_scope.

(* C67: for every schedule, every thread has so far received, in order, the answers it would have received alone. *)
Theorem C67_threads name cfg r0 r which progs objs g s k :
  robot_from_file name cfg false = Ok r0 -> well_formed r0 -> robot_from_file name cfg true = Ok r ->
  (forall j f, In (Ask f) (progs j) -> Api.published r f) -> disciplined which progs -> starting progs objs g ->
  exists a b, alone r (objs (which k)) (progs k) = (a ++ b)%list /\ Forall2 same_answer (got (threads (run_schedule r which s g) k)) a.
Proof.
  intros L W B A D. apply (interleaved r which progs objs (out_sizes name cfg r0 r r (fresh_session _ _ _ _ L W B)) A D).
Qed.
Print Assumptions C67_threads.
(* A thread that is scheduled often enough receives all of them, whatever the other threads do. *)
Theorem C67_completes name cfg r0 r which progs objs g k :
  robot_from_file name cfg false = Ok r0 -> well_formed r0 -> robot_from_file name cfg true = Ok r ->
  (forall j f, In (Ask f) (progs j) -> Api.published r f) -> disciplined which progs -> starting progs objs g ->
  exists n, forall s, n <= count_occ Nat.eq_dec s k ->
    Forall2 same_answer (got (threads (run_schedule r which s g) k)) (alone r (objs (which k)) (progs k)).
Proof.
  intros L W B A D. apply (completed r which progs objs (out_sizes name cfg r0 r r (fresh_session _ _ _ _ L W B)) A D).
Qed.
Print Assumptions C67_completes.
(* Alone, every getter answers: after calls h, in a program of getters and method calls that return normally. *)
Theorem C67_answers junk name cfg r0 r h t l :
  robot_from_file name cfg false = Ok r0 -> well_formed r0 -> robot_from_file name cfg true = Ok r ->
  (forall c, In c h -> matching (numJoints r0) cfg c) -> (forall c, In c (methods l) -> matching (numJoints r0) cfg c) ->
  (forall f, In f (getters l) -> Api.published r f) ->
  t_do_all junk h (new_class r) = Ok t -> (exists t', t_do_all junk (methods l) t = Ok t') ->
  map fst (alone r t (program junk l)) = getters l.
Proof. intros L W B. apply (all_answered name cfg r0 r r (fresh_session _ _ _ _ L W B)). Qed.
Print Assumptions C67_answers.

(* C68: a getter reads only elements its vectors hold and returns a matrix of the declared size, as long as the files
   loaded into the object select the symbolic parameters that the configuration of the class selects. *)
Theorem C68_inside_partial junk name cfg r0 r h t :
  robot_from_file name cfg false = Ok r0 -> well_formed r0 -> robot_from_file name cfg true = Ok r ->
  (forall c, In c h -> matching (numJoints r0) cfg c) -> t_do_all junk h (new_class r) = Ok t ->
  forall fo, In fo (get_functions r) -> exists m, t_get r t (fo_name fo) = Ok m /\ m_rows m = fo_rows fo /\ m_cols m = fo_cols fo.
Proof. intros L W B. apply (safe_history junk name cfg r0 r r h t (fresh_session _ _ _ _ L W B)). Qed.
Print Assumptions C68_inside_partial.
(* ... but load_conf of the robot's own kinematic table, in a file without flags, makes the getters of all joint
   transforms read past the end of the table, whenever the class takes at least one table entry as a parameter. *)
Theorem C68_refuted junk name cfg r0 r upd :
  robot_from_file name cfg false = Ok r0 -> well_formed r0 -> robot_from_file name cfg true = Ok r ->
  0 < Api.symbolic r0 "par_DHtable" ->
  exists t, t_load_conf junk (new_class r) (Some (plain_table (arg r0 "par_DHtable"))) upd = Ok t /\ reached r t /\
  forall i, 1 <= i <= numJoints r0 -> Api.published r ("T_" ++ to_string i) /\ t_get r t ("T_" ++ to_string i) = UB "read past the end of a member".
Proof. intros L W B. apply (plain_table_reads junk name cfg r0 r r upd (fresh_session _ _ _ _ L W B)). Qed.
Print Assumptions C68_refuted.

(* the configuration of the class is such a file *)
Theorem C68_own name cfg r0 upd : robot_from_file name cfg false = Ok r0 -> well_formed r0 -> matching (numJoints r0) cfg (CLoadConf (Some cfg) upd).
Proof. intros L W. exact (conj I (own_file name cfg r0 L W)). Qed.
Print Assumptions C68_own.

(* the robot of the examples: its class, an object that has loaded its configuration, and one that has been told a position *)
Lemma toy_object junk : let cfg := toy_cfg (PI / 2) in let r0 := toy0 (PI / 2) in exists r t,
  robot_from_file "toy" cfg false = Ok r0 /\ well_formed r0 /\ robot_from_file "toy" cfg true = Ok r /\ 0 < Api.symbolic r0 "par_DHtable" /\
  t_do_all junk [CLoadConf (Some cfg) true] (new_class r) = Ok t /\ Api.published r "T_1".
Proof.
  cbv zeta. destruct (toy_built (PI / 2)) as [r Hr]. pose proof (fresh_session _ _ _ _ (toy_loads (PI / 2)) (toy_wf (PI / 2)) Hr) as S.
  destruct (toy_loaded_object (PI / 2) junk) as (t & E & _). exists r, t.
  assert (Sy : 0 < Api.symbolic (toy0 (PI / 2)) "par_DHtable") by (vm_compute; repeat constructor).
  split; [apply toy_loads|]. split; [apply toy_wf|]. split; [exact Hr|]. split; [exact Sy|].
  split; [rewrite (new_class_eq _ _ _ _ _ S); exact E|].
  destruct (plain_table_reads junk _ _ _ _ _ true S Sy) as (t1 & _ & _ & P).
  assert (N : 1 <= 1 <= numJoints (toy0 (PI / 2))) by (vm_compute; repeat constructor). exact (proj1 (P 1 N)).
Qed.
Example C68_met junk : let cfg := toy_cfg (PI / 2) in let r0 := toy0 (PI / 2) in exists r t,
  robot_from_file "toy" cfg false = Ok r0 /\ well_formed r0 /\ robot_from_file "toy" cfg true = Ok r /\ 0 < Api.symbolic r0 "par_DHtable" /\
  let h := [CLoadConf (Some cfg) true] in
  (forall c, In c h -> matching (numJoints r0) cfg c) /\ t_do_all junk h (new_class r) = Ok t.
Proof.
  cbv zeta. destruct (toy_object junk) as (r & t & L & W & B & Sy & E & _). exists r, t. repeat (split; [assumption|]). split; [|exact E].
  intros c [<-|[]]. exact (C68_own _ _ _ true L W).
Qed.
(* threads 0 and 2 read object 0; thread 1 moves object 1 and then reads it *)
Definition toy_requests (k : nat) : list request :=
  match k with
  | 0 | 2 => [Getter "T_1"; Getter "T_1"]
  | 1 => [Getter "T_1"; Method (CSet (mkTS "q" t_n t_set_q) [1; 2; 3]%R); Getter "T_1"]
  | _ => []
  end.
Definition toy_progs (junk : nat -> R) (k : nat) : list item := program junk (toy_requests k).
Definition toy_which (k : nat) : nat := match k with 1 => 1 | _ => 0 end.
Example C67_met junk : exists r t g,
  robot_from_file "toy" (toy_cfg (PI / 2)) false = Ok (toy0 (PI / 2)) /\ well_formed (toy0 (PI / 2)) /\ robot_from_file "toy" (toy_cfg (PI / 2)) true = Ok r /\
  (forall j f, In (Ask f) (toy_progs junk j) -> Api.published r f) /\ disciplined toy_which (toy_progs junk) /\
  starting (toy_progs junk) (fun _ => t) g /\ map fst (alone r t (toy_progs junk 1)) = ["T_1"; "T_1"].
Proof.
  destruct (toy_object junk) as (r & t & L & W & B & Sy & E & P).
  exists r, t, (mkMemory (fun _ => t) (fun k => mkThread (toy_progs junk k) Between []) (fun _ _ _ => 1%R) (fun _ _ => 2%R)).
  split; [exact L|]. split; [exact W|]. split; [exact B|]. split; [|split; [|split; [split; reflexivity|]]].
  - intros j f H. apply asks_of in H. assert (f = "T_1") as ->; [|exact P].
    destruct j as [|[|[|j]]]; cbn [toy_requests getters flat_map app In] in H; intuition.
  - intros k k' N Ew c H. apply does_of in H. destruct k as [|[|[|k]]]; try (destruct H; reflexivity).
    destruct k' as [|[|k']]; [discriminate Ew|congruence|discriminate Ew].
  - unfold toy_progs. change ["T_1"; "T_1"] with (getters (toy_requests 1)).
    apply (C67_answers junk "toy" (toy_cfg (PI / 2)) (toy0 (PI / 2)) r [CLoadConf (Some (toy_cfg (PI / 2))) true] t _ L W B).
    + intros c [<-|[]]. exact (C68_own _ _ _ true L W).
    + intros c [<-|[]]. split; [left; reflexivity|exact I].
    + intros f [<-|[<-|[]]]; exact P.
    + exact E.
    + eexists. reflexivity.
Qed.
