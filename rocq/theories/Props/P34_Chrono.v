(* C87: the programs that time the functions. *)
From Coq Require Import Reals List String Arith ZArith Bool Lia.
From Verif.Model Require Import Base Robot Yaml Build Template Chrono.
From Verif.Spec Require Import Math Setup State Template Sample Shipped Chrono.
From Verif.Proofs Require Import Chrono.
From Verif.Proofs Require Shipped TGet TToy Sample MainFiles.
Import ListNotations.
Open Scope nat_scope.
Open Scope string_scope.

(* C87: whatever files it is given that load, and whatever a clock that does not go back shows, the timing program of the
   library terminates normally and prints for each robot and each of the seven functions the time of the fastest of its n
   calls. Missing: functions of which no call takes less than a second, see below. *)
Theorem C87_library_partial clock n vec files : steady clock -> (forall k, List.length (vec k) = k) ->
  (forall name cfg, In (name, cfg) files -> exists r0 r, session name cfg r0 r r) ->
  exists log, chrono_main clock n vec 0 files = Ok log /\ map fst log = map fst files /\
  forall k name l, nth_error log k = Some (name, l) ->
  exists created times, l = ("robot created in", created) :: times /\ reports (fun _ => True) n clock ((4 + 14 * n) * k + 4) times.
Proof. intros St Hv Hf. exact (chrono_main_ok clock n vec files St Hv Hf 0). Qed.
Print Assumptions C87_library_partial.
(* the files the program names *)
Theorem C87_files h files clock n vec : steady clock -> (forall k, List.length (vec k) = k) ->
  map fst files = ["R3"; "R5"; "R7"; "R9"] -> (forall f, In f files -> In f (shipped h)) ->
  exists log, chrono_main clock n vec 0 files = Ok log /\ map fst log = ["R3"; "R5"; "R7"; "R9"].
Proof.
  intros St Hv Hn Hf. destruct (chrono_main_ok clock n vec files St Hv) with (i := 0) as (log & E & F & _).
  - intros name cfg Hi. apply (Shipped.shipped_session h name cfg (Hf _ Hi)).
    assert (N : In name (map fst files)) by (apply in_map_iff; exists (name, cfg); auto). rewrite Hn in N.
    unfold outdated. cbn [In] in *. intros O. decompose [or] N; try contradiction; subst name; decompose [or] O; try contradiction; discriminate.
  - exists log. split; [exact E|]. now rewrite F.
Qed.
Print Assumptions C87_files.
(* the same for the generated class, whose program leaves out calls that took no time at all *)
Theorem C87_generated_partial junk clock n vec name cfg r0 r : session name cfg r0 r r -> complete_links inertial_keys (numJoints r0) cfg ->
  steady clock -> exists l, generated_chrono junk clock n vec r (Some cfg) = Ok l /\ reports (fun d => (0 < d)%Z) n clock 2 l.
Proof. exact (generated_chrono_ok junk clock n vec name cfg r0 r). Qed.
Print Assumptions C87_generated_partial.

(* a report means that the functions were called: when the program ends normally, whatever the files and the clock, each
   of the seven functions answers on each robot, in the state the program sets *)
Theorem C87_called clock n vec files log : chrono_main clock n vec 0 files = Ok log -> 0 < n -> forall name cfg, In (name, cfg) files ->
  exists r s1 c1 s2 c2 s3 c3 s c4, robot_from_file name cfg true = Ok r /\ let v := vec (numJoints r) in
  set_q r v = Ok (s1, c1) /\ set_dq s1 v = Ok (s2, c2) /\ set_dqr s2 v = Ok (s3, c3) /\ set_ddqr s3 v = Ok (s, c4) /\
  forall nm, In nm ["T_0_ee"; "J_ee"; "M"; "C"; "C_std"; "G"; "Yr"] -> exists y, get s nm = Ok y.
Proof. exact (main_called clock n vec files 0 log). Qed.
Print Assumptions C87_called.
Theorem C87_generated_called junk clock n vec r conf l : generated_chrono junk clock n vec r conf = Ok l -> 0 < n ->
  exists t, t_load_conf junk (new_class r) conf true = Ok t /\ let v := vec (t_n t) in
  forall nm, In nm ["T_0_ee"; "J_ee"; "M"; "C"; "C_std"; "G"; "Yr"] -> exists y, t_get r (t_setArguments v v v v t) nm = Ok y.
Proof. exact (generated_called junk clock n vec r conf l). Qed.
Print Assumptions C87_generated_called.

(* A function that takes ten seconds is reported with the same time as one that takes one second. *)
Theorem C87_slow_refuted n vec name cfg r0 r : session name cfg r0 r r -> (forall k, List.length (vec k) = k) ->
  let clock := fun i => (10 ^ 10 * Z.of_nat i)%Z in steady clock /\ (forall i j, took clock i j = 10 ^ 10)%Z /\
  exists created times, chrono_main clock n vec 0 [(name, cfg)] = Ok [(name, ("robot created in", created) :: times)] /\
  map fst times = labels /\ forall lbl m, In (lbl, m) times -> m = 999999999%Z.
Proof.
  intros S Hv clock. assert (St : steady clock) by (intros i; unfold clock; lia).
  assert (T : forall i j, took clock i j = (10 ^ 10)%Z) by (intros i j; unfold took, clock; lia).
  split; [exact St|]. split; [exact T|].
  destruct (chrono_main_ok clock n vec [(name, cfg)] St Hv) with (i := 0) as (log & E & F & G).
  { intros nm c [H|[]]. injection H as <- <-. exists r0, r. exact S. }
  destruct log as [|[nm l] [|]]; try discriminate F. cbn [map fst] in F. injection F as ->.
  destruct (G 0 name l eq_refl) as (c & times & -> & R1 & R2). exists c, times. split; [exact E|]. split; [exact R1|].
  intros lbl m Hi. apply In_nth_error in Hi. destruct Hi as [k Hk]. apply (R2 k lbl m Hk). intros j _ _. rewrite T. unfold second. lia.
Qed.
Print Assumptions C87_slow_refuted.
(* With a clock too coarse to see a call, the program of the generated class reports a second for each function. *)
Theorem C87_coarse_refuted junk n vec name cfg r0 r : session name cfg r0 r r -> complete_links inertial_keys (numJoints r0) cfg ->
  exists l, generated_chrono junk (fun _ => 0%Z) n vec r (Some cfg) = Ok l /\ map fst l = labels /\ forall lbl m, In (lbl, m) l -> m = 999999999%Z.
Proof.
  intros S Hc. destruct (generated_chrono_ok junk (fun _ => 0%Z) n vec name cfg r0 r S Hc) as (l & E & R1 & R2); [intros i; lia|].
  exists l. split; [exact E|]. split; [exact R1|]. intros lbl m Hi. apply In_nth_error in Hi. destruct Hi as [k Hk]. apply (R2 k lbl m Hk).
  intros j _ Hp. unfold took in Hp. lia.
Qed.
Print Assumptions C87_coarse_refuted.

(* a clock that goes on by the square of the number of readings, and the robots the program names *)
Example C87_met : let clock := fun i => (Z.of_nat i * Z.of_nat i)%Z in
  let files := [("R3", cfg_R3 (PI / 2)); ("R5", cfg_R5 (PI / 2)); ("R7", cfg_R7 (PI / 2)); ("R9", cfg_R9 (PI / 2))] in
  steady clock /\ (forall k, List.length (repeat 1%R k) = k) /\ map fst files = ["R3"; "R5"; "R7"; "R9"] /\ (forall f, In f files -> In f (shipped (PI / 2))) /\
  (exists j, j < 100 /\ True /\ (took clock 4 j <= second)%Z) /\ took clock 4 0 = 9%Z.
Proof.
  cbv zeta. split; [intros i; nia|]. split; [intros k; apply repeat_length|]. split; [reflexivity|]. split.
  - intros f Hf. unfold shipped. cbn [In] in Hf. decompose [or] Hf; try contradiction; subst f; cbn [In]; tauto.
  - split; [|reflexivity]. exists 0. split; [lia|]. split; [exact I|]. vm_compute. discriminate.
Qed.
Example C87_generated_met : exists r, let r0 := toy0 (PI / 2) in session "toy" (toy_cfg (PI / 2)) r0 r r /\
  complete_links inertial_keys (numJoints r0) (toy_cfg (PI / 2)).
Proof.
  destruct (Sample.toy_built (PI / 2)) as [r Hr]. exists r. cbv zeta.
  split; [exact (MainFiles.fresh_session _ _ _ _ (Sample.toy_loads (PI / 2)) (Sample.toy_wf (PI / 2)) Hr)|apply TGet.toy_complete].
Qed.
