(* C57, C58: the tools that write inertial parameter files. *)
From Coq Require Import Reals Lra Lia Arith List String Bool ZArith.
From Verif.Model Require Import Base Robot Yaml Build Bodies Template GenYaml.
From Verif.Spec Require Import Math State Config Values Bodies Template Sample GenYaml.
From Verif.Proofs Require Import TToy GenYaml.
Import ListNotations.
Open Scope nat_scope.
Open Scope string_scope.

(* C57: genInertial_files writes two files with the links of the configuration, in order: the same ten numbers in one,
   and in the other mass, first moment and inertia about the frame origin of the same body.
   Missing: configurations with friction (Dl_order > 0), and more links than joints. *)
Theorem C57_files_partial n cfg dyn : entry cfg "dynamics" = Some dyn -> no_friction cfg -> List.length (links_in cfg) = n -> readable_file cfg ->
  exists reg out, genInertial_files n (Some cfg) = Ok (Some (reg, out)) /\
    List.length (links_in reg) = n /\ List.length (links_in out) = n /\
    forall i k v, link_says link_keys cfg i k v -> link_says link_keys out i k v /\
      exists w, link_says reg_link_keys reg i k w /\ same_link (ten v) (ten w).
Proof. exact (gen_files n cfg dyn). Qed.
Print Assumptions C57_files_partial.
(* run on the file it has written, it writes the same files again *)
Theorem C57_again_partial n cfg dyn reg out : entry cfg "dynamics" = Some dyn -> no_friction cfg -> List.length (links_in cfg) = n -> readable_file cfg ->
  genInertial_files n (Some cfg) = Ok (Some (reg, out)) -> genInertial_files n (Some out) = Ok (Some (reg, out)).
Proof. exact (gen_again n cfg dyn reg out). Qed.
Print Assumptions C57_again_partial.
(* any object of the generated class loads the second file, and then holds the par_REG of the robot loaded from the
   configuration *)
Theorem C57_loaded_partial n cfg dyn reg out name r0 r t upd :
  entry cfg "dynamics" = Some dyn -> no_friction cfg -> List.length (links_in cfg) = n -> readable_file cfg ->
  (forall k nd, In (k, nd) (links_in cfg) -> readable_link nd) ->
  robot_from_file name cfg false = Ok r0 -> numJoints r0 = n -> genInertial_files n (Some cfg) = Ok (Some (reg, out)) ->
  reached r t -> numJoints r = n ->
  exists t1, t_load_par_REG t (Some reg) upd = Ok (t1, get_arg r0 "par_REG") /\ member t1 "par_REG" = get_arg r0 "par_REG".
Proof.
  intros Ed D L RD RL Er Hn E H Hr. destruct (reached_kept r t H) as [Hs _]. destruct (reached_n r t H) as [N _].
  exact (gen_robot n cfg dyn reg out name r0 Ed D L RD RL Er Hn E t upd Hs ltac:(congruence)).
Qed.
Print Assumptions C57_loaded_partial.
(* with at most one link per joint it ends normally whatever the file contains *)
Theorem C57_safe_partial n cfg : (forall dyn, entry cfg "dynamics" = Some dyn -> List.length (ychildren dyn) <= n) ->
  (forall z, entry cfg "Dl_order" = Some (YInt z) -> (0 <= z)%Z) ->
  exists o, genInertial_files n (Some cfg) = Ok o.
Proof. exact (gen_safe n cfg). Qed.
Print Assumptions C57_safe_partial.
(* a configuration with friction coefficients, accepted by the robot class, gives no files; a link too many is written
   past the end *)
Theorem C57_refuted :
  (exists cfg r0, robot_from_file "toy" cfg false = Ok r0 /\ genInertial_files (numJoints r0) (Some cfg) = Ok None) /\
  (exists n cfg m, readable_file cfg /\ no_friction cfg /\ genInertial_files n (Some cfg) = UB m).
Proof.
  split.
  - destruct (toy_no_files (PI / 2)) as [(r0 & E & N) F]. exists (toy_cfg (PI / 2)), r0. split; [exact E|]. rewrite N. exact F.
  - destruct (too_many_links (PI / 2)) as (m & E). destruct (plain_readable (PI / 2)) as (_ & D & _ & RD & _).
    exists 1, (plain_cfg (PI / 2)), m. auto.
Qed.
Print Assumptions C57_refuted.
Example C57_met : exists cfg dyn r0 t, entry cfg "dynamics" = Some dyn /\ no_friction cfg /\ List.length (links_in cfg) = 2 /\ readable_file cfg /\
  (forall k nd, In (k, nd) (links_in cfg) -> readable_link nd) /\ robot_from_file "plain" cfg false = Ok r0 /\ numJoints r0 = 2 /\ reached r0 t.
Proof.
  destruct (plain_readable (PI / 2)) as (_ & D & L & RD & RL). destruct (plain_loads (PI / 2)) as (r0 & E & N).
  exists (plain_cfg (PI / 2)). eexists. exists r0, (new_class r0). split; [reflexivity|]. split; [exact D|]. split; [exact L|]. split; [exact RD|].
  split; [exact RL|]. split; [exact E|]. split; [exact N|]. exists (fun _ => 0%R), []. split; [intros c []|reflexivity].
Qed.

(* C58: the converter turns entry i+1 of the URDF file into link i of the parameter files: same name and mass, centre of
   mass and inertia seen from the Denavit-Hartenberg frame. With the gripper the seventh link is the rigid union of
   link 7 and the hand. The regressor files describe the same links, each number perturbed by a factor; in the first of
   them no number is perturbed. scan reads three numbers from a text, noise is the source of random numbers.
   Missing: links with both roll and yaw, incomplete entries, loading the files. *)
Theorem C58_files_partial scan noise (gripper : bool) cfg (src : list (string * body)) : List.length src = (if gripper then 9 else 8) ->
  (forall i k b, nth_error src i = Some (k, b) -> plain_rpy b /\ exists nd, nth_error (ychildren cfg) i = Some (k, nd) /\ urdf_entry scan nd b) ->
  exists files dyn, gen_yaml_main scan noise gripper (Some cfg) = Ok files /\ mfind "inertial_DH_DYN.yaml" files = Some dyn /\ List.length dyn = 7 /\
    (forall i k b f, i < (if gripper then 6 else 7) -> nth_error src (S i) = Some (k, b) -> nth_error (dh_frames gripper) i = Some f ->
       exists nd v t, nth_error dyn i = Some (k, nd) /\ gives link_keys nd v /\ body_numbers t v /\ seen_from f b t) /\
    (gripper = true -> forall k7 b7 f7 kh bh fh, nth_error src 7 = Some (k7, b7) -> nth_error src 8 = Some (kh, bh) ->
       nth_error (dh_frames gripper) 6 = Some f7 -> nth_error (dh_frames gripper) 7 = Some fh -> (b_mass b7 + b_mass bh <> 0)%R ->
       exists nd v t t7 th, nth_error dyn 6 = Some (k7, nd) /\ gives link_keys nd v /\ body_numbers t v /\ seen_from f7 b7 t7 /\ seen_from fh bh th /\
         b_mass t = (b_mass t7 + b_mass th)%R /\ (forall a, a < 3 -> moment t a = (moment t7 a + moment th a)%R) /\
         (forall i j, i < 3 -> j < 3 -> inertia_origin t i j = (inertia_origin t7 i j + inertia_origin th i j)%R)) /\
    forall nm pct, In (nm, pct) reg_files -> exists reg, mfind nm files = Some reg /\ List.length reg = 7 /\
      forall i k nd v, nth_error dyn i = Some (k, nd) -> gives link_keys nd v ->
      exists nd' w e, nth_error reg i = Some (k, nd') /\ gives reg_link_keys nd' w /\
        same_link (fun c => (ten v c * (1 + e c))%R) (ten w) /\ (pct = 0 -> forall c, e c = 0%R).
Proof. exact (urdf_files scan noise gripper cfg src). Qed.
Print Assumptions C58_files_partial.
(* an entry without position shifts the links that follow, or makes the program read past the end; and the class the
   numbers are for ignores the file *)
Theorem C58_refuted noise :
  (exists scan cfg nd0 files dyn nd, nth_error (ychildren cfg) 1 = Some ("link1", nd0) /\
     gen_yaml_main scan noise false (Some cfg) = Ok files /\ mfind "inertial_DH_DYN.yaml" files = Some dyn /\
     List.length dyn = 7 /\ nth_error dyn 0 = Some ("link2", nd)) /\
  (exists scan cfg m, List.length (ychildren cfg) = 9 /\ gen_yaml_main scan noise true (Some cfg) = UB m) /\
  (forall t reg upd, ~ In "dynamics" (map fst reg) -> t_load_par_REG t (Some (YMap reg)) upd = Ok (t, member t "par_REG")).
Proof.
  split; [|split].
  - destruct (urdf_shift noise) as (files & dyn & nd & A & B & C & D). eexists sample_scan, (sample_urdf "link1"), _, files, dyn, nd.
    split; [reflexivity|]. auto.
  - destruct (urdf_short noise) as (m & E). exists sample_scan, (sample_urdf "link1"), m. split; [reflexivity|exact E].
  - exact urdf_not_loaded.
Qed.
Print Assumptions C58_refuted.
(* an entry whose mass cannot be read ends the reading: whatever follows it, the program reads past the end of its table *)
Theorem C58_stops scan noise (gripper : bool) cfg i k nd : nth_error (ychildren cfg) i = Some (k, nd) -> i < (if gripper then 9 else 8) ->
  (forall m x, entry nd "mass" = Some m -> ~ reads_as m x) -> exists e, gen_yaml_main scan noise gripper (Some cfg) = UB e.
Proof. exact (urdf_stops scan noise gripper cfg i k nd). Qed.
Print Assumptions C58_stops.
Example C58_stops_met : exists cfg nd, List.length (ychildren cfg) = 10 /\ nth_error (ychildren cfg) 0 = Some ("unknown", nd) /\
  (forall m x, entry nd "mass" = Some m -> ~ reads_as m x) /\
  (forall i k b, nth_error (map (fun k => (k, sample_body 1)) sample_names) i = Some (k, b) ->
     exists nd, nth_error (ychildren cfg) (S i) = Some (k, nd) /\ urdf_entry sample_scan nd b).
Proof.
  exists (YMap (("unknown", YMap [("mass", YStr "heavy")]) :: ychildren (sample_urdf ""))), (YMap [("mass", YStr "heavy")]).
  split; [reflexivity|]. split; [reflexivity|]. split.
  - intros m x E H. cbn in E. injection E as <-. inversion H.
  - intros i k b E. destruct (sample_src i k b E) as (_ & nd & A & B). exists nd. split; [exact A|exact B].
Qed.
Example C58_met : exists scan cfg src, List.length src = 9 /\
  (forall i k b, nth_error src i = Some (k, b) -> plain_rpy b /\ exists nd, nth_error (ychildren cfg) i = Some (k, nd) /\ urdf_entry scan nd b) /\
  (exists k7 b7 kh bh, nth_error src 7 = Some (k7, b7) /\ nth_error src 8 = Some (kh, bh) /\ (b_mass b7 + b_mass bh <> 0)%R).
Proof.
  exists sample_scan, (sample_urdf ""), (map (fun k => (k, sample_body 1)) sample_names). split; [reflexivity|]. split; [exact sample_src|].
  eexists _, _, _, _. split; [reflexivity|]. split; [reflexivity|]. simpl. lra.
Qed.
