(* C59 - C62: the parameter file of the generated class, and the files of the generator program. *)
From Coq Require Import Reals Lra Lia Arith List String Ascii Bool ZArith.
From Verif.Model Require Import Base SX Robot Yaml Build Text Template TemplateText Main.
From Verif.Spec Require Import Math State Api Setup Config Values Template Text Sample Generated Runs.
From Verif.Proofs Require Import TToy TSavePar Text Segments GenText GenFiles MainGen MainFiles MainMore Sample Header Names HeaderToy.
From Verif.Props Require Import P10_Generated.
Import ListNotations.
Open Scope nat_scope.
Open Scope string_scope.

(* C59: the file written by save_par of the generated class holds its eleven parameter members, each as a list of numbers;
   the seven whose key is the name of the argument are restored exactly by load_par of the robot. *)
Theorem C59_contents t :
  (forall k, In k ["par_DYN"; "par_REG"; "par_K"; "par_Dl"; "par_D"; "par_Dm"; "par_Mm"] ->
     exists y, entry (t_save_par t) k = Some y /\ as_vector as_double y = Some (member t k)) /\
  (forall k, In k ["DHtable"; "world2L0"; "Ln2EE"; "gravity"] ->
     exists y, entry (t_save_par t) k = Some y /\ as_vector as_double y = Some (member t ("par_" ++ k))) /\
  (forall k y, entry (t_save_par t) k = Some y ->
     In k ["par_DYN"; "par_REG"; "par_K"; "par_Dl"; "par_D"; "par_Dm"; "par_Mm"; "DHtable"; "world2L0"; "Ln2EE"; "gravity"]).
Proof.
  split; [|split].
  - intros k H. cbn [In] in H. repeat destruct H as [<-|H]; try destruct H; (eexists; split; [reflexivity|apply seq_numbers]).
  - intros k H. cbn [In] in H. repeat destruct H as [<-|H]; try destruct H; (eexists; split; [reflexivity|apply seq_numbers]).
  - intros k y H. rewrite save_par_entries in H. unfold short_keys, kept_keys in H. cbn [app map mfind] in H.
    repeat match type of H with context [String.eqb k ?x] => destruct (String.eqb_spec k x); [subst; cbn [In]; tauto|] end. discriminate H.
Qed.
Print Assumptions C59_contents.
(* Missing: the four kinematic arguments, which are written under names that load_par does not know (C59_refuted). *)
Theorem C59_loads_partial t r sel : sel <> [] -> incl sel ["par_DYN"; "par_REG"; "par_K"; "par_Dl"; "par_D"; "par_Dm"; "par_Mm"] ->
  (forall k, In k sel -> List.length (get_arg r k) = List.length (member t k)) ->
  exists r1, load_par r (t_save_par t) sel = Ok (r1, 1) /\ r1 = with_args r (args r1) /\
    forall k, (In k sel -> get_arg r1 k = member t k) /\ (~ In k sel -> get_arg r1 k = get_arg r k).
Proof. exact (saved_loads t r sel). Qed.
Print Assumptions C59_loads_partial.
(* A class generated for a robot saves its parameters; the robot cannot load the file as a whole, and does not find the
   kinematic arguments in it. *)
Theorem C59_refuted : exists r t, reached r t /\
  (forall k, In k ["par_DHtable"; "par_world2L0"; "par_Ln2EE"; "par_gravity"] ->
     List.length (get_arg r k) = List.length (member t k) /\ load_par r (t_save_par t) [k] = Ok (r, 0)) /\
  load_par r (t_save_par t) [] = Throw "casadi: index out of range".
Proof.
  pose proof (toy_save_par (PI / 2)) as H. cbv zeta in H. destruct H as (A & B & C & D & _).
  exists (toy0 (PI / 2)), (new_class (toy0 (PI / 2))). split; [exact A|]. split; [|now apply whole_raises].
  intros k Hk. split; [|now apply short_not_found]. apply D. apply in_app_iff. right.
  cbn [short_keys map snd In] in *. tauto.
Qed.
Print Assumptions C59_refuted.
Example C59_met : let r := toy0 (PI / 2) in let t := new_class r in
  incl ["par_DYN"; "par_Mm"] ["par_DYN"; "par_REG"; "par_K"; "par_Dl"; "par_D"; "par_Dm"; "par_Mm"] /\
  (forall k, In k ["par_DYN"; "par_Mm"] -> List.length (get_arg r k) = List.length (member t k)) /\
  List.length (get_arg r "par_DYN") = 30 /\ member t "par_DYN" <> get_arg r "par_DYN".
Proof.
  pose proof (toy_save_par (PI / 2)) as H. cbv zeta in *. destruct H as (_ & _ & _ & D & E & F).
  split; [intros k; cbn [In]; tauto|]. split; [|split; [exact E|exact F]].
  intros k Hk. apply D. unfold kept_keys. cbn [app In] in *. tauto.
Qed.

(* C60: what a run of the generator leaves behind.
   For a consistent configuration on a machine where thunder is installed, all the files are written: the functions of the
   robot in C, the class with the texts of C61, the configuration as it was read, the regressor parameters of the robot. *)
Theorem C60_generated w descr config_file cfg o d name r0 r fs : installed w -> plain_dir (w_cwd w) ->
  cli_names config_file (o_name o) = Ok (Accepted d name) ->
  robot_from_file name cfg false = Ok r0 -> well_formed r0 -> robot_from_file name cfg true = Ok r ->
  ~ occurs_in "THUNDERROBOT" name -> (forall f, no_char "#" (descr f)) -> o_copy o = false ->
  let F x := output_dir (w_cwd w) name ++ x in
  exists fs' H S y, thunder_gen w descr config_file cfg o fs = (fs', Some (Exit 1)) /\
  change_h "robot" name r descr template_h = Ok H /\
  change_cpp "robot" name r descr (o_python o) (if o_python o then add_bindings template_cpp else template_cpp) = Ok S /\ save_par_REG r = Ok y /\
  mfind (F (gen_cpp name)) fs' = Some (CSource (casadi_fun r)) /\ mfind (F (gen_h name)) fs' = Some (CHeader (casadi_fun r)) /\
  mfind (F (class_h name)) fs' = Some (Txt H) /\ mfind (F (class_cpp name)) fs' = Some (Txt S) /\
  mfind (F (conf_yaml name)) fs' = Some (Tree cfg) /\ mfind (F (reg_yaml name)) fs' = Some (Tree y) /\
  (o_python o = true -> mfind (F "CMakeLists.txt") fs' = Some (Txt (cmake_text name))) /\
  (o_casadi o = true -> forall f cf, In (f, cf) (casadi_fun r) -> mfind (F (f ++ ".casadi")) fs' = Some (CFun cf)) /\
  forall p, ~ In p (map F (output_names name (o_python o) (o_casadi o) (map fst (casadi_fun r)))) -> mfind p fs' = mfind p fs.
Proof.
  intros Hw Hp Hc L W B Hn Hd Ec. apply (generated w descr config_file cfg o d name r0 r Hw Hc (fresh_session _ _ _ _ L W B) Hn); auto.
  - intros f. now apply no_char_hasb.
  - now apply plain_last.
Qed.
Print Assumptions C60_generated.
(* Whatever the configuration and the machine, a run that returns a status has written everything or nothing, and says which. *)
Theorem C60_status w descr config_file cfg o fs : plain_dir (w_cwd w) -> o_copy o = false ->
  exists fs' e, thunder_gen w descr config_file cfg o fs = (fs', Some e) /\
  forall s, e = Exit s -> (s = 0 /\ fs' = fs) \/
  (s = 1 /\ exists d name r hd src y, let F x := output_dir (w_cwd w) name ++ x in
     cli_names config_file (o_name o) = Ok (Accepted d name) /\ robot_from_file name cfg true = Ok r /\ save_par_REG r = Ok y /\
     mfind (F (gen_cpp name)) fs' = Some (CSource (casadi_fun r)) /\ mfind (F (gen_h name)) fs' = Some (CHeader (casadi_fun r)) /\
     mfind (F (class_h name)) fs' = Some (Txt hd) /\ mfind (F (class_cpp name)) fs' = Some (Txt src) /\
     mfind (F (conf_yaml name)) fs' = Some (Tree cfg) /\ mfind (F (reg_yaml name)) fs' = Some (Tree y) /\
     (o_python o = true -> exists c, mfind (F "CMakeLists.txt") fs' = Some (Txt c)) /\
     forall p, ~ In p (map F (output_names name (o_python o) (o_casadi o) (map fst (casadi_fun r)))) -> mfind p fs' = mfind p fs).
Proof. exact (statuses w descr config_file cfg o fs). Qed.
Print Assumptions C60_status.
(* No run, however it ends, touches a file outside the output directory and, with --copy, the twelve files of the packages. *)
Theorem C60_confined w descr config_file cfg o d name root fs path : plain_dir (w_cwd w) -> package_root (w_cwd w) root -> cli_names config_file (o_name o) = Ok (Accepted d name) ->
  (forall x, path <> output_dir (w_cwd w) name ++ x) ->
  (o_copy o = true -> forall p f, In p packages -> In f (package_files name) -> path <> root ++ p ++ fst f ++ snd f) ->
  mfind path (fst (thunder_gen w descr config_file cfg o fs)) = mfind path fs.
Proof.
  intros Hp Hr Hc N1 N2. apply (root_ok _ _ Hp) in Hr. subst root. apply (untouched w descr config_file cfg o d name fs path Hc). intros [[x E]|[Ec (p & f & A & B & E)]].
  - rewrite (under_plain _ _ (plain_last _ Hp)) in E. exact (N1 x E).
  - exact (N2 Ec p f A B E).
Qed.
Print Assumptions C60_confined.
(* A configuration file that is refused leaves every file as it was. *)
Theorem C60_refused w descr config_file cfg o fs :
  (cli_names config_file (o_name o) = Ok Rejected -> thunder_gen w descr config_file cfg o fs = (fs, Some (Exit 0))) /\
  (forall d name, cli_names config_file (o_name o) = Ok (Accepted d name) -> (forall r, robot_from_file name cfg true <> Ok r) ->
     exists m, thunder_gen w descr config_file cfg o fs = (fs, Some (Abort m))).
Proof. exact (unwritten w descr config_file cfg o fs). Qed.
Print Assumptions C60_refused.
(* --copy: the six files of both packages are those of the output directory *)
Theorem C60_copy w descr config_file cfg o d name root r0 r fs : installed w -> plain_dir (w_cwd w) -> package_root (w_cwd w) root ->
  cli_names config_file (o_name o) = Ok (Accepted d name) ->
  robot_from_file name cfg false = Ok r0 -> well_formed r0 -> robot_from_file name cfg true = Ok r ->
  ~ occurs_in "THUNDERROBOT" name -> (forall f, no_char "#" (descr f)) -> o_copy o = true ->
  (forall p f, In p packages -> In f (package_files name) -> w_dir w (root ++ p ++ fst f) = true) ->
  exists fs', thunder_gen w descr config_file cfg o fs = (fs', Some (Exit 1)) /\
  forall p f, In p packages -> In f (package_files name) -> exists c,
    mfind (output_dir (w_cwd w) name ++ snd f) fs' = Some c /\ mfind (root ++ p ++ fst f ++ snd f) fs' = Some c.
Proof.
  intros Hw Hp Hr. apply (root_ok _ _ Hp) in Hr. subst root. intros Hc L W B Hn Hd Ec D. apply (copy_run w descr config_file cfg o d name r0 r fs); auto. now apply fresh_session.
Qed.
Print Assumptions C60_copy.
(* The two parameter files do their work: the class loads the configuration and then answers like the robot whatever state
   and parameters are set in both, and it reads the regressor parameters of the robot from the second file. Missing:
   parameters that are only partly symbolic, and link entries that lack numbers (C45). *)
Theorem C60_usable_partial junk w descr config_file cfg o d name r0 r fs upd : installed w -> plain_dir (w_cwd w) ->
  cli_names config_file (o_name o) = Ok (Accepted d name) ->
  robot_from_file name cfg false = Ok r0 -> well_formed r0 -> robot_from_file name cfg true = Ok r ->
  ~ occurs_in "THUNDERROBOT" name -> (forall f, no_char "#" (descr f)) -> o_copy o = false ->
  complete_links inertial_keys (numJoints r0) cfg ->
  (forall k len, In (k, len) (par_sizes r0) -> ~ In k compacted -> uniform (flags r0 k)) ->
  exists fs' conf reg t, thunder_gen w descr config_file cfg o fs = (fs', Some (Exit 1)) /\
  mfind (output_dir (w_cwd w) name ++ conf_yaml name) fs' = Some (Tree conf) /\
  mfind (output_dir (w_cwd w) name ++ reg_yaml name) fs' = Some (Tree reg) /\
  t_load_conf junk (new_class r) (Some conf) upd = Ok t /\
  (forall r' h, session name cfg r0 r r' -> (forall c, In c h -> In (fst c) tsetters) -> let t1 := t_run h t in
     (forall k len, In (k, len) (state_sizes r0) -> member t1 k = arg r' k) ->
     (forall k len, In (k, len) (par_sizes r0) -> (member t1 k = member t k /\ arg r' k = arg r k) \/ member t1 k = arg r' k) ->
     forall nm, Api.published r nm -> t_get r t1 nm = get r' nm) /\
  (forall t2, reached r t2 -> exists t3, t_load_par_REG t2 (Some reg) false = Ok (t3, get_arg r "par_REG") /\
     member t3 "par_REG" = get_arg r "par_REG" /\ member t3 "par_DYN" = member t2 "par_DYN" /\ t_changes ["par_DYN"; "par_REG"] t2 t3).
Proof.
  intros Hw Hp Hc L W B Hn Hd Ec HL HU. pose proof (fresh_session _ _ _ _ L W B) as S.
  destruct (C60_generated w descr config_file cfg o d name r0 r fs Hw Hp Hc L W B Hn Hd Ec) as (fs' & H & Sx & y & A & _ & _ & Y & _ & _ & _ & _ & C1 & C2 & _).
  destruct (C45_agrees_partial junk name cfg r0 r r upd S HL HU) as (t & Ht & _).
  exists fs', cfg, y, t. split; [exact A|]. split; [exact C1|]. split; [exact C2|]. split; [exact Ht|]. split.
  - intros r' h S' Hh t1 H1 H2. destruct (C45_agrees_partial junk name cfg r0 r r' upd S' HL HU) as (t' & Ht' & K).
    rewrite Ht in Ht'. injection Ht' as <-. now apply K.
  - intros t2 H2. destruct (C49_robot_to_generated r r t2 false eq_refl (sess_REG _ _ _ _ _ S) H2) as (file & t3 & F & G1 & G2 & G3 & G4 & _).
    rewrite Y in F. injection F as <-. exists t3. auto.
Qed.
Print Assumptions C60_usable_partial.
(* The status is the wrong way round for a caller that expects 0 on success. *)
Theorem C60_status_refuted : exists w descr config_file cfg r0 r, installed w /\
  robot_from_file "toy" cfg false = Ok r0 /\ well_formed r0 /\ robot_from_file "toy" cfg true = Ok r /\
  (exists fs', thunder_gen w descr config_file cfg no_options [] = (fs', Some (Exit 1)) /\
     mfind (output_dir (w_cwd w) "toy" ++ gen_cpp "toy") fs' = Some (CSource (casadi_fun r))) /\
  thunder_gen w descr "robot_conf" cfg no_options [] = ([], Some (Exit 0)).
Proof.
  destruct (toy_built (PI / 2)) as [r Hr]. pose proof (proj1 (toy_session (PI / 2) r 0%R Hr)) as S.
  exists desk, (fun _ => ""), "toy.yaml", (toy_cfg (PI / 2)), (toy0 (PI / 2)), r.
  assert (I : installed desk) by (repeat split). split; [exact I|].
  split; [apply (se_load _ _ _ _ _ S)|]. split; [apply (se_wf _ _ _ _ _ S)|]. split; [exact Hr|]. split; [|reflexivity].
  destruct (C60_generated desk (fun _ => "") "toy.yaml" (toy_cfg (PI / 2)) no_options "./" "toy" (toy0 (PI / 2)) r [] I desk_plain (toy_cli None)
    (se_load _ _ _ _ _ S) (se_wf _ _ _ _ _ S) Hr toy_no_guard) as (fs' & H & Sx & y & A & _ & _ & _ & B & _); [|reflexivity|].
  { intros f i. destruct i; discriminate. }
  exists fs'. split; [exact A|exact B].
Qed.
Print Assumptions C60_status_refuted.
(* Without the installed templates the run is abandoned after the generated functions have been written. *)
Theorem C60_abandoned_refuted : exists w descr config_file cfg r fs' m, robot_from_file "toy" cfg true = Ok r /\
  thunder_gen w descr config_file cfg no_options [] = (fs', Some (Abort m)) /\
  mfind (output_dir (w_cwd w) "toy" ++ gen_cpp "toy") fs' = Some (CSource (casadi_fun r)).
Proof.
  destruct (toy_built (PI / 2)) as [r Hr].
  destruct (abandoned bare_desk (fun _ => "") "toy.yaml" (toy_cfg (PI / 2)) no_options "./" "toy" r [] (toy_cli None) Hr eq_refl (or_intror eq_refl) desk_plain)
    as (fs' & m & A & B).
  exists bare_desk, (fun _ => ""), "toy.yaml", (toy_cfg (PI / 2)), r, fs', m. auto.
Qed.
Print Assumptions C60_abandoned_refuted.
Example C60_met : exists r o, let root := "/home/thunder_dev/thunder_dynamics/" in
  installed desk /\ plain_dir (w_cwd desk) /\ package_root (w_cwd desk) root /\ cli_names "toy.yaml" (o_name o) = Ok (Accepted "./" "toy") /\
  robot_from_file "toy" (toy_cfg (PI / 2)) false = Ok (toy0 (PI / 2)) /\ well_formed (toy0 (PI / 2)) /\
  robot_from_file "toy" (toy_cfg (PI / 2)) true = Ok r /\ ~ occurs_in "THUNDERROBOT" "toy" /\ o_copy o = true /\ o_python o = true /\
  (forall p f, In p packages -> In f (package_files "toy") -> w_dir desk (root ++ p ++ fst f) = true).
Proof.
  destruct (toy_built (PI / 2)) as [r Hr]. pose proof (proj1 (toy_session (PI / 2) r 0%R Hr)) as S.
  exists r, (mkOptions None true true true). split; [repeat split|]. split; [exact desk_plain|]. split; [exact desk_root|]. split; [exact (toy_cli None)|].
  split; [apply (se_load _ _ _ _ _ S)|]. split; [apply (se_wf _ _ _ _ _ S)|]. split; [exact Hr|]. split; [exact toy_no_guard|]. repeat split.
Qed.

Example C60_usable_met : exists r, let r0 := toy0_flags 1 (PI / 2) in let cfg := resymb 1 (toy_cfg (PI / 2)) in
  robot_from_file "toy" cfg false = Ok r0 /\ well_formed r0 /\ robot_from_file "toy" cfg true = Ok r /\
  complete_links inertial_keys (numJoints r0) cfg /\
  (forall k len, In (k, len) (par_sizes r0) -> ~ In k compacted -> uniform (flags r0 k)).
Proof.
  destruct (C45_met (fun _ => 0%R)) as (r & r' & t & h & S & A & B & _). exists r.
  split; [apply (se_load _ _ _ _ _ S)|]. split; [apply (se_wf _ _ _ _ _ S)|]. split; [apply (se_build _ _ _ _ _ S)|]. auto.
Qed.

(* C61: the texts. The header of the class, with the numbers of the robot in it; the include guard is made from the name. *)
Theorem C61_header name cfg r0 r descr : robot_from_file name cfg false = Ok r0 -> well_formed r0 -> robot_from_file name cfg true = Ok r ->
  ~ occurs_in "THUNDERROBOT" name ->
  exists guard, replaced "robot" name name guard /\ (~ occurs_in "robot" name -> guard = name) /\
  change_h "robot" name r descr template_h = Ok (header_text ("THUNDER_" ++ guard) name name
    (to_string (numJoints r0)) (if ELASTIC r0 then "1" else "0") (to_string (numElasticJoints r0))
    (to_string (K_order r0)) (to_string (D_order r0)) (to_string (Dl_order r0)) (to_string (Dm_order r0)) (flag_list (isElasticJoint r0))
    (nl ++ String.concat "" (map (fun fo => declaration (fo_name fo) (descr (fo_name fo)) (fo_rows fo) (fo_cols fo)) (get_functions r)))).
Proof.
  intros L W B Hn. pose proof (fresh_session _ _ _ _ L W B) as S. destruct (sess_name _ _ _ _ _ S) as [En I].
  destruct (sess_elastic _ _ _ _ _ S) as (A1 & A2 & A3). exists (replace_all name "robot" name).
  split; [apply (proj2 (replace_all_ok name "robot" name ltac:(discriminate)))|]. split; [apply guard_plain|].
  assert (N : hasb "/" (robotName r) = false) by (rewrite En; now apply identifier_slash).
  rewrite (change_h_text name r descr I N Hn A3 A1 A2). unfold header_of, declarations.
  destruct (session_rest _ _ _ _ _ S) as (_ & -> & -> & -> & _ & -> & -> & -> & -> & -> & _). now rewrite En.
Qed.
Print Assumptions C61_header.
(* The source: around the getters of the functions there is a text that depends on the name only; the python module, when
   asked for, has one entry for each function. *)
Theorem C61_source name : exists top body gap fin,
  (forall cfg r0 r descr, robot_from_file name cfg false = Ok r0 -> well_formed r0 -> robot_from_file name cfg true = Ok r ->
     change_cpp "robot" name r descr false template_cpp = Ok (includes_text name ++ top ++ "/*OPTIONAL PYBIND11 INCLUDE POINT*/" ++ body ++
       (nl ++ String.concat "" (map (fun fo => getter name name (fo_name fo) (descr (fo_name fo)) (fo_args fo) (fo_rows fo) (fo_cols fo)) (get_functions r))) ++
       gap ++ "/*#-OPTIONAL SPACE FOR PYTHON BINDINGS-#*/" ++ fin)) /\
  (forall cfg r0 r descr, robot_from_file name cfg false = Ok r0 -> well_formed r0 -> robot_from_file name cfg true = Ok r ->
     (forall f, no_char "#" (descr f)) ->
     change_cpp "robot" name r descr true (add_bindings template_cpp) = Ok (includes_text name ++ top ++ pybind_includes ++ body ++
       (nl ++ String.concat "" (map (fun fo => getter name name (fo_name fo) (descr (fo_name fo)) (fo_args fo) (fo_rows fo) (fo_cols fo)) (get_functions r))) ++
       gap ++ module_text name (String.concat nl (map (fun fo => binding name (fo_name fo) (descr (fo_name fo))) (get_functions r)) ++ ";" ++ nl) ++ fin)).
Proof.
  exists top_cpp, (body_of name), gap_cpp, end_cpp. split.
  - intros cfg r0 r descr L W B. pose proof (fresh_session _ _ _ _ L W B) as S. destruct (sess_name _ _ _ _ _ S) as [En I].
    rewrite (change_cpp_text name r descr I). unfold getters. rewrite En. reflexivity.
  - intros cfg r0 r descr L W B Hd. pose proof (fresh_session _ _ _ _ L W B) as S. destruct (sess_name _ _ _ _ _ S) as [En I].
    assert (G : hasb "#" (getters name r descr) = false).
    { apply getters_sharp; [now apply identifier_sharp|rewrite En; now apply identifier_sharp|]. intros fo Hf. apply (sess_sharp _ _ _ _ _ S); auto.
      intros f. now apply no_char_hasb. }
    rewrite (change_cpp_python_text name r descr I (sess_functions _ _ _ _ _ S) G). unfold getters, bindings_of. rewrite En. reflexivity.
Qed.
Print Assumptions C61_source.
(* The build file of the python module. *)
Theorem C61_cmake name : update_cmake "robot" name template_cmake = cmake_text name.
Proof. exact (cmake_ok name). Qed.
Print Assumptions C61_cmake.
(* The C function that a getter calls is in the generated source, under that name, with as many inputs as the getter
   passes and a value of the getter's size. *)
Theorem C61_linked name cfg r0 r fo : robot_from_file name cfg false = Ok r0 -> well_formed r0 -> robot_from_file name cfg true = Ok r ->
  In fo (get_functions r) -> exists cf, In (fo_name fo, cf) (casadi_fun r) /\
  f_name cf = name ++ "_" ++ fo_name fo ++ "_fun" /\ rows (f_out cf) = fo_rows fo /\ cols (f_out cf) = fo_cols fo /\
  List.length (f_inputs cf) = List.length (fo_args fo).
Proof. intros L W B. apply (callee name cfg r0 r r (fresh_session _ _ _ _ L W B)). Qed.
Print Assumptions C61_linked.
Example C61_met : exists r fo, robot_from_file "toy" (toy_cfg (PI / 2)) false = Ok (toy0 (PI / 2)) /\ well_formed (toy0 (PI / 2)) /\
  robot_from_file "toy" (toy_cfg (PI / 2)) true = Ok r /\ ~ occurs_in "THUNDERROBOT" "toy" /\ In fo (get_functions r).
Proof.
  destruct (toy_built (PI / 2)) as [r Hr]. pose proof (proj1 (toy_session (PI / 2) r 0%R Hr)) as S. pose proof (sess_functions _ _ _ _ _ S) as N.
  destruct (get_functions r) as [|fo l] eqn:E; [congruence|]. exists r, fo. rewrite E.
  split; [apply (se_load _ _ _ _ _ S)|]. split; [apply (se_wf _ _ _ _ _ S)|]. split; [exact Hr|]. split; [exact toy_no_guard|now left].
Qed.

(* C62: the generated getters clash neither with each other nor with a member of the template. *)
Theorem C62_members name cfg r0 r : robot_from_file name cfg false = Ok r0 -> well_formed r0 -> robot_from_file name cfg true = Ok r ->
  NoDup (map (fun fo => "get_" ++ fo_name fo) (get_functions r)) /\
  forall fo, In fo (get_functions r) -> ~ In ("get_" ++ fo_name fo) own_members.
Proof. intros L W B. exact (getter_names name cfg r0 r r (fresh_session _ _ _ _ L W B)). Qed.
Print Assumptions C62_members.
Example C62_met : exists r fo, robot_from_file "toy" (toy_cfg (PI / 2)) false = Ok (toy0 (PI / 2)) /\ well_formed (toy0 (PI / 2)) /\
  robot_from_file "toy" (toy_cfg (PI / 2)) true = Ok r /\ In fo (get_functions r).
Proof. destruct C61_met as (r & fo & A & B & C & _ & D). exists r, fo. auto. Qed.
