(* What a run of the generator leaves for a consistent configuration, and how other runs end. *)
From Coq Require Import Reals String Ascii List Bool Arith ZArith Lia.
From Verif.Model Require Import Base SX Robot Yaml Build Text TemplateText Main.
From Verif.Spec Require Import Text Setup State Api Generated Runs.
From Verif.Proofs Require Import Pure Dims BuildReg Maps SortedMaps Text Header Names Load Shape Final Get Api Segments GenText GenFiles StateSess HeaderToy MainGen RobotName.
Import ListNotations.
Open Scope nat_scope.
Open Scope string_scope.

(* a robot just built is a session *)
Lemma fresh_session name cfg r0 r : robot_from_file name cfg false = Ok r0 -> well_formed r0 -> robot_from_file name cfg true = Ok r -> session name cfg r0 r r.
Proof.
  intros L W Bd. pose proof (file_loaded _ _ _ L) as Ld. pose proof Bd as B. rewrite (file_build _ _ _ L) in B.
  destruct (build_ok r0 Ld W) as (b & r1 & E & Hb). rewrite E in B. inversion B; subst r1; clear B. constructor; auto.
  - destruct r; reflexivity.
  - intros k len H. assert (Hk : In (k, len) (keys r0)) by (apply in_app_iff; auto).
    assert (HF : flags r0 k = repeat 1%Z len) by (unfold flags, mget; now rewrite (ld_state _ Ld k len H)).
    rewrite (bt_arg _ _ _ Hb k len Hk). unfold pick. rewrite map_length, HF, fidx_all; [apply repeat_length|].
    intros z Hz. apply repeat_spec in Hz. now subst.
  - intros k len H. assert (Hk : In (k, len) (keys r0)) by (apply in_app_iff; auto).
    rewrite (bt_arg _ _ _ Hb k len Hk). unfold pick. rewrite map_length. apply fidx_selected.
Qed.

Section Sess.
Variables (name : string) (cfg : ynode) (r0 r r' : robot).
Hypothesis Hs : session name cfg r0 r r'.
Lemma sess_name : robotName r = name /\ identifier name.
Proof.
  pose proof (loaded_name _ _ _ (se_load _ _ _ _ _ Hs)) as E. pose proof (wf_name _ (se_wf _ _ _ _ _ Hs)) as I.
  destruct (session_rest _ _ _ _ _ Hs) as (A & _). rewrite A. split; [exact E|]. now rewrite E in I.
Qed.
Lemma sess_elastic : (forall z, In z (isElasticJoint r) -> (0 <= z)%Z) /\ List.length (isElasticJoint r) = numJoints r /\ 1 <= numJoints r.
Proof.
  pose proof (file_loaded _ _ _ (se_load _ _ _ _ _ Hs)) as Ld. destruct (session_rest _ _ _ _ _ Hs) as (_ & A & _ & _ & _ & B & _).
  rewrite A, B, (ld_el _ Ld). split; [|split].
  - intros z Hz. apply in_map_iff in Hz. destruct Hz as (t & <- & _). destruct (is_sea t); lia.
  - rewrite map_length. apply (ld_jt _ Ld).
  - apply (wf_joints _ (se_wf _ _ _ _ _ Hs)).
Qed.
Lemma sess_REG : List.length (get_arg r "par_REG") = 10 * numJoints r.
Proof.
  rewrite (built_REG _ _ _ _ _ Hs). destruct (session_rest _ _ _ _ _ Hs) as (_ & -> & _).
  destruct (loaded_sync _ _ _ (se_load _ _ _ _ _ Hs)) as (_ & L & _). exact L.
Qed.
Lemma sess_saves : exists y, save_par_REG r = Ok y.
Proof. unfold save_par_REG, STD_PAR_LINK. pose proof sess_REG as L. unfold get_arg in L. rewrite L, Nat.leb_refl. eauto. Qed.
Lemma sess_functions : get_functions r <> [].
Proof.
  assert (F : exists fo, In fo (get_functions r) /\ fo_name fo = "T_0" /\ fo_rows fo = 4 /\ fo_cols fo = 4).
  { apply (proj1 (catalogue_published _ _ _ _ _ Hs)). unfold catalogue. cbv zeta. apply in_app_iff. left. now left. }
  destruct F as (fo & H & _). intros E. now rewrite E in H.
Qed.
Lemma name_sharp f : hasb "#" (name_of f) = false.
Proof.
  assert (Z : ~ digit "#") by (unfold digit; cbn; lia).
  destruct f; cbn [name_of]; rewrite ?hasb_app, ?(digits_free _ _ Z); reflexivity.
Qed.
Lemma key_sharp k len : In (k, len) (state_sizes r0 ++ par_sizes r0)%list -> hasb "#" k = false.
Proof.
  intros H. assert (K : In k (map fst (state_sizes r0 ++ par_sizes r0)%list)) by (apply (in_map fst) in H; exact H). revert K. clear.
  unfold state_sizes, par_sizes. destruct (ELASTIC r0), (Nat.ltb 0 (Dl_order r0)); cbn [map app fst In]; intuition (subst; reflexivity).
Qed.
Lemma sess_sharp descr fo : (forall f, hasb "#" (descr f) = false) -> In fo (get_functions r) ->
  hasb "#" (fo_name fo) = false /\ hasb "#" (descr (fo_name fo)) = false /\ forall a, In a (fo_args fo) -> hasb "#" a = false.
Proof.
  intros D H. destruct (inputs_of _ _ _ _ _ Hs fo H) as (_ & _ & _ & _ & _ & _ & K).
  destruct (session_sess _ _ _ _ _ Hs) as (b & S & B). pose proof H as H'. apply (fun_obj_iff _ _ _ B) in H'. destruct H' as (f & _ & ->).
  cbn [fo_name] in *. split; [apply name_sharp|]. split; [apply D|]. intros a Ha. destruct (K a Ha) as [len Hl]. now apply (key_sharp a len).
Qed.
(* the generated function a getter calls *)
Theorem callee fo : In fo (get_functions r) -> exists cf, In (fo_name fo, cf) (casadi_fun r) /\
  f_name cf = name ++ "_" ++ fo_name fo ++ "_fun" /\ rows (f_out cf) = fo_rows fo /\ cols (f_out cf) = fo_cols fo /\
  List.length (f_inputs cf) = List.length (fo_args fo).
Proof.
  intros H. destruct (inputs_of _ _ _ _ _ Hs fo H) as (cf & F & R & C & _ & I & _). exists cf.
  split; [|split; [|split; [exact R|split; [exact C|]]]].
  - apply mfind_In. exact F.
  - destruct (session_sess _ _ _ _ _ Hs) as (b & S & B). apply (fun_obj_iff _ _ _ B) in H. destruct H as (f & He & ->). cbn [fo_name] in *.
    assert (HL : In f (L_all b)) by (now apply L_all_enabled).
    assert (AP : allproper (L_all b)). { intros g Hg. apply L_all_enabled in Hg. eapply enabled_proper; eauto. }
    destruct (pubs_fun b (L_all b) f (enabled_proper _ _ He) AP HL) as [_ A]. rewrite <- (cf_r _ _ _ B) in A. rewrite A in F. injection F as <-.
    cbn [f_name]. f_equal. pose proof (bt_b _ _ _ B) as Eb. rewrite Eb. cbn [robotName with_args with_model].
    exact (loaded_name _ _ _ (se_load _ _ _ _ _ Hs)).
  - apply (f_equal (@List.length _)) in I. now rewrite !map_length in I.
Qed.
(* no function in the generated source but those of the getters *)
Lemma sources f cf : In (f, cf) (casadi_fun r) -> exists fo, In fo (get_functions r) /\ fo_name fo = f.
Proof.
  intros H. unfold get_functions. eexists. split; [apply in_map_iff; exists (f, cf); split; [reflexivity|exact H]|]. reflexivity.
Qed.
Lemma sess_nodup : NoDup (map fst (casadi_fun r)).
Proof.
  pose proof (proj2 (catalogue_published _ _ _ _ _ Hs)) as N. unfold get_functions in N. rewrite map_map in N. exact N.
Qed.
End Sess.

Lemma no_char_hasb c s : no_char c s -> hasb c s = false.
Proof. intros N. destruct (hasb c s) eqn:E; [|reflexivity]. exfalso. destruct (hasb_get c s E) as [i Hi]. exact (N i Hi). Qed.
Lemma under_plain cwd name : last_char cwd <> "/"%char -> under cwd (name ++ "_generatedFiles/") = output_dir cwd name.
Proof.
  intros N. unfold under, output_dir. replace (ends_slash cwd) with false; [reflexivity|]. symmetry.
  induction cwd as [|a s IH]; [reflexivity|]. cbn [ends_slash last_char] in *. destruct s as [|b s]; [now apply Ascii.eqb_neq|]. apply IH, N.
Qed.

Section Good.
Variables (w : world) (descr : string -> string) (config_file : string) (cfg : ynode) (o : options) (d name : string) (r0 r : robot).
Hypothesis Hw : installed w.
Hypothesis Hcli : cli_names config_file (o_name o) = Ok (Accepted d name).
Hypothesis Hs : session name cfg r0 r r.
Hypothesis Hname : ~ occurs_in "THUNDERROBOT" name.
Hypothesis Hd : forall f, hasb "#" (descr f) = false.

Lemma texts : exists H S y, change_h "robot" name r descr template_h = Ok H /\
  change_cpp "robot" name r descr (o_python o) (if o_python o then add_bindings template_cpp else template_cpp) = Ok S /\ save_par_REG r = Ok y.
Proof.
  destruct (sess_name _ _ _ _ _ Hs) as [En I]. destruct (sess_elastic _ _ _ _ _ Hs) as (A & B & C). destruct (sess_saves _ _ _ _ _ Hs) as [y Hy].
  assert (N : hasb "/" (robotName r) = false) by (rewrite En; now apply identifier_slash).
  pose proof (change_h_text name r descr I N Hname C A B) as E1.
  destruct (o_python o).
  - assert (G : hasb "#" (getters name r descr) = false).
    { apply getters_sharp; [now apply identifier_sharp|rewrite En; now apply identifier_sharp|]. intros fo Hf. now apply (sess_sharp _ _ _ _ _ Hs). }
    pose proof (change_cpp_python_text name r descr I (sess_functions _ _ _ _ _ Hs) G) as E2. eexists _, _, _. split; [exact E1|split; [exact E2|exact Hy]].
  - pose proof (change_cpp_text name r descr I) as E2. eexists _, _, _. split; [exact E1|split; [exact E2|exact Hy]].
Qed.

Theorem generated fs : o_copy o = false -> last_char (w_cwd w) <> "/"%char -> let F x := output_dir (w_cwd w) name ++ x in
  exists fs' H S y, thunder_gen w descr config_file cfg o fs = (fs', Some (Exit 1)) /\
  change_h "robot" name r descr template_h = Ok H /\
  change_cpp "robot" name r descr (o_python o) (if o_python o then add_bindings template_cpp else template_cpp) = Ok S /\ save_par_REG r = Ok y /\
  mfind (F (gen_cpp name)) fs' = Some (CSource (casadi_fun r)) /\ mfind (F (gen_h name)) fs' = Some (CHeader (casadi_fun r)) /\
  mfind (F (class_h name)) fs' = Some (Txt H) /\ mfind (F (class_cpp name)) fs' = Some (Txt S) /\
  mfind (F (conf_yaml name)) fs' = Some (Tree cfg) /\ mfind (F (reg_yaml name)) fs' = Some (Tree y) /\
  (o_python o = true -> mfind (F "CMakeLists.txt") fs' = Some (Txt (cmake_text name))) /\
  (o_casadi o = true -> forall f cf, In (f, cf) (casadi_fun r) -> mfind (F (f ++ ".casadi")) fs' = Some (CFun cf)) /\
  forall p, ~ In p (map F ([gen_cpp name; gen_h name; class_h name; class_cpp name; conf_yaml name; reg_yaml name] ++
                           (if o_python o then ["CMakeLists.txt"] else []) ++ (if o_casadi o then map (fun f => (f ++ ".casadi")%string) (map fst (casadi_fun r)) else []))%list) ->
    mfind p fs' = mfind p fs.
Proof.
  intros Ec Hcwd F. destruct Hw as (W1 & W2 & W3). destruct texts as (H & S & y & EH & ES & Ey).
  pose proof (run_ok w descr config_file cfg o d name r template_h template_cpp template_cmake H S (Some template_cmake) y Hcli (se_build _ _ _ _ _ Hs) W2 W1 W3 (fun _ => eq_refl) EH ES Ey fs) as R.
  unfold copied in R. rewrite Ec in R.
  pose proof (left_slot w cfg o name r template_h template_cpp template_cmake H S y fs) as (A1 & A2 & A3 & A4 & A5 & A6 & A7).
  pose proof (left_casadi w cfg o name r template_h template_cpp template_cmake H S y fs) as A8.
  pose proof (left_frame w cfg o name r template_h template_cpp template_cmake H S y fs) as A9.
  rewrite (under_plain _ _ Hcwd) in A1, A2, A3, A4, A5, A6, A7, A8, A9. cbn [slot_name] in *. rewrite cmake_ok in A5.
  eexists _, H, S, y. split; [exact R|].
  repeat (split; [first [exact EH|exact ES|exact Ey|exact A1|exact A2|exact A3|exact A4|exact A6|exact A7|exact A5]|]). split.
  - intros E f cf Hf. apply A8; [exact E|apply (sess_nodup _ _ _ _ _ Hs)|exact Hf].
  - exact A9.
Qed.
End Good.

(* ---- how a run ends ---- *)
Lemma rewrite_cases path f s fs fs1 e : mfind path fs = Some (Txt s) -> rewrite path f fs = (fs1, e) ->
  (exists s', f s = Ok s' /\ fs1 = mset path (Txt s') fs /\ e = None) \/ (exists m, e = Some (Abort m)).
Proof.
  intros E R. unfold rewrite in R. rewrite E in R. destruct (f s) as [s'|m|m]; injection R as <- <-; [left; eauto|right; eauto|right; eauto].
Qed.
Ltac ne := first [apply slot_ne; discriminate | apply not_eq_sym; apply slot_ne; discriminate].

Section Ends.
Variables (w : world) (descr : string -> string) (config_file : string) (cfg : ynode) (o : options).
(* a run that reports success has passed every test *)
Record passed (d name : string) (r : robot) (th tc tm H S : string) (mtm : option string) (y : ynode) : Prop := {
  ps_cli : cli_names config_file (o_name o) = Ok (Accepted d name);
  ps_build : robot_from_file name cfg true = Ok r;
  ps_mk : w_mkdir w = true;
  ps_home : w_home w = true;
  ps_tp : w_template w = Some (mkTemplate (Some th) (Some tc) mtm);
  ps_tm : o_python o = true -> mtm = Some tm;
  ps_H : change_h "robot" name r descr th = Ok H;
  ps_S : change_cpp "robot" name r descr (o_python o) (if o_python o then add_bindings tc else tc) = Ok S;
  ps_y : save_par_REG r = Ok y
}.
Definition aborts (e : option ending) : Prop := exists m, e = Some (Abort m).

Lemma rest d name r th tc tm mtm fs : cli_names config_file (o_name o) = Ok (Accepted d name) -> robot_from_file name cfg true = Ok r ->
  w_mkdir w = true -> w_home w = true -> w_template w = Some (mkTemplate (Some th) (Some tc) mtm) -> (o_python o = true -> mtm = Some tm) ->
  (exists d name r th tc tm H S mtm y, passed d name r th tc tm H S mtm y /\
     thunder_gen w descr config_file cfg o fs = (copied w o name (left_by w cfg o name r th tc tm H S y fs), Some (Exit 1))) \/
  (thunder_gen w descr config_file cfg o fs = (fs, Some (Exit 0))) \/
  (exists fs', exists m, thunder_gen w descr config_file cfg o fs = (fs', Some (Abort m))).
Proof.
  intros Ec Eb Em Eh Et Ep. pose proof (run_to_templates w descr config_file cfg o d name r th tc tm mtm Ec Eb Em Eh Et Ep fs) as R.
  destruct (templates_there w o name r th tc tm fs) as [T1 T2]. set (fs4 := copied_templates w o name r th tc tm fs) in *.
  set (dir := under (w_cwd w) (name ++ "_generatedFiles/")) in *.
  assert (Q : forall m, (exists fs', remaining w descr cfg o name r fs4 = (fs', Some (Abort m))) ->
    exists fs' m, thunder_gen w descr config_file cfg o fs = (fs', Some (Abort m))).
  { intros m [fs' E]. exists fs', m. now rewrite R. }
  destruct (change_h "robot" name r descr th) as [H|m|m] eqn:EH.
  2,3: right; right; apply (Q m); eexists; unfold remaining; apply after_stop; unfold change_to_robot; apply after_stop; unfold rewrite; fold dir; rewrite T1, EH; reflexivity.
  set (fs5 := mset (dir ++ slot_name name SClassH) (Txt H) fs4).
  assert (C5 : mfind (dir ++ slot_name name SClassCpp) fs5 = Some (Txt tc)) by (unfold fs5; rewrite mfind_mset_ne by ne; exact T2).
  set (fs6 := if o_python o then mset (dir ++ slot_name name SClassCpp) (Txt (add_bindings tc)) fs5 else fs5).
  assert (C6 : mfind (dir ++ slot_name name SClassCpp) fs6 = Some (Txt (if o_python o then add_bindings tc else tc))).
  { unfold fs6. destruct (o_python o); [apply mfind_mset|exact C5]. }
  assert (K : forall q, ((rewrite (dir ++ slot_name name SClassH) (change_h "robot" name r descr) ;;
      (if o_python o then rewrite (dir ++ slot_name name SClassCpp) (fun c => Ok (add_bindings c)) else skip) ;; q) fs4 = q fs6)).
  { intros q. erewrite after_go with (fs1 := fs5); [|apply (rewrite_ok _ _ th); [exact T1|exact EH]].
    apply after_go. unfold fs6. destruct (o_python o); [|reflexivity]. apply (rewrite_ok _ _ tc); [exact C5|reflexivity]. }
  destruct (change_cpp "robot" name r descr (o_python o) (if o_python o then add_bindings tc else tc)) as [S|m|m] eqn:ES.
  2,3: right; right; apply (Q m); eexists; unfold remaining; apply after_stop; unfold change_to_robot; fold dir; rewrite K; unfold rewrite; rewrite C6, ES; reflexivity.
  destruct (save_par_REG r) as [y|m|m] eqn:Ey.
  - left. exists d, name, r, th, tc, tm, H, S, mtm, y. split; [constructor; auto|]. now apply (run_ok w descr config_file cfg o d name r th tc tm H S mtm y).
  - right; right. apply (Q m). eexists. unfold remaining. erewrite after_go.
    2:{ unfold change_to_robot. fold dir. rewrite K. apply (rewrite_ok _ _ _ S _ C6 ES). }
    erewrite after_go by reflexivity. apply after_stop. unfold save_reg. rewrite Ey. reflexivity.
  - right; right. apply (Q m). eexists. unfold remaining. erewrite after_go.
    2:{ unfold change_to_robot. fold dir. rewrite K. apply (rewrite_ok _ _ _ S _ C6 ES). }
    erewrite after_go by reflexivity. apply after_stop. unfold save_reg. rewrite Ey. reflexivity.
Qed.
Theorem ends fs : 
  (exists d name r th tc tm H S mtm y, passed d name r th tc tm H S mtm y /\
     thunder_gen w descr config_file cfg o fs = (copied w o name (left_by w cfg o name r th tc tm H S y fs), Some (Exit 1))) \/
  (thunder_gen w descr config_file cfg o fs = (fs, Some (Exit 0))) \/
  (exists fs', exists m, thunder_gen w descr config_file cfg o fs = (fs', Some (Abort m))).
Proof.
  destruct (cli_names config_file (o_name o)) as [c|m|m] eqn:Ec.
  2,3: right; right; exists fs, m; unfold thunder_gen; rewrite Ec; reflexivity.
  destruct c as [|d name]; [right; left; unfold thunder_gen; rewrite Ec; reflexivity|].
  destruct (robot_from_file name cfg true) as [r|m|m] eqn:Eb.
  2,3: right; right; exists fs, m; unfold thunder_gen; rewrite Ec, Eb; reflexivity.
  destruct (w_mkdir w) eqn:Em; [|right; left; unfold thunder_gen; rewrite Ec, Eb; cbv zeta; rewrite Em; reflexivity].
  assert (G : forall k fs0, exists fs1, generate_library r (under (w_cwd w) (name ++ "_generatedFiles/")) (name ++ "_gen") (o_casadi o) fs0 = (fs1, None) /\ k fs1 = k fs1 :> files).
  { intros k fs0. unfold generate_library. erewrite after_go by reflexivity. erewrite after_go by reflexivity. destruct (o_casadi o); eexists; split; reflexivity. }
  destruct (G (fun x => x) fs) as (fs1 & G1 & _). clear G.
  destruct (w_home w) eqn:Eh.
  2:{ right; right. exists fs1. eexists. unfold thunder_gen. rewrite Ec, Eb. cbv zeta. rewrite Em, Eh. cbn [negb]. rewrite (after_go _ _ _ _ G1). reflexivity. }
  set (tp := match w_template w with Some t => t | None => mkTemplate None None None end).
  assert (TH : tp_h tp = None -> exists fs' m, thunder_gen w descr config_file cfg o fs = (fs', Some (Abort m))).
  { intros E. eexists _, _. unfold thunder_gen. rewrite Ec, Eb. cbv zeta. rewrite Em, Eh. cbn [negb]. rewrite (after_go _ _ _ _ G1).
    erewrite after_go by reflexivity. fold tp. rewrite E. reflexivity. }
  destruct (tp_h tp) as [th|] eqn:E1; [clear TH|right; right; now apply TH].
  assert (TC : tp_cpp tp = None -> exists fs' m, thunder_gen w descr config_file cfg o fs = (fs', Some (Abort m))).
  { intros E. eexists _, _. unfold thunder_gen. rewrite Ec, Eb. cbv zeta. rewrite Em, Eh. cbn [negb]. rewrite (after_go _ _ _ _ G1).
    erewrite after_go by reflexivity. fold tp. rewrite E1, E. reflexivity. }
  destruct (tp_cpp tp) as [tc|] eqn:E2; [clear TC|right; right; now apply TC].
  assert (TM : o_python o = true -> tp_cmake tp = None -> exists fs' m, thunder_gen w descr config_file cfg o fs = (fs', Some (Abort m))).
  { intros P E. eexists _, _. unfold thunder_gen. rewrite Ec, Eb. cbv zeta. rewrite Em, Eh. cbn [negb]. rewrite (after_go _ _ _ _ G1).
    erewrite after_go by reflexivity. fold tp. rewrite E1, E2, P, E. reflexivity. }
  destruct (o_python o) eqn:EP.
  - destruct (tp_cmake tp) as [tm|] eqn:E3; [clear TM|right; right; now apply TM].
    apply (rest d name r th tc tm (Some tm)); auto.
    + unfold tp in *. destruct (w_template w) as [[]|]; [|discriminate E1]. cbn in *. congruence.
  - apply (rest d name r th tc "" (tp_cmake tp)); auto.
    + unfold tp in *. destruct (w_template w) as [[]|]; [|discriminate E1]. cbn in *. congruence.
    + congruence.
Qed.
End Ends.
