(* More about runs of the generator: what they never touch, what --copy does, names of members. *)
From Coq Require Import Reals String Ascii List Bool Arith ZArith Lia.
From Verif.Model Require Import Base SX Robot Yaml Build Text TemplateText Main.
From Verif.Spec Require Import Text Setup State Api Generated Runs Sample.
From Verif.Proofs Require Import Pure Maps SortedMaps Text Header Names Load Shape Final Get Api Segments GenText GenFiles HeaderToy Cli MainGen MainFiles Sample.
Import ListNotations.
Open Scope nat_scope.
Open Scope string_scope.

Lemma plain_last cwd : plain_dir cwd -> last_char cwd <> "/"%char.
Proof.
  intros N E. apply N. clear N. induction cwd as [|a s IH]; [discriminate E|]. cbn [last_char] in E. destruct s as [|b s].
  - exists "". now subst.
  - destruct (IH E) as [t ->]. now exists (String a t).
Qed.

(* ---- a piece that writes only paths of a set ---- *)
Definition only (Q : string -> Prop) (p : piece) : Prop := forall fs path, ~ Q path -> mfind path (fst (p fs)) = mfind path fs.
Section Only.
Variable Q : string -> Prop.
Lemma only_after p q : only Q p -> only Q q -> only Q (p ;; q).
Proof.
  intros A B fs path H. unfold after. specialize (A fs path H). destruct (p fs) as [fs1 [e|]]; cbn [fst] in *; [exact A|]. now rewrite (B fs1 path H).
Qed.
Lemma only_stop e : only Q (stop e).
Proof. intros fs path H. reflexivity. Qed.
Lemma only_skip : only Q skip.
Proof. intros fs path H. reflexivity. Qed.
Lemma only_write x c : Q x -> only Q (write x c).
Proof. intros A fs path H. cbn [write fst]. apply mfind_mset_ne. intros ->. contradiction. Qed.
Lemma only_rewrite x f : Q x -> only Q (rewrite x f).
Proof.
  intros A fs path H. unfold rewrite. destruct (mfind x fs) as [[s|y|l|l|cf]|]; try reflexivity. destruct (f s) as [s'|m|m]; try reflexivity.
  cbn [fst]. apply mfind_mset_ne. intros ->. contradiction.
Qed.
Lemma only_template s x : Q x -> only Q (copy_template s x).
Proof. intros A. destruct s; [now apply only_write|apply only_stop]. Qed.
Lemma only_saved dir l : (forall x, Q (dir ++ x)) -> only Q (fun fs => (saved dir l fs, None)).
Proof. intros A fs path H. cbn [fst]. apply saved_other. intros kv _ ->. now apply H. Qed.
Lemma only_list w l : (forall s d x, In (s, (d, x)) l -> Q (d ++ x)) -> forall fs path, ~ Q path -> mfind path (copy_list w l fs) = mfind path fs.
Proof.
  induction l as [|[s [d x]] l IH]; intros A fs path H; [reflexivity|]. cbn [copy_list]. unfold copy_one.
  destruct (mfind s fs) as [c|]; [|reflexivity]. destruct (w_dir w d); [|reflexivity]. rewrite IH; [|intros; apply (A s0); now right|exact H].
  apply mfind_mset_ne. intros ->. apply H. apply (A s). now left.
Qed.
Lemma only_copy w name from p : (forall f, In f (package_files name) -> Q (p ++ fst f ++ snd f)) ->
  only Q (copy_to w name from (p ++ "robots/") (p ++ "robots/") (p ++ "library/") (p ++ "src/")).
Proof.
  intros A fs path H. unfold copy_to. cbn [fst]. apply only_list; [|exact H]. intros s d x Hi.
  assert (B : forall a b, In (a, b) (package_files name) -> Q ((p ++ a) ++ b)) by (intros a b Hb; rewrite app_assoc_s; apply (A (a, b) Hb)).
  cbn [In] in Hi. repeat destruct Hi as [Hi|Hi]; try (injection Hi as _ <- <-; apply B; unfold package_files; cbn [In]; tauto). destruct Hi.
Qed.
End Only.

(* the paths a run may write *)
Definition may_write (w : world) (o : options) (name path : string) : Prop :=
  (exists x, path = under (w_cwd w) (name ++ "_generatedFiles/") ++ x) \/
  (o_copy o = true /\ exists p f, In p packages /\ In f (package_files name) /\ path = copy_prefix (w_cwd w) ++ p ++ fst f ++ snd f).
Theorem untouched w descr config_file cfg o d name fs path : cli_names config_file (o_name o) = Ok (Accepted d name) ->
  ~ may_write w o name path -> mfind path (fst (thunder_gen w descr config_file cfg o fs)) = mfind path fs.
Proof.
  intros Ec H. unfold thunder_gen. rewrite Ec. destruct (robot_from_file name cfg true) as [r|m|m]; [|reflexivity|reflexivity]. cbv zeta.
  destruct (negb (w_mkdir w)); [reflexivity|]. revert fs path H. set (dir := under (w_cwd w) (name ++ "_generatedFiles/")).
  assert (D : forall x, may_write w o name (dir ++ x)) by (intros x; left; now exists x).
  change (only (may_write w o name) (generate_library r dir (name ++ "_gen") (o_casadi o) ;;
    (if w_home w then skip else stop (Abort "std::string from a null pointer")) ;;
    (let tp := match w_template w with Some t => t | None => mkTemplate None None None end in
     copy_template (tp_h tp) (dir ++ "thunder_" ++ name ++ ".h") ;;
     copy_template (tp_cpp tp) (dir ++ "thunder_" ++ name ++ ".cpp") ;;
     (if o_python o then
        copy_template (tp_cmake tp) (dir ++ "CMakeLists.txt") ;;
        rewrite (dir ++ "CMakeLists.txt") (fun c => Ok (update_cmake "robot" name c))
      else skip)) ;;
    change_to_robot "robot" name r descr (dir ++ "thunder_" ++ name ++ ".h") (dir ++ "thunder_" ++ name ++ ".cpp") (o_python o) ;;
    write (dir ++ name ++ "_conf.yaml") (Tree (save_conf cfg)) ;;
    save_reg r (dir ++ name ++ "_par_REG.yaml") ;;
    (if o_copy o then
       (let p := copy_prefix (w_cwd w) ++ "src/thunder_robot/" in
        copy_to w name dir (p ++ "robots/") (p ++ "robots/") (p ++ "library/") (p ++ "src/")) ;;
       (let p := copy_prefix (w_cwd w) ++ "src/thunder_robot_chrono/" in
        copy_to w name dir (p ++ "robots/") (p ++ "robots/") (p ++ "library/") (p ++ "src/"))
     else skip) ;;
    stop (Exit 1))). cbv zeta.
  apply only_after.
  { unfold generate_library. repeat apply only_after; [now apply only_write|now apply only_write|].
    destruct (o_casadi o); [apply only_saved, D|apply only_skip]. }
  apply only_after; [destruct (w_home w); [apply only_skip|apply only_stop]|].
  apply only_after.
  { repeat apply only_after; [now apply only_template|now apply only_template|].
    destruct (o_python o); [apply only_after; [now apply only_template|now apply only_rewrite]|apply only_skip]. }
  apply only_after.
  { unfold change_to_robot. apply only_after; [now apply only_rewrite|]. apply only_after; [|now apply only_rewrite].
    destruct (o_python o); [now apply only_rewrite|apply only_skip]. }
  apply only_after; [now apply only_write|].
  apply only_after; [unfold save_reg; destruct (save_par_REG r); [now apply only_write|apply only_stop|apply only_stop]|].
  apply only_after; [|apply only_stop].
  destruct (o_copy o) eqn:E; [|apply only_skip]. apply only_after; apply only_copy; intros f Hf; right; (split; [exact E|]).
  - exists "src/thunder_robot/", f. split; [now left|]. split; [exact Hf|]. now rewrite app_assoc_s.
  - exists "src/thunder_robot_chrono/", f. split; [right; now left|]. split; [exact Hf|]. now rewrite app_assoc_s.
Qed.

(* a configuration that is not accepted: nothing is written *)
Theorem unwritten w descr config_file cfg o fs :
  (cli_names config_file (o_name o) = Ok Rejected -> thunder_gen w descr config_file cfg o fs = (fs, Some (Exit 0))) /\
  (forall d name, cli_names config_file (o_name o) = Ok (Accepted d name) -> (forall r, robot_from_file name cfg true <> Ok r) ->
     exists m, thunder_gen w descr config_file cfg o fs = (fs, Some (Abort m))).
Proof.
  unfold thunder_gen. split.
  - intros E. now rewrite E.
  - intros d name E H. rewrite E. destruct (robot_from_file name cfg true) as [r|m|m]; [now destruct (H r)|eexists; reflexivity|eexists; reflexivity].
Qed.
(* an accepted configuration without the templates, or without HOME: part of the files is written *)
Theorem abandoned w descr config_file cfg o d name r fs : cli_names config_file (o_name o) = Ok (Accepted d name) ->
  robot_from_file name cfg true = Ok r -> w_mkdir w = true -> w_home w = false \/ w_template w = None -> plain_dir (w_cwd w) ->
  exists fs' m, thunder_gen w descr config_file cfg o fs = (fs', Some (Abort m)) /\
    mfind (output_dir (w_cwd w) name ++ gen_cpp name) fs' = Some (CSource (casadi_fun r)).
Proof.
  intros Ec Eb Em Hh Hp.
  assert (E : under (w_cwd w) (name ++ "_generatedFiles/") = output_dir (w_cwd w) name) by (apply under_plain; now apply plain_last).
  set (dir := output_dir (w_cwd w) name) in *.
  assert (G : forall q, exists fs1, mfind (dir ++ gen_cpp name) fs1 = Some (CSource (casadi_fun r)) /\
     (generate_library r dir (name ++ "_gen") (o_casadi o) ;; q) fs = q fs1).
  { intros q. unfold generate_library. rewrite !(app_assoc_s name).
    set (fs0 := mset (dir ++ gen_h name) (CHeader (casadi_fun r)) (mset (dir ++ gen_cpp name) (CSource (casadi_fun r)) fs)).
    assert (F0 : mfind (dir ++ gen_cpp name) fs0 = Some (CSource (casadi_fun r))).
    { unfold fs0. rewrite mfind_mset_ne by (apply (slot_ne dir name SGenCpp SGenH); discriminate). apply mfind_mset. }
    destruct (o_casadi o).
    - exists (saved dir (casadi_fun r) fs0). split; [|reflexivity]. rewrite saved_other; [exact F0|]. intros kv _. apply (slot_casadi dir name SGenCpp).
    - exists fs0. split; [exact F0|]. reflexivity. }
  unfold thunder_gen. rewrite Ec, Eb. cbv zeta. rewrite Em, E. cbn [negb].
  match goal with |- context [(generate_library _ _ _ _ ;; ?q) fs] => destruct (G q) as (fs1 & A & B) end.
  rewrite B. clear B G. destruct Hh as [Hh|Hh]; rewrite Hh.
  - eexists fs1, _. split; [apply after_stop; reflexivity|exact A].
  - destruct (w_home w); [|eexists fs1, _; split; [apply after_stop; reflexivity|exact A]].
    rewrite (after_go _ _ _ fs1) by reflexivity. cbv zeta. cbn [tp_h copy_template].
    eexists fs1, _. split; [reflexivity|exact A].
Qed.

(* ---- member names ---- *)
Lemma own_names : forallb (fun x => implb (prefix "get_" x) (prefix "get_par_" x || prefix "get_num" x)) own_members = true.
Proof. vm_compute. reflexivity. Qed.
Lemma get_names f x : In x own_members -> "get_" ++ name_of f <> x.
Proof.
  intros H E. subst x. apply (proj1 (forallb_forall _ _) own_names) in H. destruct f; cbn in H; discriminate H.
Qed.
Theorem getter_names name cfg r0 r r' : session name cfg r0 r r' ->
  NoDup (map (fun fo => "get_" ++ fo_name fo) (get_functions r)) /\
  forall fo, In fo (get_functions r) -> ~ In ("get_" ++ fo_name fo) own_members.
Proof.
  intros Hs. split.
  - pose proof (proj2 (catalogue_published _ _ _ _ _ Hs)) as N. rewrite <- (map_map fo_name (fun x => "get_" ++ x)).
    apply FinFun.Injective_map_NoDup; [|exact N]. intros a b E. now apply app_inv_length in E as [_ E].
  - intros fo Hf Hi. destruct (session_sess _ _ _ _ _ Hs) as (b & S & B). apply (fun_obj_iff _ _ _ B) in Hf. destruct Hf as (f & _ & ->).
    exact (get_names f _ Hi eq_refl).
Qed.

(* ---- --copy ---- *)
Lemma path_split a b x y : no_char "/" x -> no_char "/" y -> a ++ "/" ++ x = b ++ "/" ++ y -> a = b /\ x = y.
Proof.
  intros X Y. revert b. induction a as [|c a IH]; intros [|d b] E; cbn [append] in E.
  - injection E as ->. auto.
  - injection E as _ ->. exfalso. apply (X (String.length b)). clear. unfold char_at. induction b; cbn [append get String.length]; auto.
  - injection E as _ <-. exfalso. apply (Y (String.length a)). clear. unfold char_at. induction a; cbn [append get String.length]; auto.
  - injection E as -> E. destruct (IH b E) as [-> ->]. auto.
Qed.
Definition backwards (s : string) : list ascii := rev (list_ascii_of_string s).
Lemma backwards_app a b : backwards (a ++ b) = (backwards b ++ backwards a)%list.
Proof.
  unfold backwards. rewrite <- rev_app_distr. f_equal. induction a; cbn [append list_ascii_of_string app]; [reflexivity|]. now f_equal.
Qed.
Lemma no_slash_app a b : no_char "/" a -> no_char "/" b -> no_char "/" (a ++ b).
Proof.
  intros A B. induction a as [|c a IH]; [exact B|]. intros [|i]; cbn [append].
  - apply (A 0).
  - apply IH. intros j. apply (A (S j)).
Qed.
Lemma no_slash_lit s : hasb "/" s = false -> no_char "/" s.
Proof.
  induction s as [|c s IH]; intros H i; [destruct i; discriminate|]. cbn [hasb] in H. apply orb_false_iff in H. destruct H as [H1 H2].
  destruct i as [|i]; [|apply (IH H2 i)]. unfold char_at. cbn [get]. intros E. injection E as ->. discriminate H1.
Qed.

Section Copy.
Variables (name : string).
Hypothesis Hn : no_char "/" name.
Lemma files_no_slash f : In f (package_files name) -> no_char "/" (snd f).
Proof.
  intros H. cbn [package_files In] in H.
  repeat destruct H as [<-|H]; try (destruct H); cbn [snd]; unfold gen_h, gen_cpp, reg_yaml, conf_yaml, class_h, class_cpp;
    repeat apply no_slash_app; try exact Hn; apply no_slash_lit; reflexivity.
Qed.
Lemma files_dir f : In f (package_files name) -> exists a, fst f = a ++ "/" /\ (a = "library" \/ a = "src" \/ a = "robots").
Proof. intros H. cbn [package_files In] in H. repeat destruct H as [<-|H]; try (destruct H); cbn [fst]; [exists "library"|exists "src"|exists "robots"|exists "robots"|exists "library"|exists "src"]; auto. Qed.
Lemma files_nodup : NoDup (map snd (package_files name)).
Proof.
  unfold package_files. cbn [map snd].
  assert (N : forall s t, s <> t -> slot_name name s <> slot_name name t) by (intros s t A E; apply (slot_ne "" name s t A); now rewrite E).
  change (NoDup [slot_name name SGenH; slot_name name SGenCpp; slot_name name SReg; slot_name name SConf; slot_name name SClassH; slot_name name SClassCpp]).
  repeat (apply NoDup_cons; [cbn [In]; intros H; repeat (destruct H as [H|H]; [revert H; apply N; discriminate|]); exact H|]). apply NoDup_nil.
Qed.
Lemma in_snd_inj {A B : Type} (l : list (A * B)) f g : NoDup (map snd l) -> In f l -> In g l -> snd f = snd g -> f = g.
Proof.
  induction l as [|h l IH]; intros N F G E; [destruct F|]. cbn [map] in N. inversion N as [|? ? N1 N2]; subst.
  destruct F as [->|F], G as [->|G]; auto.
  - exfalso. apply N1. rewrite E. now apply in_map.
  - exfalso. apply N1. rewrite <- E. now apply in_map.
Qed.
Definition dest (P : string) (f : string * string) : string := (P ++ fst f) ++ snd f.
Lemma dest_source P cwd f x : In f (package_files name) -> no_char "/" x -> dest P f <> output_dir cwd name ++ x.
Proof.
  intros Hf Hx E. unfold dest, output_dir in E. destruct (files_dir f Hf) as (a & Ea & Ha). rewrite Ea in E.
  rewrite <- !app_assoc_s in E. rewrite (app_assoc_s (P ++ a)) in E.
  replace ((((cwd ++ "/") ++ name) ++ "_generatedFiles/") ++ x) with ((((cwd ++ "/") ++ name) ++ "_generatedFiles") ++ "/" ++ x) in E
    by (rewrite !app_assoc_s; reflexivity).
  apply path_split in E; [|now apply files_no_slash|exact Hx]. destruct E as [E _].
  apply (f_equal backwards) in E. rewrite !backwards_app in E.
  destruct Ha as [-> | [-> | ->]]; cbn in E; discriminate E.
Qed.
Lemma dest_inj P Q f g : In f (package_files name) -> In g (package_files name) -> dest P f = dest Q g -> f = g /\ P = Q.
Proof.
  intros Hf Hg E. unfold dest in E. destruct (files_dir f Hf) as (a & Ea & Ha). destruct (files_dir g Hg) as (b & Eb & Hb).
  rewrite Ea, Eb in E. rewrite <- !(app_assoc_s P a), <- !(app_assoc_s Q b) in E. rewrite (app_assoc_s (P ++ a)), (app_assoc_s (Q ++ b)) in E.
  apply path_split in E; [|now apply files_no_slash|now apply files_no_slash]. destruct E as [E1 E2].
  assert (F : f = g) by (now apply (in_snd_inj (package_files name)); [apply files_nodup| | |]). subst g. split; [reflexivity|].
  rewrite Ea in Eb. assert (a = b).
  { apply (f_equal backwards) in Eb. rewrite !backwards_app in Eb. cbn in Eb. injection Eb as Eb. unfold backwards in Eb.
    apply (f_equal (@rev ascii)) in Eb. rewrite !rev_involutive in Eb. apply (f_equal string_of_list_ascii) in Eb. now rewrite !string_of_list_ascii_of_string in Eb. }
  subst b. assert (L : String.length P = String.length Q) by (apply (f_equal String.length) in E1; rewrite !length_app in E1; lia).
  now apply app_inv_length in E1.
Qed.

Definition jobs (dir P : string) (l : list (string * string)) := map (fun f => (dir ++ snd f, (P ++ fst f, snd f))) l.
Lemma copy_to_jobs w dir P fs : copy_to w name dir (P ++ "robots/") (P ++ "robots/") (P ++ "library/") (P ++ "src/") fs =
  (copy_list w (jobs dir P (package_files name)) fs, None).
Proof. reflexivity. Qed.
Lemma copy_jobs w dir P l : forall fs, incl l (package_files name) -> NoDup (map snd l) -> (forall f, In f l -> w_dir w (P ++ fst f) = true) ->
  (forall f g, In f l -> In g l -> dest P f <> dir ++ snd g) -> (forall f, In f l -> mfind (dir ++ snd f) fs <> None) ->
  forall f, In f l -> mfind (dest P f) (copy_list w (jobs dir P l) fs) = mfind (dir ++ snd f) fs.
Proof.
  induction l as [|g l IH]; intros fs Hi N D S M f Hf; [destruct Hf|]. cbn [jobs map copy_list]. unfold copy_one.
  destruct (mfind (dir ++ snd g) fs) as [c|] eqn:E; [|exfalso; exact (M g (or_introl eq_refl) E)]. rewrite (D g (or_introl eq_refl)).
  cbn [map] in N. inversion N as [|? ? N1 N2]; subst. destruct Hf as [<-|Hf].
  - rewrite E. change (map _ l) with (jobs dir P l).
    rewrite (only_list (fun x => exists h, In h l /\ x = dest P h)).
    + unfold dest. rewrite mfind_mset. reflexivity.
    + intros s d x Hj. apply in_map_iff in Hj. destruct Hj as (h & Eh & Hh). injection Eh as _ <- <-. now exists h.
    + intros (h & Hh & Eh). apply dest_inj in Eh; [|apply Hi; now left|apply Hi; now right]. destruct Eh as [<- _]. apply N1. now apply in_map.
  - change (map _ l) with (jobs dir P l). rewrite IH; auto.
    + apply mfind_mset_ne. apply not_eq_sym. apply (S g f); [now left|now right].
    + intros h Hh. apply Hi. now right.
    + intros h Hh. apply D. now right.
    + intros h k Hh Hk. apply S; now right.
    + intros h Hh. rewrite mfind_mset_ne by (apply not_eq_sym; apply (S g h); [now left|now right]). apply M. now right.
Qed.

Theorem copies w o cwd fs : o_copy o = true -> w_cwd w = cwd -> plain_dir cwd ->
  (forall p f, In p packages -> In f (package_files name) -> w_dir w (copy_prefix cwd ++ p ++ fst f) = true) ->
  (forall f, In f (package_files name) -> mfind (output_dir cwd name ++ snd f) fs <> None) ->
  (forall p f, In p packages -> In f (package_files name) ->
     mfind (copy_prefix cwd ++ p ++ fst f ++ snd f) (copied w o name fs) = mfind (output_dir cwd name ++ snd f) fs) /\
  (forall x, no_char "/" x -> mfind (output_dir cwd name ++ x) (copied w o name fs) = mfind (output_dir cwd name ++ x) fs).
Proof.
  intros Ec Ew Hp D M. unfold copied. rewrite Ec, Ew. rewrite (under_plain _ _ (plain_last _ Hp)). cbv zeta. rewrite !copy_to_jobs. cbn [fst].
  set (P1 := copy_prefix cwd ++ "src/thunder_robot/"). set (P2 := copy_prefix cwd ++ "src/thunder_robot_chrono/"). set (dir := output_dir cwd name) in *.
  assert (PN : P1 <> P2).
  { intros E. apply (f_equal String.length) in E. unfold P1, P2 in E. rewrite !length_app in E. cbn [String.length] in E. lia. }
  assert (FR : forall P fs path, (forall f, In f (package_files name) -> dest P f <> path) -> mfind path (copy_list w (jobs dir P (package_files name)) fs) = mfind path fs).
  { intros P fs0 path H. apply (only_list (fun x => exists h, In h (package_files name) /\ x = dest P h)).
    - intros s d x Hj. apply in_map_iff in Hj. destruct Hj as (h & Eh & Hh). injection Eh as _ <- <-. now exists h.
    - intros (h & Hh & ->). now apply (H h). }
  assert (SR : forall P fs0 x, no_char "/" x -> mfind (dir ++ x) (copy_list w (jobs dir P (package_files name)) fs0) = mfind (dir ++ x) fs0).
  { intros P fs0 x Hx. apply FR. intros f Hf. now apply dest_source. }
  assert (CP : forall P fs0, (forall f, In f (package_files name) -> w_dir w (P ++ fst f) = true) ->
    (forall f, In f (package_files name) -> mfind (dir ++ snd f) fs0 <> None) ->
    forall f, In f (package_files name) -> mfind (dest P f) (copy_list w (jobs dir P (package_files name)) fs0) = mfind (dir ++ snd f) fs0).
  { intros P fs0 Hd Hm. apply copy_jobs; [apply incl_refl|apply files_nodup|exact Hd| |exact Hm].
    intros f g Hf Hg. apply dest_source; [exact Hf|now apply files_no_slash]. }
  assert (DE : forall p f, copy_prefix cwd ++ p ++ fst f ++ snd f = dest (copy_prefix cwd ++ p) f) by (intros; unfold dest; now rewrite !app_assoc_s).
  split.
  - intros p f Hpk Hf. rewrite DE. destruct Hpk as [<-|[<-|[]]].
    + fold P1. rewrite FR.
      * apply CP; auto. intros g Hg. unfold P1. rewrite app_assoc_s. apply D; [now left|exact Hg].
      * intros g Hg E. apply dest_inj in E; auto. destruct E as [_ E]. congruence.
    + fold P2. rewrite CP; auto.
      * apply SR. now apply files_no_slash.
      * intros g Hg. unfold P2. rewrite app_assoc_s. apply D; [right; now left|exact Hg].
      * intros g Hg. rewrite SR by now apply files_no_slash. now apply M.
  - intros x Hx. rewrite !SR by exact Hx. reflexivity.
Qed.
End Copy.

Section Whole.
Variables (w : world) (descr : string -> string) (config_file : string) (cfg : ynode) (o : options).
(* a run that returns a status: 0 and nothing written, or 1 and every file *)
Theorem statuses fs : plain_dir (w_cwd w) -> o_copy o = false ->
  exists fs' e, thunder_gen w descr config_file cfg o fs = (fs', Some e) /\
  forall s, e = Exit s -> (s = 0 /\ fs' = fs) \/
  (s = 1 /\ exists d name r hd src y, let F x := output_dir (w_cwd w) name ++ x in
     cli_names config_file (o_name o) = Ok (Accepted d name) /\ robot_from_file name cfg true = Ok r /\ save_par_REG r = Ok y /\
     mfind (F (gen_cpp name)) fs' = Some (CSource (casadi_fun r)) /\ mfind (F (gen_h name)) fs' = Some (CHeader (casadi_fun r)) /\
     mfind (F (class_h name)) fs' = Some (Txt hd) /\ mfind (F (class_cpp name)) fs' = Some (Txt src) /\
     mfind (F (conf_yaml name)) fs' = Some (Tree cfg) /\ mfind (F (reg_yaml name)) fs' = Some (Tree y) /\
     (o_python o = true -> exists c, mfind (F "CMakeLists.txt") fs' = Some (Txt c)) /\
     forall p, ~ In p (map F (output_names name (o_python o) (o_casadi o) (map fst (casadi_fun r)))) -> mfind p fs' = mfind p fs).
Proof.
  intros Hp Ec. destruct (ends w descr config_file cfg o fs) as [E|[E|E]].
  - destruct E as (d & name & r & th & tc & tm & H & S & mtm & y & P & E). eexists _, _. split; [exact E|]. intros s Es. injection Es as <-.
    right. split; [reflexivity|]. exists d, name, r, H, S, y. cbv zeta. unfold copied. rewrite Ec.
    pose proof (left_slot w cfg o name r th tc tm H S y fs) as (A1 & A2 & A3 & A4 & A5 & A6 & A7).
    pose proof (left_frame w cfg o name r th tc tm H S y fs) as A9.
    rewrite (under_plain _ _ (plain_last _ Hp)) in A1, A2, A3, A4, A5, A6, A7, A9. cbn [slot_name] in *.
    destruct P. repeat (split; [assumption|]). split; [intros Epy; eexists; apply (A5 Epy)|]. exact A9.
  - eexists _, _. split; [exact E|]. intros s Es. injection Es as <-. now left.
  - destruct E as (fs' & m & E). eexists _, _. split; [exact E|]. discriminate.
Qed.

Theorem copy_run d name r0 r fs : installed w -> cli_names config_file (o_name o) = Ok (Accepted d name) -> session name cfg r0 r r ->
  ~ occurs_in "THUNDERROBOT" name -> (forall f, no_char "#" (descr f)) -> plain_dir (w_cwd w) -> o_copy o = true ->
  (forall p f, In p packages -> In f (package_files name) -> w_dir w (copy_prefix (w_cwd w) ++ p ++ fst f) = true) ->
  exists fs', thunder_gen w descr config_file cfg o fs = (fs', Some (Exit 1)) /\
  forall p f, In p packages -> In f (package_files name) -> exists c,
    mfind (output_dir (w_cwd w) name ++ snd f) fs' = Some c /\ mfind (copy_prefix (w_cwd w) ++ p ++ fst f ++ snd f) fs' = Some c.
Proof.
  intros Hw Hc Hs Hn Hd Hp Ec D. destruct Hw as (W1 & W2 & W3).
  destruct (texts descr cfg o name r0 r Hs Hn (fun f => no_char_hasb _ _ (Hd f))) as (H & S & y & EH & ES & Ey).
  pose proof (run_ok w descr config_file cfg o d name r template_h template_cpp template_cmake H S (Some template_cmake) y Hc (se_build _ _ _ _ _ Hs) W2 W1 W3 (fun _ => eq_refl) EH ES Ey fs) as R.
  pose proof (left_slot w cfg o name r template_h template_cpp template_cmake H S y fs) as (A1 & A2 & A3 & A4 & A5 & A6 & A7).
  rewrite (under_plain _ _ (plain_last _ Hp)) in A1, A2, A3, A4, A5, A6, A7. cbn [slot_name] in *.
  set (fs1 := left_by w cfg o name r template_h template_cpp template_cmake H S y fs) in *.
  assert (SL : no_char "/" name).
  { apply no_slash_lit. apply identifier_slash. apply (sess_name _ _ _ _ _ Hs). }
  assert (M : forall f, In f (package_files name) -> exists c, mfind (output_dir (w_cwd w) name ++ snd f) fs1 = Some c).
  { intros f Hf. cbn [package_files In] in Hf. repeat destruct Hf as [<-|Hf]; try destruct Hf; cbn [snd]; eexists; eassumption. }
  destruct (copies name SL w o (w_cwd w) fs1 Ec eq_refl Hp D) as [C1 C2].
  { intros f Hf E. destruct (M f Hf) as [c Hm]. congruence. }
  eexists. split; [exact R|]. intros p f Hpk Hf. destruct (M f Hf) as [c Hm]. exists c.
  rewrite (C1 p f Hpk Hf), (C2 _ (files_no_slash name SL f Hf)). auto.
Qed.
End Whole.

(* ---- a concrete run ---- *)
Definition desk : world := mkWorld "/home/user" true true (Some (mkTemplate (Some template_h) (Some template_cpp) (Some template_cmake))) (fun _ => true).
Definition no_options : options := mkOptions None false false false.
Definition bare_desk : world := mkWorld "/home/user" true true None (fun _ => true).
Lemma desk_plain : plain_dir "/home/user".
Proof.
  intros [s E]. apply (f_equal backwards) in E. rewrite backwards_app in E. cbn in E. discriminate E.
Qed.
Lemma desk_root : package_root "/home/user" "/home/thunder_dev/thunder_dynamics/".
Proof.
  right. exists "home/user". split; [reflexivity|]. split; [|reflexivity].
  intros d E. apply (f_equal backwards) in E. rewrite backwards_app in E. cbn in E. discriminate E.
Qed.
Lemma toy_cli over : cli_names "toy.yaml" over = Ok (Accepted "./" (match over with Some n => n | None => "toy" end)).
Proof. apply (cli_plain "toy"). intros i. apply (no_slash_lit "toy" eq_refl i). Qed.
Lemma toy_no_guard : ~ occurs_in "THUNDERROBOT" "toy".
Proof.
  intros (a & b & E). apply (f_equal String.length) in E. rewrite !length_app in E. cbn [String.length] in E. lia.
Qed.
Lemma toy_rejected : cli_names "robot_conf" None = Ok Rejected.
Proof. reflexivity. Qed.

(* ---- the directories of --copy ---- *)
Lemma last_slash s i : find_last_of s "/" = Some i -> exists a b, s = a ++ "/" ++ b /\ String.length a = i.
Proof.
  revert i. induction s as [|c s IH]; intros i H; [discriminate H|]. cbn [find_last_of] in H. destruct (find_last_of s "/") as [j|].
  - injection H as <-. destruct (IH j eq_refl) as (a & b & -> & E). exists (String c a), b. split; [reflexivity|]. cbn [String.length]. now rewrite E.
  - destruct (in_chars c "/") eqn:E; [|discriminate H]. injection H as <-. exists "", s. cbn [in_chars] in E. rewrite orb_false_r in E.
    apply Ascii.eqb_eq in E. subst c. split; reflexivity.
Qed.
Lemma last_component a b : find_last_of (a ++ "/" ++ b) "/" = Some (String.length a) -> filename (a ++ "/" ++ b) = b.
Proof.
  intros E. unfold filename. rewrite E. replace (a ++ "/" ++ b) with ((a ++ "/") ++ b) by apply app_assoc_s.
  rewrite (substring_drop' (a ++ "/")) by (rewrite length_app; reflexivity). apply substring_all'. rewrite !length_app. cbn [String.length]. lia.
Qed.
Lemma root_ok cwd root : plain_dir cwd -> package_root cwd root -> root = copy_prefix cwd.
Proof.
  intros Hp [(d & E & ->)|(s & E & N & ->)]; unfold copy_prefix.
  - assert (F : filename cwd = "build").
    { rewrite E. apply (last_component d "build"). rewrite flo_app. change (find_last_of ("/" ++ "build") "/") with (Some 0). cbv beta iota. now rewrite Nat.add_0_r. }
    rewrite F. cbn [String.eqb Ascii.eqb Bool.eqb]. unfold under.
    replace (ends_slash cwd) with false; [reflexivity|]. symmetry. rewrite E.
    clear. induction d as [|a d IH]; [reflexivity|]. cbn [append ends_slash]. destruct (d ++ "/build") eqn:X; [destruct d; discriminate X|]. exact IH.
  - destruct (String.eqb_spec (filename cwd) "build") as [F|F]; [|reflexivity]. exfalso.
    destruct (find_last_of cwd "/") as [i|] eqn:L.
    + destruct (last_slash cwd i L) as (a & b & E2 & El). subst i. rewrite E2 in L. pose proof (last_component a b L) as G.
      rewrite <- E2, F in G. subst b. exact (N a E2).
    + rewrite E in L. cbn [append find_last_of] in L. destruct (find_last_of s "/"); discriminate L.
Qed.
