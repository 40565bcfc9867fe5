(* A run of the generator. *)
From Coq Require Import Reals String Ascii List Bool Arith ZArith Lia.
From Verif.Model Require Import Base SX Robot Yaml Build Text TemplateText Main.
From Verif.Spec Require Import Text Setup Api Generated.
From Verif.Proofs Require Import Maps Text Header Names Load Get Api Segments GenText GenFiles StateSess HeaderToy.
Import ListNotations.
Open Scope nat_scope.
Open Scope string_scope.

Lemma after_go p q fs fs1 : p fs = (fs1, None) -> (p ;; q) fs = q fs1.
Proof. intros E. unfold after. now rewrite E. Qed.
Lemma after_stop p q fs fs1 e : p fs = (fs1, Some e) -> (p ;; q) fs = (fs1, Some e).
Proof. intros E. unfold after. now rewrite E. Qed.

(* ---- file names are told apart by their last character and their length ---- *)
Fixpoint last_char (s : string) : ascii := match s with EmptyString => "000" | String a EmptyString => a | String _ t => last_char t end.
Lemma last_app a c s : last_char (a ++ String c s) = last_char (String c s).
Proof. induction a as [|x a IH]; [reflexivity|]. cbn [append]. destruct a; [reflexivity|]. exact IH. Qed.
Lemma by_last dir x y a b s t : x = a ++ s -> y = b ++ t -> s <> "" -> t <> "" -> last_char s <> last_char t -> dir ++ x <> dir ++ y.
Proof.
  intros -> -> Hs Ht N E. apply (f_equal last_char) in E. rewrite <- !app_assoc_s in E.
  destruct s as [|c s]; [congruence|]. destruct t as [|d t]; [congruence|]. rewrite !last_app in E. contradiction.
Qed.
Lemma by_length dir x y : String.length x <> String.length y -> dir ++ x <> dir ++ y.
Proof. intros N E. apply (f_equal String.length) in E. rewrite !length_app in E. lia. Qed.

Definition kind (s : string) : ascii * nat := (last_char s, String.length s).

Section Names.
Variables (dir name : string).
Notation P x := (dir ++ x).
Lemma len_names : String.length (gen_cpp name) = String.length name + 8 /\ String.length (gen_h name) = String.length name + 6 /\
  String.length (class_h name) = String.length name + 10 /\ String.length (class_cpp name) = String.length name + 12 /\
  String.length (conf_yaml name) = String.length name + 10 /\ String.length (reg_yaml name) = String.length name + 13.
Proof. unfold gen_cpp, gen_h, class_h, class_cpp, conf_yaml, reg_yaml. rewrite !length_app. cbn [String.length]. lia. Qed.
Lemma last_names : last_char (gen_cpp name) = "p"%char /\ last_char (gen_h name) = "h"%char /\ last_char (class_h name) = "h"%char /\
  last_char (class_cpp name) = "p"%char /\ last_char (conf_yaml name) = "l"%char /\ last_char (reg_yaml name) = "l"%char.
Proof.
  unfold gen_cpp, gen_h, class_h, class_cpp, conf_yaml, reg_yaml. rewrite <- !(app_assoc_s "thunder_"). rewrite !last_app. repeat split.
Qed.
Lemma kind_ne x y : x <> "" -> y <> "" -> kind x <> kind y -> P x <> P y.
Proof.
  intros X Y N E. apply N. unfold kind. destruct x as [|a x]; [congruence|]. destruct y as [|b y]; [congruence|].
  f_equal.
  - apply (f_equal last_char) in E. now rewrite !last_app in E.
  - apply (f_equal String.length) in E. rewrite !length_app in E. lia.
Qed.
End Names.

(* all the files of a run: the same name for every reader *)
Inductive slot := SGenCpp | SGenH | SClassH | SClassCpp | SCmake | SConf | SReg.
Definition slot_name (name : string) (s : slot) : string :=
  match s with
  | SGenCpp => gen_cpp name | SGenH => gen_h name | SClassH => class_h name | SClassCpp => class_cpp name
  | SCmake => "CMakeLists.txt" | SConf => conf_yaml name | SReg => reg_yaml name
  end.
Definition slots := [SGenCpp; SGenH; SClassH; SClassCpp; SCmake; SConf; SReg].
Lemma slot_kind name s : slot_name name s <> "" /\ kind (slot_name name s) =
  match s with
  | SGenCpp => ("p"%char, String.length name + 8) | SGenH => ("h"%char, String.length name + 6)
  | SClassH => ("h"%char, String.length name + 10) | SClassCpp => ("p"%char, String.length name + 12)
  | SCmake => ("t"%char, 14) | SConf => ("l"%char, String.length name + 10) | SReg => ("l"%char, String.length name + 13)
  end.
Proof.
  destruct (len_names name) as (A1 & A2 & A3 & A4 & A5 & A6). destruct (last_names name) as (B1 & B2 & B3 & B4 & B5 & B6).
  split.
  - intros E. apply (f_equal String.length) in E. destruct s; cbn [slot_name] in E; cbn in E; try discriminate E; lia.
  - unfold kind. destruct s; cbn [slot_name]; try (rewrite ?A1, ?A2, ?A3, ?A4, ?A5, ?A6, ?B1, ?B2, ?B3, ?B4, ?B5, ?B6; reflexivity); reflexivity.
Qed.
Lemma slot_ne dir name s t : s <> t -> dir ++ slot_name name s <> dir ++ slot_name name t.
Proof.
  intros N. destruct (slot_kind name s) as [S1 S2]. destruct (slot_kind name t) as [T1 T2]. apply kind_ne; auto. rewrite S2, T2.
  destruct s, t; try congruence; intros E; injection E; try discriminate; try lia.
Qed.
Lemma slot_casadi dir name s f : dir ++ slot_name name s <> dir ++ f ++ ".casadi".
Proof.
  destruct (slot_kind name s) as [S1 S2]. apply kind_ne; auto.
  - destruct f; discriminate.
  - rewrite S2. unfold kind. rewrite last_app. cbn [last_char]. destruct s; intros E; injection E; discriminate.
Qed.

(* the saved functions *)
Definition saved (dir : string) (l : list (string * cfun)) (fs : files) : files :=
  fold_left (fun fs kv => mset (dir ++ fst kv ++ ".casadi") (CFun (snd kv)) fs) l fs.
Lemma saved_other dir l p : (forall kv, In kv l -> p <> dir ++ fst kv ++ ".casadi") -> forall fs, mfind p (saved dir l fs) = mfind p fs.
Proof.
  unfold saved. induction l as [|kv l IH]; intros H fs; [reflexivity|]. cbn [fold_left]. rewrite IH by (intros; apply H; now right).
  apply mfind_mset_ne. apply H. now left.
Qed.
Lemma casadi_inj dir f g : dir ++ f ++ ".casadi" = dir ++ g ++ ".casadi" -> f = g.
Proof.
  intros E. apply app_inv_length in E; [|reflexivity]. destruct E as [_ E].
  assert (L : String.length f = String.length g) by (apply (f_equal String.length) in E; rewrite !length_app in E; lia).
  apply app_inv_length in E; tauto.
Qed.
Lemma saved_has dir f cf l : NoDup (map fst l) -> In (f, cf) l -> forall fs, mfind (dir ++ f ++ ".casadi") (saved dir l fs) = Some (CFun cf).
Proof.
  unfold saved. induction l as [|kv l IH]; intros N H fs; [destruct H|]. cbn [fold_left]. cbn [map] in N. inversion N as [|? ? N1 N2]; subst.
  destruct H as [->|H]; [|now apply IH].
  change (fold_left (fun fs kv => mset (dir ++ fst kv ++ ".casadi") (CFun (snd kv)) fs) l ?x) with (saved dir l x).
  rewrite saved_other; [apply mfind_mset|]. intros kv Hkv E. apply casadi_inj in E. apply N1. cbn [fst] in *. rewrite E. now apply in_map.
Qed.

(* ---- the pieces of a run ---- *)
Lemma rewrite_ok path f s s' fs : mfind path fs = Some (Txt s) -> f s = Ok s' -> rewrite path f fs = (mset path (Txt s') fs, None).
Proof. intros E F. unfold rewrite. now rewrite E, F. Qed.

Section Run.
Variables (w : world) (descr : string -> string) (config_file : string) (cfg : ynode) (o : options).
Variables (d name : string) (r : robot) (th tc tm H S : string) (mtm : option string) (y : ynode).
Hypothesis Hcli : cli_names config_file (o_name o) = Ok (Accepted d name).
Hypothesis Hbuild : robot_from_file name cfg true = Ok r.
Hypothesis Hmk : w_mkdir w = true.
Hypothesis Hhome : w_home w = true.
Hypothesis Htp : w_template w = Some (mkTemplate (Some th) (Some tc) mtm).
Hypothesis Htm : o_python o = true -> mtm = Some tm.
Hypothesis HH : change_h "robot" name r descr th = Ok H.
Hypothesis HS : change_cpp "robot" name r descr (o_python o) (if o_python o then add_bindings tc else tc) = Ok S.
Hypothesis Hy : save_par_REG r = Ok y.

Notation dir := (under (w_cwd w) (name ++ "_generatedFiles/")).
Notation F s := (dir ++ slot_name name s).
(* the files without --copy *)
Definition left_by (fs : files) : files :=
  let fs := mset (F SGenH) (CHeader (casadi_fun r)) (mset (F SGenCpp) (CSource (casadi_fun r)) fs) in
  let fs := if o_casadi o then saved dir (casadi_fun r) fs else fs in
  let fs := mset (F SClassCpp) (Txt tc) (mset (F SClassH) (Txt th) fs) in
  let fs := if o_python o then mset (F SCmake) (Txt (update_cmake "robot" name tm)) (mset (F SCmake) (Txt tm) fs) else fs in
  let fs := mset (F SClassH) (Txt H) fs in
  let fs := if o_python o then mset (F SClassCpp) (Txt (add_bindings tc)) fs else fs in
  let fs := mset (F SClassCpp) (Txt S) fs in
  mset (F SReg) (Tree y) (mset (F SConf) (Tree cfg) fs).
Definition copied (fs : files) : files :=
  let c kind fs := let p := copy_prefix (w_cwd w) ++ kind in
    fst (copy_to w name dir (p ++ "robots/") (p ++ "robots/") (p ++ "library/") (p ++ "src/") fs) in
  if o_copy o then c "src/thunder_robot_chrono/" (c "src/thunder_robot/" fs) else fs.

Ltac ne := first [apply slot_ne; discriminate | apply not_eq_sym; apply slot_ne; discriminate].
(* the state when the templates have been copied, and what is still to be done *)
Definition copied_templates (fs : files) : files :=
  let fs := mset (F SGenH) (CHeader (casadi_fun r)) (mset (F SGenCpp) (CSource (casadi_fun r)) fs) in
  let fs := if o_casadi o then saved dir (casadi_fun r) fs else fs in
  let fs := mset (F SClassCpp) (Txt tc) (mset (F SClassH) (Txt th) fs) in
  if o_python o then mset (F SCmake) (Txt (update_cmake "robot" name tm)) (mset (F SCmake) (Txt tm) fs) else fs.
Definition remaining : piece :=
  change_to_robot "robot" name r descr (F SClassH) (F SClassCpp) (o_python o) ;;
  write (F SConf) (Tree (save_conf cfg)) ;;
  save_reg r (F SReg) ;;
  (if o_copy o then
     (let p := copy_prefix (w_cwd w) ++ "src/thunder_robot/" in
      copy_to w name dir (p ++ "robots/") (p ++ "robots/") (p ++ "library/") (p ++ "src/")) ;;
     (let p := copy_prefix (w_cwd w) ++ "src/thunder_robot_chrono/" in
      copy_to w name dir (p ++ "robots/") (p ++ "robots/") (p ++ "library/") (p ++ "src/"))
   else skip) ;;
  stop (Exit 1).
Theorem run_to_templates fs : thunder_gen w descr config_file cfg o fs = remaining (copied_templates fs).
Proof.
  clear HH HS Hy. unfold thunder_gen. rewrite Hcli, Hbuild. cbv zeta. rewrite Hmk, Hhome, Htp. cbn [negb tp_h tp_cpp tp_cmake].
  change (dir ++ "thunder_" ++ name ++ ".h") with (F SClassH).
  change (dir ++ "thunder_" ++ name ++ ".cpp") with (F SClassCpp).
  change (dir ++ "CMakeLists.txt") with (F SCmake).
  change (dir ++ name ++ "_conf.yaml") with (F SConf). change (dir ++ name ++ "_par_REG.yaml") with (F SReg).
  set (fs1 := mset (F SGenH) (CHeader (casadi_fun r)) (mset (F SGenCpp) (CSource (casadi_fun r)) fs)).
  set (fs2 := if o_casadi o then saved dir (casadi_fun r) fs1 else fs1).
  erewrite after_go with (fs1 := fs2).
  2:{ unfold generate_library. erewrite after_go by reflexivity. erewrite after_go by reflexivity.
      replace (dir ++ (name ++ "_gen") ++ ".h") with (F SGenH) by (cbn [slot_name]; unfold gen_h; now rewrite !app_assoc_s).
      replace (dir ++ (name ++ "_gen") ++ ".cpp") with (F SGenCpp) by (cbn [slot_name]; unfold gen_cpp; now rewrite !app_assoc_s).
      unfold fs2, fs1. destruct (o_casadi o); reflexivity. }
  erewrite after_go by reflexivity.
  set (fs3 := mset (F SClassCpp) (Txt tc) (mset (F SClassH) (Txt th) fs2)).
  set (fs4 := if o_python o then mset (F SCmake) (Txt (update_cmake "robot" name tm)) (mset (F SCmake) (Txt tm) fs3) else fs3).
  erewrite after_go with (fs1 := fs4).
  2:{ erewrite after_go by reflexivity. erewrite after_go by reflexivity. fold fs3. unfold fs4. destruct (o_python o); [|reflexivity].
      rewrite (Htm eq_refl). erewrite after_go by reflexivity. apply (rewrite_ok _ _ tm); [apply mfind_mset|reflexivity]. }
  reflexivity.
Qed.
Lemma templates_there fs : mfind (F SClassH) (copied_templates fs) = Some (Txt th) /\ mfind (F SClassCpp) (copied_templates fs) = Some (Txt tc).
Proof.
  clear. unfold copied_templates. split; destruct (o_python o); repeat first [rewrite mfind_mset | rewrite mfind_mset_ne by ne]; reflexivity.
Qed.
Theorem run_ok fs : thunder_gen w descr config_file cfg o fs = (copied (left_by fs), Some (Exit 1)).
Proof.
  rewrite run_to_templates. destruct (templates_there fs) as [T1 T2]. unfold remaining.
  set (fs4 := copied_templates fs) in *.
  set (fs5 := mset (F SClassH) (Txt H) fs4).
  set (fs6 := if o_python o then mset (F SClassCpp) (Txt (add_bindings tc)) fs5 else fs5).
  assert (C5 : mfind (F SClassCpp) fs5 = Some (Txt tc)) by (unfold fs5; rewrite mfind_mset_ne by ne; exact T2).
  erewrite after_go with (fs1 := mset (F SClassCpp) (Txt S) fs6).
  2:{ unfold change_to_robot. erewrite after_go with (fs1 := fs5); [|apply (rewrite_ok _ _ th); [exact T1|exact HH]].
      erewrite after_go with (fs1 := fs6).
      2:{ unfold fs6. destruct (o_python o); [|reflexivity]. apply (rewrite_ok _ _ tc); [exact C5|reflexivity]. }
      apply (rewrite_ok _ _ (if o_python o then add_bindings tc else tc)); [|exact HS].
      unfold fs6. destruct (o_python o); [apply mfind_mset|exact C5]. }
  erewrite after_go by reflexivity.
  erewrite after_go; [|unfold save_reg; rewrite Hy; reflexivity].
  change (mset (F SReg) (Tree y) _) with (left_by fs). unfold copied. destruct (o_copy o); reflexivity.
Qed.

(* what the files hold *)
Lemma left_slot fs : mfind (F SGenCpp) (left_by fs) = Some (CSource (casadi_fun r)) /\ mfind (F SGenH) (left_by fs) = Some (CHeader (casadi_fun r)) /\
  mfind (F SClassH) (left_by fs) = Some (Txt H) /\ mfind (F SClassCpp) (left_by fs) = Some (Txt S) /\
  (o_python o = true -> mfind (F SCmake) (left_by fs) = Some (Txt (update_cmake "robot" name tm))) /\
  mfind (F SConf) (left_by fs) = Some (Tree cfg) /\ mfind (F SReg) (left_by fs) = Some (Tree y).
Proof.
  clear Hcli Hbuild Hmk Hhome Htp Htm HH HS Hy.
  unfold left_by. assert (SO : forall s (m : files), mfind (F s) (saved dir (casadi_fun r) m) = mfind (F s) m).
  { intros s m. apply saved_other. intros kv _. apply slot_casadi. }
  repeat apply conj; try (intros E; rewrite E); destruct (o_python o) eqn:EP; try discriminate; destruct (o_casadi o);
    repeat first [rewrite mfind_mset | rewrite SO | rewrite mfind_mset_ne by ne]; reflexivity.
Qed.
Lemma left_frame fs p : ~ In p (map (fun x => dir ++ x) ([gen_cpp name; gen_h name; class_h name; class_cpp name; conf_yaml name; reg_yaml name] ++
    (if o_python o then ["CMakeLists.txt"] else []) ++ (if o_casadi o then map (fun f => (f ++ ".casadi")%string) (map fst (casadi_fun r)) else []))%list) ->
  mfind p (left_by fs) = mfind p fs.
Proof.
  clear Hcli Hbuild Hmk Hhome Htp Htm HH HS Hy descr config_file mtm.
  intros N. rewrite in_map_iff in N. unfold left_by.
  assert (M : forall s c (m : files), (s = SCmake -> o_python o = true) -> mfind p (mset (F s) c m) = mfind p m).
  { intros s c m Hp. apply mfind_mset_ne. intros ->. apply N. exists (slot_name name s). split; [reflexivity|]. rewrite !in_app_iff. cbn [In].
    destruct s; cbn [slot_name]; try tauto. rewrite (Hp eq_refl). cbn [In]. tauto. }
  assert (MC : o_casadi o = true -> forall m, mfind p (saved dir (casadi_fun r) m) = mfind p m).
  { intros E. apply saved_other. intros kv Hk ->. apply N. exists (fst kv ++ ".casadi"). split; [reflexivity|]. rewrite E, !in_app_iff.
    right. right. apply (in_map (fun f => f ++ ".casadi")). now apply in_map. }
  destruct (o_python o) eqn:EP, (o_casadi o) eqn:EC; repeat (rewrite M by (reflexivity || discriminate)); rewrite ?MC by reflexivity;
    repeat (rewrite M by (reflexivity || discriminate)); reflexivity.
Qed.
Lemma left_casadi fs f cf : o_casadi o = true -> NoDup (map fst (casadi_fun r)) -> In (f, cf) (casadi_fun r) ->
  mfind (dir ++ f ++ ".casadi") (left_by fs) = Some (CFun cf).
Proof.
  clear Hcli Hbuild Hmk Hhome Htp Htm HH HS Hy.
  intros E N Hi. unfold left_by. rewrite E.
  assert (M : forall s c (m : files), mfind (dir ++ f ++ ".casadi") (mset (F s) c m) = mfind (dir ++ f ++ ".casadi") m).
  { intros s c m. apply mfind_mset_ne. apply not_eq_sym, slot_casadi. }
  destruct (o_python o); rewrite ?M; now apply saved_has.
Qed.
End Run.
