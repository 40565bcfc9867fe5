(* The robot loaded from a consistent configuration, after the substitution of the parameters that are not
   symbolic, has the shape on which the symbolic computation is analysed. *)
From Coq Require Import Reals List Arith String Bool Lia ZArith.
From Verif.Model Require Import Base Expr SX Robot Kinematics Dynamics Regressors Yaml Inertia Build.
From Verif.Spec Require Import Setup.
From Verif.Proofs Require Import Calc Rel Maps Pure Names Shape.
Import ListNotations.
Open Scope nat_scope.
Open Scope string_scope.

(* ---- insertion of default values ---- *)
Lemma mfind_ins {V} (l m : smap V) k :
  mfind k (fold_left (fun m kv => minsert (fst kv) (snd kv) m) l m) =
  match mfind k m with Some x => Some x | None => mfind k l end.
Proof.
  revert m. induction l as [|[k' v] l IH]; cbn [fold_left fst snd]; intros m.
  - destruct (mfind k m); auto.
  - rewrite IH. destruct (string_dec k k') as [->|N].
    + rewrite mfind_minsert. cbn [mfind]. rewrite String.eqb_refl. destruct (mfind k' m); auto.
    + rewrite mfind_minsert_ne by auto. cbn [mfind]. apply String.eqb_neq in N. now rewrite N.
Qed.
Lemma mfind_app {V} (l l' : smap V) k :
  mfind k (l ++ l')%list = match mfind k l with Some x => Some x | None => mfind k l' end.
Proof. induction l as [|[k' v] t IH]; simpl; auto. destruct (String.eqb k k'); auto. Qed.
Lemma mfind_map {V W} (g : string -> V -> W) (l : smap V) k :
  mfind k (map (fun kn => (fst kn, g (fst kn) (snd kn))) l) = option_map (g k) (mfind k l).
Proof.
  induction l as [|[k' v] t IH]; simpl; auto. destruct (String.eqb k k') eqn:E; auto.
  apply String.eqb_eq in E; subst; auto.
Qed.
Lemma mfind_In {V} (m : smap V) k v : mfind k m = Some v -> In (k, v) m.
Proof.
  induction m as [|[k' v'] t IH]; simpl; [discriminate|]. destruct (String.eqb k k') eqn:E.
  - apply String.eqb_eq in E; subst. intros H; inversion H; auto.
  - auto.
Qed.
Lemma In_mset {V} (m : smap V) k v k' : In k' (map fst (mset k v m)) -> k' = k \/ In k' (map fst m).
Proof.
  induction m as [|[k1 v1] t IH]; simpl; [intuition|].
  destruct (String.eqb k k1) eqn:E; simpl.
  - intuition.
  - destruct (String.ltb k k1); simpl; [intuition|]. intros [A|A]; auto. apply IH in A. intuition.
Qed.
Lemma In_ins {V} (l m : smap V) k :
  In k (map fst (fold_left (fun m kv => minsert (fst kv) (snd kv) m) l m)) ->
  In k (map fst l) \/ In k (map fst m).
Proof.
  revert m. induction l as [|[k' v] l IH]; cbn [fold_left fst snd map]; intros m H; auto.
  apply IH in H. destruct H as [H|H]; [left; right; auto|].
  unfold minsert in H. destruct (mfind k' m); auto. apply In_mset in H. simpl. intuition.
Qed.

(* ---- inversion of the parser ---- *)
Lemma pbind_ok {A B} (x : pres A) (f : A -> pres B) b : pbind x f = POk b -> exists a, x = POk a /\ f a = POk b.
Proof. destruct x; simpl; intros H; try discriminate. eauto. Qed.

Record parsed (name : string) (r : robot) : Prop := {
  pa_name : robotName r = name;
  pa_jt : List.length (jointsType r) = numJoints r;
  pa_el : isElasticJoint r = map (fun t => if is_sea t then 1%Z else 0%Z) (jointsType r);
  pa_ne : numElasticJoints r = count_elastic (isElasticJoint r);
  pa_fa : fun_args r = [];
  pa_cf : casadi_fun r = [];
  pa_model : model r = mset "par_gravity" (sym_vec "gravity" 3) (mset "par_Ln2EE" (sym_vec "Ln2EE" 6)
     (mset "par_world2L0" (sym_vec "world2L0" 6) (mset "par_DHtable" (sym_vec "DHtable" (numJoints r * 4)) [])));
  pa_symb : exists sG sE sW sDH sMm sDm sD sK sDl sDYN,
     symb r = mset "par_gravity" sG (mset "par_Ln2EE" sE (mset "par_world2L0" sW (mset "par_DHtable" sDH
     (mset "par_Mm" sMm (mset "par_Dm" sDm (mset "par_D" sD (mset "par_K" sK (mset "par_Dl" sDl
     (mset "par_DYN" sDYN []))))))))) /\
     (Nat.ltb 0 (Dl_order r) = false -> sDl = []) /\
     (ELASTIC r = false -> sK = [] /\ sD = [] /\ sDm = [] /\ sMm = []);
  pa_args : exists g w e dh,
     args r = mset "par_gravity" g (mset "par_Ln2EE" e (mset "par_world2L0" w (mset "par_DHtable" dh []))) /\
     List.length g = 3 /\ List.length w = 6 /\ List.length e = 6;
  pa_ord : ELASTIC r = false -> K_order r = 0 /\ D_order r = 0 /\ Dm_order r = 0
}.

Lemma three_len v l : three v = POk l -> List.length l = 3.
Proof.
  unfold three, vec_at. destruct (nth_error v 0), (nth_error v 1), (nth_error v 2); simpl; intros H; inversion H; auto.
Qed.

Ltac pinv H := repeat (match type of H with
          | pbind ?x _ = POk _ => let a := fresh "a" in let E := fresh "E" in
              apply pbind_ok in H; destruct H as [a [E H]]
          end; cbv beta zeta in H).
Lemma parse_inv name cfg r : parse_config name cfg = POk r -> parsed name r.
Proof.
  unfold parse_config. intros H. pinv H.
  match type of H with (let (_, _) := ?x in _) = _ => destruct x as [[[sK sD] sDm] sMm] eqn:Ex end.
  pinv H.
  match type of H with (if negb (Nat.eqb ?x ?y) then _ else _) = _ => destruct (Nat.eqb x y) eqn:Hjt end;
    cbn [negb] in H; [|discriminate]. apply Nat.eqb_eq in Hjt.
  pinv H.
  repeat match goal with E : three _ = POk _ |- _ => apply three_len in E end.
  match goal with E : elastic_flags ?n ?l = POk ?x |- _ =>
    assert (Hel : x = map (fun t => if is_sea t then 1%Z else 0%Z) l) by
    (unfold elastic_flags in E; destruct (Nat.leb n (List.length l)); inversion E;
     rewrite <- Hjt, firstn_all; reflexivity) end.
  inversion H; subst r; clear H. constructor; cbn [robotName jointsType numJoints isElasticJoint numElasticJoints fun_args
    casadi_fun model symb args ELASTIC Dl_order K_order D_order Dm_order]; auto.
  - do 10 eexists. split; [reflexivity|]. split.
    + match goal with E : (if Nat.ltb 0 ?x then _ else _) = POk _ |- Nat.ltb 0 ?x = false -> _ =>
        intros Hz; rewrite Hz in E; inversion E; auto end.
    + match goal with E : (if ?x then _ else _) = POk (_, _, _, _) |- ?x = false -> _ =>
        intros Hz; rewrite Hz in E; inversion E; auto end.
  - do 4 eexists. split; [reflexivity|]. rewrite !app_length. repeat split; lia.
  - intros Hz. subst. 
    repeat match goal with
    | E : (if false then _ else _) = POk ?x |- _ => inversion E; subst; clear E
    end.
    match goal with E : order_of (snd ?x) = _ |- _ => assert (x = (0%Z, 0%Z, 0%Z)) by (simpl in *; congruence); subst x end.
    repeat match goal with E : order_of (?f ?y) = POk _ |- _ => vm_compute in E; inversion E; subst; clear E end. auto.
Qed.

(* ---- loading only changes the argument vectors ---- *)
Definition argsonly (r r' : robot) : Prop := r' = with_args r (args r').
Lemma argsonly_refl r : argsonly r r.
Proof. destruct r; reflexivity. Qed.
Lemma argsonly_trans r r' r'' : argsonly r r' -> argsonly r' r'' -> argsonly r r''.
Proof. unfold argsonly. intros -> ->. reflexivity. Qed.
Lemma argsonly_with r a : argsonly r (with_args r a).
Proof. reflexivity. Qed.
Lemma set_sized_argsonly k n r v r' c : set_sized k n r v = Ok (r', c) -> argsonly r r'.
Proof.
  unfold set_sized. destruct (Nat.eqb (List.length v) n).
  - destruct (assign_loop _ _ _ _); simpl; intros H; inversion H; subst. reflexivity.
  - intros H; inversion H; subst. reflexivity.
Qed.
Lemma update_REG_argsonly r r' : update_inertial_REG r = Ok r' -> argsonly r r'.
Proof.
  unfold update_inertial_REG. destruct (get_par_DYN r); cbn [bind]; try discriminate.
  destruct (all_some a); try discriminate.
  destruct (set_par_REG r _) as [[r1 c]| |] eqn:E; simpl; intros H; inversion H; subst.
  eapply set_sized_argsonly; exact E.
Qed.
Lemma load_conf_argsonly r f u r' : load_conf_par r f u = Ok r' -> argsonly r r'.
Proof.
  unfold load_conf_par. destruct (load_conf_tree r f); [| |discriminate];
  (destruct u; intros H;
   [apply update_REG_argsonly in H; eapply argsonly_trans; [|exact H]; apply argsonly_with
   |inversion H; apply argsonly_with]).
Qed.

Fixpoint nodup_strs (l : list string) : bool :=
  match l with [] => true | a :: t => negb (existsb (String.eqb a) t) && nodup_strs t end.
Lemma nodup_str l : nodup_strs l = true -> NoDup l.
Proof.
  induction l; simpl; [constructor|]. intros H. apply andb_true_iff in H. destruct H as [A B].
  constructor; auto. intros Hin. apply negb_true_iff in A.
  assert (existsb (String.eqb a) l = true); [|congruence]. apply existsb_exists. exists a. split; auto. apply String.eqb_refl.
Qed.
Record loaded (r : robot) : Prop := {
  ld_jt : List.length (jointsType r) = numJoints r;
  ld_el : isElasticJoint r = map (fun t => if is_sea t then 1%Z else 0%Z) (jointsType r);
  ld_ne : numElasticJoints r = count_elastic (isElasticJoint r);
  ld_fa : fun_args r = [];
  ld_cf : casadi_fun r = [];
  ld_model : forall k len, In (k, len) (keys r) -> mfind k (model r) = Some (sym_vec (symname k) len);
  ld_mk : forall k, In k (map fst (model r)) -> In k arg_keys;
  ld_state : forall k len, In (k, len) (state_keys r) -> mfind k (symb r) = Some (repeat 1%Z len);
  ld_sc : forall k len, In (k, len) (keys r) -> mcount k (symb r) = true;
  ld_sk : forall k, In k (map fst (symb r)) -> (exists len, In (k, len) (keys r)) \/ flags r k = [];
  ld_nd : NoDup (map fst (symb r));
  ld_ska : forall k, In k (map fst (symb r)) -> In k arg_keys;
  ld_sarg : forall k len, In (k, len) (state_keys r) -> arg r k = repeat 0%R len;
  ld_ord : ELASTIC r = false -> K_order r = 0 /\ D_order r = 0 /\ Dm_order r = 0
}.

Lemma mfind_keys {V} (m : smap V) k : mfind k m <> None -> In k (map fst m).
Proof.
  destruct (mfind k m) eqn:E; [|congruence]. intros _. apply mfind_In in E.
  change k with (fst (k, v)). now apply in_map.
Qed.

Ltac inkeys H := repeat (let P := fresh in destruct H as [P|H]; [inversion P; subst; clear P|]); try destruct H.

Ltac inlist := simpl; repeat (first [left; reflexivity | right]).
Lemma new_robot_loaded name cfg r : new_robot name cfg = Ok r -> loaded r.
Proof.
  unfold new_robot. destruct (parse_config name cfg) as [r1| | |] eqn:E; try discriminate.
  apply parse_inv in E. destruct E.
  unfold initVarsFuns. rewrite pa_jt0, Nat.eqb_refl. cbn [negb].
  intros H; inversion H; subst r; clear H.
  destruct pa_symb0 as (sG & sE & sW & sDH & sMm & sDm & sD & sK & sDl & sDYN & Hs & HDl & HE).
  set (names := (init_vars_list r1 ++ init_ela_vars r1 ++ init_pars r1)%list).
  set (snames := (init_vars_list r1 ++ init_ela_vars r1)%list).
  assert (Hm : forall k, mfind k (ins_model (map (fun kn => vs (fst kn) (snd kn)) names) (model r1)) =
     match mfind k (model r1) with Some x => Some x | None => option_map (sym_vec k) (mfind k names) end).
  { intros k. unfold ins_model. rewrite mfind_ins. destruct (mfind k (model r1)); auto.
    unfold vs. apply (mfind_map sym_vec). }
  assert (Hsy : forall k, mfind k (ins_symb (map (fun kn => os (fst kn) (snd kn)) snames) (symb r1)) =
     match mfind k (symb r1) with Some x => Some x | None => option_map (repeat 1%Z) (mfind k snames) end).
  { intros k. unfold ins_symb. rewrite mfind_ins. destruct (mfind k (symb r1)); auto.
    unfold os. apply (mfind_map (fun _ => repeat 1%Z)). }
  assert (Ha : forall k, mfind k (ins_args (map (fun kn => zs (fst kn) (snd kn)) names) (args r1)) =
     match mfind k (args r1) with Some x => Some x | None => option_map (repeat 0%R) (mfind k names) end).
  { intros k. unfold ins_args. rewrite mfind_ins. destruct (mfind k (args r1)); auto.
    unfold zs. apply (mfind_map (fun _ => repeat 0%R)). }
  constructor; cbn [robotName jointsType numJoints isElasticJoint numElasticJoints fun_args
    casadi_fun model symb args ELASTIC Dl_order K_order D_order Dm_order with_symb with_args with_model]; auto.
  - intros k len Hk. rewrite Hm, pa_model0. unfold keys, state_keys, par_keys in Hk.
    cbn [robotName jointsType numJoints isElasticJoint numElasticJoints fun_args
    casadi_fun model symb args ELASTIC Dl_order K_order D_order Dm_order with_symb with_args with_model] in Hk.
    unfold names, init_vars_list, init_ela_vars, init_pars. rewrite !in_app_iff in Hk.
    destruct (ELASTIC r1), (Nat.ltb 0 (Dl_order r1)); simpl in Hk; 
      decompose [or] Hk; clear Hk; try contradiction; match goal with P : (_, _) = (_, _) |- _ => inversion P; subst k len; clear P end;
      try reflexivity; cbn -[Nat.mul sym_vec]; rewrite Nat.mul_comm; reflexivity.
  - intros k Hk. unfold ins_model in Hk. apply In_ins in Hk. rewrite map_map in Hk. unfold vs in Hk; cbn [fst] in Hk.
    rewrite pa_model0 in Hk. unfold names, init_vars_list, init_ela_vars, init_pars in Hk.
    destruct (ELASTIC r1), (Nat.ltb 0 (Dl_order r1)); vm_compute in Hk;
      decompose [or] Hk; clear Hk; try contradiction; subst k; inlist.
  - intros k len Hk. rewrite Hsy, Hs. unfold state_keys in Hk.
    cbn [robotName jointsType numJoints isElasticJoint numElasticJoints fun_args
    casadi_fun model symb args ELASTIC Dl_order K_order D_order Dm_order with_symb with_args with_model] in Hk.
    unfold snames, init_vars_list, init_ela_vars. rewrite !in_app_iff in Hk.
    destruct (ELASTIC r1); simpl in Hk; 
      decompose [or] Hk; clear Hk; try contradiction; match goal with P : (_, _) = (_, _) |- _ => inversion P; subst k len; clear P end;
      reflexivity.
  - intros k len Hk. unfold mcount. rewrite Hsy, Hs. unfold keys, state_keys, par_keys in Hk.
    cbn [robotName jointsType numJoints isElasticJoint numElasticJoints fun_args
    casadi_fun model symb args ELASTIC Dl_order K_order D_order Dm_order with_symb with_args with_model] in Hk.
    unfold snames, init_vars_list, init_ela_vars. rewrite !in_app_iff in Hk.
    destruct (ELASTIC r1), (Nat.ltb 0 (Dl_order r1)); simpl in Hk; 
      decompose [or] Hk; clear Hk; try contradiction; match goal with P : (_, _) = (_, _) |- _ => inversion P; subst k len; clear P end;
      reflexivity.
  - intros k Hk. unfold ins_symb in Hk. apply In_ins in Hk. rewrite map_map in Hk. unfold os in Hk; cbn [fst] in Hk.
    unfold flags, mget. cbn [symb with_symb with_args with_model]. rewrite Hsy.
    rewrite Hs in Hk |- *. unfold snames, init_vars_list, init_ela_vars in *.
    unfold keys, state_keys, par_keys. cbn [numJoints numElasticJoints ELASTIC Dl_order K_order D_order Dm_order with_symb with_args with_model].
    destruct (ELASTIC r1) eqn:EE, (Nat.ltb 0 (Dl_order r1)) eqn:DD; vm_compute in Hk;
      try (destruct (HE eq_refl) as (-> & -> & -> & ->)); try rewrite (HDl eq_refl);
      decompose [or] Hk; clear Hk; try contradiction; subst k;
      first [solve [left; eexists; cbn [app In]; repeat (first [left; reflexivity | right])] | right; vm_compute; reflexivity].
  - rewrite Hs. unfold snames, init_vars_list, init_ela_vars. destruct (ELASTIC r1); vm_compute; apply nodup_str; reflexivity.
  - intros k Hk. rewrite Hs in Hk. unfold snames, init_vars_list, init_ela_vars in Hk.
    destruct (ELASTIC r1); vm_compute in Hk; decompose [or] Hk; clear Hk; try contradiction; subst k; inlist.
  - intros k len Hk. unfold arg, mget. cbn [args with_symb with_args with_model]. rewrite Ha.
    destruct pa_args0 as (g & w & e & dh & Hargs & _). rewrite Hargs. unfold state_keys in Hk.
    cbn [robotName jointsType numJoints isElasticJoint numElasticJoints fun_args
    casadi_fun model symb args ELASTIC Dl_order K_order D_order Dm_order with_symb with_args with_model] in Hk.
    unfold names, init_vars_list, init_ela_vars. rewrite !in_app_iff in Hk.
    destruct (ELASTIC r1); simpl in Hk; 
      decompose [or] Hk; clear Hk; try contradiction; match goal with P : (_, _) = (_, _) |- _ => inversion P; subst k len; clear P end;
      reflexivity.
Qed.

Definition par_names : list string := ["par_DYN"; "par_REG"; "par_Dl"; "par_K"; "par_D"; "par_Dm"; "par_Mm"].
Lemma assign_sized_arg k n r v r' c k' : set_sized k n r v = Ok (r', c) -> k' <> k -> arg r' k' = arg r k'.
Proof.
  unfold set_sized. intros H N.
  assert (Ht : forall m, mget [] k' (mtouch [] k m) = mget [] k' (m : smap (list R))).
  { intros m. unfold mget, mtouch. rewrite mfind_minsert_ne; auto. }
  destruct (Nat.eqb (List.length v) n).
  - destruct (assign_loop _ _ _ _); simpl in H; inversion H; subst. unfold arg. cbn [args with_args].
    rewrite mget_mset_ne by auto. apply Ht.
  - inversion H; subst. apply Ht.
Qed.
Lemma load_conf_arg r f u r' k : load_conf_par r f u = Ok r' -> ~ In k par_names -> arg r' k = arg r k.
Proof.
  intros H N. assert (Hne : forall k', In k' par_names -> k <> k') by (intros k' A ->; auto).
  assert (Hs : forall s, arg (set_pars r s) k = arg r k).
  { intros s. unfold set_pars, arg. cbn [args with_args].
    repeat match goal with |- context [if ?b then mset _ _ _ else _] => destruct b end;
    repeat (rewrite mget_mset_ne by (apply Hne; simpl; tauto)); reflexivity. }
  assert (Hu : forall s, update_inertial_REG (set_pars r s) = Ok r' -> arg r' k = arg r k).
  { intros s. unfold update_inertial_REG. destruct (get_par_DYN (set_pars r s)) as [a| |]; cbn [bind]; try discriminate.
    destruct (all_some a) as [v|]; try discriminate.
    destruct (set_par_REG (set_pars r s) _) as [[r1 c]| |] eqn:E; simpl; intros H1; inversion H1; subst.
    rewrite <- (Hs s). eapply assign_sized_arg; [exact E|]. apply Hne. simpl; tauto. }
  unfold load_conf_par in H. destruct (load_conf_tree r f); [| |discriminate];
  (destruct u; [eapply Hu; exact H | inversion H; apply Hs]).
Qed.
Lemma state_not_par r k len : In (k, len) (state_keys r) -> ~ In k par_names.
Proof.
  unfold state_keys. intros H N. apply in_app_iff in H.
  destruct (ELASTIC r); simpl in H; decompose [or] H; try contradiction;
  match goal with P : (_, _) = (_, _) |- _ => inversion P; subst k; clear P end;
  simpl in N; decompose [or] N; try contradiction; discriminate.
Qed.
Lemma load_loaded r cfg r' : load_conf_par r cfg true = Ok r' -> loaded r -> loaded r'.
Proof.
  intros H L. pose proof (load_conf_argsonly _ _ _ _ H) as A.
  assert (Hk : state_keys r' = state_keys r) by (rewrite A; reflexivity).
  assert (Hs : forall k len, In (k, len) (state_keys r') -> arg r' k = repeat 0%R len).
  { intros k len Hi. rewrite Hk in Hi. rewrite (load_conf_arg _ _ _ _ k H).
    - apply (ld_sarg _ L k len Hi).
    - eapply state_not_par; eauto. }
  clear H Hk. rewrite A in Hs |- *. destruct L. constructor; auto.
Qed.
Lemma file_loaded name cfg r0 : robot_from_file name cfg false = Ok r0 -> loaded r0.
Proof.
  unfold robot_from_file. destruct (new_robot name cfg) as [r1| |] eqn:E; cbn [bind]; try discriminate.
  destruct (load_conf_par r1 cfg true) as [r2| |] eqn:E2; cbn [bind]; try discriminate.
  intros H; inversion H; subst. eapply load_loaded; [exact E2|].
  eapply new_robot_loaded; exact E.
Qed.
Lemma file_build name cfg r0 : robot_from_file name cfg false = Ok r0 ->
  robot_from_file name cfg true = compute_all r0.
Proof.
  unfold robot_from_file. destruct (new_robot name cfg) as [r1| |] eqn:E; cbn [bind]; try discriminate.
  destruct (load_conf_par r1 cfg true) as [r2| |] eqn:E2; cbn [bind]; try discriminate.
  intros H; inversion H; subst. reflexivity.
Qed.

