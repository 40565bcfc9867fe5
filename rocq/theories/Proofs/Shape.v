(* Shape of the robot on which the symbolic computation starts, and the inputs of its functions. *)
From Coq Require Import Reals List Arith String Bool Lia ZArith.
From Verif.Model Require Import Base Expr SX Robot Kinematics Dynamics Regressors.
From Verif.Spec Require Import Setup.
From Verif.Proofs Require Import Calc Rel Maps Pure Names.
Import ListNotations.
Open Scope nat_scope.
Open Scope string_scope.

(* name of the symbols of the elements of a parameter *)
Definition symname (k : string) : string :=
  if String.eqb k "par_DHtable" then "DHtable" else
  if String.eqb k "par_world2L0" then "world2L0" else
  if String.eqb k "par_Ln2EE" then "Ln2EE" else
  if String.eqb k "par_gravity" then "gravity" else k.
Lemma symname_inj k k' : In k arg_keys -> In k' arg_keys -> symname k = symname k' -> k = k'.
Proof.
  intros H H'. simpl in H, H'.
  repeat (destruct H as [<- | H]);
    try (repeat (destruct H' as [<- | H']); [ .. | destruct H']; intros E; vm_compute in E; first [discriminate E | reflexivity]).
  destruct H.
Qed.

Definition state_keys (b : robot) : list (string * nat) :=
  let n := numJoints b in let e := numElasticJoints b in
  ([("q", n); ("dq", n); ("ddq", n); ("d3q", n); ("d4q", n); ("dqr", n); ("ddqr", n); ("w", 6)]
   ++ (if ELASTIC b then [("x", e); ("dx", e); ("ddx", e); ("ddxr", e)] else []))%list.
Definition par_keys (b : robot) : list (string * nat) :=
  let n := numJoints b in let e := numElasticJoints b in
  ([("par_DHtable", 4 * n); ("par_world2L0", 6); ("par_Ln2EE", 6); ("par_gravity", 3); ("par_DYN", 10 * n)]
   ++ (if Nat.ltb 0 (Dl_order b) then [("par_Dl", n * Dl_order b)] else [])
   ++ (if ELASTIC b then [("par_K", e * K_order b); ("par_D", e * D_order b);
                          ("par_Dm", e * Dm_order b); ("par_Mm", e)] else []))%list.
Definition keys (b : robot) : list (string * nat) := (state_keys b ++ par_keys b)%list.

Lemma keys_arg b k len : In (k, len) (keys b) -> In k arg_keys.
Proof.
  unfold keys, state_keys, par_keys. intros H.
  rewrite !in_app_iff in H. simpl. 
  destruct H as [[H|H]|[H|[H|H]]].
  - simpl in H. intuition (match goal with H : (_, _) = _ |- _ => inversion H end; auto 30).
  - destruct (ELASTIC b); [|destruct H]. simpl in H. intuition (match goal with H : (_, _) = _ |- _ => inversion H end; auto 30).
  - simpl in H. intuition (match goal with H : (_, _) = _ |- _ => inversion H end; auto 30).
  - destruct (Nat.ltb 0 (Dl_order b)); [|destruct H]. simpl in H. intuition (match goal with H : (_, _) = _ |- _ => inversion H end; auto 30).
  - destruct (ELASTIC b); [|destruct H]. simpl in H. intuition (match goal with H : (_, _) = _ |- _ => inversion H end; auto 30).
Qed.

(* value of the unflagged elements *)
Definition cvals := string -> nat -> R.

Record pshape (cv : cvals) (b : robot) (k : string) (len : nat) : Prop := {
  ps_mc : mcount k (model b) = true;
  ps_sc : mcount k (symb b) = true;
  ps_r : rows (mdl b k) = len;
  ps_c : cols (mdl b k) = 1;
  ps_ok : ok (mdl b k) = true;
  ps_fl : List.length (flags b k) = len;
  ps_el : forall i, i < len -> el (mdl b k) i 0 =
            if flag_set (nth i (flags b k) 0%Z) then Var (symname k, i) else Cst (cv k i)
}.

Record base (cv : cvals) (b : robot) : Prop := {
  bs_name : identifier (robotName b);
  bs_n : 1 <= numJoints b;
  bs_e : numElasticJoints b <= numJoints b;
  bs_jt : List.length (jointsType b) = numJoints b;
  bs_known : forall t, In t (jointsType b) -> is_P t = true \/ is_R t = true;
  bs_shape : forall k len, In (k, len) (keys b) -> pshape cv b k len;
  bs_state : forall k len, In (k, len) (state_keys b) -> forall z, In z (flags b k) -> flag_set z = true;
  bs_nomodel : forall f, mcount (name_of f) (model b) = false;
  bs_noDl : mcount "Dl" (model b) = false;
  bs_nofa : fun_args b = [];
  bs_nocf : casadi_fun b = []
}.

(* ---- inputs of the functions ---- *)
Definition ins (b : robot) (al : list string) : list sx := map (fun k => vertcat_list (sel b k)) al.
Definition isyms (b : robot) (k : string) : list sym := map (pair (symname k)) (fidx (flags b k)).

Section Inputs.
  Variables (cv : cvals) (b : robot).
  Lemma sel_fidx k len : pshape cv b k len -> sel b k = map (vat (mdl b k)) (fidx (flags b k)).
  Proof. intros H. unfold sel, fidx. now rewrite (ps_r _ _ _ _ H), (ps_fl _ _ _ _ H). Qed.
  Lemma fun_input_eq k len : pshape cv b k len -> fun_input b k = Ok (vertcat_list (sel b k)).
  Proof.
    intros H. unfold fun_input. rewrite select_symb_eq; [reflexivity|].
    rewrite (ps_r _ _ _ _ H), (ps_fl _ _ _ _ H). lia.
  Qed.
  Lemma fun_inputs_eq al : (forall k, In k al -> exists len, pshape cv b k len) -> fun_inputs b al = Ok (ins b al).
  Proof.
    induction al as [|k t IH]; simpl; intros H; auto.
    destruct (H k (or_introl eq_refl)) as [len Hl]. rewrite (fun_input_eq k len Hl). simpl.
    rewrite IH by auto. reflexivity.
  Qed.
  Lemma input_el k len i : pshape cv b k len -> i < List.length (sel b k) ->
    el (vertcat_list (sel b k)) i 0 = Var (symname k, nth i (fidx (flags b k)) 0).
  Proof.
    intros H. rewrite (sel_fidx k len H), map_length. intros Hi. simpl.
    rewrite nth_indep with (d' := vat (mdl b k) 0) by (rewrite map_length; auto).
    rewrite map_nth. unfold sc. simpl.
    assert (Hin : In (nth i (fidx (flags b k)) 0) (fidx (flags b k))) by (apply nth_In; auto).
    apply in_fidx in Hin. destruct Hin as [Hin Hf]. rewrite (ps_fl _ _ _ _ H) in Hin.
    rewrite (ps_el _ _ _ _ H) by auto. now rewrite Hf.
  Qed.
  Lemma input_ok k len : pshape cv b k len -> ok (vertcat_list (sel b k)) = true.
  Proof.
    intros H. rewrite (sel_fidx k len H). simpl. apply forallb_forall. intros x Hx.
    apply in_map_iff in Hx. destruct Hx as (i & <- & Hi). apply in_fidx in Hi. simpl.
    rewrite (ps_ok _ _ _ _ H), (ps_c _ _ _ _ H), (ps_r _ _ _ _ H). rewrite (ps_fl _ _ _ _ H) in Hi.
    destruct Hi as [Hi _]. apply Nat.ltb_lt in Hi. now rewrite Hi.
  Qed.
  Lemma input_valid k len : pshape cv b k len -> valid_input (vertcat_list (sel b k)) = true.
  Proof.
    intros H. unfold valid_input. rewrite (input_ok k len H). simpl andb. apply forallb_forall.
    intros i Hi. apply in_seq in Hi. rewrite (input_el k len); auto. apply Hi.
  Qed.
  Lemma syms_of_input_eq k len : pshape cv b k len -> syms_of_input (vertcat_list (sel b k)) = isyms b k.
  Proof.
    intros H. unfold syms_of_input, isyms.
    assert (Hl : rows (vertcat_list (sel b k)) = List.length (fidx (flags b k))).
    { simpl. now rewrite (sel_fidx k len H), map_length. }
    rewrite Hl.
    rewrite flat_map_ext_in with (g := fun i => [(symname k, nth i (fidx (flags b k)) 0)]).
    - generalize (fidx (flags b k)) as l. clear. intros l.
      transitivity (map (fun i => (symname k, nth i l 0)) (seq 0 (List.length l))).
      + generalize (seq 0 (List.length l)). intros s. induction s as [|a s IHs]; simpl; auto.
      + rewrite <- (map_map (fun i => nth i l 0) (pair (symname k))). f_equal.
        apply nth_ext with (d := 0) (d' := 0); rewrite map_length, seq_length; auto.
        intros i Hi. rewrite nth_indep with (d' := nth 0 l 0) by (rewrite map_length, seq_length; auto).
        rewrite (map_nth (fun i => nth i l 0)), seq_nth; auto.
    - intros i Hi. apply in_seq in Hi. rewrite (input_el k len); auto. rewrite <- Hl in Hi. apply Hi.
  Qed.
  Lemma NoDup_isyms al :
    NoDup al -> (forall k, In k al -> In k arg_keys) -> NoDup (flat_map (isyms b) al).
  Proof.
    induction al as [|k t IH]; cbn [flat_map]; intros Hn Hk; [constructor|].
    inversion Hn; subst.
    assert (forall l1 l2 : list sym, NoDup l1 -> NoDup l2 -> (forall x, In x l1 -> ~ In x l2) -> NoDup (l1 ++ l2)) as Happ.
    { clear. induction l1; simpl; intros l2 A B C; auto. inversion A; subst. constructor.
      - rewrite in_app_iff. intros [D|D]; [contradiction|]. apply (C a); [left; reflexivity|assumption].
      - apply IHl1; auto. }
    apply Happ.
    - unfold isyms. apply FinFun.Injective_map_NoDup; [|apply NoDup_fidx]. intros x y E; now inversion E.
    - apply IH; auto. intros; apply Hk; right; auto.
    - intros x Hx Hx'. unfold isyms in Hx. apply in_map_iff in Hx. destruct Hx as (i & <- & Hi).
      apply in_flat_map in Hx'. destruct Hx' as (k' & Hk' & Hx').
      unfold isyms in Hx'. apply in_map_iff in Hx'. destruct Hx' as (j & E & _).
      inversion E. assert (k' = k) by (apply symname_inj; auto; apply Hk; simpl; auto). subst. auto.
  Qed.
  Lemma inputs_check al : NoDup al -> (forall k, In k al -> exists len, In k arg_keys /\ pshape cv b k len) ->
    forallb valid_input (ins b al) && nodup_syms (flat_map syms_of_input (ins b al)) = true.
  Proof.
    intros Hn H. apply andb_true_iff. split.
    - apply forallb_forall. intros x Hx. apply in_map_iff in Hx. destruct Hx as (k & <- & Hk).
      destruct (H k Hk) as (len & _ & Hl). eapply input_valid; eauto.
    - apply nodup_syms_NoDup. unfold ins. rewrite flat_map_concat_map, map_map, <- flat_map_concat_map.
      rewrite flat_map_ext_in with (g := isyms b).
      + apply NoDup_isyms; auto. intros k Hk. destruct (H k Hk) as (len & A & _). auto.
      + intros k Hk. destruct (H k Hk) as (len & _ & Hl). eapply syms_of_input_eq; eauto.
  Qed.
  Lemma inputs_syms al : (forall k, In k al -> exists len, In k arg_keys /\ pshape cv b k len) ->
    flat_map syms_of_input (ins b al) = flat_map (isyms b) al.
  Proof.
    intros H. unfold ins. rewrite flat_map_concat_map, map_map, <- flat_map_concat_map.
    apply flat_map_ext_in. intros k Hk. destruct (H k Hk) as (len & _ & Hl). eapply syms_of_input_eq; eauto.
  Qed.
End Inputs.

Lemma closed_by_within l e : (forall s, occurs s e = true -> In s l) -> closed_by l e = true.
Proof.
  induction e; cbn [occurs closed_by]; intros H; auto;
    try (apply andb_true_iff; split; [apply IHe1|apply IHe2]; intros s' Hs'; apply H; rewrite Hs'; auto using orb_true_r).
  apply sym_mem_In. apply H. unfold sym_eqb. now rewrite String.eqb_refl, Nat.eqb_refl.
Qed.
Lemma no_free_within l e : (forall i j, i < rows e -> j < cols e -> forall s, occurs s (el e i j) = true -> In s l) -> no_free l e = true.
Proof.
  intros H. unfold no_free. apply forallb_forall. intros i Hi. apply forallb_forall. intros j Hj.
  apply in_seq in Hi. apply in_seq in Hj. apply closed_by_within. apply H; apply Hi || apply Hj.
Qed.

(* ---- publishing ---- *)
Definition publish1 (b r : robot) (f : fn) : robot :=
  with_funs (with_model r (mset (name_of f) (val b f) (model r)))
    (mset (name_of f) (alist b f) (fun_args r))
    (mset (name_of f) (mkFun (robotName b ++ "_" ++ name_of f ++ "_fun") (ins b (alist b f)) (val b f)) (casadi_fun r)).
Definition pubs (b : robot) (L : list fn) : robot := fold_left (publish1 b) L b.

Lemma pubs_app b L f : pubs b (L ++ [f]) = publish1 b (pubs b L) f.
Proof. unfold pubs. now rewrite fold_left_app. Qed.

Record same_rest (b r : robot) : Prop := {
  sr_name : robotName r = robotName b; sr_n : numJoints r = numJoints b;
  sr_e : numElasticJoints r = numElasticJoints b; sr_el : ELASTIC r = ELASTIC b;
  sr_jt : jointsType r = jointsType b; sr_ie : isElasticJoint r = isElasticJoint b;
  sr_K : K_order r = K_order b; sr_D : D_order r = D_order b; sr_Dl : Dl_order r = Dl_order b;
  sr_Dm : Dm_order r = Dm_order b; sr_args : args r = args b; sr_symb : symb r = symb b
}.
Lemma pubs_rest b L : same_rest b (pubs b L).
Proof.
  induction L as [|f L IH] using rev_ind; [constructor; auto|].
  rewrite pubs_app. destruct IH. constructor; simpl; auto.
Qed.
Lemma pubs_mfind_arg b L k : In k arg_keys -> mfind k (model (pubs b L)) = mfind k (model b).
Proof.
  intros Hk. induction L as [|f L IH] using rev_ind; auto.
  rewrite pubs_app. simpl. rewrite mfind_mset_ne; auto. intros E. apply (name_not_arg f k Hk). auto.
Qed.
Lemma pubs_mdl_arg b L k : In k arg_keys -> mdl (pubs b L) k = mdl b k.
Proof. intros Hk. unfold mdl, mget. now rewrite pubs_mfind_arg. Qed.
Lemma pubs_flags b L k : flags (pubs b L) k = flags b k.
Proof. unfold flags. now rewrite (sr_symb _ _ (pubs_rest b L)). Qed.

Definition allproper (L : list fn) : Prop := forall f, In f L -> proper f.
Lemma pubs_mfind b L f : proper f -> allproper L -> In f L -> mfind (name_of f) (model (pubs b L)) = Some (val b f).
Proof.
  intros Pf. induction L as [|g L IH] using rev_ind; [intros _ []|].
  intros PL Hin. rewrite pubs_app. simpl.
  destruct (string_dec (name_of f) (name_of g)) as [E|N].
  - assert (f = g). { apply name_inj; auto. apply PL. rewrite in_app_iff. simpl; auto. }
    subst. apply mfind_mset.
  - rewrite mfind_mset_ne by auto. apply IH.
    + intros h Hh. apply PL. rewrite in_app_iff; auto.
    + rewrite in_app_iff in Hin. destruct Hin as [?|[<-|[]]]; auto. congruence.
Qed.
Lemma pubs_mdl b L f : proper f -> allproper L -> In f L -> mdl (pubs b L) (name_of f) = val b f.
Proof. intros. unfold mdl, mget. now rewrite pubs_mfind. Qed.
Lemma pubs_mcount b L f : proper f -> allproper L -> In f L -> mcount (name_of f) (model (pubs b L)) = true.
Proof. intros. unfold mcount. now rewrite pubs_mfind. Qed.
Lemma pubs_mfind_no b L f : proper f -> allproper L -> ~ In f L ->
  mfind (name_of f) (model (pubs b L)) = mfind (name_of f) (model b).
Proof.
  intros Pf. induction L as [|g L IH] using rev_ind; auto.
  intros PL Hin. rewrite pubs_app. simpl. rewrite in_app_iff in Hin. simpl in Hin.
  rewrite mfind_mset_ne.
  - apply IH; auto. intros h Hh. apply PL. rewrite in_app_iff; auto.
  - intros E. apply Hin. right; left. symmetry. apply name_inj; auto. apply PL. rewrite in_app_iff; simpl; auto.
Qed.
Lemma pubs_fun b L f : proper f -> allproper L -> In f L ->
  mfind (name_of f) (fun_args (pubs b L)) = Some (alist b f) /\
  mfind (name_of f) (casadi_fun (pubs b L)) =
    Some (mkFun (robotName b ++ "_" ++ name_of f ++ "_fun") (ins b (alist b f)) (val b f)).
Proof.
  intros Pf. induction L as [|g L IH] using rev_ind; [intros _ []|].
  intros PL Hin. rewrite pubs_app. simpl.
  destruct (string_dec (name_of f) (name_of g)) as [E|N].
  - assert (f = g). { apply name_inj; auto. apply PL. rewrite in_app_iff. simpl; auto. }
    subst. rewrite !mfind_mset. auto.
  - rewrite !mfind_mset_ne by auto. apply IH.
    + intros h Hh. apply PL. rewrite in_app_iff; auto.
    + rewrite in_app_iff in Hin. destruct Hin as [?|[<-|[]]]; auto. congruence.
Qed.

Lemma select_symb_pubs b L k : In k arg_keys ->
  select_symb (flags (pubs b L) k) (mdl (pubs b L) k) 0 (rows (mdl (pubs b L) k)) =
  select_symb (flags b k) (mdl b k) 0 (rows (mdl b k)).
Proof. intros. now rewrite pubs_mdl_arg, pubs_flags. Qed.

Lemma addf_pubs cv b L f : identifier (robotName b) ->
  (forall k, In k (alist b f) -> exists len, In k arg_keys /\ pshape cv b k len) -> NoDup (alist b f) ->
  ok (val b f) = true ->
  (forall i j, i < rows (val b f) -> j < cols (val b f) -> forall s, occurs s (el (val b f) i j) = true -> In s (flat_map (isyms b) (alist b f))) ->
  addf (pubs b L) (name_of f) (val b f) (alist b f) = Ok (pubs b (L ++ [f])).
Proof.
  intros Hid Hk Hn Hok Hfree. unfold addf, add_function. change (negb true) with false. cbn [andb]. rewrite Hok. cbn [negb].
  set (r1 := with_model (pubs b L) (mset (name_of f) (val b f) (model (pubs b L)))).
  set (r2 := with_funs r1 (mset (name_of f) (alist b f) (fun_args r1)) (casadi_fun r1)).
  assert (Hm : forall k, In k arg_keys -> mfind k (model r2) = mfind k (model b)).
  { intros k Hka. simpl. rewrite mfind_mset_ne, pubs_mfind_arg; auto. intros E. apply (name_not_arg f k Hka); auto. }
  assert (Hs : symb r2 = symb b) by (simpl; apply (sr_symb _ _ (pubs_rest b L))).
  assert (Ht : touch_args r2 (alist b f) = r2).
  { unfold touch_args. rewrite !fold_touch_id.
    - destruct r2; reflexivity.
    - intros k Hin. rewrite Hs. destruct (Hk k Hin) as (len & _ & Hp). apply (ps_sc _ _ _ _ Hp).
    - intros k Hin. destruct (Hk k Hin) as (len & Ha & Hp). unfold mcount. rewrite Hm by auto. apply (ps_mc _ _ _ _ Hp). }
  rewrite Ht.
  assert (Hi : forall l, (forall k, In k l -> In k arg_keys) -> fun_inputs r2 l = fun_inputs b l).
  { induction l as [|k t IH]; cbn [fun_inputs]; intros Hl; auto.
    rewrite IH by (intros; apply Hl; right; auto). unfold fun_input, mdl, flags, mget. rewrite Hm by (apply Hl; left; auto). rewrite Hs. reflexivity. }
  rewrite Hi by (intros k Hin; destruct (Hk k Hin) as (len & Ha & _); auto).
  rewrite (fun_inputs_eq cv) by (intros k Hin; destruct (Hk k Hin) as (len & _ & Hp); eauto).
  cbn [bind]. assert (Hnm : robotName r2 = robotName b) by exact (sr_name _ _ (pubs_rest b L)).
  match goal with |- context [check_name ?x] => replace (check_name x) with true by (rewrite Hnm; symmetry; exact (published_name_ok _ f Hid)) end.
  cbn [negb]. rewrite (inputs_check cv) by auto. cbn [negb].
  rewrite (inputs_syms cv) by auto. rewrite no_free_within by auto. cbn [negb].
  rewrite pubs_app. unfold publish1. f_equal. subst r2 r1. unfold with_funs, with_model. simpl.
  destruct (pubs_rest b L). now rewrite sr_name0.
Qed.
