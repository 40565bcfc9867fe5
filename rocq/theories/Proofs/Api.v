(* The published functions as the API reports them. *)
From Coq Require Import Reals Lra Lia Arith List String Bool ZArith.
From Verif.Model Require Import Base Expr SX Robot Kinematics Dynamics Regressors Yaml Build.
From Verif.Spec Require Import Math Setup Kinematics Api.
From Verif.Proofs Require Import Calc Rel Pure PureRel Maps Names Shape Dims Sizes Deps BuildEq BuildReg Load Init Final Closed Get SortedMaps KinThm Select Lagrange Catalogue.
Import ListNotations.
Open Scope nat_scope.
Open Scope string_scope.

(* ---- the published names ---- *)
Lemma pubs_names b L k : In k (map fst (casadi_fun (pubs b L))) <->
  In k (map fst (casadi_fun b)) \/ exists f, In f L /\ k = name_of f.
Proof.
  induction L as [|f L IH] using rev_ind.
  - simpl. split; auto. intros [H|(f & [] & _)]; auto.
  - rewrite pubs_app. cbn [publish1 casadi_fun with_funs with_model]. rewrite in_mset, IH. split.
    + intros [->|[H|(g & Hg & ->)]]; auto.
      * right. exists f. split; auto. apply in_app_iff. simpl; auto.
      * right. exists g. split; auto. apply in_app_iff. auto.
    + intros [H|(g & Hg & ->)]; auto. apply in_app_iff in Hg. destruct Hg as [Hg|[<-|[]]]; eauto.
Qed.
Lemma pubs_skeys b L : skeys (casadi_fun b) -> skeys (casadi_fun (pubs b L)).
Proof.
  intros H. induction L as [|f L IH] using rev_ind; auto. rewrite pubs_app. cbn [publish1 casadi_fun with_funs with_model].
  now apply skeys_mset.
Qed.

Section Pub.
  Variables (name : string) (cfg : ynode) (r0 r b : robot).
  Hypothesis HB : built r0 b r.
  Let Hb := bt_base _ _ _ HB.
  Let C0 : casadi_fun b = [].
  Proof. apply (bs_nocf _ _ Hb). Qed.
  Lemma cf_r : casadi_fun r = casadi_fun (pubs b (L_all b)).
  Proof. rewrite (bt_r _ _ _ HB). reflexivity. Qed.
  Lemma fa_r : fun_args r = fun_args (pubs b (L_all b)).
  Proof. rewrite (bt_r _ _ _ HB). reflexivity. Qed.
  Let AP : allproper (L_all b).
  Proof. intros g Hg. apply L_all_enabled in Hg. eapply enabled_proper; eauto. Qed.
  Lemma published_iff nm : published r nm <-> exists f, enabled b f /\ nm = name_of f.
  Proof.
    unfold published, get_functions. rewrite map_map. cbn [fo_name]. rewrite cf_r.
    change (map (fun x => fst x)) with (@map (string * cfun) string fst). rewrite pubs_names, C0. split.
    - intros [[]|(f & Hf & ->)]. exists f. split; auto. now apply L_all_enabled.
    - intros (f & Hf & ->). right. exists f. split; auto. now apply L_all_enabled.
  Qed.
  Lemma published_nodup : NoDup (map fo_name (get_functions r)).
  Proof.
    unfold get_functions. rewrite map_map. cbn [fo_name].
    change (map (fun x => fst x)) with (@map (string * cfun) string fst). rewrite cf_r.
    apply skeys_nodup, pubs_skeys. rewrite C0. apply skeys_nil.
  Qed.
  Lemma fun_obj_iff fo : In fo (get_functions r) <->
    exists f, enabled b f /\ fo = mkFunObj (name_of f) (alist b f) (vrows b f) (vcols b f).
  Proof.
    assert (K : forall f, enabled b f -> forall nm, nm = name_of f ->
      mkFunObj nm (mget [] nm (fun_args r)) (rows (mdl r nm)) (cols (mdl r nm)) =
      mkFunObj (name_of f) (alist b f) (vrows b f) (vcols b f)).
    { intros f He nm ->. pose proof (enabled_proper _ _ He) as Pf.
      assert (HL : In f (L_all b)) by (now apply L_all_enabled).
      destruct (pubs_fun b (L_all b) f Pf AP HL) as [A _]. rewrite <- fa_r in A. unfold mget at 1. rewrite A.
      assert (E : mdl r (name_of f) = val b f).
      { unfold mdl, mget. rewrite (bt_fun _ _ _ HB); [|intros Hk; apply (name_not_arg f _ Hk); auto].
        rewrite (pubs_mfind b (L_all b) f Pf AP HL). reflexivity. }
      rewrite E. destruct (val_dims _ _ Hb f He) as [R C _]. now rewrite R, C. }
    split.
    - intros Hi. assert (Hn : published r (fo_name fo)) by (unfold published; now apply in_map).
      apply published_iff in Hn. destruct Hn as (f & He & En). exists f. split; auto.
      unfold get_functions in Hi. apply in_map_iff in Hi. destruct Hi as (kv & <- & _). apply K; auto.
    - intros (f & He & ->). assert (Hn : published r (name_of f)) by (apply published_iff; eauto).
      unfold published in Hn. apply in_map_iff in Hn. destruct Hn as (fo & En & Hi).
      unfold get_functions in Hi. pose proof Hi as Hi'. apply in_map_iff in Hi'. destruct Hi' as (kv & Ek & _).
      rewrite <- (K f He (fst kv)); [rewrite Ek; exact Hi|]. rewrite <- En, <- Ek. reflexivity.
  Qed.
End Pub.

Lemma nth_nth {A B} (f : A -> B) l d d' j : j < List.length l -> nth j (map f l) d = f (nth j l d').
Proof. intros. rewrite nth_indep with (d' := f d') by (now rewrite map_length). apply map_nth. Qed.
Lemma merge_nth fl : forall cfg cur t, t < List.length (fidx fl) -> List.length cfg = List.length fl ->
  List.length cur = List.length (fidx fl) -> nth (nth t (fidx fl) 0) (merge fl cfg cur) 0%R = nth t cur 0%R.
Proof.
  induction fl as [|z fl IH]; intros cfg cur t Ht LC LU; [simpl in Ht; lia|].
  destruct cfg as [|v cfg]; [discriminate|]. rewrite fidx_cons in *. cbn [merge]. destruct (flag_set z); simpl in Ht, LU, LC |- *.
  - destruct cur as [|c cur]; [discriminate|]. destruct t as [|t]; [reflexivity|]. cbn [nth].
    rewrite map_length in Ht, LU. rewrite (nth_nth S _ _ 0) by lia. cbn [nth]. simpl in LU. apply IH; lia.
  - rewrite map_length in Ht, LU. rewrite (nth_nth S _ _ 0) by lia. cbn [nth]. apply IH; lia.
Qed.

Section Main.
  Variables (name : string) (cfg : ynode) (r0 r r' : robot).
  Hypothesis Hs : session name cfg r0 r r'.

  (* names and sizes *)
  Theorem catalogue_published :
    (forall nm rr cc, In (nm, (rr, cc)) (catalogue r0) <->
      exists fo, In fo (get_functions r) /\ fo_name fo = nm /\ fo_rows fo = rr /\ fo_cols fo = cc) /\
    NoDup (map fo_name (get_functions r)).
  Proof.
    destruct (session_sess _ _ _ _ _ Hs) as (b & S & B). split; [|eapply published_nodup; eauto].
    intros nm rr cc. split.
    - intros H. apply (cat_inv r0 b r' S) in H. destruct H as (f & He & -> & -> & ->).
      eexists. split; [apply (fun_obj_iff _ _ _ B); exists f; split; auto|]. auto.
    - intros (fo & Hi & <- & <- & <-). apply (fun_obj_iff _ _ _ B) in Hi. destruct Hi as (f & He & ->).
      cbn [fo_name fo_rows fo_cols]. eapply cat_enabled; eauto.
  Qed.
  Theorem catalogue_answers nm rr cc : In (nm, (rr, cc)) (catalogue r0) -> answers r' nm rr cc.
  Proof.
    destruct (session_sess _ _ _ _ _ Hs) as (b & S & B). intros H. apply (cat_inv r0 b r' S) in H.
    destruct H as (f & He & -> & -> & ->). apply (get_out _ _ _ S f He).
  Qed.
  Theorem unpublished nm : ~ published r nm -> get r' nm = Ok (mkMat 1 1 (fun _ _ => 0%R)).
  Proof.
    destruct (session_sess _ _ _ _ _ Hs) as (b & S & B). intros H. unfold get.
    assert (E : fun_args r' = fun_args r) by (rewrite (se_args _ _ _ _ _ Hs); reflexivity).
    rewrite E, (fa_r _ _ _ B). destruct (mfind nm (fun_args (pubs b (L_all b)))) eqn:F; auto.
    exfalso. apply H. apply (published_iff _ _ _ B).
    assert (G : forall L k, In k (map fst (fun_args (pubs b L))) -> exists f, In f L /\ k = name_of f).
    { induction L as [|f L IH] using rev_ind.
      - change (pubs b []) with b. rewrite (bs_nofa _ _ (bt_base _ _ _ B)). intros k [].
      - intros k. rewrite pubs_app. cbn [publish1 fun_args with_funs with_model]. rewrite in_mset. intros [->|Hk].
        + exists f. split; auto. apply in_app_iff. simpl; auto.
        + destruct (IH k Hk) as (g & Hg & ->). exists g. split; auto. apply in_app_iff; auto. }
    destruct (G (L_all b) nm) as (f & Hf & ->); [apply mfind_keys; congruence|].
    exists f. split; auto. now apply L_all_enabled.
  Qed.

  Lemma keys_sizes k len : In (k, len) (keys r0) <-> In (k, len) (state_sizes r0 ++ par_sizes r0)%list.
  Proof. reflexivity. Qed.

  (* compaction *)
  Lemma pick_flagged fl a : List.length a = List.length fl -> pick fl a = flagged fl a.
  Proof.
    revert a. induction fl as [|z fl IH]; intros [|v a] H; simpl in H; try lia; [reflexivity|].
    rewrite pick_cons, IH by lia. unfold flagged. cbn [combine filter fst]. destruct (flag_set z); reflexivity.
  Qed.
  Lemma nth_flagged {A} (d : A) fl (g : nat -> A) : forall k, flagged fl (map g (seq k (List.length fl))) = map (fun i => g (k + i)) (fidx fl).
  Proof.
    induction fl as [|z fl IH]; intros k; [reflexivity|]. cbn [List.length seq map]. unfold flagged. cbn [combine filter fst].
    rewrite fidx_cons, map_app, map_map.
    assert (E : map (fun i => g (k + S i)) (fidx fl) = flagged fl (map g (seq (S k) (List.length fl)))).
    { rewrite IH. apply map_ext. intros i. f_equal. lia. }
    rewrite E. unfold flagged. destruct (flag_set z); cbn [map app snd]; rewrite ?Nat.add_0_r; reflexivity.
  Qed.
  Lemma arg_compact k len : In (k, len) (par_sizes r0) -> arg r k = flagged (flags r0 k) (arg r0 k).
  Proof.
    destruct (session_sess _ _ _ _ _ Hs) as (b & S & B). intros H.
    assert (Hk : In (k, len) (keys r0)) by (apply keys_sizes; apply in_app_iff; auto).
    rewrite (bt_arg _ _ _ B k len Hk). apply pick_flagged.
    destruct (wf_sizes _ (se_wf _ _ _ _ _ Hs) k len H) as [-> ->]. reflexivity.
  Qed.
  Lemma arg_state_init k len : In (k, len) (state_sizes r0) -> arg r k = repeat 0%R len.
  Proof.
    destruct (session_sess _ _ _ _ _ Hs) as (b & S & B). intros H.
    assert (Hk : In (k, len) (keys r0)) by (apply keys_sizes; apply in_app_iff; auto).
    assert (HF : flags r0 k = repeat 1%Z len) by (unfold flags, mget; now rewrite (ld_state _ (ss_load _ _ _ S) k len H)).
    rewrite (bt_arg _ _ _ B k len Hk), (ld_sarg _ (ss_load _ _ _ S) k len H), HF.
    rewrite pick_flagged by (now rewrite !repeat_length).
    unfold flagged. clear. induction len; [reflexivity|]. cbn [repeat combine filter fst flag_set]. simpl. now rewrite IHlen.
  Qed.
  (* the robot as built is itself a session, with the configured parameter values *)
  Lemma session_r : session name cfg r0 r r.
  Proof.
    destruct (session_sess _ _ _ _ _ Hs) as (b & S & B).
    destruct Hs as [L W Bd A St P]. constructor; auto.
    - destruct r; reflexivity.
    - intros k len H. rewrite (arg_state_init k len H). apply repeat_length.
    - intros k len H. assert (Hk : In (k, len) (keys r0)) by (apply keys_sizes; apply in_app_iff; auto).
      rewrite (bt_arg _ _ _ B k len Hk). unfold pick. rewrite map_length. apply fidx_selected.
  Qed.
  Lemma merge_flagged fl : forall a, List.length a = List.length fl -> merge fl a (flagged fl a) = a.
  Proof.
    induction fl as [|z fl IH]; intros [|v a] H; simpl in H; try lia; [reflexivity|].
    unfold flagged. cbn [combine filter fst merge]. destruct (flag_set z); cbn [map snd]; f_equal; apply IH; lia.
  Qed.
  Lemma param_built k len i : In (k, len) (par_sizes r0) -> param r0 r k i = nth i (arg r0 k) 0%R.
  Proof.
    intros H. unfold param. rewrite (arg_compact k len H). rewrite merge_flagged; auto.
    destruct (wf_sizes _ (se_wf _ _ _ _ _ Hs) k len H) as [-> ->]. reflexivity.
  Qed.

  (* symbols *)
  Lemma mdl_r0 k len i : In (k, len) (keys r0) -> i < len -> el (mdl r0 k) i 0 = Var (symname k, i).
  Proof.
    destruct (session_sess _ _ _ _ _ Hs) as (b & S & B). intros H Hi. unfold mdl, mget. rewrite (ld_model _ (ss_load _ _ _ S) k len H).
    reflexivity.
  Qed.
  Lemma mdl_r0_rows k len : In (k, len) (keys r0) -> rows (mdl r0 k) = len.
  Proof.
    destruct (session_sess _ _ _ _ _ Hs) as (b & S & B). intros H. unfold mdl, mget. rewrite (ld_model _ (ss_load _ _ _ S) k len H).
    reflexivity.
  Qed.
  Definition entries (m : sx) : list expr := map (fun i => el m i 0) (seq 0 (rows m)).
  Lemma mdl_r k len b : built r0 b r -> sess r0 b r' -> In (k, len) (keys r0) ->
    rows (mdl r k) = symbolic r0 k /\ forall j, j < symbolic r0 k -> el (mdl r k) j 0 = Var (symname k, nth j (fidx (flags r0 k)) 0).
  Proof.
    intros B S H. rewrite (bt_mdl _ _ _ B k len H). unfold cmodel, symbolic. cbn [rows el]. split; [apply fidx_selected|].
    intros j Hj. rewrite <- fidx_selected in Hj. assert (Hin : In (nth j (fidx (flags r0 k)) 0) (fidx (flags r0 k))) by (now apply nth_In).
    apply in_fidx in Hin. destruct Hin as [Hi Hf]. rewrite (flags0_len _ _ _ S k len H) in Hi.
    assert (Hk : In (k, len) (keys b)) by (rewrite (keys_b _ _ _ S); exact H).
    rewrite (ps_el _ _ _ _ (bs_shape _ _ (bt_base _ _ _ B) k len Hk)) by auto. rewrite (flags_b _ _ _ S), Hf. reflexivity.
  Qed.
  Lemma compact_entries k len : In (k, len) (keys r0) ->
    entries (mdl r k) = flagged (flags r0 k) (entries (mdl r0 k)).
  Proof.
    destruct (session_sess _ _ _ _ _ Hs) as (b & S & B). intros H.
    destruct (mdl_r k len b B S H) as [R E]. unfold entries. rewrite (mdl_r0_rows k len H).
    replace (seq 0 len) with (seq 0 (List.length (flags r0 k))) by (now rewrite (flags0_len _ _ _ S k len H)). rewrite (nth_flagged (Cst 0)). rewrite R. unfold symbolic. rewrite <- fidx_selected.
    apply nth_ext with (d := Cst 0) (d' := Cst 0); [now rewrite !map_length, seq_length|].
    rewrite map_length, seq_length. intros j Hj.
    rewrite (nth_nth _ _ _ 0) by (now rewrite seq_length). rewrite seq_nth by auto. rewrite (nth_nth _ _ _ 0) by auto. cbn [Nat.add].
    rewrite E by (unfold symbolic; now rewrite <- fidx_selected).
    assert (Hin : In (nth j (fidx (flags r0 k)) 0) (fidx (flags r0 k))) by (now apply nth_In).
    apply in_fidx in Hin. rewrite (flags0_len _ _ _ S k len H) in Hin. now rewrite (mdl_r0 k len).
  Qed.
  Theorem inputs_of fo : In fo (get_functions r) -> exists cf, mfind (fo_name fo) (casadi_fun r) = Some cf /\
    rows (f_out cf) = fo_rows fo /\ cols (f_out cf) = fo_cols fo /\ f_out cf = mdl r (fo_name fo) /\
    map entries (f_inputs cf) = map (fun k => entries (mdl r k)) (fo_args fo) /\
    (forall k, In k (fo_args fo) -> exists len, In (k, len) (state_sizes r0 ++ par_sizes r0)%list).
  Proof.
    destruct (session_sess _ _ _ _ _ Hs) as (b & S & B). intros H. apply (fun_obj_iff _ _ _ B) in H.
    destruct H as (f & He & ->). cbn [fo_name fo_args fo_rows fo_cols].
    assert (HL : In f (L_all b)) by (now apply L_all_enabled).
    assert (AP : allproper (L_all b)). { intros g Hg. apply L_all_enabled in Hg. eapply enabled_proper; eauto. }
    pose proof (enabled_proper _ _ He) as Pf.
    destruct (pubs_fun b (L_all b) f Pf AP HL) as [_ A]. rewrite <- (cf_r _ _ _ B) in A.
    destruct (val_dims _ _ (bt_base _ _ _ B) f He) as [R C _].
    assert (EV : mdl r (name_of f) = val b f).
    { unfold mdl, mget. rewrite (bt_fun _ _ _ B); [|intros Hk; apply (name_not_arg f _ Hk); auto].
      rewrite (pubs_mfind b (L_all b) f Pf AP HL). reflexivity. }
    eexists. split; [exact A|]. cbn [f_out f_inputs]. split; [exact R|]. split; [exact C|]. split; [symmetry; exact EV|].
    assert (KK : forall k, In k (alist b f) -> exists len, In (k, len) (keys r0)).
    { intros k Hk. destruct (deps_keys b f k He (alist_deps _ _ _ Hk)) as [len Hl]. exists len. rewrite <- (keys_b _ _ _ S). exact Hl. }
    split; [|exact KK].
    unfold ins. rewrite map_map. apply map_ext_in. intros k Hk. destruct (KK k Hk) as [len Hl].
    destruct (mdl_r k len b B S Hl) as [Rk Ek].
    assert (Hkb : In (k, len) (keys b)) by (rewrite (keys_b _ _ _ S); exact Hl).
    pose proof (bs_shape _ _ (bt_base _ _ _ B) k len Hkb) as P.
    pose proof (sel_symbolic r0 b r' S k len Hkb) as SL.
    unfold entries. cbn [rows vertcat_list]. rewrite SL, Rk. apply map_ext_in. intros j Hj. apply in_seq in Hj.
    rewrite Ek by lia. rewrite <- (flags_b _ _ _ S). apply (input_el _ b k len j P). lia.
  Qed.
  Theorem closed_names fo cf : In fo (get_functions r) -> mfind (fo_name fo) (casadi_fun r) = Some cf ->
    forall i j, i < fo_rows fo -> j < fo_cols fo -> forall s, occurs s (el (f_out cf) i j) = true ->
    exists k, In k (fo_args fo) /\ In (Var s) (entries (mdl r k)).
  Proof.
    destruct (session_sess _ _ _ _ _ Hs) as (b & S & B). intros H. apply (fun_obj_iff _ _ _ B) in H.
    destruct H as (f & He & ->). cbn [fo_name fo_args fo_rows fo_cols].
    assert (HL : In f (L_all b)) by (now apply L_all_enabled).
    assert (AP : allproper (L_all b)). { intros g Hg. apply L_all_enabled in Hg. eapply enabled_proper; eauto. }
    destruct (pubs_fun b (L_all b) f (enabled_proper _ _ He) AP HL) as [_ A]. rewrite <- (cf_r _ _ _ B) in A.
    rewrite A. intros [= <-] i j Hi Hj s Ho. cbn [f_out] in Ho.
    pose proof (val_closed _ _ (bt_base _ _ _ B) f He i j Hi Hj s Ho) as HI. unfold isym in HI.
    apply in_flat_map in HI. destruct HI as (k & Hk & HI). exists k. split; auto.
    destruct (deps_keys b f k He (alist_deps _ _ _ Hk)) as [len Hl]. rewrite (keys_b _ _ _ S) in Hl.
    destruct (mdl_r k len b B S Hl) as [Rk Ek]. unfold isyms in HI. apply in_map_iff in HI. destruct HI as (m & <- & Hm).
    rewrite (flags_b _ _ _ S) in Hm. apply In_nth with (d := 0) in Hm. destruct Hm as (t & Ht & <-).
    rewrite fidx_selected in Ht. unfold entries. apply in_map_iff. exists t. split; [now apply Ek|]. apply in_seq. rewrite Rk. unfold symbolic. lia.
  Qed.

  (* get evaluates the stored expression at the current values *)
  Theorem get_evaluates fo : In fo (get_functions r) ->
    answers r' (fo_name fo) (fo_rows fo) (fo_cols fo) /\
    forall env, (forall k len, In (k, len) (state_sizes r0 ++ par_sizes r0)%list ->
        map (eval env) (entries (mdl r k)) = arg r' k) ->
      forall i j, i < fo_rows fo -> j < fo_cols fo -> out r' (fo_name fo) i j = eval env (el (mdl r (fo_name fo)) i j).
  Proof.
    destruct (session_sess _ _ _ _ _ Hs) as (b & S & B). intros H. apply (fun_obj_iff _ _ _ B) in H.
    destruct H as (f & He & ->). cbn [fo_name fo_args fo_rows fo_cols].
    split; [apply (get_out _ _ _ S f He)|]. intros env Henv i j Hi Hj.
    rewrite (proj2 (get_out _ _ _ S f He) i j Hi Hj). unfold ev.
    assert (HL : In f (L_all b)) by (now apply L_all_enabled).
    assert (AP : allproper (L_all b)). { intros g Hg. apply L_all_enabled in Hg. eapply enabled_proper; eauto. }
    assert (EV : mdl r (name_of f) = val b f).
    { unfold mdl, mget. rewrite (bt_fun _ _ _ B); [|intros Hk; apply (name_not_arg f _ Hk); auto].
      rewrite (pubs_mfind b (L_all b) f (enabled_proper _ _ He) AP HL). reflexivity. }
    rewrite EV. apply eval_ext. intros s Ho.
    pose proof (val_closed _ _ (bt_base _ _ _ B) f He i j Hi Hj s Ho) as HI. unfold isym in HI.
    apply in_flat_map in HI. destruct HI as (k & Hk & HI).
    destruct (deps_keys b f k He (alist_deps _ _ _ Hk)) as [len Hl]. pose proof Hl as Hlb. rewrite (keys_b _ _ _ S) in Hl.
    destruct (mdl_r k len b B S Hl) as [Rk Ek]. unfold isyms in HI. apply in_map_iff in HI. destruct HI as (m & <- & Hm).
    rewrite (flags_b _ _ _ S) in Hm. pose proof Hm as Hm'. apply In_nth with (d := 0) in Hm. destruct Hm as (t & Ht & Et).
    assert (Ht2 : t < symbolic r0 k) by (rewrite fidx_selected in Ht; exact Ht).
    assert (E1 : env (symname k, m) = nth t (arg r' k) 0%R).
    { rewrite <- (Henv k len (proj1 (keys_sizes k len) Hl)). unfold entries. rewrite map_map.
      rewrite (nth_nth _ _ _ 0) by (rewrite seq_length, Rk; exact Ht2). rewrite seq_nth by (rewrite Rk; exact Ht2).
      cbn [Nat.add]. rewrite Ek by exact Ht2. rewrite Et. reflexivity. }
    rewrite E1. unfold renv. cbn [fst snd]. rewrite keyname_symname by (eapply keys_arg; eauto). unfold param.
    rewrite <- Et.
    assert (LC : List.length (arg r0 k) = List.length (flags r0 k)) by (rewrite (arg0_len _ _ _ S k len Hl), (flags0_len _ _ _ S k len Hl); auto).
    apply merge_nth; auto. exact (ss_len _ _ _ S k len Hl).
  Qed.
  Theorem env_exists : exists env, forall k len, In (k, len) (state_sizes r0 ++ par_sizes r0)%list ->
    map (eval env) (entries (mdl r k)) = arg r' k.
  Proof.
    destruct (session_sess _ _ _ _ _ Hs) as (b & S & B). exists (renv r0 r'). intros k len H.
    destruct (mdl_r k len b B S H) as [R E].
    assert (LC : List.length (arg r0 k) = List.length (flags r0 k)) by (rewrite (arg0_len _ _ _ S k len H), (flags0_len _ _ _ S k len H); auto).
    pose proof (ss_len _ _ _ S k len H) as LU.
    unfold entries. rewrite map_map. apply nth_ext with (d := 0%R) (d' := 0%R).
    - rewrite map_length, seq_length, R, LU, fidx_selected. reflexivity.
    - rewrite map_length, seq_length, R. intros j Hj. rewrite (nth_nth _ _ _ 0) by (now rewrite seq_length).
      rewrite seq_nth by auto. cbn [Nat.add]. rewrite E by auto. cbn [eval]. unfold renv. cbn [fst snd].
      rewrite keyname_symname by (eapply keys_arg; exact H). apply merge_nth; auto. rewrite fidx_selected. exact Hj.
  Qed.
End Main.

(* dependence on declared inputs only *)
Theorem depends_only name cfg r0 r r1 r2 fo : session name cfg r0 r r1 -> session name cfg r0 r r2 ->
  In fo (get_functions r) -> (forall k, In k (fo_args fo) -> arg r1 k = arg r2 k) ->
  agree (fo_rows fo) (fo_cols fo) (out r1 (fo_name fo)) (out r2 (fo_name fo)).
Proof.
  intros H1 H2. destruct (session_built _ _ _ _ _ H1) as (b & B).
  pose proof (built_sess _ _ _ _ _ _ H1 B) as S1. pose proof (built_sess _ _ _ _ _ _ H2 B) as S2.
  intros H. apply (fun_obj_iff _ _ _ B) in H. destruct H as (f & He & ->). cbn [fo_name fo_args fo_rows fo_cols].
  intros HA i j Hi Hj. apply (out_local r0 b r1 r2 S1 S2 f He HA i j Hi Hj).
Qed.

(* two robots with the same structure and values *)
Lemma not_reg_valued f : ~ In (name_of f) parameter_regressors -> valued f = true.
Proof.
  intros H. destruct f; try reflexivity; exfalso; apply H; unfold parameter_regressors; simpl; repeat (first [left; reflexivity|right]).
Qed.
Section Sel.
  Variables (n1 n2 : string) (cfg1 cfg2 : ynode) (r0 r r' s0 s s' : robot).
  Hypothesis H1 : session n1 cfg1 r0 r r'.
  Hypothesis H2 : session n2 cfg2 s0 s s'.
  Hypothesis HS : same_shape r0 s0.
  Hypothesis X1 : exact_angles r0.
  Hypothesis X2 : exact_angles s0.
  Theorem selection_irrelevant : same_values_of r0 r' s0 s' ->
    forall nm rr cc, In (nm, (rr, cc)) (catalogue r0) -> ~ In nm parameter_regressors ->
    In (nm, (rr, cc)) (catalogue s0) /\ answers r' nm rr cc /\ answers s' nm rr cc /\ agree rr cc (out r' nm) (out s' nm).
  Proof.
    destruct (session_sess _ _ _ _ _ H1) as (b & S1 & B1). destruct (session_sess _ _ _ _ _ H2) as (c & S2 & B2).
    intros HV nm rr cc Hc Hn. apply (cat_inv r0 b r' S1) in Hc. destruct Hc as (f & He & -> & -> & ->).
    pose proof (not_reg_valued f Hn) as Hv.
    split.
    - rewrite <- (vrows_bc r0 b r' s0 c s' S1 S2 HS f), <- (vcols_bc r0 b r' s0 c s' S1 S2 HS f Hv).
      apply (cat_enabled s0 c s' S2). apply (enabled_bc r0 b r' s0 c s' S1 S2 HS); auto.
    - apply (same_values r0 b r' s0 c s' S1 S2 HS X1 X2 f Hv He).
      intros k _ i len Hk Hi. rewrite (keys_b _ _ _ S1) in Hk. apply (HV k len Hk i Hi).
  Qed.
  Theorem regressors_no_inertia :
    (forall k len, In (k, len) (state_sizes r0 ++ par_sizes r0)%list -> k <> "par_DYN" ->
       forall i, i < len -> param r0 r' k i = param s0 s' k i) ->
    forall nm, In nm ["Yr"; "reg_M"; "reg_C"; "reg_G"] -> agree (numJoints r0) (10 * numJoints r0) (out r' nm) (out s' nm).
  Proof.
    destruct (session_sess _ _ _ _ _ H1) as (b & S1 & B1). destruct (session_sess _ _ _ _ _ H2) as (c & S2 & B2).
    intros HV nm Hn.
    assert (E : exists f, nm = name_of f /\ In f [fYr; fRM; fRC; fRG]).
    { destruct Hn as [<-|[<-|[<-|[<-|[]]]]]; [exists fYr|exists fRM|exists fRC|exists fRG]; (split; [reflexivity|simpl; auto]). }
    destruct E as (f & -> & Hf).
    assert (Hv : valued f = true) by (repeat (destruct Hf as [<-|Hf]; [reflexivity|]); destruct Hf).
    assert (He : enabled b f) by (repeat (destruct Hf as [<-|Hf]; [exact I|]); destruct Hf).
    assert (Hd : ~ In "par_DYN" (deps b f)).
    { repeat (destruct Hf as [<-|Hf]; [vm_compute; intros HH; repeat (destruct HH as [HH|HH]; [discriminate HH|]); destruct HH|]); destruct Hf. }
    assert (HR : vrows b f = numJoints r0 /\ vcols b f = 10 * numJoints r0).
    { rewrite <- (n_b _ _ _ S1). repeat (destruct Hf as [<-|Hf]; [split; reflexivity|]); destruct Hf. }
    destruct HR as [<- <-].
    apply (same_values r0 b r' s0 c s' S1 S2 HS X1 X2 f Hv He).
    intros k Hk i len Hl Hi. rewrite (keys_b _ _ _ S1) in Hl. apply (HV k len Hl); auto. intros ->. auto.
  Qed.
End Sel.
