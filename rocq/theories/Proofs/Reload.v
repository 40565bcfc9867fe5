(* Loading the configuration of a built robot again. *)
From Coq Require Import Reals List String Arith ZArith Bool Lia.
From Verif.Model Require Import Base Expr SX Robot Yaml Inertia Build.
From Verif.Spec Require Import Math Setup Api State Reload.
From Verif.Proofs Require Import Maps Pure Names Shape BuildEq BuildDyn BuildReg Load Init Final Get Api State InertiaConv Files StateSess.
Import ListNotations.
Open Scope nat_scope.
Open Scope string_scope.

Record same_dims (a b : robot) : Prop := {
  sd_n : numJoints a = numJoints b; sd_e : numElasticJoints a = numElasticJoints b; sd_el : ELASTIC a = ELASTIC b;
  sd_Dl : Dl_order a = Dl_order b; sd_K : K_order a = K_order b; sd_D : D_order a = D_order b; sd_Dm : Dm_order a = Dm_order b }.
Lemma session_same name cfg r0 r r' : session name cfg r0 r r' -> same_dims r' r0.
Proof.
  intros H. destruct (session_built _ _ _ _ _ H) as [b B]. pose proof (bt_r _ _ _ B) as E. pose proof (bt_b _ _ _ B) as Eb.
  pose proof (pubs_rest b (L_all b)) as R. rewrite (se_args _ _ _ _ _ H), E.
  destruct R. constructor; cbn [numJoints numElasticJoints ELASTIC Dl_order K_order D_order Dm_order with_args with_model];
  rewrite ?sr_n, ?sr_e, ?sr_el, ?sr_Dl, ?sr_K, ?sr_D, ?sr_Dm; rewrite Eb; reflexivity.
Qed.
Lemma tree_dims a b f : same_dims a b -> load_conf_tree a f = load_conf_tree b f.
Proof. intros []. unfold load_conf_tree, zero_pars. now rewrite sd_n0, sd_e0, sd_el0, sd_Dl0, sd_K0, sd_D0, sd_Dm0. Qed.
Lemma file_parameters_dims a b : same_dims a b -> file_parameters a = file_parameters b.
Proof. intros []. unfold file_parameters. now rewrite sd_el0, sd_Dl0, sd_K0, sd_D0, sd_Dm0. Qed.

Lemma set_pars_same a b s k : same_dims a b -> k <> "par_REG" -> In k (file_parameters a) ->
  arg (set_pars a s) k = arg (set_pars b s) k.
Proof.
  intros [] N. unfold file_parameters, set_pars, arg. rewrite sd_Dl0, sd_K0, sd_D0, sd_Dm0, sd_el0.
  destruct (Nat.ltb 0 (Dl_order b)), (Nat.ltb 0 (K_order b)), (Nat.ltb 0 (D_order b)), (Nat.ltb 0 (Dm_order b)), (ELASTIC b);
  cbn [args with_args]; intros H; cbn [app In] in H;
  repeat (destruct H as [<-|H]; [try (exfalso; apply N; reflexivity);
     repeat first [rewrite mget_mset|rewrite mget_mset_ne by discriminate]; reflexivity|]); destruct H.
Qed.
Lemma set_pars_other a s k : ~ In k (file_parameters a) -> arg (set_pars a s) k = arg a k.
Proof.
  unfold file_parameters, set_pars, arg. cbn [args with_args].
  destruct (Nat.ltb 0 (Dl_order a)), (Nat.ltb 0 (K_order a)), (Nat.ltb 0 (D_order a)), (Nat.ltb 0 (Dm_order a)), (ELASTIC a);
  intros H; cbn [app In] in H;
  repeat (rewrite mget_mset_ne by (intros ->; apply H; tauto)); reflexivity.
Qed.

Lemma loaded_from name cfg r0 : robot_from_file name cfg false = Ok r0 ->
  exists a s, ends (load_conf_tree a cfg) s /\ same_dims a r0 /\ update_inertial_REG (set_pars a s) = Ok r0 /\
    List.length (get_arg a "par_REG") = 10 * numJoints a.
Proof.
  unfold robot_from_file. destruct (new_robot name cfg) as [a| |] eqn:E; cbn [bind]; try discriminate.
  destruct (load_conf_par a cfg true) as [r2| |] eqn:E2; cbn [bind]; try discriminate.
  intros H; inversion H; subst r2; clear H.
  pose proof (load_conf_argsonly _ _ _ _ E2) as A. unfold argsonly in A.
  assert (SD : same_dims a r0) by (rewrite A; constructor; reflexivity).
  pose proof (new_robot_REG _ _ _ E) as LR.
  unfold load_conf_par in E2.
  destruct (load_conf_tree a cfg) as [s|s|] eqn:T; [| |discriminate]; (exists a, s; rewrite T; unfold ends; split; [auto|split; [exact SD|split; [exact E2|exact LR]]]).
Qed.

(* a later load reads the same numbers *)
Lemma reload_tree a b f s : same_dims a b -> ends (load_conf_tree b f) s -> load_conf_par a f true = update_inertial_REG (set_pars a s).
Proof.
  intros S E. unfold load_conf_par. rewrite (tree_dims _ _ _ S). destruct E as [-> | ->]; reflexivity.
Qed.

Theorem reload name cfg r0 r r' : session name cfg r0 r r' ->
  List.length (get_arg r' "par_REG") = 10 * numJoints r0 ->
  exists r1, load_conf_par r' cfg true = Ok r1 /\ r1 = with_args r' (args r1) /\
    (forall k, In k (file_parameters r0) -> get_arg r1 k = get_arg r0 k) /\
    (forall k, ~ In k (file_parameters r0) -> get_arg r1 k = get_arg r' k).
Proof.
  intros H LR. pose proof (session_same _ _ _ _ _ H) as S.
  destruct (loaded_from _ _ _ (se_load _ _ _ _ _ H)) as (a & s & T & Sa & U & La).
  assert (Sra : same_dims r' a).
  { destruct S, Sa. constructor; congruence. }
  rewrite (reload_tree r' a cfg s Sra T).
  pose proof (load_tree_len _ _ _ T) as LT.
  destruct (to_REG (set_pars r' s)) as (r1 & E1 & [A1 C1] & V1 & _).
  { rewrite set_pars_DYN, LT. cbn [numJoints set_pars with_args]. now rewrite (sd_n _ _ Sra). }
  { rewrite set_pars_REG, LR. cbn [numJoints set_pars with_args]. now rewrite (sd_n _ _ S). }
  destruct (to_REG (set_pars a s)) as (r2 & E2 & [A2 C2] & V2 & _).
  { rewrite set_pars_DYN, LT. reflexivity. }
  { rewrite set_pars_REG. exact La. }
  rewrite U in E2. inversion E2; subst r2; clear E2.
  exists r1. split; [exact E1|]. split.
  { rewrite A1. reflexivity. }
  split.
  - intros k Hk. destruct (string_dec k "par_REG") as [->|N].
    + rewrite V1, V2, !set_pars_DYN. f_equal. cbn [numJoints set_pars with_args]. apply (sd_n _ _ Sra).
    + rewrite (C1 k N), (C2 k N). apply set_pars_same; auto. rewrite (file_parameters_dims _ _ S). exact Hk.
  - intros k Hk. rewrite (C1 k). 2:{ intros ->. apply Hk. unfold file_parameters. simpl. tauto. }
    apply set_pars_other. rewrite (file_parameters_dims _ _ S). exact Hk.
Qed.

(* every parameter of the file symbolic: the robot stays usable *)
Definition whole (r0 : robot) : Prop := forall k len, In (k, len) (par_sizes r0) -> In k (file_parameters r0) -> symbolic r0 k = len.

Lemma state_not_file r0 k len : In (k, len) (state_sizes r0) -> ~ In k (file_parameters r0).
Proof.
  intros H F. unfold state_sizes in H. unfold file_parameters in F. rewrite !in_app_iff in F, H.
  assert (G : In k ["q"; "dq"; "ddq"; "d3q"; "d4q"; "dqr"; "ddqr"; "x"; "dx"; "ddx"; "ddxr"; "w"]).
  { destruct (ELASTIC r0); simpl in H; decompose [or] H; clear H; try contradiction;
    match goal with E : (_, _) = (_, _) |- _ => inversion E; subst k; simpl; tauto end. }
  assert (G2 : In k ["par_DYN"; "par_REG"; "par_Dl"; "par_K"; "par_D"; "par_Dm"; "par_Mm"]).
  { destruct (Nat.ltb 0 (Dl_order r0)), (Nat.ltb 0 (K_order r0)), (Nat.ltb 0 (D_order r0)), (Nat.ltb 0 (Dm_order r0)), (ELASTIC r0);
    simpl in F |- *; tauto. }
  clear -G G2. simpl in G. decompose [or] G; clear G; try contradiction; subst k; simpl in G2; decompose [or] G2; try contradiction; discriminate.
Qed.
Theorem reload_usable name cfg r0 r r' r1 : session name cfg r0 r r' -> whole r0 ->
  List.length (get_arg r' "par_REG") = 10 * numJoints r0 ->
  load_conf_par r' cfg true = Ok r1 -> session name cfg r0 r r1.
Proof.
  intros H Wh LR E. destruct (reload _ _ _ _ _ H LR) as (r2 & E2 & A & F & O). rewrite E in E2. inversion E2; subst r2; clear E2.
  destruct H as [L W B A' St P]. constructor; auto.
  - rewrite A, A'. reflexivity.
  - intros k len Hk. rewrite <- (St k len Hk). f_equal. apply O. eapply state_not_file; eauto.
  - intros k len Hk. destruct (in_dec string_dec k (file_parameters r0)) as [I|N].
    + change (arg r1 k) with (get_arg r1 k). rewrite (F k I). unfold get_arg. rewrite (proj2 (wf_sizes _ W k len Hk)).
      symmetry. exact (Wh k len Hk I).
    + change (arg r1 k) with (get_arg r1 k). rewrite (O k N). exact (P k len Hk).
Qed.

Lemma get_args r a : (forall k, arg (with_args r a) k = arg r k) -> forall nm, get (with_args r a) nm = get r nm.
Proof.
  intros H nm. unfold get. cbn [fun_args casadi_fun with_args].
  destruct (mfind nm (fun_args r)) as [fa|]; [|reflexivity]. destruct (mfind nm (casadi_fun r)) as [f|]; [|reflexivity].
  f_equal. apply map_ext. exact H.
Qed.
Lemma pick_whole : forall fl a, List.length a = List.length fl -> selected fl = List.length fl -> pick fl a = a.
Proof.
  unfold selected. induction fl as [|z fl IH]; intros [|v a] L S; try discriminate; [reflexivity|].
  assert (X : List.length (filter flag_set fl) <= List.length fl).
  { clear. induction fl as [|z fl IH]; simpl; [lia|]. destruct (flag_set z); simpl; lia. }
  rewrite pick_cons. simpl in L, S. destruct (flag_set z); simpl in S; [|lia]. rewrite IH by lia. reflexivity.
Qed.
Lemma file_key r0 k : In k (file_parameters r0) -> ELASTIC r0 = true \/ (K_order r0 = 0 /\ D_order r0 = 0 /\ Dm_order r0 = 0) ->
  k = "par_REG" \/ exists len, In (k, len) (par_sizes r0).
Proof.
  intros H E. unfold file_parameters in H. unfold par_sizes. rewrite !in_app_iff in H.
  destruct H as [H|[H|[H|[H|[H|H]]]]].
  - simpl in H. destruct H as [<-|[<-|[]]]; [right|auto]. exists (10 * numJoints r0). rewrite !in_app_iff. simpl. tauto.
  - destruct (Nat.ltb 0 (Dl_order r0)); [|destruct H]. destruct H as [<-|[]]. right. eexists. rewrite !in_app_iff. right. left. left. reflexivity.
  - destruct (Nat.ltb_spec 0 (K_order r0)); [|destruct H]. destruct H as [<-|[]]. right. destruct E as [->|(A & _)]; [|lia].
    eexists. rewrite !in_app_iff. right. right. left. reflexivity.
  - destruct (Nat.ltb_spec 0 (D_order r0)); [|destruct H]. destruct H as [<-|[]]. right. destruct E as [->|(_ & A & _)]; [|lia].
    eexists. rewrite !in_app_iff. right. right. right. left. reflexivity.
  - destruct (Nat.ltb_spec 0 (Dm_order r0)); [|destruct H]. destruct H as [<-|[]]. right. destruct E as [->|(_ & _ & A)]; [|lia].
    eexists. rewrite !in_app_iff. right. right. right. right. left. reflexivity.
  - destruct (ELASTIC r0); [|destruct H]. destruct H as [<-|[]]. right.
    eexists. rewrite !in_app_iff. right. right. right. right. right. left. reflexivity.
Qed.

(* ... and computes again what it computed when it was built *)
Theorem reload_restores name cfg r0 r r' r1 : session name cfg r0 r r' -> whole r0 ->
  List.length (get_arg r' "par_REG") = 10 * numJoints r0 ->
  (forall k, ~ In k (file_parameters r0) -> get_arg r' k = get_arg r k) ->
  load_conf_par r' cfg true = Ok r1 ->
  (forall k, get_arg r1 k = get_arg r k) /\ forall nm, get r1 nm = get r nm.
Proof.
  intros H Wh LR Ot E. destruct (reload _ _ _ _ _ H LR) as (r2 & E2 & A & F & O). rewrite E in E2. inversion E2; subst r2; clear E2.
  assert (AA : forall k, arg r1 k = arg r k).
  { intros k. destruct (in_dec string_dec k (file_parameters r0)) as [I|N].
    - change (get_arg r1 k = get_arg r k). rewrite (F k I).
      pose proof (file_loaded _ _ _ (se_load _ _ _ _ _ H)) as Ld.
      destruct (file_key r0 k I) as [->|[len Hl]].
      + destruct (ELASTIC r0) eqn:El; [auto|right; apply (ld_ord _ Ld El)].
      + symmetry. apply (built_REG _ _ _ _ _ H).
      + destruct (session_built _ _ _ _ _ H) as [b B]. unfold get_arg.
        rewrite (bt_arg _ _ _ B k len) by (unfold keys; apply in_app_iff; right; exact Hl).
        destruct (wf_sizes _ (se_wf _ _ _ _ _ H) k len Hl) as [Lf La].
        symmetry. apply pick_whole; [congruence|]. rewrite Lf. exact (Wh k len Hl I).
    - change (get_arg r1 k = get_arg r k). rewrite (O k N). exact (Ot k N). }
  split; [exact AA|]. intros nm.
  assert (E1 : r1 = with_args r (args r1)) by (rewrite A, (se_args _ _ _ _ _ H); reflexivity).
  rewrite E1 in AA |- *. apply get_args. exact AA.
Qed.

(* a numeric inertial parameter: the functions expect the compacted vector and get the whole one *)
Lemma bind_cases : forall ins vals, (exists l, bind_inputs ins vals = Ok l) \/ exists m, bind_inputs ins vals = Throw m.
Proof.
  induction ins as [|x ins IH]; intros [|v vals]; cbn [bind_inputs]; eauto.
  assert (F : (exists w, fit_input (rows x) v = Ok w) \/ exists m, fit_input (rows x) v = Throw m).
  { unfold fit_input. destruct (Nat.eqb _ _); eauto. destruct v as [|? [|? ?]]; eauto. }
  destruct F as [[w ->]|[m ->]]; cbn [bind]; eauto.
  destruct (IH vals) as [[l ->]|[m ->]]; cbn [bind]; eauto.
Qed.
Lemma bind_bad cv b (a : string -> list R) al k len : base cv b -> In k al -> In (k, len) (keys b) ->
  List.length (a k) <> selected (flags b k) -> 1 < List.length (a k) ->
  exists m, bind_inputs (ins b al) (map a al) = Throw m.
Proof.
  intros Hb I Hk Ne G. induction al as [|k' t IH]; [destruct I|].
  cbn [ins map bind_inputs]. fold (ins b t). destruct I as [->|I].
  - assert (R : rows (vertcat_list (sel b k)) = selected (flags b k)).
    { cbn [rows vertcat_list]. rewrite (sel_fidx _ b k len (bs_shape _ _ Hb k len Hk)), map_length. apply fidx_selected. }
    rewrite R. unfold fit_input. rewrite (proj2 (Nat.eqb_neq _ _) Ne).
    destruct (a k) as [|x [|y l]]; simpl in G; try lia. cbn [bind]. eauto.
  - destruct (IH I) as [m E].
    destruct (fit_input (rows (vertcat_list (sel b k'))) (a k')) as [w|m2|m2] eqn:F; cbn [bind]; eauto.
    + rewrite E. cbn [bind]. eauto.
    + exfalso. unfold fit_input in F. destruct (Nat.eqb _ _); [discriminate|]. destruct (a k') as [|? [|? ?]]; discriminate.
Qed.
Theorem reload_breaks name cfg r0 r r' : session name cfg r0 r r' ->
  0 < symbolic r0 "par_DYN" < 10 * numJoints r0 ->
  List.length (get_arg r' "par_REG") = 10 * numJoints r0 ->
  exists r1 m, load_conf_par r' cfg true = Ok r1 /\ get r1 "M" = Throw m.
Proof.
  intros H [S1 S2] LR. destruct (reload _ _ _ _ _ H LR) as (r1 & E & A & F & _).
  destruct (session_sess _ _ _ _ _ H) as (b & Hs & B).
  pose proof (ss_base _ _ _ Hs) as Hb.
  assert (Fl : forall k, flags b k = flags r0 k) by (intros; rewrite (ss_b _ _ _ Hs); reflexivity).
  assert (Ks : keys b = keys r0) by (rewrite (ss_b _ _ _ Hs); reflexivity).
  assert (Hk : In ("par_DYN", 10 * numJoints r0) (par_sizes r0)) by (unfold par_sizes; rewrite !in_app_iff; simpl; tauto).
  assert (L1 : List.length (arg r1 "par_DYN") = 10 * numJoints r0).
  { change (arg r1 "par_DYN") with (get_arg r1 "par_DYN"). rewrite F by (unfold file_parameters; simpl; tauto).
    apply (wf_sizes _ (se_wf _ _ _ _ _ H) _ _ Hk). }
  destruct (ss_fun _ _ _ Hs fM I) as [Fa Fc]. cbn [name_of] in Fa, Fc.
  destruct (bind_bad _ b (arg r1) (alist b fM) "par_DYN" (10 * numJoints r0) Hb) as [m Em].
  - cbn [alist]. unfold al, obtain_symb_parameters, kinp. apply in_app_iff. right. apply filter_In. split; [simpl; tauto|].
    unfold has_symb. rewrite Fl. unfold symbolic, selected in S1.
    destruct (existsb flag_set (flags r0 "par_DYN")) eqn:X; [reflexivity|]. exfalso.
    assert (Y : forall fl, existsb flag_set fl = false -> List.length (filter flag_set fl) = 0).
    { clear. induction fl as [|z fl IH]; simpl; [auto|]. destruct (flag_set z); simpl; [discriminate|exact IH]. }
    rewrite (Y _ X) in S1. lia.
  - rewrite Ks. unfold keys. apply in_app_iff. right. exact Hk.
  - rewrite L1, Fl. change (selected (flags r0 "par_DYN")) with (symbolic r0 "par_DYN"). lia.
  - rewrite L1. lia.
  - exists r1, m. split; [exact E|]. unfold get.
    replace (fun_args r1) with (fun_args r') by (rewrite A; reflexivity).
    replace (casadi_fun r1) with (casadi_fun r') by (rewrite A; reflexivity). rewrite Fa, Fc.
    unfold call. cbn [f_inputs]. rewrite Em. reflexivity.
Qed.
