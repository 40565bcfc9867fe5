(* What the getters of the generated class return. *)
From Coq Require Import Reals List Arith String Bool Lia ZArith Lra.
From Verif.Model Require Import Base Expr SX Robot Kinematics Dynamics Regressors Yaml Inertia Build Template.
From Verif.Spec Require Import Math Setup Kinematics State Config Template Sample Friction.
From Verif.Spec Require Api.
From Verif.Proofs Require Import Calc Rel Maps Pure Names Shape Load Init Final Get StateSess Files TSetters TFiles TSync TFacts TAgree TLoad HeaderToy Sample Sample1 FrictionMain FrictionToy.
From Verif.Proofs Require Api.
Import ListNotations.
Open Scope nat_scope.
Open Scope string_scope.

Lemma new_class_eq name cfg r0 r r' : session name cfg r0 r r' -> new_class r = new_class r0.
Proof.
  intros S. destruct (session_rest _ _ _ _ _ S) as (A & B & C & D & _ & _ & E & F & G & H & _).
  unfold new_class. now rewrite A, B, C, D, E, F, G, H.
Qed.
Lemma names_in (l names : list string) k : forallb (fun x => existsb (String.eqb x) names) l = true -> In k l -> In k names.
Proof.
  intros H Hk. rewrite forallb_forall in H. specialize (H k Hk). apply existsb_exists in H. destruct H as (x & Hx & E).
  apply String.eqb_eq in E. now subst x.
Qed.
Lemma in_members r k len : In (k, len) (state_sizes r ++ par_sizes r)%list ->
  exists len', In (k, len') (member_sizes (numJoints r) (numElasticJoints r) (K_order r) (D_order r) (Dl_order r) (Dm_order r)).
Proof.
  intros H. assert (Hk : In k (map fst (member_sizes (numJoints r) (numElasticJoints r) (K_order r) (D_order r) (Dl_order r) (Dm_order r)))).
  { apply (names_in (map fst (state_sizes r ++ par_sizes r))); [|apply in_map_iff; exists (k, len); auto].
    unfold state_sizes, par_sizes. cbv zeta. destruct (ELASTIC r), (Nat.ltb 0 (Dl_order r)); reflexivity. }
  apply in_map_iff in Hk. destruct Hk as ([k' len'] & <- & Hk). exists len'. exact Hk.
Qed.
Lemma state_flags r0 k len : loaded r0 -> In (k, len) (state_sizes r0) -> selected (flags r0 k) = len.
Proof.
  intros L H. unfold flags, mget. rewrite (ld_state _ L k len H). unfold selected. clear. induction len; simpl; auto.
Qed.

Lemma class_reads name cfg r0 r r' t : session name cfg r0 r r' -> sized t -> same_class (new_class r) t ->
  (forall k len, In (k, len) (state_sizes r0) -> arg r' k = member t k) ->
  (forall k len, In (k, len) (par_sizes r0) -> arg r' k = firstn (selected (flags r0 k)) (member t k)) -> reads r0 r' t.
Proof.
  intros S Hs Hc H1 H2. rewrite (new_class_eq _ _ _ _ _ S) in Hc.
  intros k len Hk. pose proof (file_loaded _ _ _ (se_load _ _ _ _ _ S)) as L.
  assert (Hm : mcount k (t_val t) = true).
  { destruct (in_members r0 k len Hk) as [len' Hl]. apply (Hs k len').
    destruct Hc as [Q1 Q2]. injection Q1 as _ -> -> _. injection Q2 as -> -> -> ->. exact Hl. }
  unfold mcount in Hm. unfold member, mget in H1, H2. pose proof (H1 k) as G1. pose proof (H2 k) as G2. clear H1 H2.
  destruct (mfind k (t_val t)) as [v|]; [|discriminate]. exists v. split; [reflexivity|].
  unfold keys in Hk. apply in_app_iff in Hk. destruct Hk as [Hk|Hk].
  - rewrite (state_flags r0 k len L Hk). pose proof (se_state _ _ _ _ _ S k len Hk) as Q. rewrite (G1 len Hk) in Q |- *. split; [lia|].
    rewrite <- Q. symmetry. apply firstn_all.
  - pose proof (se_par _ _ _ _ _ S k len Hk) as Q. rewrite (G2 len Hk) in Q |- *. split; [|reflexivity]. rewrite firstn_length in Q. lia.
Qed.
Theorem getter_reads name cfg r0 r r' t : session name cfg r0 r r' -> sized t -> same_class (new_class r) t ->
  (forall k len, In (k, len) (state_sizes r0) -> arg r' k = member t k) ->
  (forall k len, In (k, len) (par_sizes r0) -> arg r' k = firstn (selected (flags r0 k)) (member t k)) ->
  forall nm, Api.published r nm -> t_get r t nm = get r' nm.
Proof.
  intros S Hs Hc H1 H2 nm Hp. pose proof (class_reads _ _ _ _ _ _ S Hs Hc H1 H2) as Hr.
  destruct (session_sess _ _ _ _ _ S) as (b & SS & B).
  apply (proj1 (Api.published_iff _ _ _ B nm)) in Hp. destruct Hp as (f & He & ->).
  assert (E : t_get r t (name_of f) = t_get r' t (name_of f)).
  { rewrite (se_args _ _ _ _ _ S). reflexivity. }
  rewrite E. apply (t_get_sess r0 b r' t f SS); auto.
Qed.

Lemma run_kept h : (forall c, In c h -> In (fst c) tsetters) -> forall t0 t, kept t0 t -> kept t0 (t_run h t).
Proof.
  induction h as [|[s v] h IH]; intros Hh t0 t K; [exact K|]. cbn [t_run fold_left fst snd]. apply IH; [intros; apply Hh; right; auto|].
  apply (do_kept (fun _ => 0%R) t0 (CSet s v) t); auto. cbn. apply (Hh (s, v)). left; reflexivity.
Qed.
Lemma uniform_pick fl v : uniform fl -> List.length fl = List.length v -> firstn (selected fl) v = pick fl v.
Proof.
  intros H. revert v. induction fl as [|z fl IH]; intros v E; [reflexivity|]. destruct v as [|x v]; [discriminate|].
  assert (Hu : uniform fl) by (destruct H as [H|H]; [left|right]; intros; apply H; right; auto).
  rewrite pick_cons. unfold selected in *. cbn [filter]. specialize (IH Hu v ltac:(simpl in E; lia)).
  destruct H as [H|H]; rewrite (H z (or_introl eq_refl)); cbn [flag_set Z.eqb negb List.length firstn].
  - now rewrite IH.
  - assert (Q : filter flag_set fl = []).
    { clear - H. induction fl as [|y fl IH]; [reflexivity|]. cbn [filter]. rewrite (H y) by (right; left; auto). cbn. apply IH. intros y' Hy. apply H. destruct Hy; [left|right; right]; auto. }
    rewrite Q in *. cbn in *. exact IH.
Qed.

Theorem load_then_get junk name cfg r0 r r' upd : session name cfg r0 r r' -> complete_links inertial_keys (numJoints r0) cfg ->
  (forall k len, In (k, len) (par_sizes r0) -> ~ In k compacted -> uniform (flags r0 k)) ->
  exists t, t_load_conf junk (new_class r) (Some cfg) upd = Ok t /\
  forall h, (forall c, In c h -> In (fst c) tsetters) -> let t1 := t_run h t in
  (forall k len, In (k, len) (state_sizes r0) -> member t1 k = arg r' k) ->
  (forall k len, In (k, len) (par_sizes r0) -> (member t1 k = member t k /\ arg r' k = arg r k) \/ member t1 k = arg r' k) ->
  forall nm, Api.published r nm -> t_get r t1 nm = get r' nm.
Proof.
  intros S Hc Hu. rewrite (new_class_eq _ _ _ _ _ S).
  destruct (load_conf_agrees junk name cfg r0 upd (se_load _ _ _ _ _ S) (se_wf _ _ _ _ _ S) Hc) as (t & E & Hs & Hk & Hp & Hq).
  exists t. split; [exact E|]. intros h Hh t1 H1 H2.
  destruct (run_kept h Hh (new_class r0) t (conj Hs Hk)) as [K1 K2].
  apply (getter_reads name cfg r0 r r' t1 S); auto; [rewrite (new_class_eq _ _ _ _ _ S); exact K2|intros; symmetry; eauto|].
  intros k len Hl. pose proof (se_par _ _ _ _ _ S k len Hl) as Len. destruct (H2 k len Hl) as [[A B]|A].
  - rewrite A, B. destruct (session_sess _ _ _ _ _ S) as (b & _ & Bt).
    rewrite (bt_arg _ _ _ Bt k len) by (unfold keys; apply in_app_iff; right; exact Hl).
    destruct (in_dec string_dec k compacted) as [C|C]; [symmetry; apply Hp; exact C|].
    rewrite (Hq k len Hl C). symmetry. destruct (wf_sizes _ (se_wf _ _ _ _ _ S) k len Hl). apply uniform_pick; [eapply Hu; eauto|congruence].
  - rewrite A, <- Len. symmetry. apply firstn_all.
Qed.

(* ---- a parameter that is only partly symbolic ---- *)
Definition is_state (r0 : robot) (k : string) : bool := existsb (fun p => String.eqb k (fst p)) (state_sizes r0).
(* the configured parameters, as the robot keeps them and as the generated class reads them *)
Definition conf_args (r0 : robot) (k : string) : list R := if is_state r0 k then toy_args 0 k else pick (flags r0 k) (arg r0 k).
Definition seen_args (r0 : robot) (k : string) : list R :=
  if is_state r0 k then toy_args 0 k else
  if existsb (String.eqb k) compacted then pick (flags r0 k) (arg r0 k) else firstn (selected (flags r0 k)) (arg r0 k).
Definition toy_calls : list (tsetter * list R) := map (fun s => (s, toy_args 0 (ts_mem s))) state_tsetters.

Lemma toy_complete h : complete_links inertial_keys (numJoints (toy0 h)) (toy_cfg h).
Proof.
  intros dyn E k nd Hk.
  assert (D : entry (toy_cfg h) "dynamics" = Some (YMap [("link1", toy_link 1); ("link2", toy_link 2); ("link3", toy_link 3)])) by reflexivity.
  rewrite D in E. injection E as <-. change (numJoints (toy0 h)) with 3 in Hk. cbn [ychildren firstn In] in Hk.
  assert (L : forall m, complete_link inertial_keys (toy_link m)).
  { intros m. split.
    - eexists. split; [reflexivity|]. intros k' Hk'. unfold number_at. cbn [inertial_keys In] in Hk'.
      decompose [or] Hk'; try contradiction; subst k'; do 2 eexists; (split; [reflexivity|reflexivity]).
    - right. do 3 eexists. split; [reflexivity|]. split; reflexivity. }
  destruct Hk as [Hk|[Hk|[Hk|[]]]]; injection Hk as <- <-; apply L.
Qed.
Lemma toy_calls_ok c : In c toy_calls -> In (fst c) state_tsetters.
Proof. intros H. unfold toy_calls in H. apply in_map_iff in H. destruct H as (s & <- & Hs). exact Hs. Qed.
Lemma state_in s : In s state_tsetters -> In s tsetters.
Proof. intros H. apply in_app_iff. left; exact H. Qed.
Lemma toy_run t k : t_n t = 3 -> t_e t = 1 -> sized t ->
  member (t_run toy_calls t) k = if existsb (String.eqb k) (map ts_mem state_tsetters) then toy_args 0 k else member t k.
Proof.
  intros E1 E2 Hs.
  destruct (t_run_last toy_calls (fun c H => state_in _ (toy_calls_ok c H)) t Hs) as (_ & _ & _ & M). rewrite M. clear M.
  cbn [toy_calls map state_tsetters joint_tsetters motor_tsetters app ts_mem t_last ts_len]. rewrite E1, E2.
  cbn [existsb].
  destruct (existsb (String.eqb k) ["q"; "dq"; "ddq"; "d3q"; "d4q"; "dqr"; "ddqr"; "x"; "dx"; "ddx"; "ddxr"; "w"]) eqn:Ex.
  - apply existsb_exists in Ex. destruct Ex as (x & Hx & Ek). apply String.eqb_eq in Ek. subst x.
    cbn [In] in Hx. decompose [or] Hx; try contradiction; subst k; reflexivity.
  - cbn [existsb] in Ex. rewrite !orb_false_iff in Ex.
    decompose [and] Ex. rewrite (String.eqb_sym "q"), (String.eqb_sym "dq"), (String.eqb_sym "ddq"), (String.eqb_sym "d3q"), (String.eqb_sym "d4q"),
      (String.eqb_sym "dqr"), (String.eqb_sym "ddqr"), (String.eqb_sym "x"), (String.eqb_sym "dx"), (String.eqb_sym "ddx"), (String.eqb_sym "ddxr"), (String.eqb_sym "w").
    repeat match goal with E : String.eqb k _ = false |- _ => rewrite E; clear E end. reflexivity.
Qed.
Lemma state_mem r k len : In (k, len) (state_sizes r) -> existsb (String.eqb k) (map ts_mem state_tsetters) = true.
Proof.
  intros H. apply existsb_exists. exists k. split; [|apply String.eqb_refl].
  apply (names_in (map fst (state_sizes r))); [|apply in_map_iff; exists (k, len); auto].
  unfold state_sizes. cbv zeta. destruct (ELASTIC r); reflexivity.
Qed.
Lemma par_not_mem r k len : In (k, len) (par_sizes r) -> existsb (String.eqb k) (map ts_mem state_tsetters) = false.
Proof.
  intros H.
  assert (A : forallb (fun x => negb (existsb (String.eqb x) (map ts_mem state_tsetters))) (map fst (par_sizes r)) = true).
  { unfold par_sizes. cbv zeta. destruct (ELASTIC r), (Nat.ltb 0 (Dl_order r)); reflexivity. }
  rewrite forallb_forall in A. specialize (A k). apply negb_true_iff. apply A. apply in_map_iff. exists (k, len). auto.
Qed.

Lemma same_class_ne t t1 : same_class t t1 -> t_n t1 = t_n t /\ t_e t1 = t_e t.
Proof. intros [Q _]. injection Q as _ Q1 Q2 _. auto. Qed.
Lemma par_not_state r k len : In (k, len) (par_sizes r) -> is_state r k = false.
Proof.
  intros H. pose proof (par_not_mem _ _ _ H) as N. destruct (is_state r k) eqn:E; [|reflexivity]. unfold is_state in E.
  apply existsb_exists in E. destruct E as ([k' l'] & Hi & E). cbn [fst] in E. apply String.eqb_eq in E. subst k'.
  rewrite (state_mem _ _ _ Hi) in N. discriminate.
Qed.
Lemma state_is r k len : In (k, len) (state_sizes r) -> is_state r k = true.
Proof. intros Hi. unfold is_state. apply existsb_exists. exists (k, len). split; auto. apply String.eqb_refl. Qed.

Lemma partly_symbolic name cfg r0 r junk : robot_from_file name cfg false = Ok r0 -> well_formed r0 -> robot_from_file name cfg true = Ok r ->
  complete_links inertial_keys (numJoints r0) cfg -> numJoints r0 = 3 -> numElasticJoints r0 = 1 ->
  (forall k len, In (k, len) (state_sizes r0) -> List.length (toy_args 0 k) = len) ->
  (forall k len, In (k, len) (par_sizes r0) -> List.length (seen_args r0 k) = selected (flags r0 k)) ->
  Dl_order r0 = 2 -> arg r0 "par_Dl" = [1; 2; 1; 2; 1; 2]%R -> flags r0 "par_Dl" = [0; 1; 0; 1; 0; 1]%Z ->
  exists r' t, let t1 := t_run toy_calls t in
  session name cfg r0 r r' /\
  t_load_conf junk (new_class r) (Some cfg) true = Ok t /\
  (forall k len, In (k, len) (state_sizes r0) -> member t1 k = arg r' k) /\
  (forall k len, In (k, len) (par_sizes r0) -> arg r' k = arg r k) /\
  Api.published r "dl" /\ t_get r t1 "dl" <> get r' "dl".
Proof.
  intros Hl Hw Hr Hc N3 N1 Hst Hse DO DA DF.
  destruct (session_any name cfg r0 r (conf_args r0) Hl Hw Hr) as [S1 A1].
  { intros k len Hk. unfold conf_args. rewrite (state_is _ _ _ Hk). auto. }
  { intros k len Hk. unfold conf_args. rewrite (par_not_state _ _ _ Hk). apply pick_selected. }
  destruct (session_any name cfg r0 r (seen_args r0) Hl Hw Hr) as [S2 A2]; [|exact Hse|].
  { intros k len Hk. unfold seen_args. rewrite (state_is _ _ _ Hk). auto. }
  set (r1 := with_args r _) in S1, A1. set (r2 := with_args r _) in S2, A2. clearbody r1 r2.
  destruct (load_conf_agrees junk name cfg r0 true Hl Hw Hc) as (t & E & Hs & Hk & Hp & Hq).
  destruct (same_class_ne _ _ Hk) as [T1 T2]. cbn [new_class t_n t_e] in T1, T2. rewrite N3 in T1. rewrite N1 in T2.
  pose proof (fun k => toy_run t k T1 T2 Hs) as M.
  destruct (run_kept toy_calls (fun c H => state_in _ (toy_calls_ok c H)) (new_class r0) t (conj Hs Hk)) as [K1 K2].
  assert (Pub : Api.published r "dl").
  { assert (C : In ("dl", (3, 1)) (Api.catalogue r0)).
    { unfold Api.catalogue. rewrite N3, DO. cbv zeta. do 9 (apply in_app_iff; right). apply in_app_iff. left. left. reflexivity. }
    apply (proj1 (Api.catalogue_published _ _ _ _ _ S1)) in C. destruct C as (fo & Hf & <- & _). unfold Api.published. apply in_map. exact Hf. }
  exists r1, t. cbv zeta. split; [exact S1|]. split; [rewrite (new_class_eq _ _ _ _ _ S1); exact E|].
  split; [|split; [|split; [exact Pub|]]].
  - intros k len Hi. rewrite M, (state_mem _ _ _ Hi). rewrite (A1 k len) by (unfold keys; apply in_app_iff; left; exact Hi).
    unfold conf_args. now rewrite (state_is _ _ _ Hi).
  - intros k len Hi. assert (Hi' : In (k, len) (keys r0)) by (unfold keys; apply in_app_iff; right; exact Hi).
    rewrite (A1 k len Hi'). destruct (session_sess _ _ _ _ _ S1) as (b & _ & Bt). rewrite (bt_arg _ _ _ Bt k len Hi').
    unfold conf_args. now rewrite (par_not_state _ _ _ Hi).
  - assert (G : t_get r (t_run toy_calls t) "dl" = get r2 "dl").
    { apply (getter_reads name cfg r0 r r2); auto; [rewrite (new_class_eq _ _ _ _ _ S1); exact K2| |].
      - intros k len Hi. rewrite M, (state_mem _ _ _ Hi). rewrite (A2 k len) by (unfold keys; apply in_app_iff; left; exact Hi).
        unfold seen_args. now rewrite (state_is _ _ _ Hi).
      - intros k len Hi. rewrite M, (par_not_mem _ _ _ Hi). rewrite (A2 k len) by (unfold keys; apply in_app_iff; right; exact Hi).
        unfold seen_args. rewrite (par_not_state _ _ _ Hi). destruct (existsb (String.eqb k) compacted) eqn:C.
        + symmetry. apply Hp. apply existsb_exists in C. destruct C as (x & Hx & Ek). apply String.eqb_eq in Ek. now subst x.
        + rewrite (Hq k len Hi); [reflexivity|]. intros Hn. assert (existsb (String.eqb k) compacted = true); [|congruence].
          apply existsb_exists. exists k. split; auto. apply String.eqb_refl. }
    rewrite G. intros Q. assert (O : out r2 "dl" 0 0 = out r1 "dl" 0 0) by (unfold out; now rewrite Q). clear G Q M.
    destruct (fric_closed _ _ _ _ _ S1) as (V1 & _). destruct (V1 ltac:(lia)) as [_ W1].
    destruct (fric_closed _ _ _ _ _ S2) as (V2 & _). destruct (V2 ltac:(lia)) as [_ W2].
    rewrite (W1 0), (W2 0) in O by lia. clear - O A1 A2 DO DA DF N3.
    unfold fric_law, param, state in O. rewrite DO in O.
    assert (I1 : In ("dq", 3) (keys r0)) by (unfold keys; apply in_app_iff; left; change (In ("dq", 3) (state_sizes r0)); unfold state_sizes; cbv zeta; rewrite N3; apply in_app_iff; left; right; left; reflexivity).
    assert (I2 : In ("par_Dl", numJoints r0 * 2) (keys r0)).
    { unfold keys, par_keys. apply in_app_iff. right. rewrite DO. change (Nat.ltb 0 2) with true. cbv zeta. cbn match. rewrite !in_app_iff. cbn [In]. tauto. }
    rewrite (A1 _ _ I1), (A1 _ _ I2), (A2 _ _ I1), (A2 _ _ I2) in O.
    assert (X1 : conf_args r0 "dq" = toy_args 0 "dq") by (unfold conf_args; erewrite state_is by (apply in_app_iff; left; simpl; eauto); reflexivity).
    assert (X2 : seen_args r0 "dq" = toy_args 0 "dq") by (unfold seen_args; erewrite state_is by (apply in_app_iff; left; simpl; eauto); reflexivity).
    assert (P : In ("par_Dl", numJoints r0 * 2) (par_sizes r0)).
    { unfold par_sizes. rewrite DO. change (Nat.ltb 0 2) with true. cbv zeta. cbn match. rewrite !in_app_iff. cbn [In]. tauto. }
    assert (X3 : conf_args r0 "par_Dl" = [2; 2; 2]%R) by (unfold conf_args; rewrite (par_not_state _ _ _ P), DA, DF; reflexivity).
    assert (X4 : seen_args r0 "par_Dl" = [1; 2; 1]%R) by (unfold seen_args; rewrite (par_not_state _ _ _ P), DA, DF; reflexivity).
    rewrite X1, X2, X3, X4, DA, DF in O. change (toy_args 0 "dq") with [1; 2 * 0; 3 * 0 ^ 2]%R in O.
    cbn [rsum merge flag_set Z.eqb negb nth Nat.mul Nat.add] in O. unfold fric_shape in O. rewrite Rabs_R1 in O. lra.
Qed.
Theorem load_partly_symbolic h (junk : nat -> R) : exists r r' t, let r0 := toy0 h in let t1 := t_run toy_calls t in
  session "toy" (toy_cfg h) r0 r r' /\ complete_links inertial_keys (numJoints r0) (toy_cfg h) /\
  t_load_conf junk (new_class r) (Some (toy_cfg h)) true = Ok t /\ (forall c, In c toy_calls -> In (fst c) state_tsetters) /\
  (forall k len, In (k, len) (state_sizes r0) -> member t1 k = arg r' k) /\
  (forall k len, In (k, len) (par_sizes r0) -> arg r' k = arg r k) /\
  Api.published r "dl" /\ t_get r t1 "dl" <> get r' "dl".
Proof.
  destruct (toy_built h) as [r Hr].
  destruct (partly_symbolic "toy" (toy_cfg h) (toy0 h) r junk (toy_loads h) (toy_wf h) Hr (toy_complete h)) as (r' & t & A & B & C & D & E & F).
  { vm_compute. reflexivity. } { vm_compute. reflexivity. } { lens. } { lens. } { vm_compute. reflexivity. } { vm_compute. reflexivity. } { vm_compute. reflexivity. }
  exists r, r', t. cbv zeta. split; [exact A|]. split; [apply toy_complete|]. split; [exact B|]. split; [apply toy_calls_ok|]. split; [exact C|]. split; [exact D|]. split; [exact E|exact F].
Qed.
