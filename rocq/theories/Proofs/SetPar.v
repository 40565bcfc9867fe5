(* Setting the symbolic elements of a parameter in the generated class. *)
From Coq Require Import Reals List Arith String Bool Lia ZArith Lra.
From Verif.Model Require Import Base Expr SX Robot Kinematics Dynamics Regressors Yaml Inertia Build Template.
From Verif.Spec Require Import Math Setup Kinematics State Config Template Sample Friction.
From Verif.Spec Require Api.
From Verif.Proofs Require Import Calc Rel Maps Pure Names Shape Load Init Final Get StateSess Files TSetters TFiles TSync TFacts TAgree TLoad HeaderToy Sample Sample1 FrictionMain FrictionToy TGet.
From Verif.Proofs Require Api.
Import ListNotations.
Open Scope nat_scope.
Open Scope string_scope.

Lemma par_in s : In s par_tsetters -> In s tsetters.
Proof. intros H. apply in_app_iff. right; exact H. Qed.
Lemma par_len s t : In s par_tsetters -> ts_len s t = List.length (member t (ts_mem s)).
Proof. intros H. cbn [par_tsetters In] in H. decompose [or] H; try contradiction; subst s; reflexivity. Qed.
Lemma last_state h t k : (forall c, In c h -> In (fst c) state_tsetters) -> existsb (String.eqb k) (map ts_mem state_tsetters) = false ->
  sized t -> member (t_run h t) k = member t k.
Proof.
  revert t. induction h as [|[s v] h IH]; intros t Hh Hk Hs; [reflexivity|]. cbn [t_run fold_left fst snd].
  assert (Hin : In s state_tsetters) by (apply (Hh (s, v)); left; auto).
  rewrite IH; [|intros; apply Hh; right; auto|exact Hk|apply sized_set; [apply state_in; exact Hin|exact Hs]].
  rewrite tsetter_store by (apply state_in; exact Hin). unfold tstore. destruct Nat.eqb; [|reflexivity].
  apply member_tput_ne. intros ->. assert (existsb (String.eqb (ts_mem s)) (map ts_mem state_tsetters) = true); [|congruence].
  apply existsb_exists. exists (ts_mem s). split; [now apply in_map|apply String.eqb_refl].
Qed.
Lemma run_app h1 h2 t : t_run (h1 ++ h2) t = t_run h2 (t_run h1 t).
Proof. unfold t_run. apply fold_left_app. Qed.

(* after load_conf: the call changes the symbolic elements and nothing else *)
Theorem set_symbolic junk name cfg r0 r r' upd : session name cfg r0 r r' -> complete_links inertial_keys (numJoints r0) cfg ->
  (forall k len, In (k, len) (par_sizes r0) -> ~ In k compacted -> uniform (flags r0 k)) ->
  exists t, t_load_conf junk (new_class r) (Some cfg) upd = Ok t /\
  forall h s len v, (forall c, In c h -> In (fst c) state_tsetters) -> In s par_tsetters -> In (ts_mem s, len) (par_sizes r0) ->
  0 < selected (flags r0 (ts_mem s)) -> List.length v = selected (flags r0 (ts_mem s)) ->
  let t1 := ts_call s v (t_run h t) in
  (forall k len, In (k, len) (state_sizes r0) -> member t1 k = arg r' k) ->
  arg r' (ts_mem s) = v -> (forall k len, In (k, len) (par_sizes r0) -> k <> ts_mem s -> arg r' k = arg r k) ->
  forall nm, Api.published r nm -> t_get r t1 nm = get r' nm.
Proof.
  intros S Hc Hu.
  destruct (load_conf_agrees junk name cfg r0 upd (se_load _ _ _ _ _ S) (se_wf _ _ _ _ _ S) Hc) as (t & E & Hs & Hk & Hp & Hq).
  destruct (load_then_get junk name cfg r0 r r' upd S Hc Hu) as (t' & E' & G).
  assert (t' = t). { rewrite (new_class_eq _ _ _ _ _ S), E in E'. congruence. } subst t'.
  exists t. split; [exact E'|]. intros h s len v Hh Hin Hl Hpos Hv t1 H1 H2 H3 nm Hn.
  assert (Et : t1 = t_run (h ++ [(s, v)]) t) by (rewrite run_app; reflexivity). rewrite Et.
  assert (Hh' : forall c, In c (h ++ [(s, v)]) -> In (fst c) tsetters).
  { intros c Hi. apply in_app_iff in Hi. destruct Hi as [Hi|[<-|[]]]; [apply state_in; auto|apply par_in; exact Hin]. }
  assert (Hrun : sized (t_run h t)). { apply (t_run_last h); auto. intros c Hi. apply state_in; auto. }
  assert (Ms : member (t_run h t) (ts_mem s) = member t (ts_mem s)) by (apply last_state; auto; eapply par_not_mem; eauto).
  assert (Hlen : List.length v = ts_len s (t_run h t)).
  { rewrite (par_len _ _ Hin), Ms, Hv. destruct (in_dec string_dec (ts_mem s) compacted) as [C|C].
    - destruct (Hp _ C) as (_ & _ & X). symmetry. apply X. exact Hpos.
    - rewrite (Hq _ _ Hl C). destruct (wf_sizes _ (se_wf _ _ _ _ _ S) _ _ Hl) as [W1 W2]. rewrite W2, <- W1.
      destruct (Hu _ _ Hl C) as [U|U].
      + unfold selected. clear - U. induction (flags r0 (ts_mem s)) as [|z l IH]; [reflexivity|]. rewrite (U z) by (left; auto). cbn. f_equal. apply IH. intros; apply U; right; auto.
      + exfalso. revert Hpos. unfold selected. clear - U. induction (flags r0 (ts_mem s)) as [|z l IH]; [cbn; lia|]. rewrite (U z) by (left; auto). cbn. apply IH. intros; apply U; right; auto. }
  destruct (tset_stores s v (t_run h t) (par_in _ Hin) Hlen) as [M1 (_ & _ & M2)].
  apply (G _ Hh'); auto.
  - intros k l Hk'. rewrite <- Et. eauto.
  - intros k l Hk'. rewrite <- Et. destruct (string_dec k (ts_mem s)) as [->|N].
    + right. unfold t1. now rewrite M1.
    + left. split; [|eauto]. unfold t1. rewrite M2 by (intros [X|[]]; congruence). apply last_state; auto. eapply par_not_mem; eauto.
Qed.

(* the DH table and the inertial parameters, which have setters of their own *)
Lemma changed_reads junk name cfg r0 r r' upd : session name cfg r0 r r' -> complete_links inertial_keys (numJoints r0) cfg ->
  (forall k len, In (k, len) (par_sizes r0) -> ~ In k compacted -> uniform (flags r0 k)) ->
  exists t, t_load_conf junk (new_class r) (Some cfg) upd = Ok t /\ sized t /\ same_class (new_class r) t /\
  (forall k, In k compacted -> 0 < selected (flags r0 k) -> List.length (member t k) = selected (flags r0 k)) /\
  forall t1 k, sized t1 -> same_class t t1 -> (forall k', existsb (String.eqb k') (map ts_mem state_tsetters) = false -> k' <> k -> k' <> "par_REG" -> member t1 k' = member t k') ->
  (forall k len, In (k, len) (state_sizes r0) -> member t1 k = arg r' k) ->
  arg r' k = member t1 k -> (forall k' len, In (k', len) (par_sizes r0) -> k' <> k -> arg r' k' = arg r k') ->
  forall nm, Api.published r nm -> t_get r t1 nm = get r' nm.
Proof.
  intros S Hc Hu. rewrite (new_class_eq _ _ _ _ _ S).
  destruct (load_conf_agrees junk name cfg r0 upd (se_load _ _ _ _ _ S) (se_wf _ _ _ _ _ S) Hc) as (t & E & Hs & Hk & Hp & Hq).
  exists t. split; [exact E|]. split; [exact Hs|]. split; [exact Hk|]. split; [intros k C; apply Hp; exact C|].
  intros t1 k Hs1 Hc1 Hm H1 H2 H3. apply (getter_reads name cfg r0 r r' t1 S Hs1).
  - rewrite (new_class_eq _ _ _ _ _ S). destruct Hk as [Q1 Q2], Hc1 as [Q3 Q4]. split; congruence.
  - intros. symmetry. eauto.
  - intros k' len Hl. pose proof (se_par _ _ _ _ _ S k' len Hl) as Len. destruct (string_dec k' k) as [->|N].
    + rewrite <- H2, <- Len. symmetry. apply firstn_all.
    + assert (NR : k' <> "par_REG").
      { intros ->. revert Hl. unfold par_sizes. cbv zeta. rewrite !in_app_iff. cbn [In].
        destruct (Nat.ltb 0 (Dl_order r0)), (ELASTIC r0); cbn [In]; intros X; decompose [or] X; try contradiction; discriminate. }
      rewrite (Hm k' (par_not_mem _ _ _ Hl) N NR), (H3 k' len Hl N). destruct (session_sess _ _ _ _ _ S) as (b & _ & Bt).
      rewrite (bt_arg _ _ _ Bt k' len) by (unfold keys; apply in_app_iff; right; exact Hl).
      destruct (in_dec string_dec k' compacted) as [C|C]; [symmetry; apply Hp; exact C|].
      rewrite (Hq k' len Hl C). symmetry. destruct (wf_sizes _ (se_wf _ _ _ _ _ S) k' len Hl). apply uniform_pick; [eapply Hu; eauto|congruence].
Qed.
Theorem set_table junk name cfg r0 r r' upd : session name cfg r0 r r' -> complete_links inertial_keys (numJoints r0) cfg ->
  (forall k len, In (k, len) (par_sizes r0) -> ~ In k compacted -> uniform (flags r0 k)) ->
  exists t, t_load_conf junk (new_class r) (Some cfg) upd = Ok t /\
  forall h v, (forall c, In c h -> In (fst c) state_tsetters) ->
  0 < selected (flags r0 "par_DHtable") -> List.length v = selected (flags r0 "par_DHtable") ->
  exists t1, t_set_par_DHtable 1 v (t_run h t) = Ok t1 /\
  ((forall k len, In (k, len) (state_sizes r0) -> member t1 k = arg r' k) ->
   arg r' "par_DHtable" = v -> (forall k len, In (k, len) (par_sizes r0) -> k <> "par_DHtable" -> arg r' k = arg r k) ->
   forall nm, Api.published r nm -> t_get r t1 nm = get r' nm).
Proof.
  intros S Hc Hu. destruct (changed_reads junk name cfg r0 r r' upd S Hc Hu) as (t & E & Hs & Hk & Hp & G).
  exists t. split; [exact E|]. intros h v Hh Hpos Hv.
  assert (Hh' : forall c, In c h -> In (fst c) tsetters) by (intros c Hi; apply state_in; auto).
  destruct (run_kept h Hh' t t) as [K1 K2]; [split; [exact Hs|split; reflexivity]|].
  assert (M : forall k, existsb (String.eqb k) (map ts_mem state_tsetters) = false -> member (t_run h t) k = member t k) by (intros; apply last_state; auto).
  exists (tput "par_DHtable" v (t_run h t)). split.
  { unfold t_set_par_DHtable. rewrite (M "par_DHtable") by reflexivity. rewrite (Hp "par_DHtable") by (auto; left; reflexivity). rewrite Hv, Nat.eqb_refl. reflexivity. }
  intros H1 H2 H3. apply (G _ "par_DHtable").
  - apply sized_tput; [left; left; reflexivity|exact K1].
  - destruct K2 as [Q1 Q2]. split; [exact Q1|exact Q2].
  - intros k' X N _. rewrite member_tput_ne by auto. now apply M.
  - exact H1.
  - rewrite H2. symmetry. unfold member, tput, with_val. cbn [t_val]. apply mget_mset.
  - exact H3.
Qed.
Theorem set_inertia junk name cfg r0 r r' upd : session name cfg r0 r r' -> complete_links inertial_keys (numJoints r0) cfg ->
  (forall k len, In (k, len) (par_sizes r0) -> ~ In k compacted -> uniform (flags r0 k)) ->
  exists t, t_load_conf junk (new_class r) (Some cfg) upd = Ok t /\
  forall h v b, (forall c, In c h -> In (fst c) state_tsetters) -> List.length v = 10 * numJoints r0 ->
  exists t1, t_set_par_DYN v b (t_run h t) = Ok t1 /\
  ((forall k len, In (k, len) (state_sizes r0) -> member t1 k = arg r' k) ->
   arg r' "par_DYN" = v -> (forall k len, In (k, len) (par_sizes r0) -> k <> "par_DYN" -> arg r' k = arg r k) ->
   forall nm, Api.published r nm -> t_get r t1 nm = get r' nm).
Proof.
  intros S Hc Hu. destruct (changed_reads junk name cfg r0 r r' upd S Hc Hu) as (t & E & Hs & Hk & Hp & G).
  exists t. split; [exact E|]. intros h v b Hh Hv.
  assert (Hh' : forall c, In c h -> In (fst c) tsetters) by (intros c Hi; apply state_in; auto).
  destruct (run_kept h Hh' t t) as [K1 K2]; [split; [exact Hs|split; reflexivity]|].
  assert (M : forall k, existsb (String.eqb k) (map ts_mem state_tsetters) = false -> member (t_run h t) k = member t k) by (intros; apply last_state; auto).
  destruct (tset_DYN v b (t_run h t) K1) as (t1 & E1 & S1 & (C1 & _ & C2) & D1 & _). exists t1. split; [exact E1|].
  intros H1 H2 H3. apply (G _ "par_DYN").
  - exact S1.
  - destruct K2 as [Q1 Q2], C1 as [Q3 Q4]. split; congruence.
  - intros k' X N NR. rewrite C2 by (intros [Y|[Y|[]]]; congruence). now apply M.
  - exact H1.
  - rewrite H2, D1. destruct K2 as [Q1 _], Hk as [Q2 _]. cbn [new_class t_n] in Q2. injection Q1 as _ Q1 _ _. injection Q2 as _ Q2 _ _.
    assert (N : numJoints r = numJoints r0) by (destruct (session_rest _ _ _ _ _ S) as (_ & N & _); exact N).
    rewrite Q1, Q2, Hv, N, Nat.eqb_refl. reflexivity.
  - exact H3.
Qed.

(* parameters that load_conf does not compact: a vector of the symbolic elements is refused *)
Theorem set_ignored junk name cfg r0 r upd : session name cfg r0 r r -> complete_links inertial_keys (numJoints r0) cfg ->
  exists t, t_load_conf junk (new_class r) (Some cfg) upd = Ok t /\
  forall s len v, In s par_tsetters -> In (ts_mem s, len) (par_sizes r0) -> ~ In (ts_mem s) compacted ->
  selected (flags r0 (ts_mem s)) < len -> List.length v = selected (flags r0 (ts_mem s)) -> ts_call s v t = t.
Proof.
  intros S Hc. rewrite (new_class_eq _ _ _ _ _ S).
  destruct (load_conf_agrees junk name cfg r0 upd (se_load _ _ _ _ _ S) (se_wf _ _ _ _ _ S) Hc) as (t & E & Hs & Hk & Hp & Hq).
  exists t. split; [exact E|]. intros s len v Hin Hl Hn Hlt Hv. apply tset_refuses; [now apply par_in|].
  rewrite (par_len _ _ Hin), (Hq _ _ Hl Hn). destruct (wf_sizes _ (se_wf _ _ _ _ _ S) _ _ Hl) as [_ W2]. lia.
Qed.
Lemma fresh_len r0 k len : In (k, len) (par_sizes r0) -> List.length (member (new_class r0) k) = len.
Proof.
  intros H. unfold par_sizes in H. cbv zeta in H.
  assert (G : forall k l, In (k, l) (member_sizes (numJoints r0) (numElasticJoints r0) (K_order r0) (D_order r0) (Dl_order r0) (Dm_order r0)) ->
    List.length (member (new_class r0) k) = l).
  { intros k' l Hk'. unfold member, mget. rewrite (new_count _ _ _ Hk'). apply repeat_length. }
  repeat rewrite in_app_iff in H. destruct H as [H|[H|H]].
  - cbn [In] in H. decompose [or] H; try contradiction; match goal with X : _ = _ |- _ => injection X as <- <- end; 
      (etransitivity; [apply G; cbn [member_sizes In]; repeat (first [left; reflexivity|right])|unfold STD_PAR_LINK; lia]).
  - destruct (Nat.ltb 0 (Dl_order r0)); [|destruct H]. cbn [In] in H. decompose [or] H; try contradiction; match goal with X : _ = _ |- _ => injection X as <- <- end; 
      (etransitivity; [apply G; cbn [member_sizes In]; repeat (first [left; reflexivity|right])|unfold STD_PAR_LINK; lia]).
  - destruct (ELASTIC r0); [|destruct H]. cbn [In] in H. decompose [or] H; try contradiction; match goal with X : _ = _ |- _ => injection X as <- <- end; 
      (etransitivity; [apply G; cbn [member_sizes In]; repeat (first [left; reflexivity|right])|unfold STD_PAR_LINK; lia]).
Qed.
(* before load_conf: only vectors of the full length are taken *)
Theorem set_fresh name cfg r0 r s len v : session name cfg r0 r r -> In s par_tsetters -> In (ts_mem s, len) (par_sizes r0) ->
  List.length v <> len -> ts_call s v (new_class r) = new_class r.
Proof.
  intros S Hin Hl Hv. rewrite (new_class_eq _ _ _ _ _ S). apply tset_refuses; [now apply par_in|].
  rewrite (par_len _ _ Hin), (fresh_len _ _ _ Hl). exact Hv.
Qed.

(* before load_conf: a vector of the full length is taken, and its first elements are read as the symbolic ones *)
Definition fresh_args (dl : list R) (r0 : robot) (k : string) : list R :=
  if is_state r0 k then toy_args 0 k else if String.eqb k "par_Dl" then dl else repeat 0%R (selected (flags r0 k)).
Lemma firstn_zero n m : n <= m -> firstn n (repeat 0%R m) = repeat 0%R n.
Proof. revert m. induction n; intros [|m] H; cbn; try lia; [reflexivity|reflexivity|]. f_equal. apply IHn. lia. Qed.
Lemma selected_le l : selected l <= List.length l.
Proof. unfold selected. induction l as [|z l IH]; cbn; [lia|]. destruct (flag_set z); cbn; lia. Qed.

Lemma fresh_member r0 k len : In (k, len) (par_sizes r0) -> member (new_class r0) k = repeat 0%R len.
Proof.
  intros H. pose proof (fresh_len _ _ _ H) as L. destruct (in_members r0 k len) as [l Hl].
  { unfold keys. apply in_app_iff. right. exact H. }
  assert (E : member (new_class r0) k = repeat 0%R l) by (unfold member, mget; now rewrite (new_count _ _ _ Hl)).
  rewrite E in *. rewrite repeat_length in L. now rewrite L.
Qed.
Lemma set_fresh_wrong name cfg r0 r : robot_from_file name cfg false = Ok r0 -> well_formed r0 -> robot_from_file name cfg true = Ok r ->
  numJoints r0 = 3 -> numElasticJoints r0 = 1 ->
  (forall k len, In (k, len) (state_sizes r0) -> List.length (toy_args 0 k) = len) ->
  Dl_order r0 = 2 -> arg r0 "par_Dl" = [1; 2; 1; 2; 1; 2]%R -> flags r0 "par_Dl" = [0; 1; 0; 1; 0; 1]%Z ->
  exists r', let v := [1; 2; 1; 2; 1; 2]%R in let t1 := t_set_par_Dl v (t_run toy_calls (new_class r)) in
  session name cfg r0 r r' /\ In ("par_Dl", List.length v) (par_sizes r0) /\
  (forall k len, In (k, len) (state_sizes r0) -> arg r' k = member t1 k) /\
  (forall i, i < List.length v -> param r0 r' "par_Dl" i = nth i v 0%R) /\
  (forall k len, In (k, len) (par_sizes r0) -> k <> "par_Dl" -> arg r' k = firstn (selected (flags r0 k)) (member t1 k)) /\
  Api.published r "dl" /\ t_get r t1 "dl" <> get r' "dl".
Proof.
  intros Hl Hw Hr N3 N1 Hst DO DA DF.
  assert (P : In ("par_Dl", 6) (par_sizes r0)).
  { unfold par_sizes. rewrite DO, N3. change (Nat.ltb 0 2) with true. cbv zeta. cbn match. rewrite !in_app_iff. cbn [In]. tauto. }
  assert (Lf : forall dl, List.length dl = 3 -> forall k len, In (k, len) (par_sizes r0) -> List.length (fresh_args dl r0 k) = selected (flags r0 k)).
  { intros dl Hd k len Hk. unfold fresh_args. rewrite (par_not_state _ _ _ Hk). destruct (String.eqb_spec k "par_Dl") as [->|_].
    - rewrite Hd, DF. reflexivity.
    - apply repeat_length. }
  destruct (session_any name cfg r0 r (fresh_args [2; 2; 2]%R r0) Hl Hw Hr) as [S1 A1].
  { intros k len Hk. unfold fresh_args. rewrite (state_is _ _ _ Hk). auto. } { apply Lf; reflexivity. }
  destruct (session_any name cfg r0 r (fresh_args [1; 2; 1]%R r0) Hl Hw Hr) as [S2 A2].
  { intros k len Hk. unfold fresh_args. rewrite (state_is _ _ _ Hk). auto. } { apply Lf; reflexivity. }
  clear Lf. set (r1 := with_args r _) in S1, A1. set (r2 := with_args r _) in S2, A2. clearbody r1 r2.
  rewrite (new_class_eq _ _ _ _ _ S1).
  pose proof (fun k => toy_run (new_class r0) k N3 N1 (new_sized r0)) as M.
  destruct (run_kept toy_calls (fun c H => state_in _ (toy_calls_ok c H)) (new_class r0) (new_class r0)) as [K1 K2]; [split; [apply new_sized|split; reflexivity]|].
  set (t := t_run toy_calls (new_class r0)) in *. clearbody t.
  set (s := mkTS "par_Dl" (now "par_Dl") t_set_par_Dl).
  assert (Hin : In s par_tsetters) by (cbn [par_tsetters In]; tauto).
  assert (Hlen : List.length [1; 2; 1; 2; 1; 2]%R = ts_len s t).
  { rewrite (par_len _ _ Hin). cbn [ts_mem s]. rewrite M, (par_not_mem _ _ _ P), (fresh_len _ _ _ P). reflexivity. }
  destruct (tset_stores s _ t (par_in _ Hin) Hlen) as [M1 (Mc & _ & M2)].
  pose proof (sized_set s [1; 2; 1; 2; 1; 2]%R t (par_in _ Hin) K1) as Hs1.
  exists r1. cbv zeta. change (t_set_par_Dl [1; 2; 1; 2; 1; 2]%R t) with (ts_call s [1; 2; 1; 2; 1; 2]%R t). cbn [ts_mem s] in M1, M2.
  set (t1 := ts_call s [1; 2; 1; 2; 1; 2]%R t) in *. clearbody t1.
  assert (Pub : Api.published r "dl").
  { assert (C : In ("dl", (3, 1)) (Api.catalogue r0)).
    { unfold Api.catalogue. rewrite N3, DO. cbv zeta. do 9 (apply in_app_iff; right). apply in_app_iff. left. left. reflexivity. }
    apply (proj1 (Api.catalogue_published _ _ _ _ _ S1)) in C. destruct C as (fo & Hf & <- & _). unfold Api.published. apply in_map. exact Hf. }
  assert (Ms : forall k len, In (k, len) (state_sizes r0) -> member t1 k = toy_args 0 k).
  { intros k len Hk. rewrite M2; [rewrite M, (state_mem _ _ _ Hk); reflexivity|]. intros [X|[]]. subst k.
    pose proof (par_not_state _ _ _ P) as Q. rewrite (state_is _ _ _ Hk) in Q. discriminate. }
  assert (Mp : forall k len, In (k, len) (par_sizes r0) -> k <> "par_Dl" -> firstn (selected (flags r0 k)) (member t1 k) = repeat 0%R (selected (flags r0 k))).
  { intros k len Hk N. rewrite M2 by (intros [X|[]]; congruence). rewrite M, (par_not_mem _ _ _ Hk), (fresh_member _ _ _ Hk).
    apply firstn_zero. destruct (wf_sizes _ Hw k len Hk) as [W _]. rewrite <- W. apply selected_le. }
  assert (AS : forall dl r', (forall k len, In (k, len) (keys r0) -> arg r' k = fresh_args dl r0 k) ->
    (forall k len, In (k, len) (state_sizes r0) -> arg r' k = toy_args 0 k) /\ arg r' "par_Dl" = dl /\
    (forall k len, In (k, len) (par_sizes r0) -> k <> "par_Dl" -> arg r' k = repeat 0%R (selected (flags r0 k)))).
  { intros dl r' A. split; [|split].
    - intros k len Hk. rewrite (A k len) by (unfold keys; apply in_app_iff; left; exact Hk). unfold fresh_args. now rewrite (state_is _ _ _ Hk).
    - rewrite (A _ 6) by (unfold keys; apply in_app_iff; right; exact P). unfold fresh_args. now rewrite (par_not_state _ _ _ P).
    - intros k len Hk N. rewrite (A k len) by (unfold keys; apply in_app_iff; right; exact Hk). unfold fresh_args. rewrite (par_not_state _ _ _ Hk).
      destruct (String.eqb_spec k "par_Dl"); [contradiction|reflexivity]. }
  destruct (AS _ _ A1) as (B1 & B2 & B3). destruct (AS _ _ A2) as (D1 & D2 & D3). clear AS A1 A2.
  split; [exact S1|]. split; [exact P|]. split; [|split; [|split; [|split; [exact Pub|]]]].
  - intros k len Hk. rewrite (B1 k len Hk). symmetry. eapply Ms; eauto.
  - intros i Hi. unfold param. rewrite B2, DA, DF. cbn [List.length] in Hi. do 6 (destruct i as [|i]; [reflexivity|]). lia.
  - intros k len Hk N. rewrite (Mp k len Hk N). eapply B3; eauto.
  - assert (G : t_get r t1 "dl" = get r2 "dl").
    { apply (getter_reads name cfg r0 r r2); auto.
      - rewrite (new_class_eq _ _ _ _ _ S1). destruct K2 as [Q1 Q2], Mc as [Q3 Q4]. split; congruence.
      - intros k len Hk. rewrite (Ms k len Hk). eapply D1; eauto.
      - intros k len Hk. destruct (string_dec k "par_Dl") as [->|N].
        + rewrite M1, D2, DF. reflexivity.
        + rewrite (Mp k len Hk N). eapply D3; eauto. }
    rewrite G. intros Q. assert (O : out r2 "dl" 0 0 = out r1 "dl" 0 0) by (unfold out; now rewrite Q). clear G Q M.
    destruct (fric_closed _ _ _ _ _ S1) as (V1 & _). destruct (V1 ltac:(lia)) as [_ W1].
    destruct (fric_closed _ _ _ _ _ S2) as (V2 & _). destruct (V2 ltac:(lia)) as [_ W2].
    rewrite (W1 0), (W2 0) in O by lia. clear - O B1 B2 D1 D2 DO DA DF N3.
    unfold fric_law, param, state in O. rewrite DO in O.
    assert (I1 : In ("dq", 3) (state_sizes r0)) by (unfold state_sizes; cbv zeta; rewrite N3; apply in_app_iff; left; right; left; reflexivity).
    rewrite (B1 _ _ I1), (D1 _ _ I1), B2, D2, DA, DF in O. change (toy_args 0 "dq") with [1; 2 * 0; 3 * 0 ^ 2]%R in O.
    cbn [rsum merge flag_set Z.eqb negb nth Nat.mul Nat.add] in O. unfold fric_shape in O. rewrite Rabs_R1 in O. lra.
Qed.
Theorem set_fresh_toy h : exists r r', let r0 := toy0 h in let v := [1; 2; 1; 2; 1; 2]%R in
  let t1 := t_set_par_Dl v (t_run toy_calls (new_class r)) in
  session "toy" (toy_cfg h) r0 r r' /\ In ("par_Dl", List.length v) (par_sizes r0) /\
  (forall k len, In (k, len) (state_sizes r0) -> arg r' k = member t1 k) /\
  (forall i, i < List.length v -> param r0 r' "par_Dl" i = nth i v 0%R) /\
  (forall k len, In (k, len) (par_sizes r0) -> k <> "par_Dl" -> arg r' k = firstn (selected (flags r0 k)) (member t1 k)) /\
  Api.published r "dl" /\ t_get r t1 "dl" <> get r' "dl".
Proof.
  destruct (toy_built h) as [r Hr]. exists r.
  apply (set_fresh_wrong "toy" (toy_cfg h) (toy0 h) r (toy_loads h) (toy_wf h) Hr).
  { vm_compute. reflexivity. } { vm_compute. reflexivity. } { lens. } { vm_compute. reflexivity. } { vm_compute. reflexivity. } { vm_compute. reflexivity. }
Qed.
