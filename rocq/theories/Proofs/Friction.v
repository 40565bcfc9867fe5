(* Friction, elastic coupling and their regressors. *)
From Coq Require Import Reals Lra Lia Arith List String Bool ZArith Psatz.
From Verif.Model Require Import Base Expr SX Robot Kinematics Dynamics Regressors Yaml Build.
From Verif.Spec Require Import Math Setup Kinematics Api Friction.
From Verif.Proofs Require Import Sums Calc Rel Maps Pure PureRel Names Shape Dims Sizes Deps Closed Load Init Final Get KinThm Catalogue.
Import ListNotations.
Open Scope nat_scope.
Open Scope string_scope.

(* ---- values of the sums ---- *)
Lemma eval_for env g k acc : eval env (for_ k 0 (fun ord acc => Add acc (g ord)) acc) = (eval env acc + rsum k (fun o => eval env (g o)))%R.
Proof.
  induction k as [|k IH]; [simpl; lra|]. rewrite for_S. cbn [eval rsum]. rewrite IH. rewrite Nat.add_0_l. lra.
Qed.
Lemma odd_pow v o : Nat.even o = false -> (sqrt (v ^ 2) * v ^ o)%R = fric_shape o v.
Proof.
  intros H. rewrite <- (Rsqr_pow2 v), sqrt_Rsqr_abs. unfold fric_shape.
  assert (exists m, o = 2 * m + 1) as [m ->].
  { assert (O : Nat.Odd o) by (apply Nat.odd_spec; unfold Nat.odd; now rewrite H). destruct O as [m ->]. exists m. lia. }
  rewrite !pow_add, !pow_mult. rewrite <- (Rsqr_pow2 (Rabs v)), <- (Rsqr_pow2 v), <- Rsqr_abs. simpl. ring.
Qed.
Lemma even_pow v o : Nat.even o = true -> (v ^ (o + 1))%R = fric_shape o v.
Proof.
  intros H. apply Nat.even_spec in H. destruct H as [m ->]. unfold fric_shape.
  rewrite pow_add, !pow_mult. rewrite <- (Rsqr_pow2 (Rabs v)), <- (Rsqr_pow2 v), <- Rsqr_abs. simpl. ring.
Qed.
Lemma eval_fric env v p base order :
  eval env (fric_sum v p base order) = rsum order (fun o => (eval env (el p (base + o) 0) * fric_shape o (eval env v))%R).
Proof.
  unfold fric_sum. rewrite eval_for. cbn [eval]. rewrite Rplus_0_l. apply rsum_ext. intros o Ho.
  unfold fric_term. destruct (Nat.even o) eqn:E; cbn [eval].
  - rewrite even_pow by auto. ring.
  - rewrite odd_pow by auto. ring.
Qed.
Lemma eval_spring env v p base order :
  eval env (spring_sum v p base order) = rsum order (fun o => (eval env (el p (base + o) 0) * eval env v ^ (2 * o + 1))%R).
Proof.
  unfold spring_sum. rewrite eval_for. cbn [eval]. rewrite Rplus_0_l. apply rsum_ext. intros o Ho. ring.
Qed.

(* ---- linear expressions ---- *)
Lemma within_inert (S act : sym -> Prop) c : within S c -> (forall s, act s -> ~ S s) -> inert act c.
Proof. intros H N s Hs. destruct (occurs s c) eqn:E; auto. exfalso. apply (N s Hs), H, E. Qed.
Lemma inert_poly (act : sym -> Prop) c : inert act c -> poly act c.
Proof.
  induction c; simpl; auto; intros H; try (split; try apply IHc1; try apply IHc2; intros s Hs; specialize (H s Hs); simpl in H; apply orb_false_iff in H; tauto).
Qed.
Lemma lin_poly (S act : sym -> Prop) e : linE S e -> (forall s, act s -> ~ S s) -> poly act e.
Proof.
  intros H N. induction H; simpl; auto; split; auto; try (apply inert_poly; eapply within_inert; eauto).
Qed.
Lemma lin_split S l e env env2 : linE S e -> (forall s, In s l -> ~ S s) ->
  (forall s, occurs s e = true -> (In s l /\ env2 s = 0%R) \/ (~ In s l /\ env2 s = env s)) ->
  eval env e = (dir env (on_list l env) e + eval env2 e)%R.
Proof.
  intros H N.
  assert (C : forall c, within S c -> dir env (on_list l env) c = 0%R).
  { intros c Hc. apply dir_zero. intros s Hs. unfold on_list. destruct in_dec as [i|i]; auto. exfalso. apply (N s i), Hc, Hs. }
  assert (V : forall s, (In s l /\ env2 s = 0%R) \/ (~ In s l /\ env2 s = env s) -> env s = (on_list l env s + env2 s)%R).
  { intros s [[A B]|[A B]]; unfold on_list; destruct in_dec; try contradiction; rewrite B; lra. }
  assert (CE : forall c, within S c -> (forall s, occurs s c = true -> (In s l /\ env2 s = 0%R) \/ (~ In s l /\ env2 s = env s)) ->
    eval env c = eval env2 c).
  { intros c Hc Ho. apply eval_ext. intros s Hs. destruct (Ho s Hs) as [[A _]|[_ B]]; auto. exfalso. apply (N s A), Hc, Hs. }
  induction H; cbn [eval dir occurs]; intros O; try lra.
  - rewrite IHlinE1, IHlinE2; [lra| |]; intros s Hs; apply O; rewrite Hs; auto using orb_true_r.
  - rewrite (C c H), (V s) by (apply O; rewrite sym_eqb_refl; apply orb_true_r).
    rewrite <- (CE c H) by (intros z Hz; apply O; rewrite Hz; auto). ring.
  - rewrite (C c H). rewrite <- (CE c H) by (intros z Hz; apply O; rewrite Hz; auto). ring.
  - rewrite (C c H), (V s) by (apply O; rewrite sym_eqb_refl; auto).
    rewrite <- (CE c H) by (intros z Hz; apply O; rewrite Hz; auto using orb_true_r). ring.
  - rewrite (C c H). rewrite <- (CE c H) by (intros z Hz; apply O; rewrite Hz; auto using orb_true_r). ring.
Qed.

(* ---- selected elements ---- *)
Lemma merge_fidx fl : forall cfg cur j, List.length cfg = List.length fl -> List.length cur = List.length (fidx fl) ->
  j < List.length (fidx fl) -> nth (nth j (fidx fl) 0) (merge fl cfg cur) 0%R = nth j cur 0%R.
Proof.
  induction fl as [|z fl IH]; intros cfg cur j Hc Hu Hj; [simpl in Hj; lia|].
  destruct cfg as [|v cfg]; [discriminate|]. rewrite fidx_cons in *. cbn [merge].
  assert (X : forall j, j < List.length (fidx fl) -> nth j (map S (fidx fl)) 0 = S (nth j (fidx fl) 0)).
  { intros k Hk. rewrite (nth_indep _ 0 (S 0)) by (now rewrite map_length). apply map_nth. }
  destruct (flag_set z); simpl in Hu, Hj |- *; rewrite map_length in Hu, Hj.
  - destruct cur as [|c cur]; [discriminate|]. simpl in Hu. destruct j as [|j]; [reflexivity|].
    rewrite X by lia. simpl. apply IH; simpl in *; auto; lia.
  - rewrite X by lia. simpl. apply IH; simpl in *; auto; lia.
Qed.
Lemma lsum_fidx (nm : string) l f : lsum (map (pair nm) l) f = rsum (List.length l) (fun j => f (nm, nth j l 0)).
Proof.
  induction l as [|a l IH]; [reflexivity|]. cbn [map lsum List.length]. rewrite rsum_S_l. cbn [nth]. now rewrite IH.
Qed.
Lemma NoDup_fidx fl : NoDup (fidx fl).
Proof. unfold fidx. apply NoDup_filter, seq_NoDup. Qed.

Section Sess.
  Variables (r0 b r' : robot).
  Hypothesis H : sess r0 b r'.
  Let Hb : base (cvof r0) b := ss_base _ _ _ H.
  Notation env := (renv r0 r').
  Let n := numJoints r0.
  Let e := numElasticJoints r0.

  Lemma b_e : numElasticJoints b = numElasticJoints r0. Proof. now rewrite (ss_b _ _ _ H). Qed.
  Lemma b_el : ELASTIC b = ELASTIC r0. Proof. now rewrite (ss_b _ _ _ H). Qed.
  Lemma b_Dl : Dl_order b = Dl_order r0. Proof. now rewrite (ss_b _ _ _ H). Qed.
  Lemma b_K : K_order b = K_order r0. Proof. now rewrite (ss_b _ _ _ H). Qed.
  Lemma b_D : D_order b = D_order r0. Proof. now rewrite (ss_b _ _ _ H). Qed.
  Lemma b_Dm : Dm_order b = Dm_order r0. Proof. now rewrite (ss_b _ _ _ H). Qed.
  Lemma e_le : e <= n.
  Proof. unfold e, n. rewrite <- b_e, <- (n_b _ _ _ H). apply (bs_e _ _ Hb). Qed.

  Lemma kDl : 0 < Dl_order r0 -> In ("par_Dl", n * Dl_order r0) (keys b).
  Proof.
    intros Hd. apply Nat.ltb_lt in Hd. rewrite (keys_b _ _ _ H). unfold keys, par_keys. rewrite Hd, !in_app_iff. simpl. auto.
  Qed.
  Lemma kel k len : ELASTIC r0 = true -> In (k, len) [("par_K", e * K_order r0); ("par_D", e * D_order r0);
      ("par_Dm", e * Dm_order r0); ("par_Mm", e)] -> In (k, len) (keys b).
  Proof.
    intros He Hk. rewrite (keys_b _ _ _ H). unfold keys, par_keys. rewrite He, !in_app_iff. auto.
  Qed.
  Lemma ksel k len : ELASTIC r0 = true -> In (k, len) [("x", e); ("dx", e); ("ddx", e); ("ddxr", e)] -> In (k, len) (state_keys b).
  Proof. intros He Hk. unfold state_keys. rewrite b_el, He, b_e. apply in_app_iff. auto. Qed.
  Lemma eval_x k i : ELASTIC r0 = true -> In k ["x"; "dx"; "ddx"; "ddxr"] -> i < e -> eval env (el (mdl b k) i 0) = state r' k i.
  Proof.
    intros He Hk Hi. assert (Hs : In (k, e) (state_keys b)) by (apply ksel; auto; simpl in *; intuition (subst; auto)).
    rewrite (eval_key _ _ _ H k e); auto; [|unfold keys; apply in_app_iff; auto].
    eapply param_state; eauto.
  Qed.

  (* closed forms *)
  Lemma dl_out : 0 < Dl_order r0 -> answers r' "dl" n 1 /\
    forall i, i < n -> out r' "dl" i 0 = fric_law (Dl_order r0) (param r0 r' "par_Dl") i (state r' "dq" i).
  Proof.
    intros Hd. assert (En : enabled b fdl) by (simpl; now rewrite b_Dl).
    destruct (get_out _ _ _ H fdl En) as [A V]. simpl in A, V. rewrite (n_b _ _ _ H) in A, V. split; [exact A|].
    intros i Hi. rewrite (V i 0 Hi (Nat.lt_0_1)). unfold ev, link_dl. cbn [el]. rewrite eval_fric, b_Dl.
    apply rsum_ext. intros o Ho.
    rewrite (eval_key _ _ _ H "par_Dl" (n * Dl_order r0)) by (try apply kDl; auto; nia).
    rewrite (eval_state _ _ _ H "dq") by (simpl; auto). reflexivity.
  Qed.
  Lemma dm_out : ELASTIC r0 = true -> 0 < Dm_order r0 -> answers r' "dm" e 1 /\
    forall i, i < e -> out r' "dm" i 0 = fric_law (Dm_order r0) (param r0 r' "par_Dm") i (state r' "dx" i).
  Proof.
    intros He Hd. assert (En : enabled b fdm) by (simpl; rewrite b_Dm, b_el; auto).
    destruct (get_out _ _ _ H fdm En) as [A V]. simpl in A, V. rewrite b_e in A, V. split; [exact A|].
    intros i Hi. rewrite (V i 0 Hi (Nat.lt_0_1)). unfold ev, el_dm. cbn [el]. rewrite eval_fric, b_Dm.
    apply rsum_ext. intros o Ho.
    rewrite (eval_key _ _ _ H "par_Dm" (e * Dm_order r0)) by (try (apply kel; simpl; auto); nia).
    rewrite (eval_x "dx") by (simpl; auto). reflexivity.
  Qed.
  Lemma d_out : ELASTIC r0 = true -> 0 < D_order r0 -> answers r' "d" e 1 /\
    forall i, i < e -> out r' "d" i 0 = fric_law (D_order r0) (param r0 r' "par_D") i (state r' "dx" i - state r' "dq" i)%R.
  Proof.
    intros He Hd. assert (En : enabled b fd) by (simpl; rewrite b_D, b_el; auto).
    destruct (get_out _ _ _ H fd En) as [A V]. simpl in A, V. rewrite b_e in A, V. split; [exact A|].
    intros i Hi. rewrite (V i 0 Hi (Nat.lt_0_1)). unfold ev, el_d. cbn [el]. rewrite eval_fric, b_D.
    pose proof e_le. apply rsum_ext. intros o Ho. cbn [eval].
    rewrite (eval_key _ _ _ H "par_D" (e * D_order r0)) by (try (apply kel; simpl; auto); nia).
    rewrite (eval_x "dx") by (simpl; auto). rewrite (eval_state _ _ _ H "dq") by (simpl; auto; lia). reflexivity.
  Qed.
  Lemma k_out : ELASTIC r0 = true -> 0 < K_order r0 -> answers r' "k" e 1 /\
    forall i, i < e -> out r' "k" i 0 = spring_law (K_order r0) (param r0 r' "par_K") i (state r' "x" i - state r' "q" i)%R.
  Proof.
    intros He Hd. assert (En : enabled b fk) by (simpl; rewrite b_K, b_el; auto).
    destruct (get_out _ _ _ H fk En) as [A V]. simpl in A, V. rewrite b_e in A, V. split; [exact A|].
    intros i Hi. rewrite (V i 0 Hi (Nat.lt_0_1)). unfold ev, el_k. cbn [el]. rewrite eval_spring, b_K.
    pose proof e_le. apply rsum_ext. intros o Ho. cbn [eval].
    rewrite (eval_key _ _ _ H "par_K" (e * K_order r0)) by (try (apply kel; simpl; auto); nia).
    rewrite (eval_x "x") by (simpl; auto). rewrite (eval_state _ _ _ H "q") by (simpl; auto; lia). reflexivity.
  Qed.
  Lemma Mm_out : ELASTIC r0 = true -> answers r' "Mm" e e /\
    forall i j, i < e -> j < e -> out r' "Mm" i j = if Nat.eqb i j then param r0 r' "par_Mm" i else 0%R.
  Proof.
    intros He. assert (En : enabled b fMm) by (simpl; rewrite b_el; auto).
    destruct (get_out _ _ _ H fMm En) as [A V]. simpl in A, V. rewrite b_e in A, V. split; [exact A|].
    intros i j Hi Hj. rewrite (V i j Hi Hj). unfold ev, el_Mm. cbn [el].
    destruct (Nat.eqb i j); [|reflexivity].
    rewrite (eval_key _ _ _ H "par_Mm" e) by (try (apply kel; simpl; auto); auto). reflexivity.
  Qed.

  (* coefficient matrices *)
  Lemma coef_out f par m len order o : enabled b f -> val b f = coefs b m order par o -> vrows b f = m -> vcols b f = m ->
    In (par, len) (keys b) -> m * order <= len -> o < order ->
    answers r' (name_of f) m m /\
    forall i j, i < m -> j < m -> out r' (name_of f) i j = if Nat.eqb i j then param r0 r' par (i * order + o) else 0%R.
  Proof.
    intros En Ev Er Ec Hk Hl Ho. destruct (get_out _ _ _ H f En) as [A V]. rewrite Er, Ec in A, V. split; auto.
    intros i j Hi Hj. rewrite (V i j Hi Hj), Ev. unfold coefs, coef_diag, ev. cbn [el].
    destruct (Nat.eqb i j); [|reflexivity]. rewrite (eval_key _ _ _ H par len) by (auto; nia). reflexivity.
  Qed.
  Lemma Dl_out o : o < Dl_order r0 -> answers r' ("Dl" ++ to_string (o + 1)) n n /\
    forall i j, i < n -> j < n -> out r' ("Dl" ++ to_string (o + 1)) i j
      = if Nat.eqb i j then param r0 r' "par_Dl" (i * Dl_order r0 + o) else 0%R.
  Proof.
    intros Ho. apply (coef_out (fDl (o + 1)) "par_Dl" n (n * Dl_order r0) (Dl_order r0) o); auto.
    - simpl. rewrite b_Dl. lia.
    - cbn [val]. rewrite (n_b _ _ _ H), b_Dl. now rewrite Nat.add_sub.
    - apply (n_b _ _ _ H).
    - apply (n_b _ _ _ H).
    - apply kDl. lia.
  Qed.
  Lemma D_out o : ELASTIC r0 = true -> o < D_order r0 -> answers r' ("D" ++ to_string (o + 1)) e e /\
    forall i j, i < e -> j < e -> out r' ("D" ++ to_string (o + 1)) i j
      = if Nat.eqb i j then param r0 r' "par_D" (i * D_order r0 + o) else 0%R.
  Proof.
    intros He Ho. apply (coef_out (fD (o + 1)) "par_D" e (e * D_order r0) (D_order r0) o); auto.
    - simpl. rewrite b_D, b_el. split; auto. lia.
    - cbn [val]. rewrite b_e, b_D. now rewrite Nat.add_sub.
    - apply b_e.
    - apply b_e.
    - apply kel; simpl; auto.
  Qed.
  Lemma Dm_out o : ELASTIC r0 = true -> o < Dm_order r0 -> answers r' ("Dm" ++ to_string (o + 1)) e e /\
    forall i j, i < e -> j < e -> out r' ("Dm" ++ to_string (o + 1)) i j
      = if Nat.eqb i j then param r0 r' "par_Dm" (i * Dm_order r0 + o) else 0%R.
  Proof.
    intros He Ho. apply (coef_out (fDm (o + 1)) "par_Dm" e (e * Dm_order r0) (Dm_order r0) o); auto.
    - simpl. rewrite b_Dm, b_el. split; auto. lia.
    - cbn [val]. rewrite b_e, b_Dm. now rewrite Nat.add_sub.
    - apply b_e.
    - apply b_e.
    - apply kel; simpl; auto.
  Qed.
  Lemma K_out o : ELASTIC r0 = true -> o < K_order r0 -> answers r' ("K" ++ to_string (2 * o + 1)) e e /\
    forall i j, i < e -> j < e -> out r' ("K" ++ to_string (2 * o + 1)) i j
      = if Nat.eqb i j then param r0 r' "par_K" (i * K_order r0 + o) else 0%R.
  Proof.
    intros He Ho. apply (coef_out (fK (2 * o + 1)) "par_K" e (e * K_order r0) (K_order r0) o); auto.
    - simpl. rewrite b_K, b_el. split; auto. exists o. split; auto.
    - cbn [val]. rewrite b_e, b_K, Nat.add_sub. now rewrite Nat.div2_double.
    - apply b_e.
    - apply b_e.
    - apply kel; simpl; auto.
  Qed.
End Sess.

Section Two.
  Variables (r0 b r' r2 : robot).
  Hypothesis H : sess r0 b r'.
  Hypothesis H2 : sess r0 b r2.
  Hypothesis Same : forall k len, In (k, len) (state_sizes r0) -> arg r2 k = arg r' k.
  Let Hb : base (cvof r0) b := ss_base _ _ _ H.
  Notation env := (renv r0 r').
  Notation env2 := (renv r0 r2).
  Let n := numJoints r0.
  Let e := numElasticJoints r0.

  Lemma env_sel r k len j : sess r0 b r -> In (k, len) (keys b) -> j < List.length (fidx (flags b k)) ->
    renv r0 r (symname k, nth j (fidx (flags b k)) 0) = state r k j.
  Proof.
    intros Hr Hk Hj. unfold renv, state. cbn [fst snd]. rewrite keyname_symname by (eapply keys_arg; eauto).
    unfold param. rewrite (flags_b _ _ _ H) in *. rewrite (keys_b _ _ _ H) in Hk.
    apply merge_fidx; auto.
    - rewrite (arg0_len _ _ _ H k len Hk), (flags0_len _ _ _ H k len Hk). reflexivity.
    - eapply ss_len; eauto.
  Qed.
  Lemma sizes_eq : state_keys b = state_sizes r0.
  Proof. unfold state_keys, state_sizes. rewrite (n_b _ _ _ H), (b_e _ _ _ H), (b_el _ _ _ H). reflexivity. Qed.
  Lemma env_same k len i : In (k, len) (state_keys b) -> env2 (symname k, i) = env (symname k, i).
  Proof.
    intros Hk. assert (Ha : In k arg_keys) by (apply (keys_arg b k len); unfold keys; apply in_app_iff; auto).
    unfold renv. cbn [fst snd]. rewrite !keyname_symname by auto.
    rewrite (param_state _ _ _ H k len), (param_state _ _ _ H2 k len) by auto. unfold state.
    rewrite sizes_eq in Hk. now rewrite (Same k len Hk).
  Qed.
  Lemma isym_cases k len s ks : In (k, len) (par_keys b) -> In s (flat_map (isyms b) ks) ->
    (forall k', In k' ks -> k' = k \/ exists l', In (k', l') (state_keys b)) ->
    In s (isyms b k) \/ (~ In s (isyms b k) /\ env2 s = env s).
  Proof.
    intros Hk Hs Hc. apply in_flat_map in Hs. destruct Hs as (k' & Hk' & Hs).
    destruct (Hc k' Hk') as [->|[l' Hl']]; auto. right.
    assert (Hk0 : In k arg_keys) by (apply (keys_arg b k len); unfold keys; apply in_app_iff; auto).
    assert (Hk1 : In k' arg_keys) by (apply (keys_arg b k' l'); unfold keys; apply in_app_iff; auto).
    unfold isyms in Hs. apply in_map_iff in Hs. destruct Hs as (i & <- & Hi). split.
    - unfold isyms. intros X. apply in_map_iff in X. destruct X as (i' & E & _). inversion E as [[E1 E2]].
      apply symname_inj in E1; auto. subst k'.
      assert (P : forall x, In x (map fst (par_keys b)) -> In x (map fst (state_keys b)) -> False).
      { intros x. unfold par_keys, state_keys. intros A B.
        destruct (ELASTIC b), (Nat.ltb 0 (Dl_order b)); vm_compute in A, B;
          decompose [or] A; try contradiction; subst; decompose [or] B; try discriminate; contradiction. }
      apply (P k); [apply (in_map fst) in Hk|apply (in_map fst) in Hl']; auto.
    - eapply env_same; eauto.
  Qed.

  Lemma reg_identity S k len ex : In (k, len) (keys b) -> linE S ex -> (forall i, ~ S (symname k, i)) ->
    (forall s, occurs s ex = true -> In s (isyms b k) \/ (~ In s (isyms b k) /\ env2 s = env s)) ->
    (forall j, j < symbolic r0 k -> state r2 k j = 0%R) ->
    eval env ex = (rsum (symbolic r0 k) (fun j => eval env (diff (symname k, nth j (fidx (flags b k)) 0%nat) ex) * state r' k j)
                  + eval env2 ex)%R.
  Proof.
    intros Hk HL HN HO HZ.
    assert (NL : forall s, In s (isyms b k) -> ~ S s).
    { intros s Hs. unfold isyms in Hs. apply in_map_iff in Hs. destruct Hs as (i & <- & _). apply HN. }
    assert (Lf : symbolic r0 k = List.length (fidx (flags b k))).
    { unfold symbolic. rewrite (flags_b _ _ _ H), fidx_selected. reflexivity. }
    rewrite (lin_split S (isyms b k) ex env env2 HL NL).
    - f_equal. rewrite (dir_list (fun s => In s (isyms b k)) env env ex (isyms b k)).
      + unfold isyms. rewrite lsum_fidx, Lf. apply rsum_ext. intros j Hj. f_equal. apply (env_sel r' k len); auto.
      + unfold isyms. apply FinFun.Injective_map_NoDup; [intros x y E; congruence|apply NoDup_fidx].
      + auto.
      + eapply lin_poly; eauto.
    - intros s Hs. destruct (HO s Hs) as [A|A]; auto. left. split; auto.
      unfold isyms in A. apply in_map_iff in A. destruct A as (i & <- & Hi).
      destruct (In_nth _ _ 0 Hi) as (j & Hj & <-). rewrite (env_sel r2 k len j H2 Hk Hj). apply HZ. lia.
  Qed.

  Lemma reg_value f k len E m i j : enabled b f -> val b f = jacobian E (vertcat_list (sel b k)) ->
    vrows b f = m -> vcols b f = List.length (sel b k) -> rows E = m -> In (k, len) (keys b) ->
    i < m -> j < symbolic r0 k ->
    out r' (name_of f) i j = eval env (diff (symname k, nth j (fidx (flags b k)) 0) (el E i 0)).
  Proof.
    intros En Ev Er Ec Em Hk Hi Hj.
    pose proof (bs_shape _ _ Hb k len Hk) as P.
    assert (Ls : List.length (sel b k) = symbolic r0 k).
    { rewrite (sel_fidx _ b k len P), map_length, fidx_selected. unfold symbolic. now rewrite (flags_b _ _ _ H). }
    destruct (get_out _ _ _ H f En) as [_ V]. rewrite Er, Ec, Ls in V. rewrite (V i j Hi Hj), Ev.
    unfold ev, jacobian. cbn [el]. rewrite Em, Nat.mod_small, Nat.div_small by auto.
    rewrite (input_el _ b k len j P) by lia. reflexivity.
  Qed.


  Lemma sel_ne k len : In (k, len) (keys b) -> 0 < symbolic r0 k -> sel b k <> [].
  Proof.
    intros Hk Hs E. pose proof (bs_shape _ _ Hb k len Hk) as P.
    assert (Ls : List.length (sel b k) = symbolic r0 k).
    { rewrite (sel_fidx _ b k len P), map_length, fidx_selected. unfold symbolic. now rewrite (flags_b _ _ _ H). }
    rewrite E in Ls. simpl in Ls. lia.
  Qed.

  (* a published vector and its regressor *)
  Lemma reg_main S f g k len E m i : enabled b f -> (0 < symbolic r0 k -> enabled b g) -> val b f = E ->
    val b g = jacobian E (vertcat_list (sel b k)) ->
    vrows b f = m -> vcols b f = 1 -> rows E = m -> vrows b g = m -> vcols b g = List.length (sel b k) ->
    In (k, len) (par_keys b) -> fricf f = true ->
    (forall k', In k' (alist b f) -> k' = k \/ exists l', In (k', l') (state_keys b)) ->
    i < m -> linE S (el E i 0) -> (forall i, ~ S (symname k, i)) ->
    (forall j, j < symbolic r0 k -> state r2 k j = 0%R) ->
    out r' (name_of f) i 0 = (rmv (symbolic r0 k) (out r' (name_of g)) (state r' k) i + out r2 (name_of f) i 0%nat)%R.
  Proof.
    intros Ef Eg Vf Vg Rf Cf RE Rg Cg Hk Hfr Hal Hi HL HN HZ.
    assert (Hk' : In (k, len) (keys b)) by (unfold keys; apply in_app_iff; auto).
    destruct (get_out _ _ _ H f Ef) as [_ V1]. destruct (get_out _ _ _ H2 f Ef) as [_ V2].
    rewrite Rf, Cf, Vf in V1, V2. rewrite (V1 i 0 Hi Nat.lt_0_1), (V2 i 0 Hi Nat.lt_0_1). unfold ev.
    rewrite (reg_identity S k len (el E i 0)); auto.
    - f_equal. unfold rmv. apply rsum_ext. intros j Hj. f_equal. symmetry.
      apply (reg_value g k len E m i j); auto. apply Eg. lia.
    - intros s Hs. pose proof (fric_closed (cvof r0) b Hb f Hfr Ef i 0) as W. rewrite Rf, Cf, Vf in W.
      specialize (W Hi Nat.lt_0_1 s Hs). unfold isym in W. eapply isym_cases; eauto.
  Qed.

  Lemma var_within k len i (S : sym -> Prop) : In (k, len) (state_keys b) -> i < len -> (forall i, S (symname k, i)) ->
    within S (el (mdl b k) i 0).
  Proof.
    intros Hk Hi HS s Hs.
    assert (Hk' : In (k, len) (keys b)) by (unfold keys; apply in_app_iff; auto).
    rewrite (ps_el _ _ _ _ (bs_shape _ _ Hb k len Hk')) in Hs by auto.
    destruct (flag_set _); [|discriminate Hs]. simpl in Hs. apply sym_eqb_eq in Hs. subst s. apply HS.
  Qed.
  Definition other (k : string) (s : sym) : Prop := fst s <> symname k.
  Lemma other_no k i : ~ other k (symname k, i).
  Proof. unfold other. simpl. auto. Qed.

  Lemma pk_Dl : 0 < Dl_order r0 -> In ("par_Dl", n * Dl_order r0) (par_keys b).
  Proof.
    intros Hd. apply Nat.ltb_lt in Hd. unfold par_keys. rewrite (b_Dl _ _ _ H), Hd, (n_b _ _ _ H), !in_app_iff. simpl. auto.
  Qed.
  Lemma pk_el k len : ELASTIC r0 = true -> In (k, len) [("par_K", e * K_order r0); ("par_D", e * D_order r0);
      ("par_Dm", e * Dm_order r0); ("par_Mm", e)] -> In (k, len) (par_keys b).
  Proof.
    intros He Hk. unfold par_keys. rewrite (b_el _ _ _ H), He, (b_e _ _ _ H), (b_K _ _ _ H), (b_D _ _ _ H), (b_Dm _ _ _ H), !in_app_iff. auto.
  Qed.
  Ltac als := let k := fresh in let X := fresh in intros k X; apply al_In in X; simpl in X;
     decompose [or] X; try contradiction; subst; auto; right.

  Lemma reg_dl_main i : 0 < Dl_order r0 -> i < n -> (forall j, j < symbolic r0 "par_Dl" -> state r2 "par_Dl" j = 0%R) ->
    out r' "dl" i 0 = (rmv (symbolic r0 "par_Dl") (out r' "reg_dl") (state r' "par_Dl") i + out r2 "dl" i 0%nat)%R.
  Proof.
    intros Hd Hi HZ. pose proof (pk_Dl Hd) as PK.
    assert (PK' : In ("par_Dl", n * Dl_order r0) (keys b)) by (unfold keys; apply in_app_iff; auto).
    apply (reg_main (other "par_Dl") fdl frdl "par_Dl" (n * Dl_order r0) (link_dl b) n i); auto;
      try (simpl; apply (n_b _ _ _ H)); try apply other_no.
    - simpl. now rewrite (b_Dl _ _ _ H).
    - intros Hs. split; [now rewrite (b_Dl _ _ _ H)|eapply sel_ne; eauto].
    - als. exists n. apply (key_st _ _ _ H). simpl; auto.
    - unfold link_dl. cbn [el]. apply lin_fric.
      + apply (var_within "dq" n); auto; [apply (key_st _ _ _ H); simpl; auto|]. intros j. unfold other. simpl. discriminate.
      + intros o Ho. apply (key_leaf _ _ Hb "par_Dl" (n * Dl_order r0)); auto. rewrite (b_Dl _ _ _ H) in *. nia.
  Qed.
  Lemma reg_k_main i : ELASTIC r0 = true -> 0 < K_order r0 -> i < e -> (forall j, j < symbolic r0 "par_K" -> state r2 "par_K" j = 0%R) ->
    out r' "k" i 0 = (rmv (symbolic r0 "par_K") (out r' "reg_k") (state r' "par_K") i + out r2 "k" i 0%nat)%R.
  Proof.
    intros He Hd Hi HZ. assert (PK : In ("par_K", e * K_order r0) (par_keys b)) by (apply pk_el; simpl; auto).
    assert (PK' : In ("par_K", e * K_order r0) (keys b)) by (unfold keys; apply in_app_iff; auto).
    pose proof (e_le _ _ _ H).
    apply (reg_main (other "par_K") fk frk "par_K" (e * K_order r0) (el_k b) e i); auto;
      try (simpl; apply (b_e _ _ _ H)); try apply other_no.
    - simpl. rewrite (b_K _ _ _ H), (b_el _ _ _ H). auto.
    - intros Hs. split; [now rewrite (b_el _ _ _ H)|eapply sel_ne; eauto].
    - als; [exists n; apply (key_st _ _ _ H); simpl; auto|exists e; apply (ksel _ _ _ H); simpl; auto].
    - unfold el_k. cbn [el]. apply lin_spring.
      + apply within_sub; [apply (var_within "x" e)|apply (var_within "q" n)]; auto;
          try (apply (ksel _ _ _ H); simpl; auto; fail); try (apply (key_st _ _ _ H); simpl; auto; fail);
          try (intros j; unfold other; simpl; discriminate). unfold e, n in *. lia.
      + intros o Ho. apply (key_leaf _ _ Hb "par_K" (e * K_order r0)); auto. rewrite (b_K _ _ _ H) in *. nia.
  Qed.
  Lemma reg_d_main i : ELASTIC r0 = true -> 0 < D_order r0 -> i < e -> (forall j, j < symbolic r0 "par_D" -> state r2 "par_D" j = 0%R) ->
    out r' "d" i 0 = (rmv (symbolic r0 "par_D") (out r' "reg_d") (state r' "par_D") i + out r2 "d" i 0%nat)%R.
  Proof.
    intros He Hd Hi HZ. assert (PK : In ("par_D", e * D_order r0) (par_keys b)) by (apply pk_el; simpl; auto).
    assert (PK' : In ("par_D", e * D_order r0) (keys b)) by (unfold keys; apply in_app_iff; auto).
    pose proof (e_le _ _ _ H).
    apply (reg_main (other "par_D") fd frd "par_D" (e * D_order r0) (el_d b) e i); auto;
      try (simpl; apply (b_e _ _ _ H)); try apply other_no.
    - simpl. rewrite (b_D _ _ _ H), (b_el _ _ _ H). auto.
    - intros Hs. split; [now rewrite (b_el _ _ _ H)|eapply sel_ne; eauto].
    - als; [exists n; apply (key_st _ _ _ H); simpl; auto|exists e; apply (ksel _ _ _ H); simpl; auto].
    - unfold el_d. cbn [el]. apply lin_fric.
      + apply within_sub; [apply (var_within "dx" e)|apply (var_within "dq" n)]; auto;
          try (apply (ksel _ _ _ H); simpl; auto; fail); try (apply (key_st _ _ _ H); simpl; auto; fail);
          try (intros j; unfold other; simpl; discriminate). unfold e, n in *. lia.
      + intros o Ho. apply (key_leaf _ _ Hb "par_D" (e * D_order r0)); auto. rewrite (b_D _ _ _ H) in *. nia.
  Qed.
  Lemma reg_dm_main i : ELASTIC r0 = true -> 0 < Dm_order r0 -> i < e -> (forall j, j < symbolic r0 "par_Dm" -> state r2 "par_Dm" j = 0%R) ->
    out r' "dm" i 0 = (rmv (symbolic r0 "par_Dm") (out r' "reg_dm") (state r' "par_Dm") i + out r2 "dm" i 0%nat)%R.
  Proof.
    intros He Hd Hi HZ. assert (PK : In ("par_Dm", e * Dm_order r0) (par_keys b)) by (apply pk_el; simpl; auto).
    assert (PK' : In ("par_Dm", e * Dm_order r0) (keys b)) by (unfold keys; apply in_app_iff; auto).
    apply (reg_main (other "par_Dm") fdm frdm "par_Dm" (e * Dm_order r0) (el_dm b) e i); auto;
      try (simpl; apply (b_e _ _ _ H)); try apply other_no.
    - simpl. rewrite (b_Dm _ _ _ H), (b_el _ _ _ H). auto.
    - intros Hs. split; [now rewrite (b_el _ _ _ H)|eapply sel_ne; eauto].
    - als. exists e; apply (ksel _ _ _ H); simpl; auto.
    - unfold el_dm. cbn [el]. apply lin_fric.
      + apply (var_within "dx" e); auto; try (apply (ksel _ _ _ H); simpl; auto);
          try (intros j; unfold other; simpl; discriminate).
      + intros o Ho. apply (key_leaf _ _ Hb "par_Dm" (e * Dm_order r0)); auto. rewrite (b_Dm _ _ _ H) in *. nia.
  Qed.
  Lemma Mm_val r i : sess r0 b r -> ELASTIC r0 = true -> i < e ->
    rmv e (out r "Mm") (state r "ddx") i = eval (renv r0 r) (el (mtimes (el_Mm b) (mdl b "ddx")) i 0).
  Proof.
    intros Hr He Hi. destruct (Mm_out _ _ _ Hr He) as [_ V]. cbn [el mtimes]. rewrite eval_esum.
    unfold rmv. cbn [el_Mm cols]. rewrite (b_e _ _ _ H). apply rsum_ext. intros j Hj. cbn [eval].
    rewrite (eval_x _ _ _ Hr "ddx") by (simpl; auto). f_equal. rewrite V by auto. cbn [el_Mm el].
    destruct (Nat.eqb i j); [|reflexivity]. rewrite (eval_key _ _ _ Hr "par_Mm" e) by (try (apply (kel _ _ _ H); simpl; auto); auto). reflexivity.
  Qed.
  Lemma occurs_esum s m g : occurs s (esum m g) = true -> exists j, j < m /\ occurs s (g j) = true.
  Proof.
    induction m as [|m IH]; simpl; [discriminate|]. rewrite orb_true_iff. intros [A|A].
    - destruct (IH A) as (j & Hj & Q). exists j. split; auto.
    - exists m. auto.
  Qed.
  Lemma reg_Mm_main i : ELASTIC r0 = true -> i < e -> (forall j, j < symbolic r0 "par_Mm" -> state r2 "par_Mm" j = 0%R) ->
    rmv e (out r' "Mm") (state r' "ddx") i
    = (rmv (symbolic r0 "par_Mm") (out r' "reg_Mm") (state r' "par_Mm") i + rmv e (out r2 "Mm") (state r2 "ddx") i)%R.
  Proof.
    intros He Hi HZ. assert (PK : In ("par_Mm", e) (par_keys b)) by (apply pk_el; simpl; auto).
    assert (PK' : In ("par_Mm", e) (keys b)) by (unfold keys; apply in_app_iff; auto).
    assert (DX : In ("ddx", e) (state_keys b)) by (apply (ksel _ _ _ H); simpl; auto).
    rewrite (Mm_val r' i H He Hi), (Mm_val r2 i H2 He Hi).
    rewrite (reg_identity (other "par_Mm") "par_Mm" e); auto using other_no.
    - f_equal. unfold rmv. apply rsum_ext. intros j Hj. f_equal. symmetry.
      apply (reg_value frMm "par_Mm" e (mtimes (el_Mm b) (mdl b "ddx")) e i j); auto.
      + split; [now rewrite (b_el _ _ _ H)|]. apply (sel_ne "par_Mm" e PK'). lia.
      + simpl. apply (b_e _ _ _ H).
      + simpl. apply (b_e _ _ _ H).
    - cbn [el mtimes]. apply lin_esum. intros j Hj. cbn [el_Mm cols] in Hj. rewrite (b_e _ _ _ H) in Hj. apply lin_l'.
      + apply (var_within "ddx" e); auto. intros k. unfold other. simpl. discriminate.
      + cbn [el_Mm el]. destruct (Nat.eqb i j); [|right; eauto]. apply (key_leaf _ _ Hb "par_Mm" e); auto.
    - intros s Hs. cbn [el mtimes] in Hs. apply occurs_esum in Hs. destruct Hs as (j & Hj & Hs).
      cbn [el_Mm cols] in Hj. rewrite (b_e _ _ _ H) in Hj. cbn [occurs] in Hs. apply orb_true_iff in Hs.
      apply (isym_cases "par_Mm" e s ["ddx"; "par_Mm"]); auto.
      + assert (G : forall k i, In (k, e) (keys b) -> i < e -> occurs s (el (mdl b k) i 0) = true -> In s (isyms b k)).
        { intros k a Hk Ha Ho. pose proof (bs_shape _ _ Hb k e Hk) as P. rewrite (ps_el _ _ _ _ P) in Ho by auto.
          destruct (flag_set (nth a (flags b k) 0%Z)) eqn:F; [|discriminate Ho]. simpl in Ho. apply sym_eqb_eq in Ho. subst s.
          unfold isyms. apply in_map, in_fidx. rewrite (ps_fl _ _ _ _ P). auto. }
        apply in_flat_map. destruct Hs as [Hs|Hs].
        * exists "par_Mm". split; [simpl; auto|]. cbn [el_Mm el] in Hs. destruct (Nat.eqb i j); [|discriminate Hs]. exact (G "par_Mm" i PK' Hi Hs).
        * exists "ddx". split; [simpl; auto|]. refine (G "ddx" j _ Hj Hs). unfold keys; apply in_app_iff; auto.
      + simpl. intros k' [<-|[<-|[]]]; [right; exists e; auto|left; reflexivity].
  Qed.
End Two.
