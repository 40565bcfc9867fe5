(* The robot returned by robot_from_file. *)
From Coq Require Import Reals List Arith String Bool Lia ZArith.
From Verif.Model Require Import Base Expr SX Robot Kinematics Dynamics Regressors Yaml Inertia Build.
From Verif.Spec Require Import Setup.
From Verif.Proofs Require Import Calc Rel Maps Pure Names Shape Dims Sizes Deps BuildEq BuildDyn BuildReg Load Init.
Import ListNotations.
Open Scope nat_scope.
Open Scope string_scope.

Definition pick (fl : list Z) (a : list R) : list R := map (fun i => nth i a 0%R) (fidx fl).
Lemma pick_cons z fl v a : pick (z :: fl) (v :: a) = if flag_set z then v :: pick fl a else pick fl a.
Proof.
  unfold pick. rewrite fidx_cons, map_app, map_map.
  destruct (flag_set z); reflexivity.
Qed.
Lemma compact_args_eq fl : forall a, List.length fl <= List.length a -> compact_args fl a = Ok (pick fl a).
Proof.
  induction fl as [|z fl IH]; intros a H; [reflexivity|].
  destruct a as [|v a]; [simpl in H; lia|]. rewrite pick_cons. cbn [compact_args].
  rewrite IH by (simpl in H; lia). reflexivity.
Qed.
Lemma pick_length fl a : List.length (pick fl a) = List.length (fidx fl).
Proof. unfold pick. apply map_length. Qed.
Lemma fidx_selected fl : List.length (fidx fl) = selected fl.
Proof.
  induction fl as [|z fl IH]; [reflexivity|]. rewrite fidx_cons, app_length, map_length, IH.
  unfold selected. cbn [filter]. destruct (flag_set z); reflexivity.
Qed.
Definition cmodel (fl : list Z) (m : sx) : sx :=
  mkSX (List.length (fidx fl)) 1 (ok m) (fun i _ => el m (nth i (fidx fl) 0) 0).
Lemma compact_model_eq fl m : List.length fl <= rows m -> compact_model fl m = Ok (cmodel fl m).
Proof.
  intros H. unfold compact_model. fold (fidx fl). rewrite (proj2 (forallb_forall _ _)); [reflexivity|].
  intros i Hi. apply in_fidx in Hi. apply Nat.ltb_lt. lia.
Qed.

Lemma update_all (p : robot) l : NoDup (map fst l) ->
  (forall k fl, In (k, fl) l -> List.length fl <= rows (mdl p k) /\ List.length fl <= List.length (arg p k)) ->
  exists r, loop_list l (fun pf r' => update_symb_one (fst pf) (snd pf) r') p = Ok r /\
    r = with_args (with_model p (model r)) (args r) /\
    (forall k fl, In (k, fl) l -> mdl r k = cmodel fl (mdl p k) /\ arg r k = pick fl (arg p k)) /\
    (forall k, ~ In k (map fst l) -> mfind k (model r) = mfind k (model p) /\ arg r k = arg p k).
Proof.
  revert p. induction l as [|[k fl] t IH]; intros p Hn H.
  - exists p. simpl. repeat split; auto; try tauto. destruct p; reflexivity.
  - cbn [loop_list fst snd]. unfold update_symb_one at 1. destruct (H k fl (or_introl eq_refl)) as [H1 H2].
    rewrite compact_model_eq, compact_args_eq by auto. cbn [bind].
    set (p1 := with_args (with_model p (mset k (cmodel fl (mdl p k)) (model p))) (mset k (pick fl (arg p k)) (args p))).
    inversion Hn; subst.
    assert (Hm : forall k', k' <> k -> mdl p1 k' = mdl p k' /\ arg p1 k' = arg p k').
    { intros k' N. unfold mdl, arg. simpl. rewrite !mget_mset_ne by auto. auto. }
    destruct (IH p1) as (r & E & R & A & B); auto.
    { intros k' fl' Hin. destruct (H k' fl' (or_intror Hin)) as [X Y].
      assert (N : k' <> k). { intros ->. apply H4. change k with (fst (k, fl')). now apply in_map. }
      destruct (Hm k' N) as [-> ->]. auto. }
    exists r. split; [exact E|]. split; [rewrite R; reflexivity|]. split.
    + intros k' fl' [Hin|Hin].
      * inversion Hin; subst k' fl'. destruct (B k H4) as [B1 B2]. unfold mdl, mget. rewrite B1, B2. simpl.
        rewrite mfind_mset. unfold arg at 1. simpl. rewrite mget_mset. auto.
      * assert (N : k' <> k). { intros ->. apply H4. change k with (fst (k, fl')). now apply in_map. }
        destruct (Hm k' N) as [<- <-]. auto.
    + intros k' Hk'. simpl in Hk'. destruct (B k') as [B1 B2]; [tauto|]. rewrite B1, B2.
      assert (N : k' <> k) by (intros ->; tauto). simpl. rewrite mfind_mset_ne by auto.
      split; auto. apply Hm; auto.
Qed.

Lemma NoDup_mfind {V} (m : smap V) k v : NoDup (map fst m) -> In (k, v) m -> mfind k m = Some v.
Proof.
  induction m as [|[k' v'] t IH]; simpl; [tauto|]. intros Hn [H|H].
  - inversion H; subst. now rewrite String.eqb_refl.
  - inversion Hn; subst. destruct (String.eqb k k') eqn:E; auto. apply String.eqb_eq in E; subst.
    exfalso. apply H2. change k' with (fst (k', v)). now apply in_map.
Qed.

Record built (r0 b r : robot) : Prop := {
  bt_base : base (cvof r0) b;
  bt_b : b = with_args (with_model r0 (model b)) (args b);
  bt_barg : forall k, arg b k = arg r0 k;
  bt_r : r = with_args (with_model (pubs b (L_all b)) (model r)) (args r);
  bt_mdl : forall k len, In (k, len) (keys r0) -> mdl r k = cmodel (flags r0 k) (mdl b k);
  bt_arg : forall k len, In (k, len) (keys r0) -> arg r k = pick (flags r0 k) (arg r0 k);
  bt_fun : forall k, ~ In k arg_keys -> mfind k (model r) = mfind k (model (pubs b (L_all b)));
  bt_other : forall k, ~ In k (map fst (symb r0)) -> mfind k (model r) = mfind k (model b) /\ arg r k = arg r0 k \/ ~ In k arg_keys
}.

Theorem build_ok r0 : loaded r0 -> well_formed r0 -> exists b r, compute_all r0 = Ok r /\ built r0 b r.
Proof.
  intros L W. destruct (init_base r0 L W) as (b & E & Hb & Hr & Ha).
  exists b. unfold compute_all. rewrite E. cbn [bind].
  pose proof (all_eq (cvof r0) b Hb) as Hall.
  assert (Hall' : (r <- compute_kinematics b true; r1 <- compute_dynamics r true;
     r2 <- compute_regressors r1; update_symb_parameters r2) = update_symb_parameters (pubs b (L_all b))).
  { destruct (compute_kinematics b true) as [k1| |]; cbn [bind] in Hall |- *; try discriminate.
    destruct (compute_dynamics k1 true) as [k2| |]; cbn [bind] in Hall |- *; try discriminate.
    rewrite Hall. reflexivity. }
  rewrite Hall'. unfold update_symb_parameters.
  set (p := pubs b (L_all b)).
  assert (Hsy : symb p = symb r0). { unfold p. rewrite (sr_symb _ _ (pubs_rest b (L_all b))), Hr. reflexivity. }
  assert (Hap : forall k, arg p k = arg r0 k). { intros. unfold arg. unfold p. rewrite (sr_args _ _ (pubs_rest b (L_all b))). apply Ha. }
  assert (Hkeys : keys b = keys r0) by (rewrite Hr; reflexivity).
  assert (Hflb : forall k, flags b k = flags r0 k) by (intros; rewrite Hr; reflexivity).
  destruct (update_all p (symb p)) as (r & Er & Rr & A & B).
  { rewrite Hsy. apply (ld_nd _ L). }
  { rewrite Hsy. intros k fl Hin.
    assert (Hf : flags r0 k = fl). { unfold flags, mget. rewrite (NoDup_mfind _ _ _ (ld_nd _ L) Hin). reflexivity. }
    assert (Hk : In k (map fst (symb r0))) by (change k with (fst (k, fl)); now apply in_map).
    destruct (ld_sk _ L k Hk) as [[len Hl]|Hl]; [|rewrite Hf in Hl; rewrite Hl; split; apply Nat.le_0_l].
    pose proof (bs_shape _ _ Hb k len) as P. rewrite Hkeys in P. specialize (P Hl).
    unfold p. rewrite pubs_mdl_arg by (eapply keys_arg; eauto). rewrite (ps_r _ _ _ _ P), Hap.
    pose proof (ps_fl _ _ _ _ P) as F. rewrite Hflb, Hf in F. rewrite F. split; [lia|].
    unfold keys in Hl. apply in_app_iff in Hl. destruct Hl as [Hl|Hl].
    - rewrite (ld_sarg _ L k len Hl), repeat_length. lia.
    - rewrite (proj2 (wf_sizes _ W k len Hl)). lia. }
  exists r. split; [exact Er|].
  assert (Hfound : forall k len, In (k, len) (keys r0) -> In (k, flags r0 k) (symb p)).
  { intros k len Hl. rewrite Hsy. unfold flags, mget. pose proof (ld_sc _ L k len Hl) as C. unfold mcount in C.
    destruct (mfind k (symb r0)) eqn:Ek; [|discriminate]. apply mfind_In in Ek. auto. }
  constructor; auto.
  - intros k len Hl. rewrite (proj1 (A _ _ (Hfound k len Hl))). unfold p. rewrite pubs_mdl_arg; auto. eapply keys_arg; eauto.
  - intros k len Hl. rewrite (proj2 (A _ _ (Hfound k len Hl))). now rewrite Hap.
  - intros k Hk. apply B. rewrite Hsy. intros Hin. apply Hk. now apply (ld_ska _ L).
  - intros k Hk. rewrite <- Hsy in Hk. destruct (B k Hk) as [B1 B2].
    destruct (in_dec string_dec k arg_keys) as [I|I]; auto. left. split.
    + rewrite B1. unfold p. now apply pubs_mfind_arg.
    + now rewrite B2, Hap.
Qed.
