(* Dynamics and regressors: the computation publishes the closed forms of Pure.v. *)
From Coq Require Import Reals List Arith String Bool Lia ZArith.
From Verif.Model Require Import Base Expr SX Robot Kinematics Dynamics Regressors.
From Verif.Proofs Require Import Calc Rel Maps Pure PureRel Names Shape Dims Sizes Deps BuildEq.
Import ListNotations.
Open Scope nat_scope.
Open Scope string_scope.

Section Build.
  Variables (cv : cvals) (b : robot).
  Hypothesis Hb : base cv b.
  Let n := numJoints b.
  Let e := numElasticJoints b.

  Ltac ak := simpl; tauto.
  Ltac mdlargs := repeat match goal with |- context [mdl (pubs b ?L) ?k] => rewrite (pubs_mdl_arg b L k) by ak end.
  Ltac pub g := rewrite (addf_ok cv b Hb _ g); [|reflexivity|reflexivity|reflexivity|exact I]; cbn [bind]; rewrite ?obt.

  Lemma cm_loop L : hasT b L ->
    loop n 0 jac_cm_body (pubs b L, (zeros 3 n, zeros 3 n), ([], [])) =
    Ok (pubs b (L ++ map (fun i => fJcm (i + 1)) (seq 0 n)), Cst_ b n,
        (map (Jcv b) (seq 0 n), map (Jcw b) (seq 0 n))).
  Proof.
    intros H.
    pose (g i := (pubs b (L ++ map (fun i => fJcm (i + 1)) (seq 0 i))%list, Cst_ b i,
                  (map (Jcv b) (seq 0 i), map (Jcw b) (seq 0 i)))).
    replace (pubs b L, (zeros 3 n, zeros 3 n), ([], [])) with (g 0) by (unfold g; simpl; now rewrite app_nil_r).
    rewrite (loop_eq g); [reflexivity|].
    intros i Hi. unfold g, jac_cm_body.
    set (L' := (L ++ map (fun i => fJcm (i + 1)) (seq 0 i))%list).
    assert (HL' : hasT b L').
    { apply hasT_app; auto. intros f Hf. apply in_map_iff in Hf. destruct Hf as (j & <- & _). exact I. }
    rewrite (mdl_T0 b) by (auto; fold n; lia). mdlargs.
    change (madd (tra_of (T0x b (i + 1))) (mtimes (rot_of (T0x b (i + 1))) (par_com (mdl b "par_DYN") i))) with (OCx b i).
    rewrite (cols_loop cv) by (auto; fold n; lia). cbn [bind Cst_]. unfold cstep.
    destruct (for_ (i + 1) 0 (jcol b (OCx b i)) (Cst_ b i)) as [Jp Jo] eqn:EJ.
    rewrite obt.
    assert (Ev : Cst_ b (S i) = (Jp, Jo)) by (cbn [Cst_]; exact EJ).
    rewrite (addf_ok cv b Hb _ (fJcm (i + 1))).
    - cbn [bind]. rewrite !seq_snoc, !map_app. cbn [map]. unfold L'. rewrite <- app_assoc.
      unfold Jcv at 3, Jcw at 3. rewrite Ev. reflexivity.
    - reflexivity.
    - cbn [val]. rewrite Nat.add_sub. unfold Jcmx, Jcv, Jcw. rewrite Ev. reflexivity.
    - reflexivity.
    - simpl. fold n. lia.
  Qed.

  Lemma MG_loop L Jv Jw : hasT b L -> Jv = map (Jcv b) (seq 0 n) -> Jw = map (Jcw b) (seq 0 n) ->
    forall k, k <= n -> for_ k 0 (MG_body (pubs b L) Jv Jw) (zeros n n, zeros n 1) = MGx b k.
  Proof.
    intros H -> -> k. induction k; intros Hk; [reflexivity|].
    rewrite for_S, IHk by lia. simpl (0 + k). cbn [MGx]. destruct (MGx b k) as [M G]. unfold MG_body.
    rewrite (mdl_T0 b) by (auto; fold n; lia). mdlargs.
    assert (E : forall f, nth k (map f (seq 0 n)) empty_sx = f k).
    { intros f. rewrite nth_indep with (d' := f 0) by (rewrite map_length, seq_length; lia).
      rewrite map_nth, seq_nth by lia. reflexivity. }
    rewrite !E. reflexivity.
  Qed.

  Lemma mcg_eq L : hasT b L -> compute_MCG (pubs b L) = Ok (pubs b (L ++ L_mcg b)).
  Proof.
    intros H. unfold compute_MCG. rewrite (ensure_T b) by auto. cbn [bind]. mdlargs.
    unfold DHJacCM. rewrite (ensure_T b) by auto. cbn [bind]. rewrite !nJ. fold n. rewrite cm_loop by auto. cbn [bind].
    rewrite MG_loop; auto.
    2:{ apply hasT_app; auto. intros f Hf. apply in_map_iff in Hf. destruct Hf as (j & <- & _). exact I. }
    destruct (MGx b n) as [M G] eqn:E.
    assert (EM : M = Mx b) by (unfold Mx; fold n; now rewrite E).
    assert (EG : G = Gx b) by (unfold Gx; fold n; now rewrite E). subst M G.
    rewrite !obt.
    pub fM. pub fC. pub fCstd. pub fG.
    f_equal. f_equal. unfold L_mcg. fold n. now rewrite <- !app_assoc.
  Qed.

  Lemma orders_eq L pre nf m order par (ff : nat -> fn) :
    (forall o, o < order -> pre ++ to_string (nf o) = name_of (ff o) /\
       coefs b m order par o = val b (ff o) /\ al b [] [par] = alist b (ff o) /\ enabled b (ff o)) ->
    In par arg_keys ->
    add_orders pre nf m order par (pubs b L) = Ok (pubs b (L ++ map ff (seq 0 order))).
  Proof.
    intros H Hp. unfold add_orders. rewrite pubs_mdl_arg, obt by auto.
    pose (g i := pubs b (L ++ map ff (seq 0 i))%list).
    replace (pubs b L) with (g 0) by (unfold g; simpl; now rewrite app_nil_r).
    rewrite (loop_eq g); [reflexivity|].
    intros i Hi. destruct (H i) as (A & B & C & D); [lia|]. unfold g.
    rewrite (addf_ok cv b Hb _ (ff i)); auto.
    f_equal. f_equal. rewrite seq_snoc, map_app. simpl. now rewrite <- app_assoc.
  Qed.

  Lemma link_dl_pubs L : link_dl (pubs b L) = link_dl b.
  Proof.
    destruct (pubs_rest b L). unfold link_dl. rewrite sr_n, sr_Dl. mdlargs. reflexivity.
  Qed.
  Lemma el_k_pubs L : el_k (pubs b L) = el_k b.
  Proof. destruct (pubs_rest b L). unfold el_k. rewrite sr_e, sr_K. mdlargs. reflexivity. Qed.
  Lemma el_d_pubs L : el_d (pubs b L) = el_d b.
  Proof. destruct (pubs_rest b L). unfold el_d. rewrite sr_e, sr_D. mdlargs. reflexivity. Qed.
  Lemma el_dm_pubs L : el_dm (pubs b L) = el_dm b.
  Proof. destruct (pubs_rest b L). unfold el_dm. rewrite sr_e, sr_Dm. mdlargs. reflexivity. Qed.
  Lemma el_Mm_pubs L : el_Mm (pubs b L) = el_Mm b.
  Proof. destruct (pubs_rest b L). unfold el_Mm. rewrite sr_e. mdlargs. reflexivity. Qed.
  Lemma Dl_pubs L : Dl_order (pubs b L) = Dl_order b. Proof. apply (sr_Dl _ _ (pubs_rest b L)). Qed.
  Lemma K_pubs L : K_order (pubs b L) = K_order b. Proof. apply (sr_K _ _ (pubs_rest b L)). Qed.
  Lemma D_pubs L : D_order (pubs b L) = D_order b. Proof. apply (sr_D _ _ (pubs_rest b L)). Qed.
  Lemma Dm_pubs L : Dm_order (pubs b L) = Dm_order b. Proof. apply (sr_Dm _ _ (pubs_rest b L)). Qed.
  Lemma E_pubs L : ELASTIC (pubs b L) = ELASTIC b. Proof. apply (sr_el _ _ (pubs_rest b L)). Qed.
  Lemma e_pubs L : numElasticJoints (pubs b L) = e. Proof. apply (sr_e _ _ (pubs_rest b L)). Qed.

  Lemma dl_eq L : compute_Dl (pubs b L) = Ok (pubs b (L ++ L_dl b)).
  Proof.
    unfold compute_Dl, L_dl. rewrite !Dl_pubs. destruct (Nat.ltb_spec 0 (Dl_order b)); [|now rewrite app_nil_r].
    rewrite link_dl_pubs, obt. rewrite (addf_ok cv b Hb _ fdl); [|reflexivity|reflexivity|reflexivity|exact H]. cbn [bind].
    rewrite !nJ, !Dl_pubs. fold n.
    rewrite (orders_eq _ _ _ _ _ _ (fun o => fDl (o + 1))).
    - f_equal. f_equal. now rewrite <- app_assoc.
    - intros o Ho. repeat split; auto; try (simpl; lia). cbn [val]. fold n. now rewrite Nat.add_sub.
    - ak.
  Qed.
  Lemma el_eq L : compute_elastic (pubs b L) = Ok (pubs b (L ++ L_el b)).
  Proof.
    unfold compute_elastic, L_el. rewrite !E_pubs, !e_pubs, !K_pubs, el_k_pubs, el_d_pubs, el_dm_pubs, el_Mm_pubs, obt.
    destruct (ELASTIC b) eqn:HE; [|now rewrite app_nil_r].
    set (LK := if Nat.ltb 0 (K_order b) then fk :: map (fun o => fK (2 * o + 1)) (seq 0 (K_order b)) else []).
    set (LD := if Nat.ltb 0 (D_order b) then fd :: map (fun o => fD (o + 1)) (seq 0 (D_order b)) else []).
    set (LDm := if Nat.ltb 0 (Dm_order b) then fdm :: map (fun o => fDm (o + 1)) (seq 0 (Dm_order b)) else []).
    match goal with |- (bind ?x _) = _ => replace x with (Ok (pubs b (L ++ LK)%list)) end.
    2:{ unfold LK. destruct (Nat.ltb_spec 0 (K_order b)); [|now rewrite app_nil_r].
        rewrite (addf_ok cv b Hb _ fk); [|reflexivity|reflexivity|reflexivity|simpl; auto]. cbn [bind]. rewrite K_pubs.
        rewrite (orders_eq _ _ _ _ _ _ (fun o => fK (2 * o + 1))).
        - f_equal. f_equal. now rewrite <- app_assoc.
        - intros o Ho. split; [reflexivity|split; [|split; [reflexivity|split; eauto]]]. cbn [val].
          replace (2 * o + 1 - 1) with (2 * o) by lia. now rewrite Nat.div2_double.
        - ak. }
    cbn [bind]. rewrite !D_pubs, obt.
    match goal with |- (bind ?x _) = _ => replace x with (Ok (pubs b ((L ++ LK) ++ LD)%list)) end.
    2:{ unfold LD. destruct (Nat.ltb_spec 0 (D_order b)); [|now rewrite app_nil_r].
        rewrite (addf_ok cv b Hb _ fd); [|reflexivity|reflexivity|reflexivity|simpl; auto]. cbn [bind]. rewrite D_pubs.
        rewrite (orders_eq _ _ _ _ _ _ (fun o => fD (o + 1))).
        - f_equal. f_equal. now rewrite <- (app_assoc (L ++ LK)).
        - intros o Ho. repeat split; auto; try (simpl; lia). cbn [val]. now rewrite Nat.add_sub.
        - ak. }
    cbn [bind]. rewrite !Dm_pubs, obt.
    match goal with |- (bind ?x _) = _ => replace x with (Ok (pubs b (((L ++ LK) ++ LD) ++ LDm)%list)) end.
    2:{ unfold LDm. destruct (Nat.ltb_spec 0 (Dm_order b)); [|now rewrite app_nil_r].
        rewrite (addf_ok cv b Hb _ fdm); [|reflexivity|reflexivity|reflexivity|simpl; auto]. cbn [bind]. rewrite Dm_pubs.
        rewrite (orders_eq _ _ _ _ _ _ (fun o => fDm (o + 1))).
        - f_equal. f_equal. now rewrite <- (app_assoc ((L ++ LK) ++ LD)).
        - intros o Ho. repeat split; auto; try (simpl; lia). cbn [val]. now rewrite Nat.add_sub.
        - ak. }
    cbn [bind]. rewrite !obt.
    rewrite (addf_ok cv b Hb _ fMm); [|reflexivity|reflexivity|reflexivity|simpl; auto].
    f_equal. f_equal. now rewrite <- !app_assoc.
  Qed.
  Lemma der_eq L : allproper L -> In fM L -> In fC L -> In fG L ->
    compute_dyn_derivatives (pubs b L) = Ok (pubs b (L ++ L_der)).
  Proof.
    intros H HM HC HG. unfold compute_dyn_derivatives.
    rewrite (ensure_In b L _ _ fM H I eq_refl HM). cbn [bind]. mdlargs.
    pose proof (pubs_mdl b L fM I H HM) as E1. pose proof (pubs_mdl b L fC I H HC) as E2.
    pose proof (pubs_mdl b L fG I H HG) as E3. cbn [name_of] in E1, E2, E3. rewrite E1, E2, E3, obt.
    pub fMd. pub fMdd. pub fCd. pub fCdd. pub fGd. pub fGdd.
    f_equal. f_equal. now rewrite <- !app_assoc.
  Qed.
End Build.
