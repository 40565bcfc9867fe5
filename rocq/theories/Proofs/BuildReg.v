(* Regressors, and the whole symbolic computation. *)
From Coq Require Import Reals List Arith String Bool Lia ZArith DecimalString.
From Verif.Model Require Import Base Expr SX Robot Kinematics Dynamics Regressors.
From Verif.Proofs Require Import Calc Rel Maps Pure PureRel Names Shape Dims Sizes Deps BuildEq BuildDyn.
Import ListNotations.
Open Scope nat_scope.
Open Scope string_scope.

Lemma to_string_nonempty i : to_string i <> "".
Proof.
  unfold to_string. intros H.
  assert (E : NilEmpty.uint_of_string (NilEmpty.string_of_uint (Nat.to_uint i)) = Some Decimal.Nil) by (rewrite H; reflexivity).
  rewrite DecimalString.NilEmpty.usu in E. inversion E as [E1].
  destruct i as [|i]; [discriminate E1|].
  assert (Nat.of_uint (Nat.to_uint (S i)) = 0) by (rewrite E1; reflexivity).
  rewrite DecimalNat.Unsigned.of_to in H0. discriminate.
Qed.
Lemma name_ne_Dl f : name_of f <> "Dl".
Proof.
  intros H. assert (Hs := f_equal stem H). rewrite stem_name in Hs.
  destruct f; try discriminate Hs. cbn [name_of] in H.
  apply (to_string_nonempty i). now apply (app_cancel "Dl" (to_string i) "").
Qed.

Section Build.
  Variables (cv : cvals) (b : robot).
  Hypothesis Hb : base cv b.
  Let n := numJoints b.
  Let e := numElasticJoints b.

  Ltac ak := simpl; tauto.
  Ltac mdlargs := repeat match goal with |- context [mdl (pubs b ?L) ?k] => rewrite (pubs_mdl_arg b L k) by ak end.
  Ltac pub g := rewrite (addf_ok cv b Hb _ g); [|reflexivity|reflexivity|reflexivity|exact I]; cbn [bind]; rewrite ?obt.

  Lemma Yr_loop L : hasT b L -> (forall i, i < n -> In (fJ (i + 1)) L) ->
    forall k, k <= n ->
    for_ k 0 (Yr_body (pubs b L)) (zeros n (STD_PAR_LINK * n), zeros n (STD_PAR_LINK * n), zeros n (STD_PAR_LINK * n), zeros n (STD_PAR_LINK * n))
    = (blocks b k (Yri b), blocks b k (regMi b), blocks b k (regCi b), blocks b k (regGi b)).
  Proof.
    intros H HJ k. induction k; intros Hk; [reflexivity|].
    rewrite for_S, IHk by lia. simpl (0 + k). unfold Yr_body.
    rewrite (mdl_T0 b) by (auto; fold n; lia).
    assert (EJ : mdl (pubs b L) ("J_" ++ to_string (k + 1)) = Jx b k).
    { change ("J_" ++ to_string (k + 1)) with (name_of (fJ (k + 1))).
      rewrite pubs_mdl; [|exact I|apply H|apply HJ; lia]. cbn [val]. now rewrite Nat.add_sub. }
    rewrite EJ, nJ. mdlargs. fold n.
    change (rot_of (T0x b (k + 1))) with (R0x b k).
    change (sub (Jx b k) 0 3 0 n) with (Jvx b k). change (sub (Jx b k) 3 6 0 n) with (Jwx b k).
    fold (st1 b k). fold (st2 b k).
    match goal with |- context [for_ 3 0 ?f ?a] => change (for_ 3 0 f a) with (st1 b k) end.
    match goal with |- context [for_ 6 0 ?f ?a] => change (for_ 6 0 f a) with (st2 b k) end.
    rewrite (surjective_pairing (st1 b k)), (surjective_pairing (st2 b k)). reflexivity.
  Qed.

  Lemma Yr_eq L : hasT b L -> (forall i, i < n -> In (fJ (i + 1)) L) ->
    compute_Yr (pubs b L) = Ok (pubs b (L ++ L_yr)).
  Proof.
    intros H HJ. pose proof (bs_n _ _ Hb) as H1. fold n in H1.
    unfold compute_Yr. rewrite (ensure_T b) by auto. cbn [bind].
    rewrite (ensure_In b L _ _ (fJ 1)); [|apply H|exact I|reflexivity|apply (HJ 0); lia]. cbn [bind].
    rewrite !nJ. fold n. rewrite Yr_loop by auto. rewrite obt.
    pub fYr. pub fRM. pub fRC. pub fRG.
    f_equal. f_equal. now rewrite <- !app_assoc.
  Qed.

  Lemma symb_elems_eq L k len : In (k, len) (keys b) -> symb_elems (pubs b L) k = Ok (sel b k).
  Proof.
    intros Hk. unfold symb_elems. rewrite select_symb_pubs by (eapply keys_arg; eauto).
    pose proof (bs_shape _ _ Hb k len Hk) as P. apply select_symb_eq. rewrite (ps_fl _ _ _ _ P), (ps_r _ _ _ _ P). lia.
  Qed.

  Lemma regJ_eq L : hasT b L -> In fJee L -> compute_reg_J (pubs b L) = Ok (pubs b (L ++ L_regJ b)).
  Proof.
    intros H HJ. unfold compute_reg_J. rewrite (ensure_T b) by auto. cbn [bind].
    rewrite (ensure_In b L _ _ fJee (ht_proper b _ H) I eq_refl HJ). cbn [bind].
    rewrite (symb_elems_eq _ _ (4 * n)) by (unfold keys, par_keys; rewrite !in_app_iff; simpl; tauto). cbn [bind].
    rewrite (symb_elems_eq _ _ 6) by (unfold keys, par_keys; rewrite !in_app_iff; simpl; tauto). cbn [bind].
    rewrite (symb_elems_eq _ _ 6) by (unfold keys, par_keys; rewrite !in_app_iff; simpl; tauto). cbn [bind].
    fold (kin_par b). unfold L_regJ. destruct (Nat.eqb_spec (rows (kin_par b)) 0) as [E|E]; [now rewrite app_nil_r|].
    mdlargs. pose proof (pubs_mdl b L fJee I (ht_proper b _ H) HJ) as E1. cbn [name_of] in E1. rewrite E1, !obt.
    rewrite (addf_ok cv b Hb _ frJdq); [|reflexivity|reflexivity|reflexivity|exact E]. cbn [bind]. rewrite !obt.
    rewrite (addf_ok cv b Hb _ frJTw); [|reflexivity|reflexivity|reflexivity|exact E].
    f_equal. f_equal. now rewrite <- !app_assoc.
  Qed.

  Lemma mcount_Dl L : mcount "Dl" (model (pubs b L)) = false.
  Proof.
    induction L as [|f L IH] using rev_ind; [apply (bs_noDl _ _ Hb)|].
    rewrite pubs_app. cbn [publish1 model with_funs with_model]. rewrite mcount_mset_ne; auto.
    intros E. apply (name_ne_Dl f). auto.
  Qed.
  Lemma L_dl_proper : allproper (L_dl b).
  Proof.
    unfold L_dl. destruct (Nat.ltb _ _); intros f Hf; [|destruct Hf]. destruct Hf as [<-|Hf]; [exact I|].
    apply in_map_iff in Hf. destruct Hf as (i & <- & _). exact I.
  Qed.
  Lemma L_el_proper : allproper (L_el b).
  Proof.
    unfold L_el. destruct (ELASTIC b); intros f Hf; [|destruct Hf]. rewrite !in_app_iff in Hf.
    destruct Hf as [Hf|[Hf|[Hf|[<-|[]]]]]; try exact I; destruct (Nat.ltb _ _); try (destruct Hf; fail);
      (destruct Hf as [<-|Hf]; [exact I|]); apply in_map_iff in Hf; destruct Hf as (i & <- & _); exact I.
  Qed.
  Lemma allproper_app L L' : allproper L -> allproper L' -> allproper (L ++ L').
  Proof. intros A B f Hf. apply in_app_or in Hf. destruct Hf; auto. Qed.

  Lemma regdl_eq L : allproper L ->
    (if Nat.ltb 0 (Dl_order (pubs b L)) then compute_reg_Dl (pubs b L) else Ok (pubs b L)) = Ok (pubs b (L ++ L_regdl b)).
  Proof.
    intros HL. unfold L_regdl. rewrite Dl_pubs. destruct (Nat.ltb_spec 0 (Dl_order b)) as [HD|HD]; [|now rewrite app_nil_r].
    unfold compute_reg_Dl. rewrite Dl_pubs. replace (Nat.eqb (Dl_order b) 0) with false by (symmetry; apply Nat.eqb_neq; lia).
    unfold ensure. rewrite mcount_Dl. rewrite (dl_eq cv) by auto. cbn [bind].
    assert (HDb := HD). apply Nat.ltb_lt in HDb.
    rewrite (symb_elems_eq _ _ (n * Dl_order b)) by (unfold keys, par_keys; rewrite HDb, !in_app_iff; simpl; tauto).
    cbn [bind rows vertcat_list]. unfold one.
    destruct (Nat.eqb_spec (List.length (sel b "par_Dl")) 0) as [E|E]; [now rewrite app_nil_r|].
    assert (In fdl (L ++ L_dl b)).
    { apply in_or_app. right. unfold L_dl. rewrite HDb. simpl; auto. }
    pose proof (pubs_mdl b _ fdl I (allproper_app _ _ HL L_dl_proper) H) as E1. cbn [name_of] in E1. rewrite E1.
    rewrite (addf_ok cv b Hb _ frdl); [|reflexivity|reflexivity|reflexivity|].
    - f_equal. f_equal. now rewrite <- !app_assoc.
    - split; auto. intros E0. apply E. now rewrite E0.
  Qed.

  Lemma sel_pos k len : In (k, len) (keys b) -> sel b k <> [] -> 0 < len.
  Proof.
    intros Hk Hs. rewrite (sel_fidx cv b k len) in Hs by (apply (bs_shape _ _ Hb); auto).
    destruct (fidx (flags b k)) eqn:E; [simpl in Hs; congruence|].
    assert (In n0 (fidx (flags b k))) by (rewrite E; simpl; auto). apply in_fidx in H.
    rewrite (ps_fl _ _ _ _ (bs_shape _ _ Hb k len Hk)) in H. lia.
  Qed.
  Lemma keys_el : ELASTIC b = true -> In ("par_K", e * K_order b) (keys b) /\
     In ("par_D", e * D_order b) (keys b) /\ In ("par_Dm", e * Dm_order b) (keys b) /\
     In ("par_Mm", e) (keys b) /\ In ("ddx", e) (keys b).
  Proof. intros E. unfold keys, par_keys, state_keys. rewrite E. rewrite !in_app_iff. simpl. tauto. Qed.

  Lemma add_reg_eq L nm ex par a g :
    nm = name_of g -> a = alist b g ->
    (sel b par <> [] -> jacobian ex (vertcat_list (sel b par)) = val b g /\ enabled b g) ->
    add_reg nm ex (sel b par) a (pubs b L) = Ok (pubs b (L ++ one b g par)).
  Proof.
    intros Hn Ha H. unfold add_reg, one. destruct (Nat.eqb_spec (List.length (sel b par)) 0) as [E|E]; [now rewrite app_nil_r|].
    destruct H as [A B]; [intros E0; apply E; now rewrite E0|].
    apply (addf_ok cv); auto.
  Qed.

  Lemma in_L_el f : enabled b f -> fricf f = true -> f <> fdl -> (forall i, f <> fDl i) -> In f (L_el b).
  Proof.
    intros He Hf N1 N2.
    assert (HO : forall o ord (g : nat -> fn), o < ord -> In (g o) (map g (seq 0 ord))).
    { intros. apply in_map. apply in_seq. lia. }
    unfold L_el. destruct f; try discriminate Hf; try congruence; try (exfalso; eapply N2; reflexivity); cbn [enabled] in He.
    - destruct He as [-> He]. apply Nat.ltb_lt in He. rewrite He. rewrite !in_app_iff. simpl. tauto.
    - destruct He as (-> & o & He & ->). assert (He' : Nat.ltb 0 (K_order b) = true) by (apply Nat.ltb_lt; lia). rewrite He'.
      rewrite !in_app_iff. left. right. apply (HO o _ (fun o => fK (2 * o + 1))). auto.
    - destruct He as [-> He]. apply Nat.ltb_lt in He. rewrite He. rewrite !in_app_iff. simpl. tauto.
    - destruct He as (-> & He). assert (He' : Nat.ltb 0 (D_order b) = true) by (apply Nat.ltb_lt; lia). rewrite He'.
      rewrite !in_app_iff. right. left. right. replace i with (i - 1 + 1) at 1 by lia.
      apply (HO (i - 1) _ (fun o => fD (o + 1))). lia.
    - destruct He as [-> He]. apply Nat.ltb_lt in He. rewrite He. rewrite !in_app_iff. simpl. tauto.
    - destruct He as (-> & He). assert (He' : Nat.ltb 0 (Dm_order b) = true) by (apply Nat.ltb_lt; lia). rewrite He'.
      rewrite !in_app_iff. right. right. left. right. replace i with (i - 1 + 1) at 1 by lia.
      apply (HO (i - 1) _ (fun o => fDm (o + 1))). lia.
    - rewrite He. rewrite !in_app_iff. simpl. tauto.
  Qed.

  Lemma regel_eq L : allproper L -> (forall f, In f (L_el b) -> In f L) -> (In fk L -> enabled b fk) ->
    (if ELASTIC (pubs b L) then compute_reg_elastic (pubs b L) else Ok (pubs b L)) = Ok (pubs b (L ++ L_regel b)).
  Proof.
    intros HL HE Hk. unfold L_regel. rewrite E_pubs. destruct (ELASTIC b) eqn:EL; [|now rewrite app_nil_r].
    destruct (keys_el EL) as (KK & KD & KDm & KMm & Kddx).
    unfold compute_reg_elastic.
    set (L0 := if Nat.ltb 0 (K_order b) then [] else L_el b).
    assert (E0 : ensure "k" compute_elastic (pubs b L) = Ok (pubs b (L ++ L0))).
    { unfold L0. destruct (Nat.ltb_spec 0 (K_order b)) as [HK|HK].
      - rewrite app_nil_r. rewrite (ensure_In b L _ _ fk HL I eq_refl); auto.
        apply HE. apply in_L_el; try discriminate; auto. split; auto.
      - unfold ensure. change "k" with (name_of fk).
        assert (~ In fk L) by (intros Hi; apply Hk in Hi; destruct Hi; lia).
        unfold mcount. rewrite (pubs_mfind_no b L fk I HL H).
        pose proof (bs_nomodel _ _ Hb fk) as Hm. unfold mcount in Hm. destruct (mfind _ (model b)); [discriminate|].
        apply (el_eq cv); auto. }
    rewrite E0. cbn [bind].
    assert (HL0 : allproper (L ++ L0)).
    { apply allproper_app; auto. unfold L0. destruct (Nat.ltb _ _); [intros f []|apply L_el_proper]. }
    assert (HE0 : forall f, In f (L_el b) -> In f (L ++ L0)) by (intros; apply in_or_app; auto).
    rewrite (symb_elems_eq _ _ _ KK). cbn [bind]. rewrite (symb_elems_eq _ _ _ KD). cbn [bind].
    rewrite (symb_elems_eq _ _ _ KDm). cbn [bind]. rewrite (symb_elems_eq _ _ _ KMm). cbn [bind].
    assert (P1 : forall f par, allproper (one b f par) -> True) by auto. clear P1.
    assert (PO : forall f par, proper f -> allproper (one b f par)).
    { intros f par Hp g Hg. unfold one in Hg. destruct (Nat.eqb _ _); [destruct Hg|destruct Hg as [<-|[]]; auto]. }
    assert (ML : forall L1 f, allproper L1 -> proper f -> In f (L_el b) ->
        mdl (pubs b ((L ++ L0) ++ L1)) (name_of f) = val b f).
    { intros L1 f P Pf Hf. apply pubs_mdl; auto using allproper_app. apply in_or_app; auto. }
    rewrite (add_reg_eq (L ++ L0) _ _ _ _ frk eq_refl eq_refl).
    2:{ intros Hs. assert (0 < K_order b) by (pose proof (sel_pos _ _ KK Hs); nia).
        assert (I1 : In fk (L_el b)) by (apply in_L_el; try discriminate; auto; split; auto).
        pose proof (pubs_mdl b (L ++ L0) fk I HL0 (HE0 _ I1)) as E1. cbn [name_of] in E1. rewrite E1.
        split; [reflexivity|split; auto]. }
    cbn [bind].
    rewrite (add_reg_eq _ _ _ _ _ frd eq_refl eq_refl).
    2:{ intros Hs. assert (0 < D_order b) by (pose proof (sel_pos _ _ KD Hs); nia).
        assert (I1 : In fd (L_el b)) by (apply in_L_el; try discriminate; auto; split; auto).
        pose proof (ML (one b frk "par_K") fd (PO frk _ I) I I1) as E1. cbn [name_of] in E1. rewrite E1.
        split; [reflexivity|split; auto]. }
    cbn [bind]. rewrite <- !(app_assoc (L ++ L0)).
    rewrite (add_reg_eq _ _ _ _ _ frdm eq_refl eq_refl).
    2:{ intros Hs. assert (0 < Dm_order b) by (pose proof (sel_pos _ _ KDm Hs); nia).
        assert (I1 : In fdm (L_el b)) by (apply in_L_el; try discriminate; auto; split; auto).
        pose proof (ML (one b frk "par_K" ++ one b frd "par_D")%list fdm (allproper_app _ _ (PO frk _ I) (PO frd _ I)) I I1) as E1.
        cbn [name_of] in E1. rewrite E1.
        split; [reflexivity|split; auto]. }
    cbn [bind]. rewrite <- !(app_assoc (L ++ L0)).
    rewrite (add_reg_eq _ _ _ _ _ frMm eq_refl eq_refl).
    2:{ intros Hs.
        assert (I1 : In fMm (L_el b)) by (apply in_L_el; try discriminate; auto).
        mdlargs.
        match goal with |- context [mdl (pubs b (_ ++ ?L1)) _] => assert (PL1 : allproper L1) by
          (repeat apply allproper_app; apply PO; exact I); pose proof (ML L1 fMm PL1 I I1) as E1 end.
        cbn [name_of] in E1. rewrite E1.
        split; [reflexivity|split; auto]. }
    f_equal. f_equal. now rewrite <- !app_assoc.
  Qed.

  (* exactly the enabled functions are published *)
  Lemma one_In f par g : In g (one b f par) <-> g = f /\ sel b par <> [].
  Proof.
    unfold one. destruct (Nat.eqb_spec (List.length (sel b par)) 0) as [E|E].
    - split; [intros []|]. intros [_ H]. destruct (sel b par); [congruence|discriminate].
    - simpl. split; [intros [<-|[]]; split; auto; intros E0; apply E; now rewrite E0|intros [-> _]; auto].
  Qed.
  Lemma L_dl_enabled f : In f (L_dl b) -> enabled b f.
  Proof.
    unfold L_dl. destruct (Nat.ltb_spec 0 (Dl_order b)); [|intros []]. intros [<-|Hf]; [exact H|].
    apply in_map_iff in Hf. destruct Hf as (o & <- & Ho). apply in_seq in Ho. simpl. lia.
  Qed.
  Lemma L_el_enabled f : In f (L_el b) -> enabled b f.
  Proof.
    unfold L_el. destruct (ELASTIC b) eqn:EL; [|intros []]. rewrite !in_app_iff. intros [Hf|[Hf|[Hf|[<-|[]]]]]; [| | |exact EL].
    - destruct (Nat.ltb_spec 0 (K_order b)); [destruct Hf as [<-|Hf]|destruct Hf]; [split; auto|].
      apply in_map_iff in Hf. destruct Hf as (o & <- & Ho). apply in_seq in Ho. split; auto. exists o. split; [lia|reflexivity].
    - destruct (Nat.ltb_spec 0 (D_order b)); [destruct Hf as [<-|Hf]|destruct Hf]; [split; auto|].
      apply in_map_iff in Hf. destruct Hf as (o & <- & Ho). apply in_seq in Ho. split; auto. lia.
    - destruct (Nat.ltb_spec 0 (Dm_order b)); [destruct Hf as [<-|Hf]|destruct Hf]; [split; auto|].
      apply in_map_iff in Hf. destruct Hf as (o & <- & Ho). apply in_seq in Ho. split; auto. lia.
  Qed.
  Lemma L_all_enabled f : In f (L_all b) <-> enabled b f.
  Proof.
    split.
    - unfold L_all. rewrite !in_app_iff. intros H.
      destruct H as [H|[H|[H|[H|[H|[H|[H|[H|[H|[H|H]]]]]]]]]].
      + unfold L_chain in H. simpl in H. rewrite in_app_iff in H.
        destruct H as [<-|[<-|[H|[<-|[<-|[]]]]]]; simpl; auto; try lia.
        apply in_flat_map in H. destruct H as (i & Hi & [<-|[<-|[]]]); apply in_seq in Hi; simpl; unfold n in Hi; lia.
      + unfold L_jac in H. rewrite in_app_iff in H. destruct H as [H|[<-|[]]]; [|exact I].
        apply in_map_iff in H. destruct H as (i & <- & Hi). apply in_seq in Hi. simpl. unfold n in Hi. lia.
      + simpl in H. repeat destruct H as [<-|H]; try exact I. destruct H.
      + unfold L_mcg in H. rewrite in_app_iff in H. destruct H as [H|H].
        * apply in_map_iff in H. destruct H as (i & <- & Hi). apply in_seq in Hi. simpl. unfold n in Hi. lia.
        * simpl in H. repeat destruct H as [<-|H]; try exact I. destruct H.
      + apply L_dl_enabled; auto.
      + apply L_el_enabled; auto.
      + simpl in H. repeat destruct H as [<-|H]; try exact I. destruct H.
      + simpl in H. repeat destruct H as [<-|H]; try exact I. destruct H.
      + unfold L_regJ in H. destruct (Nat.eqb_spec (rows (kin_par b)) 0); [destruct H|].
        destruct H as [<-|[<-|[]]]; auto.
      + unfold L_regdl in H. destruct (Nat.ltb_spec 0 (Dl_order b)); [|destruct H].
        rewrite in_app_iff in H. destruct H as [H|H]; [apply L_dl_enabled; auto|].
        apply one_In in H. destruct H as [-> H]. split; auto.
      + unfold L_regel in H. destruct (ELASTIC b) eqn:EL; [|destruct H].
        rewrite !in_app_iff, !one_In in H.
        destruct H as [H|[[-> H]|[[-> H]|[[-> H]|[-> H]]]]]; try (split; auto; fail).
        destruct (Nat.ltb _ _); [destruct H|apply L_el_enabled; auto].
    - intros H. unfold L_all. rewrite !in_app_iff.
      assert (HC : forall g, In g [fTb; fT0 0; fT0 (n + 1); fTee] -> In g (L_chain b)).
      { intros g Hg. unfold L_chain. fold n. simpl in *. rewrite in_app_iff. simpl. tauto. }
      destruct f; cbn [enabled] in H; fold n in H; try (right; left; unfold L_jac; rewrite in_app_iff; simpl; tauto);
        try (do 3 right; left; unfold L_mcg; rewrite in_app_iff; simpl; tauto);
        try (right; right; left; simpl; tauto); try (do 6 right; left; simpl; tauto); try (do 7 right; left; simpl; tauto);
        try (do 5 right; left; apply in_L_el; auto; discriminate);
        try (left; apply HC; simpl; tauto).
      + left. unfold L_chain. fold n. simpl. right. right. rewrite in_app_iff. left. apply in_flat_map. exists (i - 1).
        split; [apply in_seq; lia|]. replace (i - 1 + 1) with i by lia. simpl; auto.
      + left. destruct (Nat.eq_dec i 0) as [->|Hi0]; [apply HC; simpl; tauto|].
        destruct (Nat.eq_dec i (n + 1)) as [->|Hi1]; [apply HC; simpl; tauto|].
        unfold L_chain. fold n. simpl. right. right. rewrite in_app_iff. left. apply in_flat_map. exists (i - 1).
        split; [apply in_seq; lia|]. replace (i - 1 + 1) with i by lia. simpl; auto.
      + right. left. unfold L_jac. fold n. rewrite in_app_iff. left. apply in_map_iff. exists (i - 1).
        split; [f_equal; lia|apply in_seq; lia].
      + do 3 right. left. unfold L_mcg. fold n. rewrite in_app_iff. left. apply in_map_iff. exists (i - 1).
        split; [f_equal; lia|apply in_seq; lia].
      + do 4 right. left. unfold L_dl. apply Nat.ltb_lt in H. rewrite H. simpl; auto.
      + do 4 right. left. unfold L_dl. assert (H' : Nat.ltb 0 (Dl_order b) = true) by (apply Nat.ltb_lt; lia). rewrite H'. right.
        apply in_map_iff. exists (i - 1). split; [f_equal; lia|apply in_seq; lia].
      + do 9 right. left. unfold L_regdl. destruct H as [H H']. apply Nat.ltb_lt in H. rewrite H. apply in_or_app. right. apply one_In. auto.
      + do 10 right. unfold L_regel. destruct H as [-> H]. rewrite !in_app_iff, !one_In. auto 10.
      + do 10 right. unfold L_regel. destruct H as [-> H]. rewrite !in_app_iff, !one_In. auto 10.
      + do 10 right. unfold L_regel. destruct H as [-> H]. rewrite !in_app_iff, !one_In. auto 10.
      + do 10 right. unfold L_regel. destruct H as [-> H]. rewrite !in_app_iff, !one_In. auto 10.
      + do 8 right. left. unfold L_regJ. apply Nat.eqb_neq in H. rewrite H. simpl; auto.
      + do 8 right. left. unfold L_regJ. apply Nat.eqb_neq in H. rewrite H. simpl; auto.
  Qed.

  Lemma all_eq :
    (r <- compute_kinematics b true ; r <- compute_dynamics r true ; compute_regressors r) = Ok (pubs b (L_all b)).
  Proof.
    change b with (pubs b []) at 1.
    rewrite (kin_eq cv b Hb []) by (intros f []). cbn [bind app].
    set (L1 := (L_chain b ++ L_jac b ++ L_adv)%list).
    assert (HT : hasT b L1).
    { apply hasT_app; [apply (chain_hasT b []); intros f []|]. apply (enabled_allproper b). intros f Hf. apply L_all_enabled.
      unfold L_all. rewrite !in_app_iff in *. tauto. }
    unfold compute_dynamics. rewrite (mcg_eq cv) by auto. cbn [bind]. rewrite (dl_eq cv) by auto. cbn [bind].
    rewrite (el_eq cv) by auto. cbn [bind].
    set (L2 := (((L1 ++ L_mcg b) ++ L_dl b) ++ L_el b)%list).
    assert (P2 : allproper L2).
    { apply (enabled_allproper b). intros f Hf. apply L_all_enabled. unfold L2, L1 in Hf. unfold L_all. rewrite !in_app_iff in *. tauto. }
    rewrite (der_eq cv); auto.
    2-4: unfold L2, L_mcg; rewrite !in_app_iff; simpl; tauto.
    cbn [bind]. unfold compute_regressors.
    assert (PA : forall L, (forall f, In f L -> In f (L_all b)) -> allproper L).
    { intros L HL. apply (enabled_allproper b). intros f Hf. apply L_all_enabled; auto. }
    assert (HT2 : hasT b (L2 ++ L_der)).
    { unfold L2. rewrite <- !app_assoc. apply hasT_app; auto. apply PA. intros f. unfold L_all. rewrite !in_app_iff. tauto. }
    rewrite (Yr_eq (L2 ++ L_der)); auto.
    2:{ intros i Hi. unfold L2, L1, L_jac. fold n. rewrite !in_app_iff. do 4 left. right. left. left.
        apply (in_map (fun i => fJ (i + 1))). apply in_seq. lia. }
    cbn [bind]. rewrite regJ_eq.
    2:{ apply hasT_app; auto. apply PA. intros f. unfold L_all. rewrite !in_app_iff. tauto. }
    2:{ unfold L2, L1, L_jac. rewrite !in_app_iff. simpl. tauto. }
    cbn [bind]. rewrite regdl_eq.
    2:{ apply PA. intros f. unfold L2, L1, L_all. rewrite !in_app_iff. tauto. }
    cbn [bind]. rewrite regel_eq.
    - f_equal. f_equal. unfold L2, L1, L_all. now rewrite <- !app_assoc.
    - apply PA. intros f. unfold L2, L1, L_all. rewrite !in_app_iff. tauto.
    - intros f Hf. unfold L2. rewrite !in_app_iff. tauto.
    - intros Hf. apply L_all_enabled. unfold L2, L1 in Hf. unfold L_all. rewrite !in_app_iff in *. tauto.
  Qed.
End Build.
