(* Every published matrix of two robots with related parameters is related. With a trivial relation
   this gives sizes and the absence of dimension errors. *)
From Coq Require Import Reals Lra Lia Arith List String Bool ZArith.
From Verif.Model Require Import Base Expr SX Robot Kinematics Dynamics Regressors.
From Verif.Proofs Require Import Calc Rel Pure.
Import ListNotations.
Open Scope nat_scope.
Open Scope string_scope.

Lemma for_S {A} k lo (f : nat -> A -> A) a : for_ (S k) lo f a = f (lo + k) (for_ k lo f a).
Proof.
  revert lo a. induction k as [|k IH]; intros lo a.
  - simpl. now rewrite Nat.add_0_r.
  - change (for_ (S (S k)) lo f a) with (for_ (S k) (S lo) f (f lo a)).
    rewrite IH. change (for_ (S k) lo f a) with (for_ k (S lo) f (f lo a)).
    f_equal. lia.
Qed.
Lemma for_ind {A} (P : nat -> A -> Prop) k lo (f : nat -> A -> A) a :
  P lo a -> (forall i x, lo <= i < lo + k -> P i x -> P (S i) (f i x)) -> P (lo + k) (for_ k lo f a).
Proof.
  revert lo a. induction k as [|k IH]; intros lo a H0 HS.
  - rewrite Nat.add_0_r. auto.
  - simpl. replace (lo + S k) with (S lo + k) by lia. apply IH.
    + apply HS; auto; lia.
    + intros i x Hi. apply HS; lia.
Qed.
Lemma for_rel {A} (P : A -> A -> Prop) k lo (f f' : nat -> A -> A) a a' :
  P a a' -> (forall i x x', lo <= i < lo + k -> P x x' -> P (f i x) (f' i x')) ->
  P (for_ k lo f a) (for_ k lo f' a').
Proof.
  revert lo a a'. induction k as [|k IH]; intros lo a a' H0 HS; simpl; auto.
  apply IH.
  - apply HS; auto; lia.
  - intros i x x' Hi. apply HS; lia.
Qed.

Section PureRel.
  Variable Q : expr -> expr -> Prop.
  Hypothesis HQ : congr Q.
  Definition trig_rel (a a' : expr) : Prop :=
    Q (ZIS (Cos a)) (ZIS (Cos a')) /\ Q (ZIS (Sin a)) (ZIS (Sin a')) /\ Q (ZIS (Opp (Sin a))) (ZIS (Opp (Sin a'))).

  Lemma mr_R_x a a' : mrel Q 1 1 a a' -> trig_rel (sc a) (sc a') -> mrel Q 3 3 (R_x a) (R_x a').
  Proof.
    intros H (Hc & Hs & Hn). destruct H. constructor; simpl; auto.
    intros i j Hi Hj.
    destruct i as [|[|[|i]]]; try lia; destruct j as [|[|[|j]]]; try lia; auto; apply (q_cst Q HQ).
  Qed.
  Lemma mr_R_y a a' : mrel Q 1 1 a a' -> trig_rel (sc a) (sc a') -> mrel Q 3 3 (R_y a) (R_y a').
  Proof.
    intros H (Hc & Hs & Hn). destruct H. constructor; simpl; auto.
    intros i j Hi Hj.
    destruct i as [|[|[|i]]]; try lia; destruct j as [|[|[|j]]]; try lia; auto; apply (q_cst Q HQ).
  Qed.
  Lemma mr_R_z P a a' : mrel P 1 1 a a' -> trig_rel (sc a) (sc a') -> mrel Q 3 3 (R_z a) (R_z a').
  Proof.
    intros H (Hc & Hs & Hn). destruct H. constructor; simpl; auto.
    intros i j Hi Hj.
    destruct i as [|[|[|i]]]; try lia; destruct j as [|[|[|j]]]; try lia; auto; apply (q_cst Q HQ).
  Qed.
  Lemma mr_homog a a' p p' : mrel Q 3 3 a a' -> mrel Q 3 1 p p' -> mrel Q 4 4 (homog a p) (homog a' p').
  Proof.
    intros Ha Hp. unfold homog.
    apply mr_set_at; try lia; [|apply mr_scal, (q_cst Q HQ)].
    eapply mr_set_block; [|apply Hp| |]; try lia.
    eapply mr_set_block; [apply mr_zeros; auto|apply Ha| |]; lia.
  Qed.

  Variables b b' : robot.
  Variable n : nat.
  Hypothesis Hn : numJoints b = n.
  Hypothesis Hn' : numJoints b' = n.
  Hypothesis Hjt : jointsType b = jointsType b'.
  Hypothesis HDH : mrel Q (4 * n) 1 (mdl b "par_DHtable") (mdl b' "par_DHtable").
  Hypothesis HW : mrel Q 6 1 (mdl b "par_world2L0") (mdl b' "par_world2L0").
  Hypothesis HE : mrel Q 6 1 (mdl b "par_Ln2EE") (mdl b' "par_Ln2EE").
  Hypothesis Hg : mrel Q 3 1 (mdl b "par_gravity") (mdl b' "par_gravity").
  Hypothesis HD : mrel Q (10 * n) 1 (mdl b "par_DYN") (mdl b' "par_DYN").
  (* the joint variables themselves need only be related for prismatic joints *)
  Hypothesis Hq : mrel (fun _ _ => True) n 1 (mdl b "q") (mdl b' "q").
  Hypothesis Hqp : forall i, i < n -> is_P (jtype b i) = true -> Q (el (mdl b "q") i 0) (el (mdl b' "q") i 0).
  Hypothesis Hdq : mrel Q n 1 (mdl b "dq") (mdl b' "dq").
  Hypothesis Hddq : mrel Q n 1 (mdl b "ddq") (mdl b' "ddq").
  Hypothesis Hd3q : mrel Q n 1 (mdl b "d3q") (mdl b' "d3q").
  Hypothesis Hdqr : mrel Q n 1 (mdl b "dqr") (mdl b' "dqr").
  Hypothesis Hddqr : mrel Q n 1 (mdl b "ddqr") (mdl b' "ddqr").
  (* angles *)
  Hypothesis Hta : forall i, i < n -> trig_rel (el (mdl b "par_DHtable") (i * 4 + 1) 0) (el (mdl b' "par_DHtable") (i * 4 + 1) 0).
  Hypothesis Htt : forall i, i < n -> trig_rel (sc (thx b i)) (sc (thx b' i)).
  Hypothesis HtW : forall i, 3 <= i < 6 -> trig_rel (el (mdl b "par_world2L0") i 0) (el (mdl b' "par_world2L0") i 0).
  Hypothesis HtE : forall i, 3 <= i < 6 -> trig_rel (el (mdl b "par_Ln2EE") i 0) (el (mdl b' "par_Ln2EE") i 0).

  Lemma jtype_eq i : jtype b i = jtype b' i.
  Proof. unfold jtype. now rewrite Hjt. Qed.

  Lemma mr_get_transform f f' : mrel Q 6 1 f f' ->
    (forall i, 3 <= i < 6 -> trig_rel (el f i 0) (el f' i 0)) ->
    mrel Q 4 4 (get_transform f) (get_transform f').
  Proof.
    intros H Ht. unfold get_transform. apply mr_homog.
    - eapply mr_mtimes; [exact HQ|eapply mr_mtimes; [exact HQ| |]|].
      + eapply mr_R_z; [eapply mr_vat; eauto; lia|apply Ht; lia].
      + apply mr_R_y; [eapply mr_vat; eauto; lia|apply Ht; lia].
      + apply mr_R_x; [eapply mr_vat; eauto; lia|apply Ht; lia].
    - apply (mr_vsub Q 6 f f' 0 3 H). lia.
  Qed.
  Lemma mr_row i : i < n -> mrel Q 4 1 (DHrow b i) (DHrow b' i).
  Proof.
    intros Hi. unfold DHrow. replace 4 with (i * 4 + 4 - i * 4) at 1 by lia.
    eapply mr_vsub; eauto. lia.
  Qed.
  Lemma mr_dx i : i < n -> mrel Q 1 1 (dx_ b i) (dx_ b' i).
  Proof.
    intros Hi. unfold dx_. rewrite <- jtype_eq. destruct (is_P _) eqn:E.
    - apply mr_madd; auto; [eapply mr_vat; eauto using mr_row; lia|].
      destruct (mr_vat _ _ _ _ _ Hq Hi) as [A1 A2 A3 A4 A5 A6 _]. constructor; auto. intros k l _ _. apply Hqp; auto.
    - eapply mr_vat; eauto using mr_row; lia.
  Qed.
  Lemma mr_thx i : i < n -> mrel (fun _ _ => True) 1 1 (thx b i) (thx b' i).
  Proof.
    intros Hi. pose proof (mr_row i Hi) as [R1 R2 R3 R4 R5 R6 _].
    assert (HR : mrel (fun _ _ => True) 4 1 (DHrow b i) (DHrow b' i)) by (constructor; auto).
    unfold thx. rewrite <- jtype_eq. destruct (is_P _).
    - eapply mr_vat; eauto; lia.
    - apply mr_madd; [constructor; auto| |]; eapply mr_vat; eauto; lia.
  Qed.
  Lemma mr_Tlx i : i < n -> mrel Q 4 4 (Tlx b i) (Tlx b' i).
  Proof.
    intros Hi. unfold Tlx.
    assert (HRx : mrel Q 3 3 (R_x (vat (DHrow b i) 1)) (R_x (vat (DHrow b' i) 1))).
    { apply mr_R_x; [eapply mr_vat; eauto using mr_row; lia|]. apply (Hta i Hi). }
    apply mr_homog.
    - eapply mr_mtimes; eauto. eapply mr_R_z; [apply mr_thx; auto|auto].
    - apply mr_madd; auto.
      + eapply mr_mtimes; eauto. apply mr_set_at; try lia; [apply mr_zeros; auto|apply mr_dx; auto].
      + apply mr_set_at; try lia; [apply mr_zeros; auto|]. eapply mr_vat; eauto using mr_row; lia.
  Qed.
  Lemma mr_T0x i : i <= n -> mrel Q 4 4 (T0x b i) (T0x b' i).
  Proof.
    induction i; intros Hi; cbn [T0x].
    - apply mr_get_transform; auto.
    - eapply mr_mtimes; eauto; [apply IHi; lia | apply mr_Tlx; lia].
  Qed.
  Lemma mr_Teex : mrel Q 4 4 (Teex b) (Teex b').
  Proof.
    unfold Teex. rewrite Hn, Hn'. eapply mr_mtimes; eauto; [apply mr_T0x; auto|]. apply mr_get_transform; auto.
  Qed.
  Lemma mr_rot T T' : mrel Q 4 4 T T' -> mrel Q 3 3 (rot_of T) (rot_of T').
  Proof. intros H. apply (mr_sub Q 4 4 T T' 0 3 0 3 H); lia. Qed.
  Lemma mr_tra T T' : mrel Q 4 4 T T' -> mrel Q 3 1 (tra_of T) (tra_of T').
  Proof. intros H. apply (mr_sub Q 4 4 T T' 0 3 3 4 H); lia. Qed.
  Lemma mr_axis T T' : mrel Q 4 4 T T' -> mrel Q 3 1 (axis_of T) (axis_of T').
  Proof. intros H. apply (mr_sub Q 4 4 T T' 0 3 2 3 H); lia. Qed.

  Definition prel (J J' : sx * sx) : Prop := mrel Q 3 n (fst J) (fst J') /\ mrel Q 3 n (snd J) (snd J').
  Lemma pr_jcol O O' j J J' : j < n -> mrel Q 3 1 O O' -> prel J J' -> prel (jcol b O j J) (jcol b' O' j J').
  Proof.
    intros Hj HO [H1 H2]. unfold jcol. destruct J as [Jp Jo], J' as [Jp' Jo']. simpl in H1, H2.
    assert (HT : mrel Q 4 4 (T0x b (j + 1)) (T0x b' (j + 1))) by (apply mr_T0x; lia).
    rewrite <- jtype_eq. destruct (is_P _); split; simpl; auto.
    - eapply (mr_set_block Q 3 n _ _ 0 j 3 1); auto using mr_axis; lia.
    - eapply (mr_set_block Q 3 n _ _ 0 j 3 1); auto; try lia. apply (mr_mtimes Q HQ 3 3 1).
      + apply mr_hat; auto using mr_axis.
      + apply mr_msub; auto using mr_tra.
    - eapply (mr_set_block Q 3 n _ _ 0 j 3 1); auto using mr_axis; lia.
  Qed.
  Lemma pr_for k O O' J J' : k <= n -> mrel Q 3 1 O O' -> prel J J' ->
    prel (for_ k 0 (jcol b O) J) (for_ k 0 (jcol b' O') J').
  Proof. intros Hk HO HJ. apply for_rel; auto. intros i x x' Hi Hx. apply pr_jcol; auto. lia. Qed.

  Lemma pr_jstep_lt i J J' : i < n -> prel J J' -> prel (jstep b i J) (jstep b' i J').
  Proof.
    intros Hi HJ. unfold jstep. rewrite Hn, Hn'.
    assert (E : Nat.ltb i n = true) by (apply Nat.ltb_lt; auto).
    assert (E2 : Nat.eqb i n = false) by (apply Nat.eqb_neq; lia).
    rewrite E, E2.
    assert (HT : mrel Q 4 4 (T0x b (i + 1)) (T0x b' (i + 1))) by (apply mr_T0x; lia).
    assert (HF := pr_for (i + 1) _ _ J J' ltac:(lia) (mr_tra _ _ HT) HJ).
    destruct (for_ (i + 1) 0 (jcol b (tra_of (T0x b (i + 1)))) J) as [Jp Jo].
    destruct (for_ (i + 1) 0 (jcol b' (tra_of (T0x b' (i + 1)))) J') as [Jp' Jo'].
    exact HF.
  Qed.
  Lemma pr_jstep_n J J' : 1 <= n -> prel J J' -> prel (jstep b n J) (jstep b' n J').
  Proof.
    intros H1 HJ. unfold jstep. rewrite Hn, Hn'. rewrite Nat.ltb_irrefl, Nat.eqb_refl.
    set (im := n - 1).
    assert (Him : im + 1 <= n) by (unfold im; lia).
    assert (HT : mrel Q 4 4 (T0x b (im + 1)) (T0x b' (im + 1))) by (apply mr_T0x; auto).
    assert (HF := pr_for (im + 1) _ _ J J' Him (mr_tra _ _ HT) HJ).
    destruct (for_ (im + 1) 0 (jcol b (tra_of (T0x b (im + 1)))) J) as [Jp Jo].
    destruct (for_ (im + 1) 0 (jcol b' (tra_of (T0x b' (im + 1)))) J') as [Jp' Jo'].
    destruct HF as [F1 F2]; simpl in F1, F2. split; simpl; auto.
    apply mr_msub; auto.
    unfold mtimes4, mtimes3. eapply mr_mtimes; eauto.
    eapply mr_mtimes; eauto; [eapply mr_mtimes; eauto|apply mr_mT; apply mr_rot; auto].
    - apply mr_rot; auto.
    - apply mr_hat; auto. apply mr_tra. apply mr_get_transform; auto.
  Qed.
  Lemma pr_Jst i : i <= n -> prel (Jst b i) (Jst b' i).
  Proof.
    induction i; intros Hi; cbn [Jst].
    - rewrite Hn, Hn'. split; apply mr_zeros; auto.
    - apply pr_jstep_lt; try lia. apply IHi; lia.
  Qed.
  Lemma mr_Jx i : i < n -> mrel Q 6 n (Jx b i) (Jx b' i).
  Proof.
    intros Hi. unfold Jx. destruct (pr_Jst (S i) ltac:(lia)) as [A B].
    destruct (Jst b (S i)), (Jst b' (S i)). apply (mr_vertcat2 Q 3 3); auto.
  Qed.
  Lemma mr_Jeex : 1 <= n -> mrel Q 6 n (Jeex b) (Jeex b').
  Proof.
    intros H1. unfold Jeex. rewrite Hn, Hn'. unfold Jx. cbn [Jst].
    destruct (pr_jstep_n _ _ H1 (pr_Jst n ltac:(lia))) as [A B].
    destruct (jstep b n (Jst b n)), (jstep b' n (Jst b' n)). apply (mr_vertcat2 Q 3 3); auto.
  Qed.

  (* differentiation in the joint variables *)
  Variable st : sym -> Prop.
  Hypothesis Hd : forall v a a', st v -> Q a a' -> Q (diff v a) (diff v a').
  Hypothesis Hst : forall i nm, In nm ["q"; "dq"; "ddq"] -> st (nm, i).
  Hypothesis Sq : symvec "q" n (mdl b "q").
  Hypothesis Sq' : symvec "q" n (mdl b' "q").
  Hypothesis Sdq : symvec "dq" n (mdl b "dq").
  Hypothesis Sdq' : symvec "dq" n (mdl b' "dq").
  Hypothesis Sddq : symvec "ddq" n (mdl b "ddq").
  Hypothesis Sddq' : symvec "ddq" n (mdl b' "ddq").

  Lemma mr_jt_q r c e e' v v' : mrel Q r c e e' -> mrel Q n 1 v v' ->
    mrel Q r c (jtimes e (mdl b "q") v) (jtimes e' (mdl b' "q") v').
  Proof. intros. eapply mr_jtimes; eauto. intros; apply Hst; simpl; auto. Qed.
  Lemma mr_jt_dq r c e e' v v' : mrel Q r c e e' -> mrel Q n 1 v v' ->
    mrel Q r c (jtimes e (mdl b "dq") v) (jtimes e' (mdl b' "dq") v').
  Proof. intros. eapply mr_jtimes; eauto. intros; apply Hst; simpl; auto. Qed.
  Lemma mr_jt_ddq r c e e' v v' : mrel Q r c e e' -> mrel Q n 1 v v' ->
    mrel Q r c (jtimes e (mdl b "ddq") v) (jtimes e' (mdl b' "ddq") v').
  Proof. intros. eapply mr_jtimes; eauto. intros; apply Hst; simpl; auto. Qed.

  Lemma mr_Jeedotx : 1 <= n -> mrel Q 6 n (Jeedotx b) (Jeedotx b').
  Proof. intros. apply mr_jt_q; auto using mr_Jeex. Qed.
  Lemma mr_Jeeddotx : 1 <= n -> mrel Q 6 n (Jeeddotx b) (Jeeddotx b').
  Proof.
    intros. apply mr_madd; auto; [apply mr_jt_q | apply mr_jt_dq]; auto using mr_Jeedotx.
  Qed.
  Lemma mr_damped : 1 <= n -> mrel Q 6 6 (damped b) (damped b').
  Proof.
    intros. unfold damped. apply mr_madd; auto.
    - eapply mr_mtimes; eauto using mr_Jeex. apply mr_mT; auto using mr_Jeex.
    - apply mr_scale_r; auto; [apply mr_scal, (q_cst Q HQ) | apply mr_eye; auto].
  Qed.
  Lemma mr_Jeepinvx :
    (forall a b a' b', Q a a' -> Q b b' -> Q (Div a b) (Div a' b')) ->
    1 <= n -> mrel Q n 6 (Jeepinvx b) (Jeepinvx b').
  Proof.
    intros Hdiv H1. unfold Jeepinvx. eapply mr_mtimes; eauto.
    - apply mr_mT, mr_Jeex; auto.
    - apply mr_inv; auto using mr_damped.
  Qed.

  (* centre of mass *)
  Lemma mr_par_at i k : i < n -> k < 10 -> forall m, m = i * STD_PAR_LINK + k ->
    mrel Q 1 1 (mat_at (mdl b "par_DYN") m 0) (mat_at (mdl b' "par_DYN") m 0).
  Proof. intros Hi Hk m ->. unfold STD_PAR_LINK. eapply mr_mat_at; eauto; lia. Qed.
  Lemma mr_par_com i : i < n -> mrel Q 3 1 (par_com (mdl b "par_DYN") i) (par_com (mdl b' "par_DYN") i).
  Proof.
    intros Hi. unfold par_com.
    apply mr_set_at; try lia; [apply mr_set_at; try lia; [apply mr_set_at; try lia; [apply mr_zeros; auto|]|]|].
    - apply (mr_par_at i 1); auto; lia.
    - apply (mr_par_at i 2); auto; lia.
    - apply (mr_par_at i 3); auto; lia.
  Qed.
  Lemma mr_par_mass i : i < n -> mrel Q 1 1 (par_mass (mdl b "par_DYN") i) (par_mass (mdl b' "par_DYN") i).
  Proof. intros Hi. unfold par_mass. apply (mr_par_at i 0); auto; lia. Qed.
  Lemma mr_par_inertia i : i < n -> mrel Q 3 3 (par_inertia (mdl b "par_DYN") i) (par_inertia (mdl b' "par_DYN") i).
  Proof.
    intros Hi. unfold par_inertia.
    assert (H : forall k m, k < 10 -> m = i * STD_PAR_LINK + k ->
        mrel Q 1 1 (mat_at (mdl b "par_DYN") m 0) (mat_at (mdl b' "par_DYN") m 0)).
    { intros. eapply mr_par_at; eauto. }
    repeat first
      [ apply mr_zeros; exact HQ
      | eapply H; [|reflexivity]; lia
      | apply mr_set_at; [| |lia|lia]
      | apply (mr_mat_at Q 3 3); [|lia|lia] ].
  Qed.
  Lemma mr_OCx i : i < n -> mrel Q 3 1 (OCx b i) (OCx b' i).
  Proof.
    intros Hi. unfold OCx.
    assert (HT : mrel Q 4 4 (T0x b (i + 1)) (T0x b' (i + 1))) by (apply mr_T0x; lia).
    apply mr_madd; auto using mr_tra. eapply mr_mtimes; eauto using mr_rot, mr_par_com.
  Qed.
  Lemma pr_Cst_ i : i <= n -> prel (Cst_ b i) (Cst_ b' i).
  Proof.
    induction i; intros Hi; cbn [Cst_].
    - rewrite Hn, Hn'. split; apply mr_zeros; auto.
    - unfold cstep. apply pr_for; try lia; [apply mr_OCx; lia | apply IHi; lia].
  Qed.
  Lemma mr_Jcv i : i < n -> mrel Q 3 n (Jcv b i) (Jcv b' i).
  Proof. intros. apply pr_Cst_; lia. Qed.
  Lemma mr_Jcw i : i < n -> mrel Q 3 n (Jcw b i) (Jcw b' i).
  Proof. intros. apply pr_Cst_; lia. Qed.
  Lemma mr_Jcmx i : i < n -> mrel Q 6 n (Jcmx b i) (Jcmx b' i).
  Proof. intros. apply (mr_vertcat2 Q 3 3); [apply mr_Jcv | apply mr_Jcw]; auto. Qed.

  (* mass matrix and gravity *)
  Lemma mr_mt5 r k1 k2 k3 k4 c A A' B B' C C' D D' E E' :
    mrel Q r k1 A A' -> mrel Q k1 k2 B B' -> mrel Q k2 k3 C C' -> mrel Q k3 k4 D D' -> mrel Q k4 c E E' ->
    mrel Q r c (mtimes5 A B C D E) (mtimes5 A' B' C' D' E').
  Proof. intros. unfold mtimes5, mtimes4, mtimes3. repeat (eapply mr_mtimes; eauto). Qed.
  Lemma mr_Mix i : i < n -> mrel Q n n (Mix b i) (Mix b' i).
  Proof.
    intros Hi. unfold Mix.
    assert (HT : mrel Q 3 3 (rot_of (T0x b (i + 1))) (rot_of (T0x b' (i + 1)))) by (apply mr_rot, mr_T0x; lia).
    apply mr_madd; auto.
    - apply mr_scale; auto using mr_par_mass. eapply mr_mtimes; eauto using mr_Jcv. apply mr_mT, mr_Jcv; auto.
    - eapply mr_mt5; eauto using mr_par_inertia, mr_mT, mr_Jcw.
  Qed.
  Lemma mr_Gix i : i < n -> mrel Q n 1 (Gix b i) (Gix b' i).
  Proof.
    intros Hi. unfold Gix. apply mr_mT, mr_scale; auto.
    - apply mr_mneg; auto using mr_par_mass.
    - eapply mr_mtimes; eauto using mr_Jcv. apply mr_mT; eauto.
  Qed.
  Lemma mr_MGx1 k : k <= n -> mrel Q n n (fst (MGx b k)) (fst (MGx b' k)).
  Proof.
    induction k; intros Hk; cbn [MGx].
    - rewrite Hn, Hn'. apply mr_zeros; auto.
    - specialize (IHk ltac:(lia)). destruct (MGx b k), (MGx b' k). simpl in *.
      apply mr_madd; auto. apply mr_Mix; lia.
  Qed.
  Lemma mr_MGx2 k : k <= n -> mrel Q n 1 (snd (MGx b k)) (snd (MGx b' k)).
  Proof.
    induction k; intros Hk; cbn [MGx].
    - rewrite Hn, Hn'. apply mr_zeros; auto.
    - specialize (IHk ltac:(lia)). destruct (MGx b k), (MGx b' k). simpl in *.
      apply mr_madd; auto. apply mr_Gix; lia.
  Qed.
  Lemma mr_Mx : mrel Q n n (Mx b) (Mx b').
  Proof. unfold Mx. rewrite Hn, Hn'. apply mr_MGx1; auto. Qed.
  Lemma mr_Gx : mrel Q n 1 (Gx b) (Gx b').
  Proof. unfold Gx. rewrite Hn, Hn'. apply mr_MGx2; auto. Qed.

  Lemma mr_dq_select_loop k i m m' v v' : i + k <= n -> mrel Q n 1 v v' -> mrel Q n (n * n) m m' ->
    mrel Q n (n * n) (dq_select_loop k i n v m) (dq_select_loop k i n v' m').
  Proof.
    revert i m m'. induction k; intros i m m' Hi Hv Hm; simpl; auto.
    apply IHk; auto; [lia|]. eapply (mr_set_block Q n (n * n) _ _ 0 (i * n) n n); auto; try lia; try nia.
    apply mr_scale_r; auto; [apply (mr_vat Q n); auto; lia | apply mr_eye; auto].
  Qed.
  Lemma mr_dqsel : mrel Q n (n * n) (dqsel b) (dqsel b').
  Proof.
    unfold dqsel, dq_select. rewrite (mr_r _ _ _ _ _ Hdq), (mr_r' _ _ _ _ _ Hdq).
    apply mr_dq_select_loop; auto. apply mr_zeros; auto.
  Qed.
  Lemma mr_stdC M M' : mrel Q n n M M' ->
    mrel Q n n (stdCmatrix M (mdl b "q") (mdl b "dq") (dqsel b)) (stdCmatrix M' (mdl b' "q") (mdl b' "dq") (dqsel b')).
  Proof.
    intros HM. unfold stdCmatrix. rewrite (mr_r _ _ _ _ _ Hq), (mr_r' _ _ _ _ _ Hq).
    assert (HJ : mrel Q (n * n) n (jacobian M (mdl b "q")) (jacobian M' (mdl b' "q"))).
    { eapply mr_jacobian; eauto. intros; apply Hst; simpl; auto. }
    assert (H132 := mr_mtimes Q HQ _ _ _ _ _ _ _ mr_dqsel HJ).
    apply mr_mdivc; auto. apply mr_msub; auto; [apply mr_madd; auto|apply mr_mT; auto].
    eapply mr_reshape; [eapply mr_mtimes; eauto|]. lia.
  Qed.
  Lemma mr_Cx : mrel Q n n (Cx b) (Cx b').
  Proof. apply mr_stdC, mr_Mx. Qed.
  Lemma mr_classic_term M M' h j k S S' : mrel Q n n M M' -> h < n -> j < n -> k < n ->
    mrel Q n n (fst S) (fst S') /\ mrel Q n n (snd S) (snd S') ->
    mrel Q n n (fst (classic_term M (mdl b "q") (mdl b "dq") h j k S)) (fst (classic_term M' (mdl b' "q") (mdl b' "dq") h j k S')) /\
    mrel Q n n (snd (classic_term M (mdl b "q") (mdl b "dq") h j k S)) (snd (classic_term M' (mdl b' "q") (mdl b' "dq") h j k S')).
  Proof.
    intros HM Hh Hj Hk [A B]. destruct S as [C1 C2], S' as [C1' C2']. simpl in A, B. unfold classic_term. simpl.
    assert (Hat : forall k, k < n -> symvec "q" n (mdl b "q") -> forall m m', mrel Q 1 1 m m' ->
              mrel Q 1 1 (jacobian m (vat (mdl b "q") k)) (jacobian m' (vat (mdl b' "q") k))).
    { intros k0 Hk0 _ m m' Hmm. mr_unfold Hmm.
      destruct Sq as [S1 S2 S3 S4], Sq' as [S1' S2' S3' S4'].
      constructor; simpl; rewrite ?Hr, ?Hc, ?Ho, ?Hr', ?Hc', ?Ho', ?S1, ?S2, ?S3, ?S1', ?S2', ?S3'; auto.
      - unfold all_syms; simpl. rewrite S4 by auto. simpl. bsolve.
      - unfold all_syms; simpl. rewrite S4' by auto. simpl. bsolve.
      - intros i j0 Hi Hj0. unfold diff_wrt; simpl. rewrite S4, S4' by auto. simpl.
        replace i with 0 by lia. simpl. apply Hd; [apply Hst; simpl; auto|]. apply He; lia. }
    assert (Hhalf : mrel Q 1 1 (scal (Cst (1 / 2)%R)) (scal (Cst (1 / 2)%R))) by (apply mr_scal, (q_cst Q HQ)).
    split; apply mr_set_at; auto; apply mr_madd; auto;
      try (eapply mr_mat_at; eauto; fail);
      apply mr_scale; auto; try (eapply mr_vat; eauto; fail); apply mr_scale; auto; apply Hat; auto;
      eapply mr_mat_at; eauto.
  Qed.
  Lemma mr_Cstdx : mrel Q n n (Cstdx b) (Cstdx b').
  Proof.
    unfold Cstdx, stdCmatrix_classic. rewrite (mr_r _ _ _ _ _ Hq), (mr_r' _ _ _ _ _ Hq).
    set (P := fun S S' : sx * sx => mrel Q n n (fst S) (fst S') /\ mrel Q n n (snd S) (snd S')).
    match goal with |- mrel Q n n (let (_, _) := ?A in _) (let (_, _) := ?A' in _) => assert (HP : P A A') end.
    { apply for_rel; [split; apply mr_zeros; auto|]. intros h X X' Hh HX.
      apply for_rel; auto. intros j Y Y' Hj HY. apply for_rel; auto. intros k Z Z' Hk HZ.
      apply mr_classic_term; auto using mr_Mx; lia. }
    destruct HP as [HA HB].
    match goal with |- mrel Q n n (let (_, _) := ?A in _) (let (_, _) := ?A' in _) => destruct A, A' end.
    simpl in HA, HB. apply mr_msub; auto; [apply mr_madd; auto|apply mr_mT; auto].
  Qed.

  Lemma mr_Mdotx : mrel Q n n (Mdotx b) (Mdotx b').
  Proof. apply mr_jt_q; auto using mr_Mx. Qed.
  Lemma mr_Mddotx : mrel Q n n (Mddotx b) (Mddotx b').
  Proof. apply mr_madd; auto; [apply mr_jt_q | apply mr_jt_dq]; auto using mr_Mdotx. Qed.
  Lemma mr_Cdotx : mrel Q n n (Cdotx b) (Cdotx b').
  Proof. apply mr_madd; auto; [apply mr_jt_q | apply mr_jt_dq]; auto using mr_Cx. Qed.
  Lemma mr_Cddotx : mrel Q n n (Cddotx b) (Cddotx b').
  Proof.
    apply mr_madd; auto; [apply mr_madd; auto; [apply mr_jt_q | apply mr_jt_dq] | apply mr_jt_ddq]; auto using mr_Cdotx.
  Qed.
  Lemma mr_Gdotx : mrel Q n 1 (Gdotx b) (Gdotx b').
  Proof. apply mr_jt_q; auto using mr_Gx. Qed.
  Lemma mr_Gddotx : mrel Q n 1 (Gddotx b) (Gddotx b').
  Proof. apply mr_madd; auto; [apply mr_jt_q | apply mr_jt_dq]; auto using mr_Gdotx. Qed.

  (* regressors *)
  Lemma mr_Q_ l : mrel Q 3 3 (Q_ l) (Q_ l).
  Proof.
    constructor; simpl; auto. intros i j Hi Hj.
    destruct l as [|[|[|l]]], i as [|[|[|i]]], j as [|[|[|j]]]; try lia; apply (q_cst Q HQ).
  Qed.
  Lemma mr_E_ l : mrel Q 3 3 (E_ l) (E_ l).
  Proof.
    constructor; simpl; auto. intros i j Hi Hj.
    destruct l as [|[|[|[|[|[|l]]]]]], i as [|[|[|i]]], j as [|[|[|j]]]; try lia; apply (q_cst Q HQ).
  Qed.
  Lemma mr_Jvx i : i < n -> mrel Q 3 n (Jvx b i) (Jvx b' i).
  Proof.
    intros Hi. unfold Jvx. rewrite Hn, Hn'.
    assert (H := mr_sub Q 6 n (Jx b i) (Jx b' i) 0 3 0 n (mr_Jx i Hi) ltac:(lia) ltac:(lia)).
    rewrite (Nat.sub_0_r n) in H. exact H.
  Qed.
  Lemma mr_Jwx i : i < n -> mrel Q 3 n (Jwx b i) (Jwx b' i).
  Proof.
    intros Hi. unfold Jwx. rewrite Hn, Hn'.
    assert (H := mr_sub Q 6 n (Jx b i) (Jx b' i) 3 6 0 n (mr_Jx i Hi) ltac:(lia) ltac:(lia)).
    rewrite (Nat.sub_0_r n) in H. exact H.
  Qed.
  Lemma mr_R0x i : i < n -> mrel Q 3 3 (R0x b i) (R0x b' i).
  Proof. intros. apply mr_rot, mr_T0x; lia. Qed.
  Lemma mr_M0x i : i < n -> mrel Q n n (M0x b i) (M0x b' i).
  Proof. intros. eapply mr_mtimes; eauto using mr_Jvx. apply mr_mT, mr_Jvx; auto. Qed.
  Lemma mr_M1x i l : i < n -> mrel Q n n (M1x b i l) (M1x b' i l).
  Proof.
    intros. apply mr_msub; auto; eapply mr_mt5; eauto using mr_mT, mr_Jvx, mr_Jwx, mr_R0x, mr_Q_.
  Qed.
  Lemma mr_M2x i l : i < n -> mrel Q n n (M2x b i l) (M2x b' i l).
  Proof. intros. eapply mr_mt5; eauto using mr_mT, mr_Jwx, mr_R0x, mr_E_. Qed.
  Lemma mr_dX0 i : i < n -> mrel Q n 1 (dX0 b i) (dX0 b' i).
  Proof. intros. eapply mr_mtimes; eauto using mr_M0x. Qed.
  Lemma mr_CofM M M' : mrel Q n n M M' -> mrel Q n n (CofM b M) (CofM b' M').
  Proof. apply mr_stdC. Qed.
  Lemma mr_W0 i : i < n -> mrel Q n 1 (W0 b i) (W0 b' i).
  Proof. intros. apply mr_mneg; auto. eapply mr_mtimes; eauto. apply mr_CofM, mr_M0x; auto. Qed.
  Lemma mr_Z0 i : i < n -> mrel Q n 1 (Z0 b i) (Z0 b' i).
  Proof. intros. apply mr_mneg; auto. eapply mr_mtimes; eauto. apply mr_mT, mr_Jvx; auto. Qed.
  Lemma mr_st1M i : i < n -> mrel Q n 3 (fst (st1 b i)) (fst (st1 b' i)).
  Proof.
    intros Hi. unfold st1. rewrite Hn, Hn'.
    apply (for_rel (fun S S' : sx * sx => mrel Q n 3 (fst S) (fst S'))).
    - apply mr_zeros; auto.
    - intros l [X W] [X' W'] Hl A. simpl in *.
      assert (HM := mr_M1x i l Hi).
      apply (mr_set_block Q n 3 _ _ 0 l n 1); auto; try lia. apply (mr_mtimes Q HQ n n 1); auto.
  Qed.
  Lemma mr_st1C i : i < n -> mrel Q n 3 (snd (st1 b i)) (snd (st1 b' i)).
  Proof.
    intros Hi. unfold st1. rewrite Hn, Hn'.
    apply (for_rel (fun S S' : sx * sx => mrel Q n 3 (snd S) (snd S'))).
    - apply mr_zeros; auto.
    - intros l [X W] [X' W'] Hl A. simpl in *.
      assert (HM := mr_M1x i l Hi).
      apply (mr_set_block Q n 3 _ _ 0 l n 1); auto; try lia. apply mr_mneg; auto. apply (mr_mtimes Q HQ n n 1); auto using mr_CofM.
  Qed.
  Lemma mr_st2M i : i < n -> mrel Q n 6 (fst (st2 b i)) (fst (st2 b' i)).
  Proof.
    intros Hi. unfold st2. rewrite Hn, Hn'.
    apply (for_rel (fun S S' : sx * sx => mrel Q n 6 (fst S) (fst S'))).
    - apply mr_zeros; auto.
    - intros l [X W] [X' W'] Hl A. simpl in *.
      assert (HM := mr_M2x i l Hi).
      apply (mr_set_block Q n 6 _ _ 0 l n 1); auto; try lia. apply (mr_mtimes Q HQ n n 1); auto.
  Qed.
  Lemma mr_st2C i : i < n -> mrel Q n 6 (snd (st2 b i)) (snd (st2 b' i)).
  Proof.
    intros Hi. unfold st2. rewrite Hn, Hn'.
    apply (for_rel (fun S S' : sx * sx => mrel Q n 6 (snd S) (snd S'))).
    - apply mr_zeros; auto.
    - intros l [X W] [X' W'] Hl A. simpl in *.
      assert (HM := mr_M2x i l Hi).
      apply (mr_set_block Q n 6 _ _ 0 l n 1); auto; try lia. apply mr_mneg; auto. apply (mr_mtimes Q HQ n n 1); auto using mr_CofM.
  Qed.
  Lemma mr_Z1 i : i < n -> mrel Q n 3 (Z1 b i) (Z1 b' i).
  Proof.
    intros Hi. apply mr_mneg; auto. apply mr_mT.
    apply (mr_jacobian Q st Hd 3 1 n "q"); auto.
    - eapply mr_mtimes; eauto. apply mr_mT, mr_R0x; auto.
    - intros; apply Hst; simpl; auto.
  Qed.
  Lemma mr_hc3 A A' B B' C C' : mrel Q n 1 A A' -> mrel Q n 3 B B' -> mrel Q n 6 C C' ->
    mrel Q n 10 (horzcat3 A B C) (horzcat3 A' B' C').
  Proof. intros. apply (mr_horzcat2 Q n 4 6); auto. apply (mr_horzcat2 Q n 1 3); auto. Qed.
  Lemma mr_regMi i : i < n -> mrel Q n 10 (regMi b i) (regMi b' i).
  Proof. intros H. apply mr_hc3; [exact (mr_dX0 i H) | exact (mr_st1M i H) | exact (mr_st2M i H)]. Qed.
  Lemma mr_regCi i : i < n -> mrel Q n 10 (regCi b i) (regCi b' i).
  Proof.
    intros H. apply mr_hc3; apply mr_mneg; [exact HQ | exact (mr_W0 i H) | exact HQ | exact (mr_st1C i H)
      | exact HQ | exact (mr_st2C i H)].
  Qed.
  Lemma mr_regGi i : i < n -> mrel Q n 10 (regGi b i) (regGi b' i).
  Proof.
    intros H. unfold regGi. rewrite Hn, Hn'.
    apply mr_hc3; [exact (mr_Z0 i H) | exact (mr_Z1 i H) | apply mr_zeros; exact HQ].
  Qed.
  Lemma mr_Yri i : i < n -> mrel Q n 10 (Yri b i) (Yri b' i).
  Proof.
    intros Hi. apply mr_hc3.
    - apply mr_madd; [exact HQ| |exact (mr_Z0 i Hi)]. apply mr_msub; [exact HQ|exact (mr_dX0 i Hi)|exact (mr_W0 i Hi)].
    - apply mr_madd; [exact HQ| |exact (mr_Z1 i Hi)].
      apply mr_msub; [exact HQ|exact (mr_st1M i Hi)|exact (mr_st1C i Hi)].
    - apply mr_msub; [exact HQ|exact (mr_st2M i Hi)|exact (mr_st2C i Hi)].
  Qed.
  Lemma mr_blocks f f' k : k <= n -> (forall i, i < n -> mrel Q n 10 (f i) (f' i)) ->
    mrel Q n (10 * n) (blocks b k f) (blocks b' k f').
  Proof.
    intros Hk H. induction k; cbn [blocks].
    - rewrite Hn, Hn'. apply mr_zeros; auto.
    - eapply mr_set_block; [apply IHk; lia | apply H; lia | lia |]. unfold STD_PAR_LINK. lia.
  Qed.
  Lemma mr_Yrx : mrel Q n (10 * n) (Yrx b) (Yrx b').
  Proof. unfold Yrx. rewrite Hn, Hn'. apply mr_blocks; auto using mr_Yri. Qed.
  Lemma mr_regMx : mrel Q n (10 * n) (regMx b) (regMx b').
  Proof. unfold regMx. rewrite Hn, Hn'. apply mr_blocks; auto using mr_regMi. Qed.
  Lemma mr_regCx : mrel Q n (10 * n) (regCx b) (regCx b').
  Proof. unfold regCx. rewrite Hn, Hn'. apply mr_blocks; auto using mr_regCi. Qed.
  Lemma mr_regGx : mrel Q n (10 * n) (regGx b) (regGx b').
  Proof. unfold regGx. rewrite Hn, Hn'. apply mr_blocks; auto using mr_regGi. Qed.
End PureRel.
