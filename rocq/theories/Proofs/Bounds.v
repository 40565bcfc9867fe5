(* Bounds that hold in every state: of all published functions for bounded parameters, of the Coriolis matrix in
   terms of the velocities, of the inertia from below, of the damped pseudo-inverse absolutely. *)
From Coq Require Import Reals Lra Lia Arith List String Bool ZArith Psatz.
From Coquelicot Require Import Coquelicot.
From Verif.Model Require Import Base Expr SX Robot Kinematics Dynamics Regressors Yaml Build.
From Verif.Spec Require Import Math Setup Kinematics Dynamics Damped Api Tail Defined Bounds.
From Verif.Proofs Require Import Sums Calc Rel Lin3 Frames Pure PureRel Maps Names Shape Dims Sizes Deps BuildEq BuildReg Load Init Final Closed Get Kin KinThm Near Mass DynMain Determinant Damped Smooth Coriolis Select Lagrange Catalogue SortedMaps Api Tail Turns Defined.
Import ListNotations.
Open Scope nat_scope.
Open Scope string_scope.

(* ---- formulas ---- *)
(* divisions only by constants *)
Fixpoint divc (e : expr) : Prop :=
  match e with
  | Cst _ | Var _ => True
  | Add a b | Sub a b | Mul a b => divc a /\ divc b
  | Div a b => divc a /\ exists r, b = Cst r
  | Opp a | Sin a | Cos a | Pow a _ | Sqrt a => divc a
  end.
Lemma divc_diff (act : sym -> Prop) v e : act v -> poly act e -> divc e -> divc (diff v e).
Proof.
  intros Hv. induction e; cbn [poly divc diff]; intros P H; auto.
  - destruct (sym_eqb v s); exact I.
  - destruct P, H. destruct (occurs v e1), (occurs v e2); simpl; auto.
  - destruct P, H. destruct (occurs v e1), (occurs v e2); simpl; auto.
  - destruct P, H. destruct (occurs v e1), (occurs v e2); simpl; auto.
  - destruct P as [P N], H as (H1 & r & ->). rewrite (N v Hv). destruct (occurs v e1); simpl; eauto.
  - destruct (occurs v e); simpl; auto.
  - destruct (occurs v e); simpl; auto.
  - destruct (occurs v e); simpl; auto.
  - rewrite (P v Hv). exact I.
  - destruct (occurs v e); simpl; auto.
Qed.
Lemma kept_divc : kept divc.
Proof.
  constructor; simpl; auto.
  - intros a r _ H. eauto.
  - intros act v e Hv P H. now apply (divc_diff act).
Qed.
Lemma not_turning_safe (t : sym -> Prop) e : (forall s, occurs s e = true -> ~ t s) -> safe t e.
Proof.
  assert (W : forall a c, (forall s, occurs s a || occurs s c = true -> ~ t s) ->
    (forall s, occurs s a = true -> ~ t s) /\ (forall s, occurs s c = true -> ~ t s)).
  { intros a c H. split; intros s Hs; apply H; rewrite Hs; auto using orb_true_r. }
  assert (G : forall a, safe t a -> match a with Add c (Var _) => safe t c | _ => safe t a end).
  { intros a H. destruct a; auto. destruct a2; auto. exact (proj1 H). }
  induction e; cbn [safe occurs]; intros H; auto; try (destruct (W _ _ H); split; auto; fail); try (apply G; auto; fail).
  apply H. apply sym_eqb_refl.
Qed.
Lemma safe_bounded (t : sym -> Prop) (L : R) e : safe t e -> divc e -> exists B, forall env,
  (forall s, occurs s e = true -> ~ t s -> (Rabs (env s) <= L)%R) -> (Rabs (eval env e) <= B)%R.
Proof.
  assert (W : forall a c (env : sym -> R), (forall s, occurs s a || occurs s c = true -> ~ t s -> (Rabs (env s) <= L)%R) ->
    (forall s, occurs s a = true -> ~ t s -> (Rabs (env s) <= L)%R) /\ (forall s, occurs s c = true -> ~ t s -> (Rabs (env s) <= L)%R)).
  { intros a c env H. split; intros s Hs; apply H; rewrite Hs; auto using orb_true_r. }
  induction e; cbn [safe divc occurs eval]; intros HS HD.
  - exists (Rabs r). intros; lra.
  - exists L. intros env H. apply H; auto. apply sym_eqb_refl.
  - destruct HS as [S1 S2], HD as [D1 D2]. destruct (IHe1 S1 D1) as [B1 H1]. destruct (IHe2 S2 D2) as [B2 H2]. exists (B1 + B2)%R.
    intros env H. destruct (W _ _ _ H) as [A1 A2]. eapply Rle_trans; [apply Rabs_triang|]. apply Rplus_le_compat; auto.
  - destruct HS as [S1 S2], HD as [D1 D2]. destruct (IHe1 S1 D1) as [B1 H1]. destruct (IHe2 S2 D2) as [B2 H2]. exists (B1 + B2)%R.
    intros env H. destruct (W _ _ _ H) as [A1 A2]. unfold Rminus. eapply Rle_trans; [apply Rabs_triang|]. rewrite Rabs_Ropp. apply Rplus_le_compat; auto.
  - destruct HS as [S1 S2], HD as [D1 D2]. destruct (IHe1 S1 D1) as [B1 H1]. destruct (IHe2 S2 D2) as [B2 H2]. exists (B1 * B2)%R.
    intros env H. destruct (W _ _ _ H) as [A1 A2]. rewrite Rabs_mult. apply Rmult_le_compat; auto using Rabs_pos.
  - destruct HS as [S1 S2], HD as (D1 & r & ->). destruct (IHe1 S1 D1) as [B1 H1]. exists (B1 * Rabs (/ r))%R.
    intros env H. destruct (W _ _ _ H) as [A1 A2]. cbn [eval]. unfold Rdiv. rewrite Rabs_mult. apply Rmult_le_compat; auto using Rabs_pos. lra.
  - destruct (IHe HS HD) as [B H]. exists B. intros env A. rewrite Rabs_Ropp. auto.
  - exists 1%R. intros env _. apply Rabs_le. apply SIN_bound.
  - exists 1%R. intros env _. apply Rabs_le. apply COS_bound.
  - destruct (IHe HS HD) as [B H]. exists (sqrt (Rabs B))%R. intros env A. rewrite Rabs_pos_eq by apply sqrt_pos.
    apply sqrt_le_1_alt. eapply Rle_trans; [apply Rle_abs|]. eapply Rle_trans; [apply (H env A)|apply Rle_abs].
  - destruct (IHe HS HD) as [B H]. exists (B ^ n)%R. intros env A. rewrite <- RPow_abs. apply pow_incr. split; [apply Rabs_pos|auto].
Qed.
Lemma rsum_le_one n (f : nat -> R) i : i < n -> (forall k, k < n -> (0 <= f k)%R) -> (f i <= rsum n f)%R.
Proof.
  induction n as [|n IH]; [lia|]. intros Hi H. cbn [rsum]. destruct (Nat.eq_dec i n) as [->|N].
  - pose proof (rsum_nonneg n f ltac:(intros; apply H; lia)). lra.
  - pose proof (IH ltac:(lia) ltac:(intros; apply H; lia)). pose proof (H n ltac:(lia)). lra.
Qed.
Lemma fin_bound {A} (P : A -> Prop) n (f : nat -> A -> R) : (forall i, i < n -> exists B, forall a, P a -> (Rabs (f i a) <= B)%R) ->
  exists B, (0 <= B)%R /\ forall i a, i < n -> P a -> (Rabs (f i a) <= B)%R.
Proof.
  induction n as [|n IH]; intros H; [exists 0%R; split; [lra|intros; lia]|].
  destruct IH as (B & HB & G); [auto|]. destruct (H n) as [B1 H1]; [lia|]. exists (Rmax B B1). split.
  - eapply Rle_trans; [exact HB|apply Rmax_l].
  - intros i a Hi Pa. destruct (Nat.eq_dec i n) as [->|N].
    + eapply Rle_trans; [apply H1; auto|apply Rmax_r].
    + eapply Rle_trans; [apply G; auto; lia|apply Rmax_l].
Qed.
Lemma fin_bound2 {A} (P : A -> Prop) n m (f : nat -> nat -> A -> R) :
  (forall i j, i < n -> j < m -> exists B, forall a, P a -> (Rabs (f i j a) <= B)%R) ->
  exists B, (0 <= B)%R /\ forall i j a, i < n -> j < m -> P a -> (Rabs (f i j a) <= B)%R.
Proof.
  intros H.
  destruct (fin_bound (fun q : nat * A => fst q < m /\ P (snd q)) n (fun i q => f i (fst q) (snd q))) as (B & HB & G).
  - intros i Hi. destruct (fin_bound P m (f i)) as (B & _ & G); [intros; apply H; auto|]. exists B. intros [j a] [Hj Pa]. apply G; auto.
  - exists B. split; auto. intros i j a Hi Hj Pa. apply (G i (j, a)); auto.
Qed.

(* ---- the published functions ---- *)
Section Fun.
  Variables (cv : cvals) (b : robot).
  Hypothesis Hb : base cv b.
  Lemma isym_key f s : enabled b f -> isym b f s -> exists k m len, In k (alist b f) /\ In (k, len) (keys b) /\ m < len /\
    flag_set (nth m (flags b k) 0%Z) = true /\ s = (symname k, m).
  Proof.
    intros He HI. unfold isym in HI. apply in_flat_map in HI. destruct HI as (k & Hk & HI).
    unfold isyms in HI. apply in_map_iff in HI. destruct HI as (m & <- & Hm).
    destruct (deps_keys b f k He (alist_deps _ _ _ Hk)) as [len Hlen]. exists k, m, len.
    apply in_fidx in Hm. destruct Hm as [Hm Hf]. rewrite (ps_fl _ _ _ _ (bs_shape _ _ Hb k len Hlen)) in Hm. auto.
  Qed.
  Lemma sym_q k len : In (k, len) (keys b) -> symname k = "q" -> k = "q".
  Proof. intros Hk E. apply symname_inj; [eapply keys_arg; eauto|eapply keys_arg; apply (in_keys_q b)|exact E]. Qed.
  Lemma val_safe f : spring f = false -> enabled b f -> forall i j, i < vrows b f -> j < vcols b f -> safe (turning b) (el (val b f) i j).
  Proof.
    intros Hs He i j Hi Hj. destruct (core f) eqn:Hc; [apply (core_safe _ _ Hb); auto|].
    destruct f; try discriminate Hc; try discriminate Hs.
    all: try (apply (regJ_safe _ _ Hb); auto; fail).
    all: apply not_turning_safe; intros s Ho [E _]; pose proof (val_closed _ _ Hb _ He i j Hi Hj s Ho) as HI;
      destruct (isym_key _ _ He HI) as (k & m & len & Hk & Hl & Hm & _ & ->); cbn [fst] in E;
      pose proof (sym_q k len Hl E); subst k; revert Hk; cbn [alist]; unfold al, obtain_symb_parameters;
      rewrite ?in_app_iff, ?filter_In; simpl; intuition discriminate.
  Qed.
  Lemma val_bounded f L : spring f = false -> f <> fJeepinv -> enabled b f -> exists B, forall i j env, i < vrows b f -> j < vcols b f ->
    (forall s, isym b f s -> ~ turning b s -> (Rabs (env s) <= L)%R) -> (Rabs (ev env (val b f) i j) <= B)%R.
  Proof.
    intros Hs Hp He.
    destruct (fin_bound2 (fun env : sym -> R => forall s, isym b f s -> ~ turning b s -> (Rabs (env s) <= L)%R) (vrows b f) (vcols b f)
      (fun i j env => ev env (val b f) i j)) as (B & _ & G).
    - intros i j Hi Hj. destruct (safe_bounded (turning b) L (el (val b f) i j)) as [B HB].
      + now apply val_safe.
      + exact (val_kept _ kept_divc cv b Hb f Hp He i j Hi Hj).
      + exists B. intros env A. apply HB. intros s Ho. apply A. exact (val_closed _ _ Hb f He i j Hi Hj s Ho).
    - exists B. intros. apply G; auto.
  Qed.
  Lemma dM_bounded L : exists B, forall i j k env, i < numJoints b -> j < numJoints b -> k < numJoints b ->
    (forall s, isym b fM s -> ~ turning b s -> (Rabs (env s) <= L)%R) -> (Rabs (dM (Mx b) env i j k) <= B)%R.
  Proof.
    pose proof (core_PV _ kept_divc cv b Hb fM eq_refl ltac:(discriminate) I) as P. cbn [val vrows vcols] in P.
    assert (S : forall i j, i < numJoints b -> j < numJoints b -> safe (turning b) (el (Mx b) i j))
      by exact (val_safe fM eq_refl I).
    assert (C : forall i j, i < numJoints b -> j < numJoints b -> within (isym b fM) (el (Mx b) i j))
      by exact (val_closed _ _ Hb fM I).
    destruct (fin_bound (fun q : nat * nat * (sym -> R) => fst (fst q) < numJoints b /\ snd (fst q) < numJoints b /\
       forall s, isym b fM s -> ~ turning b s -> (Rabs (snd q s) <= L)%R) (numJoints b) (fun i q => dM (Mx b) (snd q) i (fst (fst q)) (snd (fst q)))) as (B & _ & G).
    - intros i Hi.
      destruct (fin_bound2 (fun env : sym -> R => forall s, isym b fM s -> ~ turning b s -> (Rabs (env s) <= L)%R) (numJoints b) (numJoints b)
        (fun j k env => dM (Mx b) env i j k)) as (B & _ & G).
      + intros j k Hj Hk. destruct (mr_el _ _ _ _ _ P i j Hi Hj) as [PP D].
        destruct (safe_bounded (turning b) L (diff ("q", k) (el (Mx b) i j))) as [B HB].
        * apply safe_diff, S; auto.
        * apply (divc_diff allp); auto. exact I.
        * exists B. intros env A. apply HB. intros s Ho. apply A. apply (C i j Hi Hj). eapply occurs_diff; exact Ho.
      + exists B. intros [[j k] env] (Hj & Hk & A). apply G; auto.
    - exists B. intros i j k env Hi Hj Hk A. apply (G i (j, k, env)); auto.
  Qed.
End Fun.

(* ---- the inertia from below ---- *)
Lemma near_mt env a M : M = Rx3 (cz env a) (sz env a) \/ M = Ry3 (cz env a) (sz env a) \/ M = Rz3 (cz env a) (sz env a) -> near 1 (mt M).
Proof.
  intros HM [x y z]. pose proof e30_range as He. pose proof (cs_near env a) as U. rewrite pow_1.
  pose proof (Rle_0_sqr x) as X. pose proof (Rle_0_sqr y) as Y. pose proof (Rle_0_sqr z) as Z. unfold Rsqr in X, Y, Z.
  destruct HM as [->|[->| ->]]; unfold dot, mv, mt, Rx3, Ry3, Rz3; simpl.
  - pose proof (sc_bound e30 _ _ _ _ ltac:(lra) U Y Z X). lra.
  - pose proof (sc_bound e30 _ _ _ _ ltac:(lra) U X Z Y). lra.
  - pose proof (sc_bound e30 _ _ _ _ ltac:(lra) U X Y Z). lra.
Qed.
Lemma near_mt_mm j k A B : near j (mt A) -> near k (mt B) -> near (k + j) (mt (mm A B)).
Proof. intros HA HB. rewrite mt_mm. now apply near_mm. Qed.
Lemma near_mt_FR b env i : near (2 * i + 3) (mt (FR (chain_of b env) i)).
Proof.
  induction i as [|i IH].
  - cbn [FR chain_of cR0]. unfold frame_rot. apply (near_mt_mm 2 1); [apply (near_mt_mm 1 1)|]; eapply near_mt; eauto.
  - replace (2 * S i + 3) with (2 + (2 * i + 3)) by lia. cbn [FR]. apply near_mt_mm; auto.
    rewrite <- (proj1 (Tlx_val b env i)), (proj1 (Tlx_val b env i)). apply (near_mt_mm 1 1); eapply near_mt; cbn; eauto.
Qed.
Lemma dot_add_le u v : (dot (vadd u v) (vadd u v) <= 2 * dot u u + 2 * dot v v)%R.
Proof. destruct u as [a b c], v as [d e f]. unfold dot, vadd. simpl. pose proof (Rle_0_sqr (a - d)). pose proof (Rle_0_sqr (b - e)). pose proof (Rle_0_sqr (c - f)). unfold Rsqr in *. lra. Qed.
Lemma dot_vsum_le n (x : nat -> R) (f : nat -> vec) B : (0 <= B)%R -> (forall c, c < n -> (dot (f c) (f c) <= B)%R) ->
  (dot (vsum n (fun c => vsc (x c) (f c))) (vsum n (fun c => vsc (x c) (f c))) <= 2 ^ n * B * rsum n (fun c => x c * x c))%R.
Proof.
  intros HB. induction n as [|n IH]; intros H; [unfold dot; simpl; lra|]. cbn [vsum rsum pow].
  eapply Rle_trans; [apply dot_add_le|]. specialize (IH ltac:(auto)).
  assert (E : dot (vsc (x n) (f n)) (vsc (x n) (f n)) = (x n * x n * dot (f n) (f n))%R) by (unfold dot, vsc; simpl; ring). rewrite E.
  pose proof (Rmult_le_compat_l (x n * x n) _ _ (Rle_0_sqr _) (H n ltac:(lia))) as A.
  assert (P : (1 <= 2 ^ n)%R) by (apply pow_R1_Rle; lra).
  assert (X : (0 <= x n * x n)%R) by apply Rle_0_sqr.
  assert (Y : (x n * x n * B <= 2 ^ n * (x n * x n * B))%R).
  { rewrite <- (Rmult_1_l (x n * x n * B)) at 1. apply Rmult_le_compat_r; auto. now apply Rmult_le_pos. }
  nra.
Qed.
(* the sum of the squares of the first j velocities is at most Low j times twice the kinetic energy *)
Fixpoint Low (n : nat) (m0 B kap : R) (j : nat) : R :=
  match j with O => 0 | S j' => Low n m0 B kap j' + (2 * / (m0 * kap) + 2 * (2 ^ n * B) * Low n m0 B kap j') / kap end.
Lemma Low_nonneg n m0 B kap j : (0 < m0)%R -> (0 < kap)%R -> (0 <= B)%R -> (0 <= Low n m0 B kap j)%R.
Proof.
  intros Hm Hk HB. induction j as [|j IH]; simpl; [lra|].
  assert (0 < / (m0 * kap))%R by (apply Rinv_0_lt_compat, Rmult_lt_0_compat; auto).
  assert (0 < 2 ^ n)%R by (apply pow_lt; lra).
  assert (0 < / kap)%R by (apply Rinv_0_lt_compat; auto).
  assert (0 <= 2 * (2 ^ n * B) * Low n m0 B kap j)%R by (repeat apply Rmult_le_pos; lra).
  unfold Rdiv. pose proof (Rmult_le_pos (2 * / (m0 * kap) + 2 * (2 ^ n * B) * Low n m0 B kap j) (/ kap)). lra.
Qed.
Lemma vsum_split j n (f : nat -> vec) : j < n -> (forall i, j < i < n -> f i = vzero) -> vsum n f = vadd (vsum j f) (f j).
Proof.
  intros Hj. induction n as [|n IH]; [lia|]. intros Hz. cbn [vsum]. destruct (Nat.eq_dec j n) as [->|N]; [reflexivity|].
  rewrite (Hz n) by lia. rewrite vadd_0_r. apply IH; [lia|]. intros; apply Hz; lia.
Qed.
Section Low.
  Variables (b : robot) (env : sym -> R) (m0 B : R).
  Let n := numJoints b.
  Let kap : R := ((1 - e30) ^ (2 * n + 3))%R.
  Hypothesis Hm0 : (0 < m0)%R.
  Hypothesis HB : (0 <= B)%R.
  Hypothesis HP : forall l, l < n -> (0 <= m_l b env l)%R /\ forall v, (0 <= form (inert3 b env l) v)%R.
  Hypothesis HQ : forall l, l < n -> if prismatic b l then (m0 <= m_l b env l)%R else forall v, (m0 * dot v v <= form (inert3 b env l) v)%R.
  Hypothesis HC : forall l c, l < n -> c < n ->
    (dot (jlv b env (cpos b env l) l c) (jlv b env (cpos b env l) l c) <= B)%R /\ (dot (jwv b env l c) (jwv b env l c) <= B)%R.
  Lemma kap_range : (0 < kap <= 1)%R.
  Proof.
    pose proof e30_range as He. unfold kap. split; [apply pow_lt; lra|]. eapply Rle_trans; [apply pow_incr with (y := 1%R); lra|rewrite pow1; lra].
  Qed.
  Lemma near_kap k M v : k <= 2 * n + 3 -> near k M -> (kap * dot v v <= dot (mv M v) (mv M v))%R.
  Proof.
    intros Hk H. eapply Rle_trans; [|exact (proj1 (H v))]. apply Rmult_le_compat_r; [apply dot_self_nonneg|].
    pose proof e30_range as He. unfold kap. replace (2 * n + 3) with (k + (2 * n + 3 - k)) by lia. rewrite pow_add.
    rewrite <- (Rmult_1_r ((1 - e30) ^ k)) at 2. apply Rmult_le_compat_l; [apply pow_le; lra|].
    eapply Rle_trans; [apply pow_incr with (y := 1%R); lra|rewrite pow1; lra].
  Qed.
  Lemma axis_kap j : j < n -> (kap <= dot (axis (chain_of b env) j) (axis (chain_of b env) j))%R.
  Proof.
    intros Hj. pose proof (near_kap (2 * S j + 3) _ ez ltac:(lia) (near_FR b env (S j))) as H.
    assert (E : dot ez ez = 1%R) by (unfold dot, ez; cbn; ring). rewrite E, Rmult_1_r in H. exact H.
  Qed.
  Lemma M_low x j : j <= n -> (rsum j (fun c => x c * x c) <= Low n m0 B kap j * rquad n (ev env (Mx b)) x x)%R.
  Proof.
    pose proof (M_psd b env x HP) as H0. fold n in H0. set (E := rquad n (ev env (Mx b)) x x) in *.
    pose proof kap_range as Hk.
    induction j as [|j IH]; intros Hj; [simpl; lra|]. specialize (IH ltac:(lia)). cbn [rsum Low].
    assert (HM : (Mq b env j x x <= E)%R).
    { unfold E. unfold n at 1. rewrite Mx_quad. fold n.
      assert (G : forall m, j < m -> m <= n -> (Mq b env j x x <= rsum m (fun l => Mq b env l x x))%R).
      { intros m Hjm Hm. 
        assert (N : forall l, l < m -> (0 <= Mq b env l x x)%R).
        { intros l Hl. rewrite Mq_self. destruct (HP l) as [P1 P2]; [lia|].
          pose proof (Rmult_le_pos _ _ P1 (dot_self_nonneg (jlx b env l x))). pose proof (P2 (mv (mt (Rl b env l)) (jwx b env l x))). lra. }
        clear Hm. induction m as [|m IHm]; [lia|]. cbn [rsum]. destruct (Nat.eq_dec j m) as [->|Nm].
        - assert (0 <= rsum m (fun l => Mq b env l x x))%R by (apply rsum_nonneg; intros; apply N; lia). lra.
        - pose proof (N m ltac:(lia)). specialize (IHm ltac:(lia) ltac:(intros; apply N; lia)). lra. }
      apply G; lia. }
    rewrite Mq_self in HM. destruct (HP j ltac:(lia)) as [P1 P2]. pose proof (HQ j ltac:(lia)) as Q.
    pose proof (Rmult_le_pos _ _ P1 (dot_self_nonneg (jlx b env j x))) as T1.
    pose proof (P2 (mv (mt (Rl b env j)) (jwx b env j x))) as T2.
    (* the velocity of link j caused by the first j + 1 joints *)
    assert (V : exists (f : nat -> vec), (forall c, c < n -> (dot (f c) (f c) <= B)%R) /\ f j = axis (chain_of b env) j /\
      (dot (vadd (vsum j (fun c => vsc (x c) (f c))) (vsc (x j) (f j))) (vadd (vsum j (fun c => vsc (x c) (f c))) (vsc (x j) (f j))) <= / (m0 * kap) * E)%R).
    { assert (I1 : (0 < / (m0 * kap))%R) by (apply Rinv_0_lt_compat, Rmult_lt_0_compat; lra).
      destruct (prismatic b j) eqn:PJ.
      - exists (jlv b env (cpos b env j) j). split; [|split].
        + intros c Hc. apply HC; lia.
        + unfold jlv, vcol. rewrite PJ, (proj2 (Nat.ltb_lt j (S j))) by lia. reflexivity.
        + rewrite <- (vsum_split j n (fun c => vsc (x c) (jlv b env (cpos b env j) j c))); [|lia|].
          2:{ intros i Hi. unfold jlv. rewrite (proj2 (Nat.ltb_ge i (S j))) by lia. apply v3_eq; simpl; ring. }
          change (vsum n (fun c => vsc (x c) (jlv b env (cpos b env j) j c))) with (jlx b env j x). set (d := dot (jlx b env j x) (jlx b env j x)) in *.
          assert (D : (0 <= d)%R) by apply dot_self_nonneg.
          apply Rmult_le_reg_l with (m0 * kap)%R; [apply Rmult_lt_0_compat; lra|].
          rewrite <- Rmult_assoc, Rinv_r, Rmult_1_l by (apply Rgt_not_eq, Rmult_lt_0_compat; lra).
          assert (m0 * kap * d <= m_l b env j * d)%R; [|lra]. apply Rmult_le_compat_r; [exact D|]. nra.
      - exists (jwv b env j). split; [|split].
        + intros c Hc. apply HC; lia.
        + unfold jwv, wcol. rewrite PJ, (proj2 (Nat.ltb_lt j (S j))) by lia. reflexivity.
        + rewrite <- (vsum_split j n (fun c => vsc (x c) (jwv b env j c))); [|lia|].
          2:{ intros i Hi. unfold jwv. rewrite (proj2 (Nat.ltb_ge i (S j))) by lia. apply v3_eq; simpl; ring. }
          change (vsum n (fun c => vsc (x c) (jwv b env j c))) with (jwx b env j x). pose proof (Q (mv (mt (Rl b env j)) (jwx b env j x))) as Q1.
          pose proof (near_kap (2 * S j + 3) (mt (Rl b env j)) (jwx b env j x) ltac:(lia) (near_mt_FR b env (S j))) as Q2.
          set (d := dot (jwx b env j x) (jwx b env j x)) in *.
          apply Rmult_le_reg_l with (m0 * kap)%R; [apply Rmult_lt_0_compat; lra|].
          rewrite <- Rmult_assoc, Rinv_r, Rmult_1_l by (apply Rgt_not_eq, Rmult_lt_0_compat; lra).
          rewrite Rmult_assoc. apply Rmult_le_compat_l with (r := m0) in Q2; lra. }
    destruct V as (f & F1 & F2 & F3).
    set (A := vsum j (fun c => vsc (x c) (f c))) in *. set (T := vadd A (vsc (x j) (f j))) in *.
    assert (X : (x j * x j * dot (f j) (f j) <= 2 * dot T T + 2 * dot A A)%R).
    { pose proof (dot_add_le T (vsc (-1) A)) as W.
      assert (W1 : vadd T (vsc (-1) A) = vsc (x j) (f j)) by (unfold T; apply v3_eq; simpl; ring). rewrite W1 in W.
      assert (W2 : dot (vsc (-1) A) (vsc (-1) A) = dot A A) by (unfold dot, vsc; simpl; ring). rewrite W2 in W.
      assert (W3 : dot (vsc (x j) (f j)) (vsc (x j) (f j)) = (x j * x j * dot (f j) (f j))%R) by (unfold dot, vsc; simpl; ring). lra. }
    rewrite F2 in X. pose proof (axis_kap j ltac:(lia)) as AK.
    assert (DA : (dot A A <= 2 ^ n * B * (Low n m0 B kap j * E))%R).
    { eapply Rle_trans; [apply (dot_vsum_le j x f B HB); intros; apply F1; lia|].
      eapply Rle_trans; [apply Rmult_le_compat_l; [|exact IH]|].
      - apply Rmult_le_pos; auto. apply pow_le; lra.
      - apply Rmult_le_compat_r; [apply Rmult_le_pos; auto; apply Low_nonneg; lra|]. apply Rmult_le_compat_r; auto.
        apply Rle_pow; [lra|lia]. }
    assert (XK : (x j * x j * kap <= x j * x j * dot (axis (chain_of b env) j) (axis (chain_of b env) j))%R)
      by (apply Rmult_le_compat_l; [apply Rle_0_sqr|exact AK]).
    assert (Y : (x j * x j <= (2 * / (m0 * kap) + 2 * (2 ^ n * B) * Low n m0 B kap j) / kap * E)%R).
    { apply Rmult_le_reg_r with kap; [lra|].
      replace ((2 * / (m0 * kap) + 2 * (2 ^ n * B) * Low n m0 B kap j) / kap * E * kap)%R
        with (2 * (/ (m0 * kap) * E) + 2 * (2 ^ n * B * (Low n m0 B kap j * E)))%R by (field; lra). lra. }
    rewrite Rmult_plus_distr_r. lra.
  Qed.
End Low.

(* ---- the velocities of the links ---- *)
Section Cols.
  Variables (cv : cvals) (b : robot).
  Hypothesis Hb : base cv b.
  Let n := numJoints b.
  Lemma cols_bounded L : exists B, (0 <= B)%R /\ forall env, (forall s, isym b fM s -> ~ turning b s -> (Rabs (env s) <= L)%R) ->
    forall l c, l < n -> c < n -> (dot (jlv b env (cpos b env l) l c) (jlv b env (cpos b env l) l c) <= B)%R /\ (dot (jwv b env l c) (jwv b env l c) <= B)%R.
  Proof.
    destruct (fin_bound (fun q : nat * nat * (sym -> R) => fst (fst q) < 6 /\ snd (fst q) < n /\
       forall s, isym b fM s -> ~ turning b s -> (Rabs (snd q s) <= L)%R) n (fun l q => ev (snd q) (Jcmx b l) (fst (fst q)) (snd (fst q)))) as (B & HB & G).
    { intros l Hl. destruct (val_bounded cv b Hb (fJcm (l + 1)) L eq_refl ltac:(discriminate) ltac:(cbn [enabled]; fold n; lia)) as [B HB].
      cbn [val vrows vcols] in HB. replace (l + 1 - 1) with l in HB by lia.
      exists B. intros [[a c] env] (Ha & Hc & A). cbn [fst snd] in *. apply HB; auto. }
    exists (3 * (B * B))%R. split; [pose proof (Rle_0_sqr B); unfold Rsqr in *; lra|]. intros env A l c Hl Hc.
    assert (Q : forall v : vec, (forall a, a < 3 -> (Rabs (vcomp v a) <= B)%R) -> (dot v v <= 3 * (B * B))%R).
    { intros v H. unfold dot. pose proof (H 0 ltac:(lia)) as H0. pose proof (H 1 ltac:(lia)) as H1. pose proof (H 2 ltac:(lia)) as H2.
      cbn [vcomp] in *.
      assert (S : forall x, (Rabs x <= B -> x * x <= B * B)%R).
      { intros x Hx. rewrite <- (Rabs_pos_eq (x * x)) by apply Rle_0_sqr. rewrite Rabs_mult. apply Rmult_le_compat; auto using Rabs_pos. }
      pose proof (S _ H0). pose proof (S _ H1). pose proof (S _ H2). lra. }
    split; apply Q; intros a Ha.
    - rewrite <- Jcv_v by auto. pose proof (G l (a, c, env) Hl) as W. cbn [fst snd] in W. unfold Jcmx, ev in W. cbn [vertcat2 el] in W.
      rewrite Jcv_rows in W. rewrite (proj2 (Nat.ltb_lt a 3)) in W by auto. apply W. repeat split; auto; lia.
    - rewrite <- Jcw_v by auto. pose proof (G l (a + 3, c, env) Hl) as W. cbn [fst snd] in W. unfold Jcmx, ev in W. cbn [vertcat2 el] in W.
      rewrite Jcv_rows in W. rewrite (proj2 (Nat.ltb_ge (a + 3) 3)) in W by lia. replace (a + 3 - 3) with a in W by lia. apply W. repeat split; auto; lia.
  Qed.
End Cols.

(* ---- the damped pseudo-inverse ---- *)
Section Pinv.
  Variables (name : string) (cfg : ynode) (r0 r r' : robot).
  Hypothesis Hs : session name cfg r0 r r'.
  Let n := numJoints r0.
  Theorem pinv_gain v : (rsum n (fun i => rmv 6 (out r' "J_ee_pinv") v i ^ 2) <= 25 / 2 * rsum 6 (fun a => v a ^ 2))%R.
  Proof.
    destruct (session_sess _ _ _ _ _ Hs) as (b & S & _). pose proof (pinv_opt _ _ _ S v (fun _ => 0%R)) as E. fold n in E.
    set (p := rmv 6 (out r' "J_ee_pinv") v) in *. unfold damped_cost in E.
    rewrite (rsum_ext 6 (fun a => (rmv n (out r' "J_ee") (fun _ => 0%R) a - v a) ^ 2)%R (fun a => v a ^ 2)%R) in E.
    2:{ intros a Ha. unfold rmv. rewrite (rsum_0 n) by (intros; ring). ring. }
    rewrite (rsum_ext n (fun i => 0 ^ 2)%R (fun _ => 0%R)) in E by (intros; ring). rewrite rsum_const0 in E.
    rewrite (rsum_ext 6 (fun a => rmv n (out r' "J_ee") (fun i => 0 - p i) a ^ 2)%R (fun a => rmv n (out r' "J_ee") p a ^ 2)%R) in E.
    2:{ intros a Ha. unfold rmv. rewrite (rsum_ext n (fun k => out r' "J_ee" a k * (0 - p k))%R (fun k => (-1) * (out r' "J_ee" a k * p k))%R) by (intros; ring).
        rewrite rsum_scal. ring. }
    rewrite (rsum_ext n (fun i => (0 - p i) ^ 2)%R (fun i => p i ^ 2)%R) in E by (intros; ring).
    assert (H : (0 <= rsum 6 (fun a => (rmv n (out r' "J_ee") p a - v a) ^ 2 + rmv n (out r' "J_ee") p a ^ 2 - / 2 * v a ^ 2))%R).
    { apply rsum_nonneg. intros a Ha. pose proof (pow2_ge_0 (2 * rmv n (out r' "J_ee") p a - v a)). lra. }
    assert (X : (rsum 6 (fun a => (rmv n (out r' "J_ee") p a - v a) ^ 2 + rmv n (out r' "J_ee") p a ^ 2 - / 2 * v a ^ 2)
      = rsum 6 (fun a => (rmv n (out r' "J_ee") p a - v a) ^ 2) + rsum 6 (fun a => rmv n (out r' "J_ee") p a ^ 2) - / 2 * rsum 6 (fun a => v a ^ 2))%R).
    { rewrite <- (rsum_scal 6 (/ 2)). unfold Rminus. rewrite !rsum_plus.
      rewrite (rsum_ext 6 (fun i => - (/ 2 * v i ^ 2))%R (fun i => (-1) * (/ 2 * v i ^ 2))%R) by (intros; ring). rewrite rsum_scal. ring. }
    rewrite X in H. rewrite MU_val in E. lra.
  Qed.
  Lemma pinv_entry i j : i < n -> j < 6 -> (Rabs (out r' "J_ee_pinv" i j) <= 4)%R.
  Proof.
    intros Hi Hj. pose proof (pinv_gain (fun a => if Nat.eqb a j then 1%R else 0%R)) as G.
    rewrite (rsum_single 6 j) in G; auto. 2:{ intros a Ha Hn. destruct (Nat.eqb_spec a j); [lia|ring]. }
    rewrite Nat.eqb_refl in G.
    assert (A : (rmv 6 (out r' "J_ee_pinv") (fun a => if Nat.eqb a j then 1 else 0) i ^ 2 <= 25 / 2 * 1 ^ 2)%R).
    { eapply Rle_trans; [|exact G]. apply (rsum_le_one n (fun i => rmv 6 (out r' "J_ee_pinv") (fun a => if Nat.eqb a j then 1 else 0) i ^ 2)%R); auto.
      intros; apply pow2_ge_0. }
    unfold rmv in A. rewrite (rsum_single 6 j) in A; auto. 2:{ intros a Ha Hn. destruct (Nat.eqb_spec a j); [lia|ring]. }
    rewrite Nat.eqb_refl, Rmult_1_r in A. apply Rabs_le. nra.
  Qed.
End Pinv.

(* ---- robots ---- *)
Lemma merge_sym fl : forall cfg u i, flag_set (nth i fl 0%Z) = true -> exists l, nth i (merge fl cfg u) 0%R = nth l u 0%R.
Proof.
  assert (Z : forall u : list R, exists l, 0%R = nth l u 0%R) by (intros u; exists (List.length u); now rewrite nth_overflow).
  induction fl as [|z fl IH]; intros cfg u i F.
  - cbn [merge]. rewrite nth_overflow by (simpl; lia). apply Z.
  - destruct cfg as [|c cfg]; [cbn [merge]; rewrite nth_overflow by (simpl; lia); apply Z|]. cbn [merge].
    destruct i as [|i]; cbn [nth] in F.
    + rewrite F. destruct u as [|x u]; [exists 0; reflexivity|exists 0; reflexivity].
    + destruct (flag_set z).
      * destruct u as [|x u]; [exists 0; reflexivity|]. destruct (IH cfg u i F) as [l E]. exists (S l). exact E.
      * exact (IH cfg u i F).
Qed.
Section Main.
  Variables (name : string) (cfg : ynode) (r0 r b : robot).
  Hypothesis B : built r0 b r.
  Let n := numJoints r0.
  Let Hb := bt_base _ _ _ B.
  Lemma limited_env f ks L r' : enabled b f -> session name cfg r0 r r' -> (forall k, In k (alist b f) -> In k ("q" :: ks)) ->
    limited r0 r' ks L -> forall s, isym b f s -> ~ turning b s -> (Rabs (renv r0 r' s) <= L)%R.
  Proof.
    intros He Hs Hal [H1 H2] s Hi Ht. pose proof (built_sess _ _ _ _ _ _ Hs B) as SS.
    destruct (isym_key _ _ Hb f s He Hi) as (k & m & len & Hk & Hl & Hm & Hf & ->).
    unfold renv. cbn [fst snd]. rewrite keyname_symname by (eapply keys_arg; exact Hl).
    destruct (string_dec k "q") as [->|N].
    - rewrite (param_state _ _ _ SS "q" (numJoints b) m) by (unfold state_keys; simpl; auto).
      assert (Hr : len = numJoints b).
      { rewrite <- (ps_r _ _ _ _ (bs_shape _ _ Hb "q" len Hl)). apply (ps_r _ _ _ _ (bs_shape _ _ Hb "q" _ (in_keys_q b))). }
      apply H2; [rewrite <- (n_b _ _ _ SS); lia|].
      destruct (prism r0 m) eqn:P; auto. exfalso. apply Ht. split; [reflexivity|]. cbn [snd].
      rewrite <- (prism_b _ _ _ SS) in P. exact P.
    - unfold param. rewrite (flags_b _ _ _ SS) in Hf. destruct (merge_sym _ (arg r0 k) (arg r' k) m Hf) as [l ->].
      destruct (Hal k Hk) as [E|I]; [congruence|]. now apply H1.
  Qed.
  Theorem out_bounded f L : enabled b f -> spring f = false -> exists Bd, forall r', session name cfg r0 r r' ->
    limited r0 r' (alist b f) L -> forall i j, i < vrows b f -> j < vcols b f -> (Rabs (out r' (name_of f) i j) <= Bd)%R.
  Proof.
    intros He Hs.
    assert (D : f = fJeepinv \/ f <> fJeepinv) by (destruct f; (left; reflexivity) || (right; discriminate)).
    destruct D as [->|D].
    - exists 4%R. intros r' S _ i j Hi Hj. cbn [vrows vcols name_of] in *. apply (pinv_entry name cfg r0 r r' S); auto.
      rewrite (n_b _ _ _ (built_sess _ _ _ _ _ _ S B)) in Hi. exact Hi.
    - destruct (val_bounded _ _ Hb f L Hs D He) as [Bd H]. exists Bd. intros r' S Hl i j Hi Hj.
      rewrite (proj2 (get_out _ _ _ (built_sess _ _ _ _ _ _ S B) f He) i j Hi Hj). apply H; auto.
      apply (limited_env f (alist b f)); auto. intros k Hk. now right.
  Qed.
  Lemma alist_M k : In k (alist b fM) -> In k ("q" :: body_pars).
  Proof.
    cbn [alist]. unfold al, obtain_symb_parameters, kinp, body_pars. rewrite in_app_iff, filter_In. simpl. tauto.
  Qed.
  Theorem coriolis_bounded L : exists Bd, forall r', session name cfg r0 r r' -> limited r0 r' body_pars L ->
    forall i j, i < n -> j < n -> (Rabs (out r' "C" i j) <= Bd * rsum n (fun k => Rabs (state r' "dq" k)))%R.
  Proof.
    destruct (dM_bounded _ _ Hb L) as [Bd H]. exists (3 / 2 * Bd)%R. intros r' S Hl i j Hi Hj.
    pose proof (built_sess _ _ _ _ _ _ S B) as SS. pose proof (n_b _ _ _ SS) as Nb.
    rewrite (proj1 (C_chr name cfg r0 r b r' S B i j Hi Hj)). fold n.
    assert (E : forall a c d, a < n -> c < n -> d < n -> (Rabs (dM (Mx b) (renv r0 r') a c d) <= Bd)%R).
    { intros a c d Ha Hc Hd. apply H; try (rewrite Nb; assumption). apply (limited_env fM body_pars); auto; [exact I|exact alist_M]. }
    rewrite <- rsum_scal.
    assert (T : forall m (f g : nat -> R), (forall k, k < m -> (Rabs (f k) <= g k)%R) -> (Rabs (rsum m f) <= rsum m g)%R).
    { intros m f g. induction m as [|m IH]; intros F; [simpl; rewrite Rabs_R0; lra|]. cbn [rsum].
      eapply Rle_trans; [apply Rabs_triang|]. apply Rplus_le_compat; auto. }
    apply T. intros k Hk. rewrite Rabs_mult. apply Rmult_le_compat_r; [apply Rabs_pos|].
    pose proof (E i j k Hi Hj Hk) as E1. pose proof (E i k j Hi Hk Hj) as E2. pose proof (E j k i Hj Hk Hi) as E3.
    apply Rabs_le_between in E1, E2, E3. apply Rabs_le. lra.
  Qed.
  Theorem inertia_below L m0 : (0 < m0)%R -> exists c, (0 < c)%R /\ forall r', session name cfg r0 r r' -> limited r0 r' body_pars L ->
    (forall i, 1 <= i <= n -> (0 <= mass r0 r' i)%R /\ psd3 (inertia r0 r' i)) ->
    (forall i, 1 <= i <= n -> if prism r0 (i - 1) then (m0 <= mass r0 r' i)%R else forall x, (m0 * rdot 3 x x <= rquad 3 (inertia r0 r' i) x x)%R) ->
    forall x, (c * rdot n x x <= rquad n (out r' "M") x x)%R.
  Proof.
    intros Hm. destruct (cols_bounded _ _ Hb L) as (Bd & HB & HC).
    set (kap := ((1 - e30) ^ (2 * numJoints b + 3))%R).
    assert (K : (0 < kap)%R) by (apply pow_lt; pose proof e30_range; lra).
    set (Lo := Low (numJoints b) m0 Bd kap (numJoints b)).
    assert (LO : (0 <= Lo)%R) by (apply Low_nonneg; auto).
    exists (/ (1 + Lo))%R. split; [apply Rinv_0_lt_compat; lra|]. intros r' S Hl HP HQ x.
    pose proof (built_sess _ _ _ _ _ _ S B) as SS. pose proof (n_b _ _ _ SS) as Nb.
    assert (HP' : forall l, l < numJoints b -> (0 <= m_l b (renv r0 r') l)%R /\ forall v, (0 <= form (inert3 b (renv r0 r') l) v)%R).
    { intros l Hl'. rewrite Nb in Hl'. rewrite (m_l_val name cfg r0 r b r' S B l Hl'). destruct (HP (Datatypes.S l)) as [A1 A2]; [fold n in Hl'; lia|].
      split; auto. apply (form_nonneg name cfg r0 r b r' S B l Hl' A2). }
    pose proof (M_low b (renv r0 r') m0 Bd Hm HB HP') as W.
    assert (W1 : (rsum n (fun c => x c * x c) <= Lo * rquad n (out r' "M") x x)%R).
    { unfold n. rewrite (quad_out name cfg r0 r b r' S B x). rewrite <- Nb. apply W; [| |lia].
      - intros l Hl'. rewrite Nb in Hl'. specialize (HQ (Datatypes.S l) ltac:(fold n in Hl'; lia)). replace (Datatypes.S l - 1) with l in HQ by lia.
        rewrite (prism_b _ _ _ SS). rewrite (m_l_val name cfg r0 r b r' S B l Hl'). destruct (prism r0 l); auto.
        intros v. unfold form. rewrite (form_val name cfg r0 r b r' S B l v v Hl'), <- vcomp_rdot. apply HQ.
      - apply HC. apply (limited_env fM body_pars); auto; [exact I|exact alist_M]. }
    pose proof (M_semi name cfg r0 r b r' S B x HP) as P. fold n in P. unfold rdot.
    apply Rmult_le_reg_l with (1 + Lo)%R; [lra|]. rewrite <- Rmult_assoc, Rinv_r, Rmult_1_l by lra. lra.
  Qed.
End Main.
