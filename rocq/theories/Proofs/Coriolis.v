(* The two computations of the Coriolis matrix give the Christoffel form. *)
From Coq Require Import Reals Lra Lia Arith List String Bool ZArith.
From Verif.Model Require Import Base Expr SX Robot Kinematics Dynamics Regressors.
From Verif.Spec Require Import Math.
From Verif.Proofs Require Import Sums Calc Rel Pure PureRel.
Import ListNotations.
Open Scope nat_scope.
Open Scope string_scope.

Lemma rsum_prod m n f : rsum (m * n) f = rsum m (fun i => rsum n (fun c => f (i * n + c))).
Proof.
  induction m as [|m IH]; [reflexivity|]. cbn [rsum]. rewrite <- IH.
  replace (S m * n) with (m * n + n) by lia. apply rsum_split.
Qed.

Section Christoffel.
  Variables (n : nat) (M q dq : sx) (env : sym -> R).
  Hypothesis HMr : rows M = n.
  Hypothesis HMc : cols M = n.
  Hypothesis Hq : symvec "q" n q.
  Hypothesis Hdr : rows dq = n.
  Hypothesis Hdc : cols dq = 1.
  Let v (k : nat) : R := ev env dq k 0.
  Definition dM (i j k : nat) : R := eval env (diff ("q", k) (el M i j)).
  (* Christoffel form of the Coriolis matrix *)
  Definition Chr (i j : nat) : R := rsum n (fun k => (dM i j k + dM i k j - dM j k i) / 2 * v k)%R.

  Lemma dqsel_loop k i m a p : i + k <= n -> a < n -> p < n * n ->
    ev env (dq_select_loop k i n dq m) a p =
      if Nat.leb (i * n) p && Nat.ltb p ((i + k) * n)
      then (if Nat.eqb a (p mod n) then v (p / n) else 0%R) else ev env m a p.
  Proof.
    revert i m. induction k as [|k IH]; intros i m Hk Ha Hp; cbn [dq_select_loop].
    - rewrite Nat.add_0_r. destruct (Nat.leb_spec (i * n) p), (Nat.ltb_spec p (i * n)); try lia; reflexivity.
    - rewrite IH by lia. unfold ev at 1 2. cbn [set_block el scale_r eye vat rows cols].
      replace (S i + k) with (i + S k) by lia.
      destruct (Nat.leb_spec (S i * n) p) as [L|L].
      + replace (Nat.leb (i * n) p) with true by (symmetry; apply Nat.leb_le; nia). cbn [andb].
        destruct (Nat.ltb_spec p ((i + S k) * n)); auto.
        cbn [Nat.leb]. rewrite Nat.add_0_l, (proj2 (Nat.ltb_lt a n)) by auto. cbn [andb].
        replace (Nat.ltb p (i * n + n)) with false by (symmetry; apply Nat.ltb_ge; nia). rewrite ?andb_false_r. cbn [andb]. try reflexivity.
      + cbn [andb Nat.leb]. rewrite Nat.add_0_l, (proj2 (Nat.ltb_lt a n)) by auto. cbn [andb].
        replace (Nat.ltb p (i * n + n)) with true by (symmetry; apply Nat.ltb_lt; nia).
        replace (Nat.ltb p ((i + S k) * n)) with true by (symmetry; apply Nat.ltb_lt; nia).
        rewrite !andb_true_r. destruct (Nat.leb_spec (i * n) p) as [L2|L2]; auto.
        rewrite Nat.sub_0_r.
        assert (E : p = n * i + (p - i * n)) by lia.
        rewrite <- (Nat.mod_unique p n i (p - i * n)), <- (Nat.div_unique p n i (p - i * n)) by lia.
        unfold sc. cbn [vat el]. destruct (Nat.eqb a (p - i * n)); cbn [eval]; unfold v, ev; ring.
  Qed.
  Lemma dqsel_val a i c : a < n -> i < n -> c < n ->
    ev env (dq_select dq) a (i * n + c) = if Nat.eqb a c then v i else 0%R.
  Proof.
    intros Ha Hi Hc. unfold dq_select. rewrite Hdr. rewrite dqsel_loop by nia.
    replace (Nat.leb (0 * n) (i * n + c)) with true by (symmetry; apply Nat.leb_le; nia).
    replace (Nat.ltb (i * n + c) ((0 + n) * n)) with true by (symmetry; apply Nat.ltb_lt; nia). cbn [andb].
    rewrite <- (Nat.mod_unique (i * n + c) n i c), <- (Nat.div_unique (i * n + c) n i c) by lia. reflexivity.
  Qed.
  Lemma jacM_val i j k : i < n -> j < n -> k < n -> ev env (jacobian M q) (j * n + i) k = dM i j k.
  Proof.
    intros Hi Hj Hk. unfold ev, jacobian. cbn [el]. rewrite HMr.
    rewrite <- (Nat.mod_unique (j * n + i) n j i), <- (Nat.div_unique (j * n + i) n j i) by lia.
    unfold diff_wrt. rewrite (sv_el _ _ _ Hq) by auto. reflexivity.
  Qed.
  Lemma stdC_val i j : i < n -> j < n -> ev env (stdCmatrix M q dq (dq_select dq)) i j = Chr i j.
  Proof.
    intros Hi Hj. unfold stdCmatrix. rewrite (sv_r _ _ _ Hq).
    unfold ev. cbn [mdivc msub madd mT el eval].
    assert (E132 : forall a b, a < n -> b < n -> eval env (el (mtimes (dq_select dq) (jacobian M q)) a b) = rsum n (fun k => dM a k b * v k)%R).
    { intros a b Ha Hb. cbn [mtimes el]. rewrite eval_esum.
      assert (Hc : cols (dq_select dq) = n * n).
      { unfold dq_select. rewrite Hdr.
        assert (forall k i m, cols (dq_select_loop k i n dq m) = cols m) as HL.
        { induction k; intros; simpl; auto. rewrite IHk. reflexivity. }
        rewrite HL. reflexivity. }
      rewrite Hc, rsum_prod. apply rsum_ext. intros i0 Hi0.
      rewrite (rsum_single n a); auto.
      - cbn [eval]. pose proof (dqsel_val a i0 a Ha Hi0 Ha) as E1. pose proof (jacM_val a i0 b Ha Hi0 Hb) as E2.
        unfold ev in E1, E2. rewrite E1, E2, Nat.eqb_refl. ring.
      - intros c Hc' Hne. cbn [eval]. pose proof (dqsel_val a i0 c Ha Hi0 Hc') as E1. unfold ev in E1. rewrite E1.
        rewrite (proj2 (Nat.eqb_neq a c)) by auto. ring. }
    rewrite !E132 by auto.
    assert (E123 : eval env (el (reshape (mtimes (jacobian M q) dq) n n) i j) = rsum n (fun k => dM i j k * v k)%R).
    { cbn [reshape el mtimes rows jacobian cols]. rewrite HMr, HMc, (sv_r _ _ _ Hq).
      rewrite (Nat.mod_small (j * n + i) (n * n)), (Nat.div_small (j * n + i) (n * n)) by nia. rewrite eval_esum. apply rsum_ext. intros k Hk. cbn [eval].
      pose proof (jacM_val i j k Hi Hj Hk) as E2. unfold ev, jacobian in E2. cbn [el] in E2. rewrite HMr in E2. rewrite E2. reflexivity. }
    rewrite E123. unfold Chr. unfold Rdiv. rewrite <- rsum_plus, <- rsum_minus, <- rsum_scal_r.
    apply rsum_ext. intros k Hk. ring.
  Qed.

  (* the triple loop *)
  Lemma fst_classic h j k S a c : ev env (fst (classic_term M q dq h j k S)) a c =
    if Nat.eqb a h && Nat.eqb c j then (ev env (fst S) h j + / 2 * eval env (diff_wrt (el q k 0) (el M h j)) * v k)%R
    else ev env (fst S) a c.
  Proof.
    destruct S as [C1 C2]. unfold classic_term, ev. cbn [fst set_at el]. destruct (Nat.eqb a h && Nat.eqb c j); auto.
    unfold sc. cbn [madd mat_at el scale scal vat jacobian rows cols eval sc]. cbn. unfold v, ev. lra.
  Qed.
  Lemma snd_classic h j k S a c : ev env (snd (classic_term M q dq h j k S)) a c =
    if Nat.eqb a h && Nat.eqb c j then (ev env (snd S) h j + / 2 * eval env (diff_wrt (el q j 0) (el M h k)) * v k)%R
    else ev env (snd S) a c.
  Proof.
    destruct S as [C1 C2]. unfold classic_term, ev. cbn [snd set_at el]. destruct (Nat.eqb a h && Nat.eqb c j); auto.
    unfold sc. cbn [madd mat_at el scale scal vat jacobian rows cols eval sc]. cbn. unfold v, ev. lra.
  Qed.

  (* a loop adding t k to entry (h,j) of a matrix *)
  Definition acc (S : sx * sx) (a c : nat) : R * R := (ev env (fst S) a c, ev env (snd S) a c).
  Definition c1 (h j k : nat) : R := (/ 2 * dM h j k * v k)%R.
  Definition c2 (h j k : nat) : R := (/ 2 * dM h k j * v k)%R.
  Lemma loop_k h j m S : h < n -> j < n -> m <= n -> forall a c,
    acc (for_ m 0 (fun k => classic_term M q dq h j k) S) a c =
    if Nat.eqb a h && Nat.eqb c j then ((ev env (fst S) h j + rsum m (c1 h j))%R, (ev env (snd S) h j + rsum m (c2 h j))%R)
    else acc S a c.
  Proof.
    intros Hh Hj. induction m as [|m IH]; intros Hm a c.
    - cbn [for_ rsum]. destruct (Nat.eqb_spec a h), (Nat.eqb_spec c j); subst; cbn [andb]; auto. unfold acc. now rewrite !Rplus_0_r.
    - rewrite for_S, Nat.add_0_l. unfold acc. rewrite fst_classic, snd_classic.
      pose proof (IH ltac:(lia) a c) as I1. pose proof (IH ltac:(lia) h j) as I2.
      unfold acc in I1, I2. rewrite !Nat.eqb_refl in I2. cbn [andb] in I2. injection I2 as I2a I2b.
      destruct (Nat.eqb a h && Nat.eqb c j); [|exact I1].
      rewrite I2a, I2b. cbn [rsum]. unfold diff_wrt. rewrite !(sv_el _ _ _ Hq) by lia. cbn [sym_of].
      unfold c1, c2, dM. f_equal; ring.
  Qed.
  Lemma loop_j h m S : h < n -> m <= n -> forall a c,
    acc (for_ m 0 (fun j => for_ n 0 (fun k => classic_term M q dq h j k)) S) a c =
    if Nat.eqb a h && Nat.ltb c m then ((ev env (fst S) h c + rsum n (c1 h c))%R, (ev env (snd S) h c + rsum n (c2 h c))%R)
    else acc S a c.
  Proof.
    intros Hh. induction m as [|m IH]; intros Hm a c.
    - cbn [for_]. now rewrite andb_false_r.
    - rewrite for_S, Nat.add_0_l, loop_k by lia.
      pose proof (IH ltac:(lia) a c) as I1. pose proof (IH ltac:(lia) h m) as I2. unfold acc in I2.
      rewrite Nat.eqb_refl, Nat.ltb_irrefl in I2. cbn [andb] in I2. injection I2 as I2a I2b.
      rewrite I2a, I2b. rewrite I1.
      destruct (Nat.eqb_spec a h); cbn [andb]; auto.
      destruct (Nat.eqb_spec c m).
      + subst. now rewrite (proj2 (Nat.ltb_lt m (Datatypes.S m))) by lia.
      + destruct (Nat.ltb_spec c m), (Nat.ltb_spec c (Datatypes.S m)); try lia; auto.
  Qed.
  Lemma loop_h m S : m <= n -> forall a c, c < n ->
    acc (for_ m 0 (fun h => for_ n 0 (fun j => for_ n 0 (fun k => classic_term M q dq h j k))) S) a c =
    if Nat.ltb a m then ((ev env (fst S) a c + rsum n (c1 a c))%R, (ev env (snd S) a c + rsum n (c2 a c))%R)
    else acc S a c.
  Proof.
    induction m as [|m IH]; intros Hm a c Hc.
    - reflexivity.
    - rewrite for_S, Nat.add_0_l, loop_j by lia.
      pose proof (IH ltac:(lia) a c Hc) as I1. pose proof (IH ltac:(lia) m c Hc) as I2. unfold acc in I2.
      rewrite Nat.ltb_irrefl in I2. injection I2 as I2a I2b. rewrite I2a, I2b, I1.
      rewrite (proj2 (Nat.ltb_lt c n)), andb_true_r by auto.
      destruct (Nat.eqb_spec a m).
      + subst. now rewrite (proj2 (Nat.ltb_lt m (Datatypes.S m))) by lia.
      + destruct (Nat.ltb_spec a m), (Nat.ltb_spec a (Datatypes.S m)); try lia; auto.
  Qed.
  Lemma classic_val i j : i < n -> j < n -> ev env (stdCmatrix_classic M q dq (dq_select dq)) i j = Chr i j.
  Proof.
    intros Hi Hj. unfold stdCmatrix_classic. rewrite (sv_r _ _ _ Hq).
    pose proof (loop_h n (zeros n n, zeros n n) (Nat.le_refl n)) as L.
    destruct (for_ n 0 _ _) as [C1 C2].
    pose proof (L i j Hj) as L1. pose proof (L j i Hi) as L2. unfold acc in L1, L2.
    rewrite (proj2 (Nat.ltb_lt i n) Hi) in L1. rewrite (proj2 (Nat.ltb_lt j n) Hj) in L2. injection L1 as A1 A2. injection L2 as B1 B2.
    unfold ev in *. cbn [msub madd mT el eval]. rewrite A1, A2, B2. cbn [fst snd zeros el eval].
    unfold Chr, c1, c2. rewrite !Rplus_0_l, <- rsum_plus, <- rsum_minus. apply rsum_ext. intros k Hk. field.
  Qed.
End Christoffel.
