(* The published damped pseudo-inverse solves the damped least squares problem. *)
From Coq Require Import Reals Lra Lia Arith List String Bool Psatz.
From Verif.Model Require Import Base Expr SX Robot Kinematics Yaml Build.
From Verif.Spec Require Import Math Setup Kinematics Damped.
From Verif.Proofs Require Import Sums Pure Names Shape Dims Load Init Final Get KinThm Sizes Determinant.
Open Scope R_scope.

Section Gen.
  Variables (n : nat) (J : rmat) (mu : R).
  Hypothesis Hmu : 0 < mu.

  Lemma gram_quad z : rquad 6 (damped_gram mu n J) z z
    = rsum n (fun k => (rsum 6 (fun a => J a k * z a)) ^ 2) + mu * rsum 6 (fun a => z a ^ 2).
  Proof.
    unfold rquad, rdot, rmv, damped_gram.
    rewrite (rsum_ext 6 _ (fun a => rsum n (fun k => J a k * z a * rsum 6 (fun b => J b k * z b)) + mu * z a ^ 2)).
    - rewrite rsum_plus, rsum_scal. f_equal. rewrite rsum_swap. apply rsum_ext. intros k Hk.
      rewrite rsum_scal_r. ring.
    - intros a Ha.
      rewrite (rsum_ext 6 _ (fun b => rsum n (fun k => J a k * (J b k * z b)) + (if Nat.eqb b a then mu * z b else 0))).
      + rewrite rsum_plus, rsum_delta by auto. rewrite rsum_swap.
        rewrite (rsum_ext n _ (fun k => J a k * rsum 6 (fun b => J b k * z b))) by (intros; now rewrite rsum_scal).
        rewrite Rmult_plus_distr_l, <- rsum_scal. f_equal; [apply rsum_ext; intros; ring|ring].
      + intros b Hb. unfold rmul, rtr, rid. rewrite Rmult_plus_distr_r, <- rsum_scal_r. f_equal.
        * apply rsum_ext. intros; ring.
        * rewrite Nat.eqb_sym. destruct (Nat.eqb b a); ring.
  Qed.

  Lemma sum_sq_pos m (z : rvec) : (exists i, (i < m)%nat /\ z i <> 0) -> 0 < rsum m (fun a => z a ^ 2).
  Proof.
    intros (i & Hi & Hz).
    assert (X : 0 <= rsum m (fun a => z a ^ 2)) by (apply rsum_nonneg; intros; apply pow2_ge_0).
    destruct X as [X|X]; auto. exfalso. apply Hz.
    assert (Y : z i ^ 2 = 0) by (apply (rsum_nonneg_0 m (fun a => z a ^ 2)); auto; intros; apply pow2_ge_0).
    nra.
  Qed.

  Lemma gram_pd : pd 6 (damped_gram mu n J).
  Proof.
    intros z Hz. rewrite gram_quad.
    assert (A : 0 <= rsum n (fun k => (rsum 6 (fun a => J a k * z a)) ^ 2)) by (apply rsum_nonneg; intros; apply pow2_ge_0).
    pose proof (sum_sq_pos 6 z Hz). nra.
  Qed.
  Lemma gram_symm : symm 6 (damped_gram mu n J).
  Proof.
    intros a b _ _. unfold damped_gram, rmul, rtr, rid. f_equal; [apply rsum_ext; intros; ring|].
    rewrite Nat.eqb_sym. reflexivity.
  Qed.

  (* optimality of J^T y where (J J^T + mu I) y = v *)
  Lemma damped_opt (y v p x : rvec) :
    (forall a, (a < 6)%nat -> rmv 6 (damped_gram mu n J) y a = v a) ->
    (forall i, (i < n)%nat -> p i = rsum 6 (fun a => J a i * y a)) ->
    damped_cost mu n J v x = damped_cost mu n J v p
      + rsum 6 (fun a => (rmv n J (fun i => x i - p i) a) ^ 2) + mu * rsum n (fun i => (x i - p i) ^ 2).
  Proof.
    intros Hy Hp.
    assert (R1 : forall a, (a < 6)%nat -> rmv n J p a - v a = - mu * y a).
    { intros a Ha. rewrite <- (Hy a Ha). unfold rmv, damped_gram.
      rewrite (rsum_ext 6 _ (fun b => rsum n (fun k => J a k * (J b k * y b)) + (if Nat.eqb b a then mu * y b else 0))).
      - rewrite rsum_plus, rsum_delta by auto. rewrite rsum_swap.
        rewrite (rsum_ext n (fun k => J a k * p k) (fun k => rsum 6 (fun b => J a k * (J b k * y b)))).
        + ring.
        + intros k Hk. rewrite Hp by auto. rewrite rsum_scal. reflexivity.
      - intros b Hb. unfold rmul, rtr, rid. rewrite Rmult_plus_distr_r, <- rsum_scal_r. f_equal.
        + apply rsum_ext. intros; ring.
        + rewrite Nat.eqb_sym. destruct (Nat.eqb b a); ring. }
    assert (D : forall a, rmv n J x a = rmv n J p a + rmv n J (fun i => x i - p i) a).
    { intros a. unfold rmv. rewrite <- rsum_plus. apply rsum_ext. intros; ring. }
    set (d := fun i => x i - p i) in *.
    assert (X : rsum 6 (fun a => y a * rmv n J d a) = rsum n (fun i => p i * d i)).
    { unfold rmv. rewrite (rsum_ext 6 _ (fun a => rsum n (fun k => J a k * y a * d k))).
      - rewrite rsum_swap. apply rsum_ext. intros k Hk. rewrite rsum_scal_r, Hp by auto. reflexivity.
      - intros a Ha. rewrite <- rsum_scal. apply rsum_ext. intros; ring. }
    change (rsum n (fun i => (x i - p i) ^ 2)) with (rsum n (fun i => d i ^ 2)).
    unfold damped_cost.
    rewrite (rsum_ext 6 (fun a => (rmv n J x a - v a) ^ 2)
      (fun a => (rmv n J p a - v a) ^ 2 + (rmv n J d a) ^ 2 + (-2 * mu) * (y a * rmv n J d a))).
    - rewrite !rsum_plus, rsum_scal, X.
      rewrite (rsum_ext n (fun i => x i ^ 2) (fun i => p i ^ 2 + d i ^ 2 + 2 * (p i * d i))).
      + rewrite !rsum_plus, rsum_scal. ring.
      + intros i Hi. unfold d. cbn beta. ring.
    - intros a Ha. rewrite D. pose proof (R1 a Ha) as Q. 
      replace (rmv n J p a) with (v a + - mu * y a) by lra. ring.
  Qed.
End Gen.

Section Sess.
  Variables (r0 b r' : robot).
  Hypothesis H : sess r0 b r'.
  Notation env := (renv r0 r').
  Let n := numJoints r0.
  Let J := out r' "J_ee".

  Lemma Jee_ev : agree 6 n J (ev env (Jeex b)).
  Proof. pose proof (proj2 (get_out _ _ _ H fJee I)) as G. simpl in G. rewrite (n_b _ _ _ H) in G. exact G. Qed.
  Lemma Jeex_dims : rows (Jeex b) = 6%nat /\ cols (Jeex b) = n.
  Proof.
    assert (HJ := core_dims (cvof r0) b (ss_base _ _ _ H) fJee eq_refl I). destruct HJ as [JR JC _].
    cbn [val vrows vcols] in JR, JC. rewrite (n_b _ _ _ H) in JC. auto.
  Qed.
  Lemma damped_ev a c : (a < 6)%nat -> (c < 6)%nat -> ev env (damped b) a c = damped_gram MU n J a c.
  Proof.
    intros Ha Hc. unfold damped, damped_gram, rmul, rtr, rid. unfold ev. cbn [madd scale_r el mtimes mT eye scal sc eval].
    destruct Jeex_dims as [JR JC]. rewrite eval_esum, JC. f_equal.
    - apply rsum_ext. intros k Hk. rewrite !Jee_ev by auto. reflexivity.
    - destruct (Nat.eqb a c); cbn [eval]; ring.
  Qed.
  Lemma pinv_ev : answers r' "J_ee_pinv" n 6 /\
    forall i c, (i < n)%nat -> (c < 6)%nat ->
      out r' "J_ee_pinv" i c = rsum 6 (fun a => J a i * ev env (inv (damped b)) a c).
  Proof.
    pose proof (get_out _ _ _ H fJeepinv I) as [G1 G2]. simpl in G1, G2. rewrite (n_b _ _ _ H) in G1, G2.
    split; [exact G1|]. intros i c Hi Hc. rewrite (G2 i c Hi Hc). unfold Jeepinvx.
    destruct Jeex_dims as [JR JC].
    rewrite ev_mtimes. cbn [mT cols]. rewrite JR. unfold rmul. apply rsum_ext. intros a Ha.
    rewrite (Jee_ev a i Ha Hi). reflexivity.
  Qed.

  Lemma MU_pos : 0 < MU.
  Proof. unfold MU. lra. Qed.

  Lemma damped_det : 0 < rdet 6 (ev env (damped b)).
  Proof.
    rewrite (rdet_ext 6 _ (damped_gram MU n J)) by (intros; apply damped_ev; auto).
    apply pd_det; [apply gram_symm|apply gram_pd, MU_pos].
  Qed.

  Lemma pinv_opt v x :
    damped_cost MU n J v x = damped_cost MU n J v (rmv 6 (out r' "J_ee_pinv") v)
      + rsum 6 (fun a => (rmv n J (fun i => x i - rmv 6 (out r' "J_ee_pinv") v i) a) ^ 2)
      + MU * rsum n (fun i => (x i - rmv 6 (out r' "J_ee_pinv") v i) ^ 2).
  Proof.
    apply (damped_opt n J MU (rmv 6 (ev env (inv (damped b))) v)).
    - intros a Ha.
      assert (RD : rows (damped b) = 6%nat).
      { unfold damped. cbn [madd rows mtimes]. apply Jeex_dims. }
      unfold rmv.
      rewrite (rsum_ext 6 _ (fun k => rsum 6 (fun c => ev env (damped b) a k * ev env (inv (damped b)) k c * v c))).
      + rewrite rsum_swap.
        rewrite (rsum_ext 6 _ (fun c => rid a c * v c)).
        * rewrite (rsum_single 6 a); auto.
          -- unfold rid. rewrite Nat.eqb_refl. ring.
          -- intros c Hc Hn. unfold rid. destruct (Nat.eqb_spec a c); [lia|ring].
        * intros c Hc. rewrite rsum_scal_r. f_equal.
          pose proof damped_det as DD.
          exact (ev_inv env (damped b) 5 a c RD (Rgt_not_eq _ _ DD) Ha Hc).
      + intros k Hk. rewrite <- rsum_scal. apply rsum_ext. intros c Hc. rewrite damped_ev by auto. ring.
    - intros i Hi. unfold rmv.
      rewrite (rsum_ext 6 _ (fun c => rsum 6 (fun a => J a i * (ev env (inv (damped b)) a c * v c)))).
      + rewrite rsum_swap. apply rsum_ext. intros a Ha. rewrite rsum_scal. reflexivity.
      + intros c Hc. rewrite (proj2 pinv_ev i c Hi Hc). rewrite <- rsum_scal_r. apply rsum_ext. intros; ring.
  Qed.
End Sess.

Section Main.
  Variables (name : string) (cfg : ynode) (r0 r r' : robot).
  Hypothesis Hs : session name cfg r0 r r'.
  Let n := numJoints r0.

  Lemma pinv_answers : answers r' "J_ee_pinv" n 6.
  Proof. destruct (session_sess _ _ _ _ _ Hs) as (b & S & _). exact (proj1 (pinv_ev _ _ _ S)). Qed.

  Lemma MU_val : MU = 0.02.
  Proof. unfold MU. lra. Qed.

  Lemma pinv_minimiser v x :
    damped_cost 0.02 n (out r' "J_ee") v (rmv 6 (out r' "J_ee_pinv") v) <= damped_cost 0.02 n (out r' "J_ee") v x /\
    (damped_cost 0.02 n (out r' "J_ee") v x <= damped_cost 0.02 n (out r' "J_ee") v (rmv 6 (out r' "J_ee_pinv") v) ->
     forall i, (i < n)%nat -> x i = rmv 6 (out r' "J_ee_pinv") v i).
  Proof.
    rewrite <- MU_val. destruct (session_sess _ _ _ _ _ Hs) as (b & S & _).
    pose proof (pinv_opt _ _ _ S v x) as E. fold n in E.
    set (p := rmv 6 (out r' "J_ee_pinv") v) in *.
    assert (A : 0 <= rsum 6 (fun a => (rmv n (out r' "J_ee") (fun i => x i - p i) a) ^ 2))
      by (apply rsum_nonneg; intros; apply pow2_ge_0).
    assert (B : 0 <= rsum n (fun i => (x i - p i) ^ 2)) by (apply rsum_nonneg; intros; apply pow2_ge_0).
    pose proof MU_pos. split; [nra|]. intros L i Hi.
    assert (Z : rsum n (fun i => (x i - p i) ^ 2) = 0) by nra.
    assert (Y : (x i - p i) ^ 2 = 0) by (apply (rsum_nonneg_0 n (fun i => (x i - p i) ^ 2)); auto; intros; apply pow2_ge_0).
    nra.
  Qed.

  Lemma gram_regular z : (exists a, (a < 6)%nat /\ z a <> 0) ->
    0 < rquad 6 (damped_gram 0.02 n (out r' "J_ee")) z z.
  Proof. rewrite <- MU_val. apply gram_pd, MU_pos. Qed.
End Main.
