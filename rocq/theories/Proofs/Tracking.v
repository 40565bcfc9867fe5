(* Uniform bounds for the controlled robot: exponential decay of the error, bounded errors, bounded accelerations. *)
From Coq Require Import Reals Lra Lia Arith List String Bool ZArith.
From Coquelicot Require Import Coquelicot.
From Verif.Model Require Import Base Expr SX Robot Yaml Build.
From Verif.Spec Require Import Math Setup Kinematics Dynamics Regressor Bounds Control Tracking.
From Verif.Proofs Require Import Sums Calc Rel Lin3 Frames Pure PureRel Maps Names Shape Dims Sizes Deps BuildEq BuildReg Load Init Final Closed Get Kin KinThm Near Mass DynMain Determinant Damped Smooth Coriolis Select Lagrange Catalogue SortedMaps Api Tail Turns Defined Motion Control Bounds.
Import ListNotations.
Open Scope nat_scope.
Open Scope string_scope.

Lemma rsum_abs m (f g : nat -> R) : (forall k, k < m -> (Rabs (f k) <= g k)%R) -> (Rabs (rsum m f) <= rsum m g)%R.
Proof.
  induction m as [|m IH]; intros F; [simpl; rewrite Rabs_R0; lra|]. cbn [rsum].
  eapply Rle_trans; [apply Rabs_triang|]. apply Rplus_le_compat; auto.
Qed.
Lemma rsum_le m (f g : nat -> R) : (forall k, k < m -> (f k <= g k)%R) -> (rsum m f <= rsum m g)%R.
Proof. induction m as [|m IH]; intros F; [simpl; lra|]. cbn [rsum]. apply Rplus_le_compat; auto. Qed.
Lemma rdot_nonneg m x : (0 <= rdot m x x)%R.
Proof. unfold rdot. induction m as [|m IH]; simpl; [lra|]. pose proof (Rle_0_sqr (x m)). unfold Rsqr in *. lra. Qed.
Lemma rsum_c m c : rsum m (fun _ => c) = (INR m * c)%R.
Proof. induction m as [|m IH]; [simpl; ring|]. cbn [rsum]. rewrite IH, S_INR. ring. Qed.
(* a matrix with entries at most B has a form at most m B |x|^2 *)
Lemma quad_above m A B x : (0 <= B)%R -> (forall i j, i < m -> j < m -> (Rabs (A i j) <= B)%R) ->
  (Rabs (rquad m A x x) <= INR m * B * rdot m x x)%R.
Proof.
  intros HB HA. unfold rquad, rdot at 1.
  eapply Rle_trans with (rsum m (fun i => rsum m (fun j => B * ((x i * x i + x j * x j) / 2)))%R).
  - apply rsum_abs. intros i Hi. unfold rmv. rewrite <- rsum_scal. apply rsum_abs. intros j Hj.
    rewrite !Rabs_mult. specialize (HA i j Hi Hj).
    pose proof (Rabs_pos (x i)). pose proof (Rabs_pos (x j)). pose proof (Rabs_pos (A i j)).
    pose proof (Rle_0_sqr (Rabs (x i) - Rabs (x j))) as S. unfold Rsqr in S.
    assert (E1 : (x i * x i = Rabs (x i) * Rabs (x i))%R) by (rewrite <- Rabs_mult; symmetry; apply Rabs_pos_eq, Rle_0_sqr).
    assert (E2 : (x j * x j = Rabs (x j) * Rabs (x j))%R) by (rewrite <- Rabs_mult; symmetry; apply Rabs_pos_eq, Rle_0_sqr).
    rewrite E1, E2. replace (Rabs (x i) * (Rabs (A i j) * Rabs (x j)))%R with (Rabs (A i j) * (Rabs (x i) * Rabs (x j)))%R by ring.
    apply Rmult_le_compat; auto; [apply Rmult_le_pos; auto|lra].
  - right.
    rewrite (rsum_ext m _ (fun i => INR m * (B * (x i * x i / 2)) + B / 2 * rdot m x x)%R).
    + rewrite rsum_plus, rsum_c. rewrite (rsum_ext m _ (fun i => (INR m * B / 2) * (x i * x i))%R) by (intros; field).
      rewrite rsum_scal. unfold rdot. field.
    + intros i Hi. rewrite (rsum_ext m _ (fun j => B * (x i * x i / 2) + B / 2 * (x j * x j))%R) by (intros; field).
      rewrite rsum_plus, rsum_c, rsum_scal. reflexivity.
Qed.

Section Uniform.
  Variables (name : string) (cfg : ynode) (r0 r b : robot).
  Hypothesis B : built r0 b r.
  Let n := numJoints r0.
  Lemma nb r' : session name cfg r0 r r' -> numJoints b = n.
  Proof. intros S. apply (n_b _ _ _ (built_sess _ _ _ _ _ _ S B)). Qed.
  Lemma limited_M r' L : limited r0 r' body_pars L -> limited r0 r' (alist b fM) L.
  Proof.
    intros [H1 H2]. split; auto. intros k l Hk Nq. apply H1; auto.
    destruct (alist_M b k Hk) as [<-|I]; [congruence|exact I].
  Qed.
  Lemma inertia_above L : exists mu, (0 < mu)%R /\ forall r', session name cfg r0 r r' -> limited r0 r' body_pars L ->
    forall x, (rquad n (out r' "M") x x <= mu * rdot n x x)%R.
  Proof.
    destruct (out_bounded name cfg r0 r b B fM L I eq_refl) as [Bd H].
    exists (INR n * Rmax 0 Bd + 1)%R. pose proof (pos_INR n) as P. pose proof (Rmax_l 0 Bd) as P1. pose proof (Rmax_r 0 Bd) as P2.
    split; [pose proof (Rmult_le_pos _ _ P P1); lra|]. intros r' S Hl x.
    pose proof (rdot_nonneg n x) as X.
    assert (Q : (Rabs (rquad n (out r' "M") x x) <= INR n * Rmax 0 Bd * rdot n x x)%R).
    { apply quad_above; auto. intros i j Hi Hj. eapply Rle_trans; [|exact P2].
      apply (H r' S (limited_M r' L Hl) i j); cbn [vrows vcols]; rewrite (nb r' S); auto. }
    pose proof (Rle_abs (rquad n (out r' "M") x x)). nra.
  Qed.

  (* the exact model: the velocity error satisfies M s' + C s = - Kd s *)
  Lemma tracking_rate rho t Kd : motion name cfg r0 r rho ->
    follows_at r0 rho "q" "dq" t -> follows_at r0 rho "dq" "ddq" t -> follows_at r0 rho "dqr" "ddqr" t ->
    (forall i, i < n -> torque r0 (rho t) i = tracking_torque r0 (rho t) Kd i) ->
    is_derive (fun u => / 2 * rquad n (out (rho u) "M") (velocity_error (rho u)) (velocity_error (rho u)))%R t
      (- rquad n Kd (velocity_error (rho t)) (velocity_error (rho t)))%R.
  Proof.
    intros Hm H1 H2 H3 T.
    eapply is_derive_eq.
    - apply (form_rate name cfg r0 r rho t Hm H1 (fun u => velocity_error (rho u)) (fun i => state (rho t) "ddq" i - state (rho t) "ddqr" i)%R).
      intros i Hi. unfold velocity_error. apply (is_derive_minus (fun u => state (rho u) "dq" i) (fun u => state (rho u) "dqr" i)); [apply H2|apply H3]; exact Hi.
    - fold n. unfold rquad, rdot. rewrite <- rsum_opp. apply rsum_ext. intros i Hi. specialize (T i Hi).
      unfold torque, tracking_torque in T. fold n in T.
      rewrite rmv_minus. unfold velocity_error at 2. rewrite rmv_minus.
      replace (rmv n Kd (velocity_error (rho t)) i) with
        (rmv n (out (rho t) "M") (state (rho t) "ddqr") i + rmv n (out (rho t) "C") (state (rho t) "dqr") i
         - rmv n (out (rho t) "M") (state (rho t) "ddq") i - rmv n (out (rho t) "C") (state (rho t) "dq") i)%R by lra. ring.
  Qed.

  Theorem decay L m0 : (0 < m0)%R -> exists A lam, (0 < lam)%R /\ forall rho a b Kd k, motion name cfg r0 r rho -> (a <= b)%R -> (0 <= k)%R ->
    (forall t, (a <= t <= b)%R ->
       follows_at r0 rho "q" "dq" t /\ follows_at r0 rho "dq" "ddq" t /\ follows_at r0 rho "dqr" "ddqr" t /\ sturdy r0 (rho t) L m0 /\
       (forall i, i < n -> torque r0 (rho t) i = tracking_torque r0 (rho t) (Kd t) i) /\
       (k * rdot n (velocity_error (rho t)) (velocity_error (rho t)) <= rquad n (Kd t) (velocity_error (rho t)) (velocity_error (rho t)))%R) ->
    (rdot n (velocity_error (rho b)) (velocity_error (rho b)) <=
     A * exp (- (lam * k * (b - a))) * rdot n (velocity_error (rho a)) (velocity_error (rho a)))%R.
  Proof.
    intros Hm0. destruct (inertia_below name cfg r0 r b B L m0 Hm0) as (c & Hc & HC). destruct (inertia_above L) as (mu & Hmu & HM).
    exists (mu / c)%R, (2 / mu)%R. split; [apply Rdiv_lt_0_compat; lra|].
    intros rho a e Kd k Hm Hae Hk H. fold n in HC.
    set (s := fun t => velocity_error (rho t)). set (V := fun t => (/ 2 * rquad n (out (rho t) "M") (s t) (s t))%R).
    set (ll := (2 / mu * k)%R).
    assert (D : (V e * exp (ll * (e - a)) <= V a * exp (ll * (a - a)))%R).
    { apply (decreasing (fun t => V t * exp (ll * (t - a)))%R
        (fun t => (- rquad n (Kd t) (s t) (s t)) * exp (ll * (t - a)) + V t * (ll * exp (ll * (t - a))))%R a e Hae).
      - intros t Ht. destruct (H t Ht) as (F1 & F2 & F3 & _ & T & _).
        apply (is_derive_mult V (fun t => exp (ll * (t - a)))%R t); [| |intros; apply Rmult_comm].
        + exact (tracking_rate rho t (Kd t) Hm F1 F2 F3 T).
        + apply (is_derive_comp exp (fun t => ll * (t - a))%R t (exp (ll * (t - a))) ll); [apply is_derive_exp|].
          eapply is_derive_eq; [apply (is_derive_scal (fun t => t - a)%R t ll); apply (is_derive_minus (fun t : R => t) (fun _ => a)); [apply is_derive_id|apply (is_derive_const (K := R_AbsRing) (V := R_NormedModule))]|].
          unfold Hierarchy.minus, Hierarchy.plus, Hierarchy.opp, Hierarchy.zero, Hierarchy.one; simpl. unfold Hierarchy.scal; simpl; unfold Hierarchy.mult; simpl. ring.
      - intros t Ht. destruct (H t Ht) as (_ & _ & _ & (SL & _) & _ & K). fold (s t) in K.
        pose proof (exp_pos (ll * (t - a))) as X. pose proof (HM (rho t) (mo_session _ _ _ _ _ Hm t) SL (s t)) as U.
        assert (W : (V t * ll <= rquad n (Kd t) (s t) (s t))%R).
        { eapply Rle_trans; [|exact K]. unfold V, ll.
          replace (/ 2 * rquad n (out (rho t) "M") (s t) (s t) * (2 / mu * k))%R with (k * (rquad n (out (rho t) "M") (s t) (s t) / mu))%R by (field; lra).
          apply Rmult_le_compat_l; auto. apply Rmult_le_reg_r with mu; auto. unfold Rdiv. rewrite Rmult_assoc, Rinv_l, Rmult_1_r by lra. lra. }
        replace (- rquad n (Kd t) (s t) (s t) * exp (ll * (t - a)) + V t * (ll * exp (ll * (t - a))))%R
          with (- ((rquad n (Kd t) (s t) (s t) - V t * ll) * exp (ll * (t - a))))%R by ring.
        assert (0 <= (rquad n (Kd t) (s t) (s t) - V t * ll) * exp (ll * (t - a)))%R by (apply Rmult_le_pos; lra). lra. }
    replace (ll * (a - a))%R with 0%R in D by ring. rewrite exp_0, Rmult_1_r in D.
    destruct (H a ltac:(lra)) as (_ & _ & _ & (La & _) & _). destruct (H e ltac:(lra)) as (_ & _ & _ & (Le & P1 & P2) & _).
    pose proof (HM (rho a) (mo_session _ _ _ _ _ Hm a) La (s a)) as Ua. pose proof (HC (rho e) (mo_session _ _ _ _ _ Hm e) Le P1 P2 (s e)) as Ue.
    fold (s a) (s e). rewrite exp_Ropp. replace (2 / mu * k * (e - a))%R with (ll * (e - a))%R by reflexivity.
    pose proof (exp_pos (ll * (e - a))) as X. set (E := exp (ll * (e - a))) in *.
    apply Rmult_le_reg_r with (c * E)%R; [now apply Rmult_lt_0_compat|].
    replace (mu / c * / E * rdot n (s a) (s a) * (c * E))%R with (mu * rdot n (s a) (s a))%R by (field; lra).
    eapply Rle_trans; [|exact Ua]. unfold V in D.
    apply Rle_trans with (rquad n (out (rho e) "M") (s e) (s e) * E)%R; [|lra].
    replace (rdot n (s e) (s e) * (c * E))%R with (c * rdot n (s e) (s e) * E)%R by ring. apply Rmult_le_compat_r; lra.
  Qed.

  (* accelerations *)
  Theorem acceleration L m0 : (0 < m0)%R -> exists K, forall r', session name cfg r0 r r' -> sturdy r0 r' L m0 ->
    (forall l, (Rabs (nth l (arg r' "par_gravity") 0) <= L)%R) ->
    forall i, i < n -> (Rabs (state r' "ddq" i) <=
      K * (1 + rsum n (fun k => Rabs (torque r0 r' k)) + rsum n (fun k => Rabs (state r' "dq" k)) ^ 2))%R.
  Proof.
    intros Hm0. destruct (inertia_below name cfg r0 r b B L m0 Hm0) as (c & Hc & HC). fold n in HC.
    destruct (coriolis_bounded name cfg r0 r b B L) as (Bc & HB). fold n in HB.
    destruct (out_bounded name cfg r0 r b B fG L I eq_refl) as [Bg HG].
    set (bc := Rmax 0 Bc). set (bg := Rmax 0 Bg). set (N := INR n).
    assert (PN : (0 <= N)%R) by apply pos_INR.
    assert (Pc : (0 <= bc)%R) by apply Rmax_l. assert (Pg : (0 <= bg)%R) by apply Rmax_l.
    exists ((1 + N * bc + N * bg) / c)%R. intros r' S (SL & P1 & P2) GL i Hi.
    set (V := rsum n (fun k => Rabs (state r' "dq" k))). set (T := rsum n (fun k => Rabs (torque r0 r' k))).
    assert (PV : (0 <= V)%R) by (apply rsum_nonneg; intros; apply Rabs_pos).
    assert (PT : (0 <= T)%R) by (apply rsum_nonneg; intros; apply Rabs_pos).
    set (a := state r' "ddq").
    set (w := fun k => (torque r0 r' k - rmv n (out r' "C") (state r' "dq") k - out r' "G" k 0%nat)%R).
    assert (EM : forall k, k < n -> rmv n (out r' "M") a k = w k) by (intros k Hk; unfold w, torque; fold n; fold a; ring).
    set (W := rsum n (fun k => Rabs (w k))).
    assert (PW : (0 <= W)%R) by (apply rsum_nonneg; intros; apply Rabs_pos).
    assert (HW : (W <= (1 + N * bc + N * bg) * (1 + T + V ^ 2))%R).
    { apply Rle_trans with (T + N * (bc * V ^ 2) + N * bg)%R.
      - unfold T, N. rewrite <- !rsum_c, <- !rsum_plus. apply rsum_le. intros k Hk. unfold w, Rminus.
        eapply Rle_trans; [apply Rabs_triang|]. apply Rplus_le_compat.
        + eapply Rle_trans; [apply Rabs_triang|]. apply Rplus_le_compat; [lra|]. rewrite Rabs_Ropp. unfold rmv.
          replace (bc * V ^ 2)%R with (rsum n (fun j => (bc * V) * Rabs (state r' "dq" j)))%R by (rewrite rsum_scal; fold V; ring).
          apply rsum_abs. intros j Hj. rewrite Rabs_mult. apply Rmult_le_compat_r; [apply Rabs_pos|].
          eapply Rle_trans; [apply (HB r' S SL k j Hk Hj)|]. fold V. apply Rmult_le_compat_r; [exact PV|apply Rmax_r].
        + rewrite Rabs_Ropp. eapply Rle_trans; [|apply Rmax_r]. apply (HG r' S).
          * destruct SL as [H1 H2]. split; auto. intros key l Hk' Nq. unfold alist, al, obtain_symb_parameters, kinp, kingp in Hk'.
            apply in_app_iff in Hk'. destruct Hk' as [Hk'|Hk']; try (apply filter_In in Hk'; destruct Hk' as [Hk' _]); cbn [In] in Hk';
            repeat match goal with H : _ \/ _ |- _ => destruct H as [H|H] end; try contradiction; subst; try congruence;
              first [apply GL|apply H1; [unfold body_pars; simpl; tauto|discriminate]].
          * cbn [vrows]. rewrite (nb r' S). exact Hk.
          * simpl. lia.
      - assert (0 <= V ^ 2)%R by apply pow2_ge_0. assert (0 <= N * bc)%R by now apply Rmult_le_pos. assert (0 <= N * bg)%R by now apply Rmult_le_pos.
        assert (0 <= N * bc * T)%R by now apply Rmult_le_pos. assert (0 <= N * bg * T)%R by now apply Rmult_le_pos.
        assert (0 <= N * bg * V ^ 2)%R by now apply Rmult_le_pos. assert (0 <= N * bc * V ^ 2)%R by now apply Rmult_le_pos. lra. }
    set (q := sqrt (rdot n a a)). pose proof (rdot_nonneg n a) as PA. pose proof (sqrt_sqrt _ PA) as QQ. fold q in QQ.
    assert (Pq : (0 <= q)%R) by apply sqrt_pos.
    assert (EN : forall k, k < n -> (Rabs (a k) <= q)%R).
    { intros k Hk. apply Rsqr_incr_0_var; [|exact Pq]. rewrite <- Rsqr_abs. unfold Rsqr. rewrite QQ. unfold rdot.
      apply (rsum_le_one n (fun k => a k * a k)%R k Hk). intros; apply Rle_0_sqr. }
    assert (U : (c * (q * q) <= q * W)%R).
    { rewrite QQ. eapply Rle_trans; [apply (HC r' S SL P1 P2 a)|]. unfold rquad, rdot.
      eapply Rle_trans; [apply Rle_abs|]. unfold W. rewrite <- rsum_scal. apply rsum_abs. intros k Hk. rewrite (EM k Hk), Rabs_mult.
      apply Rmult_le_compat_r; [apply Rabs_pos|auto]. }
    assert (U' : (c * q <= W)%R).
    { destruct (Rle_lt_or_eq_dec 0 q Pq) as [Q|<-]; [|lra]. apply Rmult_le_reg_l with q; auto. lra. }
    eapply Rle_trans; [apply (EN i Hi)|]. apply Rmult_le_reg_l with c; [exact Hc|].
    replace (c * ((1 + N * bc + N * bg) / c * (1 + T + V ^ 2)))%R with ((1 + N * bc + N * bg) * (1 + T + V ^ 2))%R by (field; lra). lra.
  Qed.
End Uniform.
