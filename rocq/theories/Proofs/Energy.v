(* Energies: kinetic energy, gradient of the potential, Euler-Lagrange equations and power balance. *)
From Coq Require Import Reals Lra Lia Arith List String Bool ZArith.
From Coquelicot Require Import Coquelicot.
From Verif.Model Require Import Base Expr SX Robot Kinematics Dynamics Regressors Yaml Build.
From Verif.Spec Require Import Math Setup Kinematics Dynamics.
From Verif.Proofs Require Import Sums Calc Rel Lin3 Frames Pure PureRel Maps Names Shape Dims Sizes Deps BuildEq Load Init Final Closed Get Kin KinThm Motion KinMain Smooth Rates Partial Coriolis Mass DynMain.
Import ListNotations.
Open Scope nat_scope.
Open Scope string_scope.

Lemma d_rsum n (f : nat -> R -> R) f' t : (forall i, i < n -> is_derive (f i) t (f' i)) ->
  is_derive (fun s => rsum n (fun i => f i s)) t (rsum n f').
Proof.
  induction n as [|n IH]; intros H; cbn [rsum]; [apply is_derive_cst|].
  apply is_derive_add; auto.
Qed.
Lemma d_quad n (A : R -> rmat) A' (x y : R -> rvec) x' y' t :
  (forall i j, i < n -> j < n -> is_derive (fun s => A s i j) t (A' i j)) ->
  (forall i, i < n -> is_derive (fun s => x s i) t (x' i)) -> (forall i, i < n -> is_derive (fun s => y s i) t (y' i)) ->
  is_derive (fun s => rquad n (A s) (x s) (y s)) t
    (rquad n A' (x t) (y t) + rquad n (A t) x' (y t) + rquad n (A t) (x t) y')%R.
Proof.
  intros HA Hx Hy. unfold rquad, rdot, rmv.
  eapply is_derive_eq.
  - apply (d_rsum n (fun i s => x s i * rsum n (fun k => A s i k * y s k))%R
      (fun i => x' i * rsum n (fun k => A t i k * y t k) + x t i * rsum n (fun k => A' i k * y t k + A t i k * y' k))%R).
    intros i Hi. apply is_derive_mul; auto.
    apply (d_rsum n (fun k s => A s i k * y s k)%R). intros k Hk. apply is_derive_mul; auto.
  - rewrite <- !rsum_plus. apply rsum_ext. intros i Hi. rewrite rsum_plus. ring.
Qed.
Lemma rmv_0 n A x i : (forall k, k < n -> x k = 0%R) -> rmv n A x i = 0%R.
Proof. intros H. apply rsum_0. intros k Hk. rewrite H by auto. ring. Qed.
Lemma hat_inj u v : hat3 u = hat3 v -> u = v.
Proof. unfold hat3. intros H. injection H. intros. apply v3_eq; auto; lra. Qed.
Definition unit_vec (k : nat) : rvec := fun i => if Nat.eqb i k then 1%R else 0%R.
Lemma rsum_unit n k f : k < n -> rsum n (fun i => f i * unit_vec k i)%R = f k.
Proof.
  intros Hk. rewrite (rsum_single n k); auto; unfold unit_vec.
  - rewrite Nat.eqb_refl. ring.
  - intros i _ Hi. rewrite (proj2 (Nat.eqb_neq i k)) by auto. ring.
Qed.

Section Energy.
  Variables (name : string) (cfg : ynode) (r0 r b : robot) (rho : R -> robot) (t : R).
  Hypothesis Hm : motion name cfg r0 r rho.
  Hypothesis HB : built r0 b r.
  Hypothesis HX : exact_angles r0.
  Let n := numJoints r0.
  Notation E := (E r0 rho).
  Let Hs s : session name cfg r0 r (rho s) := mo_session _ _ _ _ _ Hm s.
  Let HS s : sess r0 b (rho s) := mo_sess _ _ _ _ _ _ Hm HB s.
  Let Hn : numJoints b = n := n_b _ _ _ (HS t).

  Lemma jlx_comp l x a s : vcomp (jlx b (E s) l x) a = rsum n (fun c => jl b (E s) (cpos b (E s) l) (S l) a c * x c)%R.
  Proof.
    unfold jlx. rewrite Hn, vcomp_vsum. apply rsum_ext. intros c Hc. rewrite vcomp_vsc, jl_v. ring.
  Qed.
  Lemma jwx_comp l x a s : vcomp (jwx b (E s) l x) a = rsum n (fun c => jw b (E s) (S l) a c * x c)%R.
  Proof.
    unfold jwx. rewrite Hn, vcomp_vsum. apply rsum_ext. intros c Hc. rewrite vcomp_vsc, jw_v. ring.
  Qed.
  Lemma mE l : l < n -> m_l b (E t) l = mass r0 (rho t) (S l).
  Proof. exact (m_l_val name cfg r0 r b (rho t) (Hs t) HB l). Qed.
  Lemma formE l u v : l < n -> dot u (mv (inert3 b (E t) l) v) = rquad 3 (inertia r0 (rho t) (S l)) (vcomp u) (vcomp v).
  Proof. exact (form_val name cfg r0 r b (rho t) (Hs t) HB l u v). Qed.
  Lemma gravE c : c < 3 -> vcomp (grav b (E t)) c = param r0 (rho t) "par_gravity" c.
  Proof. exact (grav_val name cfg r0 r b (rho t) (Hs t) HB c). Qed.
  Section Q.
    Variable qd : nat -> R.
    Hypothesis Hq : forall i, i < n -> is_derive (fun s => state (rho s) "q" i) t (qd i).
    Lemma com_rate i a : 1 <= i <= n -> a < 3 ->
      is_derive (fun s => com_point r0 (rho s) i a) t (vcomp (jlx b (E t) (i - 1) qd) a).
    Proof.
      intros Hi Ha.
      assert (HC : forall s, com b (E s) (i - 1) = com b (E t) (i - 1)).
      { intros s. unfold com, ev. rewrite !(par_const name cfg r0 r b rho Hm HB "par_DYN" (10 * n) _ s t) by (try apply pDYN; lia). reflexivity. }
      apply is_derive_ext with (fun s => vcomp (vadd (FP (chain_of b (E s)) i) (mv (FR (chain_of b (E s)) i) (com b (E t) (i - 1)))) a).
      { intros s. rewrite (com_point_val name cfg r0 r rho Hm HX b s i a HB Hi Ha). unfold cpos. rewrite (HC s). now replace (S (i - 1)) with i by lia. }
      rewrite jlx_comp. replace (S (i - 1)) with i by lia.
      unfold cpos. replace (S (i - 1)) with i by lia.
      exact (point_rate name cfg r0 r b rho Hm HB t HX qd Hq i _ a ltac:(lia)).
    Qed.
    Lemma spin_rate i : 1 <= i <= n ->
      is_dM (fun s => FR (chain_of b (E s)) i) t (mm (hat3 (jwx b (E t) (i - 1) qd)) (FR (chain_of b (E t)) i)).
    Proof.
      intros Hi. eapply is_dM_eq; [exact (rot_rate name cfg r0 r b rho Hm HB t HX qd Hq i ltac:(lia))|].
      f_equal. f_equal. apply vec_of_ext. intros a Ha. rewrite jwx_comp. now replace (S (i - 1)) with i by lia.
    Qed.
    Lemma fwd_rot s i a c : i <= n -> a < 3 -> c < 3 -> fwd r0 (rho s) i a c = mcomp (FR (chain_of b (E s)) i) a c.
    Proof.
      intros Hi Ha Hc. destruct (fk_exact _ _ _ _ _ (Hs s) HX) as (_ & _ & F & _).
      destruct (F i Hi) as [_ F']. rewrite <- F' by lia. apply (T0_rot _ _ _ (HS s)); auto.
    Qed.
    Lemma fwd_mtx s i : i <= n -> mtx_of (fwd r0 (rho s) i) = FR (chain_of b (E s)) i.
    Proof. intros Hi. apply mtx_of_ext. intros. apply fwd_rot; auto. Qed.
    Lemma rmul_hat w s i a c : i <= n -> a < 3 -> c < 3 ->
      rmul 3 (rhat w) (fwd r0 (rho s) i) a c = mcomp (mm (hat3 (vec_of w)) (FR (chain_of b (E s)) i)) a c.
    Proof.
      intros Hi Ha Hc. unfold rmul. cbn [rsum]. rewrite !fwd_rot by (auto; lia).
      unfold vec_of, mm, hat3.
      destruct a as [|[|[|a]]]; try lia; destruct c as [|[|[|c]]]; try lia; cbn; ring.
    Qed.
    Lemma moves_exist i : 1 <= i <= n ->
      link_moves r0 rho t i (vcomp (jlx b (E t) (i - 1) qd)) (vcomp (jwx b (E t) (i - 1) qd)).
    Proof.
      intros Hi. split; [intros a Ha; apply com_rate; auto|]. intros a c Ha Hc.
      apply is_derive_ext with (fun s => mcomp (FR (chain_of b (E s)) i) a c).
      { intros s. symmetry. apply fwd_rot; auto; lia. }
      rewrite rmul_hat by (auto; lia). rewrite (vec_of_ext _ (jwx b (E t) (i - 1) qd)) by auto.
      apply (is_dM_comp (fun s => FR (chain_of b (E s)) i)). apply spin_rate; auto.
    Qed.
    Lemma moves_unique i v w : 1 <= i <= n -> link_moves r0 rho t i v w ->
      vec_of v = jlx b (E t) (i - 1) qd /\ vec_of w = jwx b (E t) (i - 1) qd.
    Proof.
      intros Hi [H1 H2]. split.
      - apply vec_of_ext. intros a Ha. pose proof (is_derive_unique _ _ _ (H1 a Ha)) as U1.
        pose proof (is_derive_unique _ _ _ (com_rate i a Hi Ha)) as U2. congruence.
      - destruct (moves_exist i Hi) as [_ K].
        assert (Q : mm (hat3 (vec_of w)) (FR (chain_of b (E t)) i) = mm (hat3 (jwx b (E t) (i - 1) qd)) (FR (chain_of b (E t)) i)).
        { rewrite <- (mtx_of_ext (mcomp (mm (hat3 (vec_of w)) (FR (chain_of b (E t)) i))) _) by auto.
          apply mtx_of_ext. intros a c Ha Hc. rewrite <- rmul_hat by (auto; lia).
          rewrite <- (is_derive_unique _ _ _ (H2 a c Ha Hc)). rewrite (is_derive_unique _ _ _ (K a c Ha Hc)).
          rewrite rmul_hat by (auto; lia). now rewrite (vec_of_ext _ (jwx b (E t) (i - 1) qd)) by auto. }
        pose proof (FR_rot _ n i (chain_rot _ _ _ (HS t) HX) ltac:(lia)) as (_ & RI & _).
        change (renv r0 (rho t)) with (E t) in RI.
        apply hat_inj. rewrite <- (mm_I_r (hat3 (vec_of w))), <- (mm_I_r (hat3 (jwx _ _ _ _))), <- RI, <- !mm_assoc, Q. reflexivity.
    Qed.
    (* kinetic form in terms of the velocities *)
    Lemma quad_links x : (/ 2 * rquad n (out (rho t) "M") x x = rsum n (fun l =>
        / 2 * mass r0 (rho t) (S l) * dot (jlx b (E t) l x) (jlx b (E t) l x)
        + / 2 * rquad 3 (inertia r0 (rho t) (S l)) (vcomp (mv (mt (FR (chain_of b (E t)) (S l))) (jwx b (E t) l x)))
              (vcomp (mv (mt (FR (chain_of b (E t)) (S l))) (jwx b (E t) l x)))))%R.
    Proof.
      rewrite (quad_out name cfg r0 r b (rho t) (Hs t) HB). fold n. rewrite <- Hn at 1. rewrite Mx_quad, Hn, <- rsum_scal.
      apply rsum_ext. intros l Hl. rewrite Mq_self.
      change (renv r0 (rho t)) with (E t). unfold form.
      rewrite (mE l Hl), (formE l _ _ Hl). unfold Rl. ring.
    Qed.
    Lemma rquad3_ext A x y x' y' : (forall a, a < 3 -> x a = x' a) -> (forall a, a < 3 -> y a = y' a) -> rquad 3 A x y = rquad 3 A x' y'.
    Proof. intros H1 H2. unfold rquad, rdot, rmv. cbn [rsum]. rewrite !H1, !H2 by lia. reflexivity. Qed.
    Lemma energy_of v w : (forall i, 1 <= i <= n -> link_moves r0 rho t i (v i) (w i)) ->
      (/ 2 * rquad n (out (rho t) "M") qd qd =
       links r0 (fun i => link_energy r0 (rho t) i (fwd r0 (rho t) i) (v i) (w i)))%R.
    Proof.
      intros H. rewrite quad_links. unfold links. apply rsum_ext. intros l Hl. unfold link_energy.
      destruct (moves_unique (S l) (v (S l)) (w (S l)) ltac:(lia) (H (S l) ltac:(lia))) as [E1 E2].
      replace (S l - 1) with l in * by lia. rewrite <- E1, <- E2. f_equal; f_equal.
      { unfold rdot, dot, vec_of. cbn [rsum vx vy vz]. ring. }
      apply rquad3_ext; intros a Ha; unfold rmv, rtr; cbn [rsum]; rewrite !fwd_rot by lia;
        destruct a as [|[|[|a]]]; try lia; cbn; ring.
    Qed.
    (* potential energy *)
    Lemma par_same k len i s : In (k, len) (par_sizes r0) -> param r0 (rho s) k i = param r0 (rho t) k i.
    Proof. intros. eapply mo_param; eauto. Qed.
    Lemma U_rate : is_derive (fun s => potential r0 (rho s)) t (rsum n (fun k => out (rho t) "G" k 0%nat * qd k)%R).
    Proof.
      eapply is_derive_eq.
      - apply is_derive_ext with (fun s => - rsum n (fun l => mass r0 (rho t) (S l) * rdot 3 (param r0 (rho t) "par_gravity") (com_point r0 (rho s) (S l))))%R.
        { intros s. unfold potential, links. f_equal. apply rsum_ext. intros l Hl. unfold mass, dyn.
          rewrite (par_same "par_DYN" (10 * n) _ s) by apply pDYN. f_equal. unfold rdot. cbn [rsum].
          rewrite !(par_same "par_gravity" 3 _ s) by apply pG. reflexivity. }
        apply is_derive_neg.
        apply (d_rsum n (fun l s => mass r0 (rho t) (S l) * rdot 3 (param r0 (rho t) "par_gravity") (com_point r0 (rho s) (S l)))%R
          (fun l => mass r0 (rho t) (S l) * dot (grav b (E t)) (jlx b (E t) l qd))%R).
        intros l Hl. apply (is_derive_scal (fun s => rdot 3 (param r0 (rho t) "par_gravity") (com_point r0 (rho s) (S l)))).
        rewrite <- vcomp_rdot. unfold rdot.
        apply (d_rsum 3 (fun a s => param r0 (rho t) "par_gravity" a * com_point r0 (rho s) (S l) a)%R).
        intros a Ha. rewrite <- (gravE a Ha).
        apply (is_derive_scal (fun s => com_point r0 (rho s) (S l) a)).
        pose proof (com_rate (S l) a ltac:(lia) Ha) as C. now replace (S l - 1) with l in C by lia.
      - rewrite <- rsum_opp.
        rewrite (rsum_ext n (fun k => out (rho t) "G" k 0%nat * qd k)%R
          (fun k => rsum n (fun l => - mass r0 (rho t) (S l) * dot (grav b (E t)) (jlv b (E t) (cpos b (E t) l) l k) * qd k)%R)).
        + rewrite rsum_swap. apply rsum_ext. intros l Hl. unfold jlx. rewrite Hn, dot_vsum_r, <- rsum_scal, <- rsum_opp.
          apply rsum_ext. intros k Hk. rewrite dot_sc_r. ring.
        + intros k Hk. rewrite (outG name cfg r0 r b (rho t) (Hs t) HB k Hk).
          change (renv r0 (rho t)) with (E t). rewrite Gx_val, Hn, <- rsum_scal_r.
          * apply rsum_ext. intros l Hl. rewrite (mE l Hl). reflexivity.
          * exact (ps_r _ _ _ _ (bs_shape _ _ (ss_base _ _ _ (HS t)) "par_gravity" 3 (key_g _ _ _ (HS t)))).
    Qed.
  End Q.
End Energy.
