(* Velocities along a motion: what the Jacobians compute. *)
From Coq Require Import Reals Lra Lia Arith List String Bool ZArith.
From Coquelicot Require Import Coquelicot.
From Verif.Model Require Import Base Expr SX Robot Kinematics Dynamics Regressors Yaml Build.
From Verif.Spec Require Import Math Setup Kinematics.
From Verif.Proofs Require Import Sums Calc Lin3 Frames Pure PureRel Names Shape Dims Load Init Final Get Kin KinThm.
Import ListNotations.
Open Scope nat_scope.
Open Scope string_scope.

Lemma vcomp_vsum n f a : vcomp (vsum n f) a = rsum n (fun j => vcomp (f j) a).
Proof. induction n as [|n IH]; cbn [vsum rsum]; [destruct a as [|[|a]]; reflexivity|]. rewrite <- IH. destruct a as [|[|a]]; reflexivity. Qed.
Lemma vcomp_vsc c v a : vcomp (vsc c v) a = (c * vcomp v a)%R.
Proof. destruct a as [|[|a]]; reflexivity. Qed.
Lemma vcomp_vadd u v a : vcomp (vadd u v) a = (vcomp u a + vcomp v a)%R.
Proof. destruct a as [|[|a]]; reflexivity. Qed.
Lemma is_dV_comp f t l a : is_dV f t l -> is_derive (fun s => vcomp (f s) a) t (vcomp l a).
Proof. intros (A & B & C). destruct a as [|[|a]]; auto. Qed.
Lemma is_dM_comp f t l a c : is_dM f t l -> is_derive (fun s => mcomp (f s) a c) t (mcomp l a c).
Proof.
  unfold is_dM. intros H. destruct a as [|[|a]], c as [|[|c]]; cbn [mcomp]; apply H.
Qed.

Lemma dRz (c s : R -> R) (t q' : R) : is_derive c t (- s t * q')%R -> is_derive s t (c t * q')%R ->
  is_dM (fun x => Rz3 (c x) (s x)) t (msc q' (mm (Rz3 (c t) (s t)) (hat3 ez))).
Proof.
  intros Hc Hs. unfold is_dM, Rz3, msc, mm, hat3, ez. cbn [m00 m01 m02 m10 m11 m12 m20 m21 m22 vx vy vz].
  repeat match goal with |- _ /\ _ => split end.
  - eapply is_derive_eq; [exact Hc|ring].
  - eapply is_derive_eq; [apply is_derive_neg; exact Hs|ring].
  - eapply is_derive_eq; [apply is_derive_cst|ring].
  - eapply is_derive_eq; [exact Hs|ring].
  - eapply is_derive_eq; [exact Hc|ring].
  - eapply is_derive_eq; [apply is_derive_cst|ring].
  - eapply is_derive_eq; [apply is_derive_cst|ring].
  - eapply is_derive_eq; [apply is_derive_cst|ring].
  - eapply is_derive_eq; [apply is_derive_cst|ring].
Qed.

Section Motion.
  Variables (name : string) (cfg : ynode) (r0 r b : robot) (rho : R -> robot).
  Hypothesis Hm : motion name cfg r0 r rho.
  Hypothesis HB : built r0 b r.
  Let n := numJoints r0.
  Definition E (s : R) : sym -> R := renv r0 (rho s).
  Lemma mo_sess s : sess r0 b (rho s).
  Proof. eapply built_sess; eauto. apply (mo_session _ _ _ _ _ Hm). Qed.
  Lemma mo_param k len i s t : In (k, len) (par_sizes r0) -> param r0 (rho s) k i = param r0 (rho t) k i.
  Proof. intros Hk. unfold param. now rewrite (mo_par _ _ _ _ _ Hm k len s t Hk). Qed.
  Lemma pDH : In ("par_DHtable", 4 * n) (par_sizes r0).
  Proof. unfold par_sizes. simpl. auto. Qed.
  Lemma pW : In ("par_world2L0", 6) (par_sizes r0).
  Proof. unfold par_sizes. simpl. auto. Qed.
  Lemma pE : In ("par_Ln2EE", 6) (par_sizes r0).
  Proof. unfold par_sizes. simpl. auto. Qed.
  Lemma pG : In ("par_gravity", 3) (par_sizes r0).
  Proof. unfold par_sizes. simpl. auto 10. Qed.
  Lemma pDYN : In ("par_DYN", 10 * n) (par_sizes r0).
  Proof. unfold par_sizes. simpl. auto 10. Qed.
  Lemma par_const k len i s t : In (k, len) (par_sizes r0) -> i < len ->
    eval (E s) (el (mdl b k) i 0) = eval (E t) (el (mdl b k) i 0).
  Proof.
    intros Hk Hi. unfold E. pose proof (In_par0 _ _ _ (mo_sess s) k len Hk) as HK.
    rewrite (eval_key _ _ _ (mo_sess s) k len), (eval_key _ _ _ (mo_sess t) k len); auto.
    eapply mo_param; eauto.
  Qed.
  Lemma cz_const k len i s t : In (k, len) (par_sizes r0) -> i < len ->
    cz (E s) (el (mdl b k) i 0) = cz (E t) (el (mdl b k) i 0) /\
    sz (E s) (el (mdl b k) i 0) = sz (E t) (el (mdl b k) i 0).
  Proof.
    intros Hk Hi. unfold E. pose proof (In_par0 _ _ _ (mo_sess s) k len Hk) as HK.
    destruct (cz_par _ _ _ (mo_sess s) k len i HK Hi) as [-> ->].
    destruct (cz_par _ _ _ (mo_sess t) k len i HK Hi) as [-> ->].
    rewrite (mo_param k len i s t); auto.
  Qed.
  Lemma frame_const k s t : In (k, 6) (par_sizes r0) ->
    frame_rot (E s) (mdl b k) = frame_rot (E t) (mdl b k) /\ frame_pos (E s) (mdl b k) = frame_pos (E t) (mdl b k).
  Proof.
    intros Hk. unfold frame_rot, frame_pos, ev.
    destruct (cz_const k 6 3 s t Hk ltac:(lia)) as [-> ->]. destruct (cz_const k 6 4 s t Hk ltac:(lia)) as [-> ->].
    destruct (cz_const k 6 5 s t Hk ltac:(lia)) as [-> ->].
    rewrite !(par_const k 6 _ s t) by (auto; lia). auto.
  Qed.

  Lemma motion_moves t (qd : nat -> R) :
    (forall i, i < n -> is_derive (fun s => state (rho s) "q" i) t (qd i)) ->
    moves (prismatic b) n (fun s => chain_of b (E s)) qd t.
  Proof.
    intros Hq. unfold moves.
    split; [intros s; cbn; apply (frame_const "par_world2L0" s t pW)|].
    split; [intros s; cbn; apply (frame_const "par_world2L0" s t pW)|].
    split.
    { intros s i Hi. cbn [chain_of cA].
      destruct (cz_const "par_DHtable" (4 * n) (i * 4 + 1) s t pDH ltac:(lia)) as [-> ->]. reflexivity. }
    split.
    { intros s i Hi. cbn [chain_of ca]. apply (par_const "par_DHtable" (4 * n)); [apply pDH|lia]. }
    split; [|split].
    - intros i Hi. cbn [chain_of cZ]. rewrite (prism_b _ _ _ (mo_sess t)). destruct (prism r0 i) eqn:Hp.
      + apply is_dM_ext with (fun _ => Rz3 (cz (E t) (sc (thx b i))) (sz (E t) (sc (thx b i)))).
        * intros s. unfold E. destruct (cz_theta _ _ _ (mo_sess s) i Hi) as [-> ->].
          destruct (cz_theta _ _ _ (mo_sess t) i Hi) as [-> ->]. unfold joint_theta, dh. rewrite Hp.
          rewrite (mo_param "par_DHtable" (4 * n) (i * 4 + 3) s t pDH). reflexivity.
        * apply is_dM_cst.
      + apply is_dM_ext with (fun s => Rz3 (cos (joint_theta r0 (rho s) i)) (sin (joint_theta r0 (rho s) i))).
        { intros s. unfold E. destruct (cz_theta _ _ _ (mo_sess s) i Hi) as [-> ->]. now rewrite Hp. }
        unfold E. destruct (cz_theta _ _ _ (mo_sess t) i Hi) as [-> ->]. rewrite Hp.
        assert (Ht : is_derive (fun s => joint_theta r0 (rho s) i) t (qd i)).
        { apply is_derive_ext with (fun s => (dh r0 (rho t) i 3 + state (rho s) "q" i)%R).
          - intros s. unfold joint_theta, dh. rewrite Hp. f_equal. apply (mo_param "par_DHtable" (4 * n)); apply pDH.
          - eapply is_derive_eq; [apply is_derive_add; [apply is_derive_cst|apply Hq; auto]|]. ring. }
        clear Hq. assert (Hc : is_derive (fun s => cos (joint_theta r0 (rho s) i)) t (- sin (joint_theta r0 (rho t) i) * qd i)%R).
        { eapply is_derive_eq; [apply (is_derive_comp cos (fun s => joint_theta r0 (rho s) i)); [apply is_derive_cos|apply Ht]|].
          apply Rmult_comm. }
        assert (Hs : is_derive (fun s => sin (joint_theta r0 (rho s) i)) t (cos (joint_theta r0 (rho t) i) * qd i)%R).
        { eapply is_derive_eq; [apply (is_derive_comp sin (fun s => joint_theta r0 (rho s) i)); [apply is_derive_sin|apply Ht]|].
          apply Rmult_comm. }
        exact (dRz (fun s => cos (joint_theta r0 (rho s) i)) (fun s => sin (joint_theta r0 (rho s) i)) t (qd i) Hc Hs).
    - intros i Hi. cbn [chain_of cd]. rewrite (prism_b _ _ _ (mo_sess t)).
      apply is_derive_ext with (fun s => joint_d r0 (rho s) i).
      { intros s. symmetry. unfold E. apply (dxx_val _ _ _ (mo_sess s)). auto. }
      destruct (prism r0 i) eqn:Hp.
      + apply is_derive_ext with (fun s => (dh r0 (rho t) i 2 + state (rho s) "q" i)%R).
        * intros s. unfold joint_d, dh. rewrite Hp. f_equal. apply (mo_param "par_DHtable" (4 * n)); apply pDH.
        * eapply is_derive_eq; [apply is_derive_add; [apply is_derive_cst|apply Hq; auto]|]. ring.
      + apply is_derive_ext with (fun s => dh r0 (rho t) i 2); [|apply is_derive_cst].
        intros s. unfold joint_d, dh. rewrite Hp. apply (mo_param "par_DHtable" (4 * n)); apply pDH.
    - intros i Hi. cbn [chain_of cZ]. unfold mv, Rz3, ez. cbn. apply V3_eq; ring.
  Qed.

  (* rates computed with the Jacobian blocks *)
  Lemma lin_rate env (qd : nat -> R) t i P a : i <= n ->
    rsum n (fun j => jl b env P i a j * qd j)%R = vcomp (vel (prismatic b) (fun _ => chain_of b env) qd t P i) a.
  Proof.
    intros Hi. unfold vel. rewrite vcomp_vsum. rewrite (rsum_trunc n i); auto.
    - apply rsum_ext. intros j Hj. rewrite vcomp_vsc. unfold jl. rewrite (proj2 (Nat.ltb_lt j i) Hj). ring.
    - intros j Hj. unfold jl. rewrite (proj2 (Nat.ltb_ge j i)) by lia. ring.
  Qed.
  Lemma ang_rate env (qd : nat -> R) t i a : i <= n ->
    rsum n (fun j => jw b env i a j * qd j)%R = vcomp (omega (prismatic b) (fun _ => chain_of b env) qd t i) a.
  Proof.
    intros Hi. unfold omega. rewrite vcomp_vsum. rewrite (rsum_trunc n i); auto.
    - apply rsum_ext. intros j Hj. rewrite vcomp_vsc. unfold jw. rewrite (proj2 (Nat.ltb_lt j i) Hj). ring.
    - intros j Hj. unfold jw. rewrite (proj2 (Nat.ltb_ge j i)) by lia. ring.
  Qed.

  Section At.
    Variable t : R.
    Hypothesis HX : exact_angles r0.
    Variable qd : nat -> R.
    Hypothesis Hq : forall i, i < n -> is_derive (fun s => state (rho s) "q" i) t (qd i).
    Let Hmv := motion_moves t qd Hq.
    Let Hrot : rot_chain (chain_of b (E t)) n := chain_rot _ _ _ (mo_sess t) HX.

    (* a point of link i with coordinates x in its frame *)
    Lemma point_rate i x a : i <= n ->
      is_derive (fun s => vcomp (vadd (FP (chain_of b (E s)) i) (mv (FR (chain_of b (E s)) i) x)) a) t
        (rsum n (fun j => jl b (E t) (vadd (FP (chain_of b (E t)) i) (mv (FR (chain_of b (E t)) i) x)) i a j * qd j)%R).
    Proof.
      intros Hi. rewrite (lin_rate (E t) qd t) by auto.
      apply (is_dV_comp (fun s => vadd (FP (chain_of b (E s)) i) (mv (FR (chain_of b (E s)) i) x))).
      exact (dpoint (prismatic b) n (fun s => chain_of b (E s)) qd t Hmv Hrot i x Hi).
    Qed.
    Lemma origin_rate i a : i <= n ->
      is_derive (fun s => vcomp (FP (chain_of b (E s)) i) a) t
        (rsum n (fun j => jl b (E t) (FP (chain_of b (E t)) i) i a j * qd j)%R).
    Proof.
      intros Hi. rewrite (lin_rate (E t) qd t) by auto. apply (is_dV_comp (fun s => FP (chain_of b (E s)) i)).
      exact (dFP (prismatic b) n (fun s => chain_of b (E s)) qd t Hmv Hrot i Hi).
    Qed.
    Lemma rot_rate i : i <= n ->
      is_dM (fun s => FR (chain_of b (E s)) i) t
        (mm (hat3 (vec_of (fun a => rsum n (fun j => jw b (E t) i a j * qd j)%R))) (FR (chain_of b (E t)) i)).
    Proof.
      intros Hi. rewrite (vec_of_ext _ (omega (prismatic b) (fun s => chain_of b (E s)) qd t i)).
      - exact (dFR (prismatic b) n (fun s => chain_of b (E s)) qd t Hmv Hrot i Hi).
      - intros a Ha. rewrite (ang_rate (E t) qd t) by auto. reflexivity.
    Qed.
  End At.
End Motion.
