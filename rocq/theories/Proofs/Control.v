(* Computed torque, position control with gravity compensation and adaptive control, with the published
   M, C, G and Yr. *)
From Coq Require Import Reals Lra Lia Arith List String Bool ZArith.
From Coquelicot Require Import Coquelicot.
From Verif.Model Require Import Base Expr SX Robot Kinematics Dynamics Regressors Yaml Build.
From Verif.Spec Require Import Math Setup Kinematics Dynamics Regressor Control.
From Verif.Proofs Require Import Sums Calc Rel Lin3 Frames Pure PureRel Maps Names Shape Dims Sizes Deps BuildEq Load Init Final Closed Get Kin KinThm Motion KinMain Smooth Rates Partial Coriolis Mass DynMain Energy Lagrange RegMain.
Import ListNotations.
Open Scope nat_scope.
Open Scope string_scope.

(* a function whose derivative is never positive does not grow (proved from completeness alone) *)
Section Decrease.
  Local Open Scope R_scope.
  Variables (f df : R -> R) (a b : R).
  Hypothesis Hab : a <= b.
  Hypothesis D : forall x, a <= x <= b -> is_derive f x (df x).
  Hypothesis N : forall x, a <= x <= b -> df x <= 0.
  Lemma near x eps : a <= x <= b -> 0 < eps -> exists d, 0 < d /\
    forall y, Rabs (y - x) < d -> Rabs (f y - f x - df x * (y - x)) <= eps * Rabs (y - x).
  Proof.
    intros Hx He. destruct (D x Hx) as [_ L]. specialize (L x).
    assert (I : is_filter_lim (locally x) x) by (intros P HP; exact HP).
    specialize (L I (mkposreal eps He)). destruct L as [d L]. exists d. split; [apply cond_pos|].
    intros y Hy. specialize (L y Hy). unfold norm, minus, plus, opp, scal in L. simpl in L. unfold abs, mult in L. simpl in L.
    replace (f y - f x - df x * (y - x)) with (f y + - f x + - ((y + - x) * df x)) by ring. exact L.
  Qed.
  Lemma slow eps : 0 < eps -> f b <= f a + eps * (b - a).
  Proof.
    intros He. pose (E := fun x => a <= x <= b /\ forall y, a <= y <= x -> f y <= f a + eps * (y - a)).
    destruct (completeness E) as [c [U L]].
    - exists b. intros x [Hx _]. lra.
    - exists a. split; [lra|]. intros y Hy. replace y with a by lra. lra.
    - assert (Ea : E a) by (split; [lra|intros y Hy; replace y with a by lra; lra]).
      assert (Hc : a <= c <= b) by (split; [now apply U|apply L; intros x [Hx _]; lra]).
      assert (B : forall y, a <= y < c -> f y <= f a + eps * (y - a)).
      { intros y Hy. destruct (Rle_lt_dec (f y) (f a + eps * (y - a))) as [H|H]; auto. exfalso.
        assert (c <= y); [|lra]. apply L. intros x [Hx Ex]. destruct (Rle_lt_dec x y); auto. specialize (Ex y ltac:(lra)). lra. }
      destruct (near c eps Hc He) as (d & Hd & Q).
      assert (Bc : f c <= f a + eps * (c - a)).
      { destruct (Req_dec a c) as [->|Nac]; [lra|]. pose (y := Rmax a (c - d / 2)).
        assert (Hy : a <= y < c /\ c - d / 2 <= y) by (unfold y, Rmax; destruct Rle_dec; lra).
        assert (H : Rabs (y - c) = c - y) by (rewrite Rabs_left; lra).
        specialize (Q y ltac:(lra)). rewrite H in Q. apply Rabs_le_between in Q. specialize (B y ltac:(lra)).
        pose proof (Rmult_le_compat_r (c - y) _ _ ltac:(lra) (N c Hc)). lra. }
      destruct (Req_dec c b) as [->|Ncb]; [exact Bc|]. exfalso.
      pose (z := Rmin b (c + d / 2)). assert (Hz : c < z <= b /\ z <= c + d / 2) by (unfold z, Rmin; destruct Rle_dec; lra).
      assert (E z); [|assert (z <= c) by (now apply U); lra].
      split; [lra|]. intros y Hy. destruct (Rle_lt_dec y c) as [H|H].
      + destruct (Req_dec y c) as [->|]; [exact Bc|apply B; lra].
      + assert (A : Rabs (y - c) = y - c) by (rewrite Rabs_right; lra).
        specialize (Q y ltac:(lra)). rewrite A in Q. apply Rabs_le_between in Q.
        pose proof (Rmult_le_compat_r (y - c) _ _ ltac:(lra) (N c Hc)). lra.
  Qed.
  Lemma decreasing : f b <= f a.
  Proof.
    apply Rnot_lt_le. intros H. pose (eps := (f b - f a) / (2 * (b - a + 1))).
    assert (P : 0 < b - a + 1) by lra. assert (He : 0 < eps) by (apply Rdiv_lt_0_compat; lra).
    pose proof (slow eps He) as S.
    assert (eps * (b - a + 1) = (f b - f a) / 2) by (unfold eps; field; lra). lra.
  Qed.
End Decrease.

Section Forms.
  Local Open Scope R_scope.
  Lemma rmv_minus m A x y i : rmv m A (fun k => x k - y k) i = rmv m A x i - rmv m A y i.
  Proof. unfold rmv. rewrite <- rsum_minus. apply rsum_ext. intros; ring. Qed.
  Lemma quad_sym m A x y : (forall i j, (i < m)%nat -> (j < m)%nat -> A i j = A j i) -> rquad m A x y = rquad m A y x.
  Proof.
    intros S. unfold rquad, rdot, rmv.
    rewrite (rsum_ext m _ (fun i => rsum m (fun k => x i * (A i k * y k)))) by (intros; now rewrite rsum_scal).
    rewrite rsum_swap. apply rsum_ext. intros k Hk. rewrite <- rsum_scal. apply rsum_ext. intros i Hi. rewrite (S k i) by auto. ring.
  Qed.
  (* derivative of 1/2 x^T A x for a constant symmetric A *)
  Lemma d_form m (A : rmat) (x : R -> rvec) x' t : (forall i j, (i < m)%nat -> (j < m)%nat -> A i j = A j i) ->
    (forall i, (i < m)%nat -> is_derive (fun s => x s i) t (x' i)) ->
    is_derive (fun s => / 2 * rquad m A (x s) (x s)) t (rquad m A (x t) x').
  Proof.
    intros S H. eapply is_derive_eq.
    - apply (is_derive_scal (fun s => rquad m A (x s) (x s))).
      apply (d_quad m (fun _ => A) (fun _ _ => 0) x x x' x'); auto. intros; apply is_derive_cst.
    - rewrite (quad_sym m A x' (x t) S). unfold Hierarchy.scal; simpl; unfold mult; simpl.
      assert (Z : rquad m (fun _ _ => 0) (x t) (x t) = 0).
      { unfold rquad, rdot, rmv. apply rsum_0. intros i Hi. rewrite rsum_0 by (intros; ring). ring. }
      rewrite ?Z. field_simplify. lra.
  Qed.
End Forms.

Section Control.
  Variables (name : string) (cfg : ynode) (r0 r : robot) (rho : R -> robot) (t : R).
  Hypothesis Hm : motion name cfg r0 r rho.
  Let n := numJoints r0.
  Let Hs s : session name cfg r0 r (rho s) := mo_session _ _ _ _ _ Hm s.
  Hypothesis H1 : follows_at r0 rho "q" "dq" t.
  Hypothesis H2 : follows_at r0 rho "dq" "ddq" t.

  (* derivative of 1/2 s^T M s along the motion, for any velocity-like s *)
  Lemma form_rate (s : R -> rvec) s' : (forall i, i < n -> is_derive (fun u => s u i) t (s' i)) ->
    is_derive (fun u => / 2 * rquad n (out (rho u) "M") (s u) (s u))%R t
      (rdot n (s t) (fun i => rmv n (out (rho t) "M") s' i + rmv n (out (rho t) "C") (s t) i)%R).
  Proof.
    intros Hd. destruct (session_built _ _ _ _ _ (Hs t)) as [b HB].
    destruct (M_rates name cfg r0 r rho t Hm H1) as (_ & D & _). eapply is_derive_eq.
    - apply (is_derive_scal (fun u => rquad n (out (rho u) "M") (s u) (s u))).
      apply (d_quad n (fun u => out (rho u) "M") (out (rho t) "M_dot") s s s' s'); auto.
    - pose proof (M_symm name cfg r0 r b (rho t) (Hs t) HB) as MS.
      rewrite (quad_sym n _ s' (s t) MS). set (d := s t).
      assert (K : rquad n (fun i j => out (rho t) "M_dot" i j - 2 * out (rho t) "C" i j)%R d d = 0%R).
      { apply (skew_form r0). intros i j Hi Hj. apply (skew_entries name cfg r0 r b (rho t) (Hs t) HB); auto. }
      assert (K' : rquad n (out (rho t) "M_dot") d d = (2 * rquad n (out (rho t) "C") d d)%R).
      { unfold rquad, rdot, rmv in *. rewrite <- rsum_scal.
        rewrite (rsum_ext n _ (fun i => d i * rsum n (fun k => out (rho t) "M_dot" i k * d k) - 2 * (d i * rsum n (fun k => out (rho t) "C" i k * d k)))%R) in K.
        - rewrite rsum_minus in K. lra.
        - intros i Hi. rewrite (rsum_ext n _ (fun k => out (rho t) "M_dot" i k * d k - 2 * (out (rho t) "C" i k * d k))%R) by (intros; ring).
          rewrite rsum_minus, rsum_scal. ring. }
      rewrite K'. unfold rdot at 1.
      rewrite (rsum_ext n (fun k => d k * _)%R (fun k => d k * rmv n (out (rho t) "M") s' k + d k * rmv n (out (rho t) "C") d k)%R) by (intros; ring).
      rewrite !rsum_plus. unfold Hierarchy.scal; simpl; unfold mult; simpl. unfold rquad, rdot. field.
  Qed.

  (* computed torque *)
  Lemma computed (v : rvec) :
    (forall i, 1 <= i <= n -> (0 <= mass r0 (rho t) i)%R /\ psd3 (inertia r0 (rho t) i)) ->
    (forall i, 1 <= i <= n -> if prism r0 (i - 1) then (0 < mass r0 (rho t) i)%R else pd3 (inertia r0 (rho t) i)) ->
    ((forall i, i < n -> torque r0 (rho t) i = computed_torque r0 (rho t) v i) <->
     (forall i, i < n -> state (rho t) "ddq" i = v i)).
  Proof.
    intros P Q. destruct (session_built _ _ _ _ _ (Hs t)) as [b HB].
    pose proof (fun x => M_def name cfg r0 r b (rho t) (Hs t) HB x P Q) as PD. split.
    - intros T i Hi.
      assert (Z : (state (rho t) "ddq" i - v i)%R = 0%R); [|lra].
      apply (pd_kernel n (out (rho t) "M") (fun i => state (rho t) "ddq" i - v i)%R PD); [|exact Hi].
      intros k Hk. rewrite rmv_minus. specialize (T k Hk). unfold torque, computed_torque in T. fold n in T. lra.
    - intros E i Hi. unfold torque, computed_torque. do 2 f_equal. unfold rmv. apply rsum_ext. intros k Hk. now rewrite E.
  Qed.

  (* position control with gravity compensation *)
  Lemma pd_rate Kp Kd qd : (forall i j, i < n -> j < n -> Kp i j = Kp j i) ->
    (forall i, i < n -> torque r0 (rho t) i = gravity_pd r0 (rho t) Kp Kd qd i) ->
    is_derive (fun u => pd_energy r0 Kp qd (rho u)) t (- rquad n Kd (state (rho t) "dq") (state (rho t) "dq"))%R.
  Proof.
    intros S T. set (d := state (rho t) "dq"). set (e := fun j => (state (rho t) "q" j - qd j)%R).
    eapply is_derive_eq.
    - unfold pd_energy, kinetic. apply is_derive_add.
      + apply (form_rate (fun u => state (rho u) "dq") (state (rho t) "ddq") H2).
      + apply (d_form n Kp (fun u j => state (rho u) "q" j - qd j)%R d t S). intros i Hi.
        eapply is_derive_eq; [apply (is_derive_minus (fun u => state (rho u) "q" i) (fun _ => qd i)); [apply H1; auto|apply is_derive_cst]|].
        unfold minus, plus, opp, zero; simpl. fold d. lra.
    - fold d e. change (fun j => (state (rho t) "q" j - qd j)%R) with e. rewrite (quad_sym n Kp e d S). unfold rquad, rdot.
      match goal with |- (?a + ?b = - ?c)%R => cut (a + b + c = 0)%R; [lra|] end.
      rewrite <- !rsum_plus. apply rsum_0. intros i Hi. specialize (T i Hi). unfold torque, gravity_pd in T. fold n d e in T.
      change (fun j => (state (rho t) "q" j - qd j)%R) with e in T.
      replace (d i * (rmv n (out (rho t) "M") (state (rho t) "ddq") i + rmv n (out (rho t) "C") d i) + d i * rmv n Kp e i + d i * rmv n Kd d i)%R
        with (d i * (rmv n (out (rho t) "M") (state (rho t) "ddq") i + rmv n (out (rho t) "C") d i + rmv n Kp e i + rmv n Kd d i))%R by ring.
      apply Rmult_eq_0_compat. right. lra.
  Qed.

  (* adaptive control *)
  Hypothesis HX : exact_angles r0.
  Hypothesis H3 : follows_at r0 rho "dqr" "ddqr" t.
  Lemma adaptive_rate (Kd P : rmat) (th : rvec) (est : R -> rvec) (dest : rvec) : describes r0 (rho t) th ->
    (forall i j, i < 10 * n -> j < 10 * n -> P i j = P j i) ->
    (forall i, i < n -> torque r0 (rho t) i = adaptive_torque r0 (rho t) Kd (est t) i) ->
    (forall c, c < 10 * n -> is_derive (fun u => est u c) t (dest c)) ->
    (forall c, c < 10 * n -> rmv (10 * n) P dest c = (- rsum n (fun i => out (rho t) "Yr" i c * velocity_error (rho t) i))%R) ->
    is_derive (fun u => adaptive_energy r0 P th (est u) (rho u)) t
      (- rquad n Kd (velocity_error (rho t)) (velocity_error (rho t)))%R.
  Proof.
    intros HT S T D A. set (s := velocity_error (rho t)). set (m := 10 * n) in *.
    pose (s' := fun i => (state (rho t) "ddq" i - state (rho t) "ddqr" i)%R).
    pose (e := fun c => (est t c - th c)%R).
    eapply is_derive_eq.
    - unfold adaptive_energy. apply is_derive_add.
      + apply (form_rate (fun u => velocity_error (rho u)) s'). intros i Hi. unfold velocity_error, s'.
        apply (is_derive_minus (fun u => state (rho u) "dq" i) (fun u => state (rho u) "dqr" i)); [apply H2|apply H3]; auto.
      + apply (d_form m P (fun u c => est u c - th c)%R dest t S). intros c Hc.
        eapply is_derive_eq; [apply (is_derive_minus (fun u => est u c) (fun _ => th c)); [apply D; auto|apply is_derive_cst]|].
        unfold minus, plus, opp, zero; simpl. lra.
    - fold s. change (fun c => (est t c - th c)%R) with e.
      assert (B : rquad m P e dest = (- rdot n s (rmv m (out (rho t) "Yr") e))%R).
      { unfold rquad, rdot. rewrite (rsum_ext m _ (fun c => - rsum n (fun i => s i * (out (rho t) "Yr" i c * e c)))%R).
        - rewrite rsum_opp, rsum_swap. f_equal. apply rsum_ext. intros i Hi. unfold rmv. now rewrite rsum_scal.
        - intros c Hc. rewrite A by auto. rewrite Ropp_mult_distr_r_reverse. f_equal. rewrite <- rsum_scal. apply rsum_ext. intros i Hi. fold s. ring. }
      rewrite B. unfold rquad, rdot.
      match goal with |- (?a + - ?b = - ?c)%R => cut (a + c - b = 0)%R; [lra|] end.
      rewrite <- rsum_plus, <- rsum_minus. apply rsum_0. intros i Hi.
      pose proof (Yr_id name cfg r0 r (rho t) (Hs t) th HT HX i Hi) as Y. fold n in Y. fold m in Y.
      specialize (T i Hi). unfold torque, adaptive_torque in T. fold n in T. fold m in T. fold s in T.
      unfold e. rewrite rmv_minus. unfold s'. rewrite rmv_minus.
      assert (C : rmv n (out (rho t) "C") s i = (rmv n (out (rho t) "C") (state (rho t) "dq") i - rmv n (out (rho t) "C") (state (rho t) "dqr") i)%R).
      { unfold s, velocity_error. apply rmv_minus. }
      rewrite <- Rmult_plus_distr_l, <- Rmult_minus_distr_l. apply Rmult_eq_0_compat. right. lra.
  Qed.
End Control.
