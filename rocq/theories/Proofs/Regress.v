(* Values of the regressors and their identities with M, C, G. *)
From Coq Require Import Reals Lra Lia Arith List String Bool ZArith FunctionalExtensionality.
From Coquelicot Require Import Coquelicot.
From Verif.Model Require Import Base Expr SX Robot Kinematics Dynamics Regressors Yaml Build.
From Verif.Spec Require Import Math Setup Kinematics Dynamics Regressor.
From Verif.Proofs Require Import Sums Calc Rel Lin3 Frames Pure PureRel Maps Names Shape Dims Sizes Deps BuildEq Load Init Final Closed Get Kin KinThm Motion KinMain Smooth Rates Partial Coriolis Mass DynMain Energy Lagrange.
Import ListNotations.
Open Scope nat_scope.
Open Scope string_scope.

(* the matrix multiplying parameter c of link l (0-based) in M *)
Definition MB (b : robot) (l c : nat) : sx :=
  match c with 0 => M0x b l | 1 => M1x b l 0 | 2 => M1x b l 1 | 3 => M1x b l 2 | S (S (S (S e))) => M2x b l e end.

Definition ebas (a : nat) : vec := V3 (if Nat.eqb a 0 then 1 else 0)%R (if Nat.eqb a 1 then 1 else 0)%R (if Nat.eqb a 2 then 1 else 0)%R.
Definition Emat (e : nat) : mtx := mtx_of (fun i j => eval (fun _ => 0%R) (el (E_ e) i j)).

Section RegVal.
  Variable b : robot.
  Let n := numJoints b.
  Variable env : sym -> R.
  Notation ch := (chain_of b env).
  Definition V_ (l c : nat) : vec := jlv b env (FP ch (S l)) l c.
  Definition W_ (l c : nat) : vec := jwv b env l c.
  Definition pv (l c : nat) : vec := mv (mt (Rl b env l)) (V_ l c).

  Lemma Jvx_v l a c : l < n -> a < 3 -> ev env (Jvx b l) a c = vcomp (V_ l c) a.
  Proof. intros Hl Ha. unfold V_. rewrite <- jl_v. rewrite <- (Jx_lin b env l a c Hl Ha). reflexivity. Qed.
  Lemma Jwx_v l a c : l < n -> a < 3 -> ev env (Jwx b l) a c = vcomp (W_ l c) a.
  Proof. intros Hl Ha. unfold W_. rewrite <- jw_v. rewrite <- (Jx_ang b env l a c Hl Ha). reflexivity. Qed.
  Lemma R0x_v l a c : a < 3 -> c < 3 -> ev env (R0x b l) a c = mcomp (Rl b env l) a c.
  Proof. apply rot_v. Qed.
  Lemma Q_v a i j : a < 3 -> i < 3 -> j < 3 -> ev env (Q_ a) i j = mcomp (hat3 (ebas a)) i j.
  Proof.
    intros. destruct a as [|[|[|a]]]; try lia; destruct i as [|[|[|i]]]; try lia; destruct j as [|[|[|j]]]; try lia; cbn; lra.
  Qed.
  Lemma E_v e i j : i < 3 -> j < 3 -> ev env (E_ e) i j = mcomp (Emat e) i j.
  Proof.
    intros. unfold Emat. rewrite mcomp_of by auto.
    destruct e as [|[|[|[|[|[|e]]]]]]; destruct i as [|[|[|i]]]; try lia; destruct j as [|[|[|j]]]; try lia; reflexivity.
  Qed.
  Lemma M0_v l i j : l < n -> ev env (M0x b l) i j = dot (V_ l i) (V_ l j).
  Proof. intros Hl. unfold M0x. apply (mt2_val b env (Jvx b l) (Jvx b l) i j (V_ l) (V_ l)); auto using Jvx_v. Qed.
  Lemma M1_v l a i j : l < n -> a < 3 -> ev env (M1x b l a) i j =
    (dot (bw b env l i) (mv (hat3 (ebas a)) (pv l j)) - dot (pv l i) (mv (hat3 (ebas a)) (bw b env l j)))%R.
  Proof.
    intros Hl Ha. unfold M1x. unfold ev at 1. cbn [msub el eval].
    pose proof (mt5_val b env (Jwx b l) (Jvx b l) (R0x b l) (Q_ a) i j (W_ l) (V_ l) (Rl b env l) (hat3 (ebas a))) as A1.
    pose proof (mt5_val b env (Jvx b l) (Jwx b l) (R0x b l) (Q_ a) i j (V_ l) (W_ l) (Rl b env l) (hat3 (ebas a))) as A2.
    unfold ev in A1, A2. rewrite A1, A2; auto; intros; try (apply Jvx_v; auto); try (apply Jwx_v; auto); try (apply R0x_v; auto); try (apply Q_v; auto).
  Qed.
  Lemma M2_v l e i j : l < n -> ev env (M2x b l e) i j = dot (bw b env l i) (mv (Emat e) (bw b env l j)).
  Proof.
    intros Hl. unfold M2x.
    apply (mt5_val b env (Jwx b l) (Jwx b l) (R0x b l) (E_ e) i j (W_ l) (W_ l) (Rl b env l) (Emat e)); auto; intros;
      try (apply Jwx_v; auto); try (apply R0x_v; auto); try (apply E_v; auto).
  Qed.
  Lemma jlv_shift P Q l c : jlv b env P l c = vadd (jlv b env Q l c) (cross (jwv b env l c) (vsub3 P Q)).
  Proof.
    unfold jlv, jwv, vcol, wcol. destruct (Nat.ltb c (S l)); [destruct (prismatic b c)|]; apply v3_eq; cbn; ring.
  Qed.
  Variable th : nat -> R.
  Definition is_reg (l : nat) : Prop :=
    let m := m_l b env l in let c := com b env l in let p := fun k => th (l * 10 + k) in let d := p_dyn b env l in
    p 0 = m /\ p 1 = (m * vx c)%R /\ p 2 = (m * vy c)%R /\ p 3 = (m * vz c)%R /\
    p 4 = (d 4%nat + m * (vy c * vy c + vz c * vz c))%R /\ p 5 = (d 5%nat - m * (vx c * vy c))%R /\ p 6 = (d 6%nat - m * (vx c * vz c))%R /\
    p 7 = (d 7%nat + m * (vx c * vx c + vz c * vz c))%R /\ p 8 = (d 8%nat - m * (vy c * vz c))%R /\
    p 9 = (d 9%nat + m * (vx c * vx c + vy c * vy c))%R.
  Lemma dot_body A u v : is_rot A -> dot u v = dot (mv (mt A) u) (mv (mt A) v).
  Proof. intros H. rewrite dot_mv, mt_mt, rot_inv2; auto. Qed.
  Lemma cross_body A u c : is_rot A -> mv (mt A) (cross u (mv A c)) = cross (mv (mt A) u) c.
  Proof. intros H. rewrite <- (rot_inv2 A u H) at 1. rewrite rot_cross by auto. apply rot_inv; auto. Qed.
  Lemma link_linear l i j : l < n -> is_rot (Rl b env l) -> is_reg l ->
    Mterm b env l i j = rsum 10 (fun c => ev env (MB b l c) i j * th (l * 10 + c))%R.
  Proof.
    intros Hl HR (H0 & H1 & H2 & H3 & H4 & H5 & H6 & H7 & H8 & H9). cbn [rsum MB].
    rewrite H0, H1, H2, H3, H4, H5, H6, H7, H8, H9.
    rewrite M0_v, !M1_v, !M2_v by (auto; lia). unfold Mterm.
    rewrite !(jlv_shift (cpos b env l) (FP ch (S l)) l). fold (V_ l i) (V_ l j).
    assert (C : vsub3 (cpos b env l) (FP ch (S l)) = mv (Rl b env l) (com b env l)).
    { unfold cpos, Rl. apply v3_eq; cbn; ring. }
    rewrite C. rewrite (dot_body (Rl b env l) (vadd _ _)) by auto. rewrite (dot_body (Rl b env l) (V_ l i)) by auto.
    rewrite !mv_vadd, !cross_body by auto. fold (bw b env l i) (bw b env l j) (pv l i) (pv l j).
    generalize (bw b env l i), (bw b env l j), (pv l i), (pv l j), (com b env l), (m_l b env l). intros u u' p p' c m.
    unfold inert3. generalize (p_dyn b env l 4), (p_dyn b env l 5), (p_dyn b env l 6), (p_dyn b env l 7), (p_dyn b env l 8), (p_dyn b env l 9). intros.
    destruct u, u', p, p', c. unfold Emat, mtx_of, E_, ebas, hat3, mv, dot, cross, vadd. cbn. ring.
  Qed.
  Lemma M_linear i j : (forall l, l < n -> is_rot (Rl b env l)) -> (forall l, l < n -> is_reg l) ->
    ev env (Mx b) i j = rsum n (fun l => rsum 10 (fun c => ev env (MB b l c) i j * th (l * 10 + c)%nat))%R.
  Proof. intros HR HT. rewrite Mx_val. apply rsum_ext. intros l Hl. apply link_linear; auto. Qed.
End RegVal.
