(* Euler-Lagrange equations and power balance of the published M, C, G. *)
From Coq Require Import Reals Lra Lia Arith List String Bool ZArith.
From Coquelicot Require Import Coquelicot.
From Verif.Model Require Import Base Expr SX Robot Kinematics Dynamics Regressors Yaml Build.
From Verif.Spec Require Import Math Setup Kinematics Dynamics.
From Verif.Proofs Require Import Sums Calc Rel Lin3 Frames Pure PureRel Maps Names Shape Dims Sizes Deps BuildEq Load Init Final Closed Get Kin KinThm Motion KinMain Smooth Rates Partial Coriolis Mass DynMain Energy.
Import ListNotations.
Open Scope nat_scope.
Open Scope string_scope.

(* a published function depends only on the arguments of its list *)
Section Local.
  Variables (r0 b r1 r2 : robot).
  Hypothesis S1 : sess r0 b r1.
  Hypothesis S2 : sess r0 b r2.
  Lemma out_local f : enabled b f -> (forall k, In k (alist b f) -> arg r1 k = arg r2 k) ->
    forall i j, i < vrows b f -> j < vcols b f -> out r1 (name_of f) i j = out r2 (name_of f) i j.
  Proof.
    intros He HA i j Hi Hj.
    rewrite (proj2 (get_out _ _ _ S1 f He) i j Hi Hj), (proj2 (get_out _ _ _ S2 f He) i j Hi Hj).
    apply eval_ext. intros s Hs.
    pose proof (val_closed _ _ (ss_base _ _ _ S1) f He i j Hi Hj s Hs) as HI.
    unfold isym in HI. apply in_flat_map in HI. destruct HI as (k & Hk & HI).
    unfold isyms in HI. apply in_map_iff in HI. destruct HI as (m & <- & _).
    destruct (deps_keys b f k He (alist_deps _ _ _ Hk)) as [len Hlen].
    unfold renv. cbn [fst snd]. rewrite keyname_symname by (eapply keys_arg; eauto).
    unfold param. now rewrite HA.
  Qed.
End Local.

Lemma alist_q b k : In k (alist b fM) -> In k ("q" :: kinp).
Proof. intros H. apply (alist_deps b fM k H). Qed.

Section Kin.
  Variables (name : string) (cfg : ynode) (r0 r b r' : robot).
  Hypothesis Hs : session name cfg r0 r r'.
  Hypothesis HB : built r0 b r.
  Let n := numJoints r0.
  Let HS : sess r0 b r' := built_sess _ _ _ _ _ _ Hs HB.
  Let nb : numJoints b = n := n_b _ _ _ HS.
  Let env := renv r0 r'.
  Let dm (i j k : nat) : R := dM (Mx b) env i j k.

  Lemma M_no_dq k x i j : i < n -> j < n -> out (set_entry r' "dq" k x) "M" i j = out r' "M" i j.
  Proof.
    intros Hi Hj. apply (out_local r0 b _ _ (set_sess name cfg r0 r b r' Hs HB "dq" k x) HS fM I); cbn [vrows vcols]; rewrite ?nb; auto.
    intros k' Hk'. apply set_arg_ne. apply alist_q in Hk'. unfold kinp, kinD in Hk'. simpl in Hk'. intuition (subst; discriminate).
  Qed.
  Lemma rquad_ext m A A' x x' y y' : (forall i j, i < m -> j < m -> A i j = A' i j) ->
    (forall i, i < m -> x i = x' i) -> (forall i, i < m -> y i = y' i) -> rquad m A x y = rquad m A' x' y'.
  Proof.
    intros H1 H2 H3. unfold rquad, rdot, rmv. apply rsum_ext. intros i Hi. rewrite H2 by auto. f_equal.
    apply rsum_ext. intros j Hj. rewrite H1, H3 by auto. reflexivity.
  Qed.
  Lemma rquad_0A m A x y : (forall i j, i < m -> j < m -> A i j = 0%R) -> rquad m A x y = 0%R.
  Proof.
    intros H. apply rsum_0. intros i Hi. unfold rmv. rewrite rsum_0; [ring|]. intros j Hj. rewrite H by auto. ring.
  Qed.
  Lemma rquad_0r m A x y : (forall i, i < m -> y i = 0%R) -> rquad m A x y = 0%R.
  Proof.
    intros H. apply rsum_0. intros i Hi. unfold rmv. rewrite rsum_0; [ring|]. intros j Hj. rewrite H by auto. ring.
  Qed.
  Lemma rquad_0l m A x y : (forall i, i < m -> x i = 0%R) -> rquad m A x y = 0%R.
  Proof. intros H. apply rsum_0. intros i Hi. rewrite H by auto. ring. Qed.
  Lemma unit_derive k x0 i : is_derive (fun x => if Nat.eqb k i then x else x0 i) (x0 k) (unit_vec k i).
  Proof.
    unfold unit_vec. rewrite (Nat.eqb_sym i k). destruct (Nat.eqb k i) eqn:Ek; [apply (is_derive_id (K := R_AbsRing))|apply is_derive_cst].
  Qed.
  Lemma rquad_unit_l m k A y : k < m -> rquad m A (unit_vec k) y = rmv m A y k.
  Proof.
    intros Hk. unfold rquad, rdot.
    rewrite (rsum_ext m _ (fun i => rmv m A y i * unit_vec k i)%R) by (intros; ring). apply rsum_unit; auto.
  Qed.
  Lemma rquad_unit_r m k A x : k < m -> (forall i j, i < m -> j < m -> A i j = A j i) -> rquad m A x (unit_vec k) = rmv m A x k.
  Proof.
    intros Hk HA. unfold rquad, rdot. unfold rmv at 2. apply rsum_ext. intros i Hi. rewrite (HA k i) by auto.
    rewrite Rmult_comm. f_equal. unfold rmv. apply (rsum_unit m k (fun j => A i j)); auto.
  Qed.

  (* dT/d(dq_k) is the generalised momentum (M dq)_k *)
  Lemma T_dq k : k < n -> is_partial (kinetic r0) "dq" k r' (rmv n (out r' "M") (state r' "dq") k).
  Proof.
    intros Hk. unfold is_partial, kinetic. fold n.
    eapply is_derive_eq.
    - apply is_derive_ext with (fun x => / 2 * rquad n (out r' "M") (fun i => if Nat.eqb k i then x else state r' "dq" i) (fun i => if Nat.eqb k i then x else state r' "dq" i))%R.
      { intros x. f_equal. apply rquad_ext.
        - intros i j Hi Hj. now rewrite M_no_dq.
        - intros i Hi. symmetry. apply (set_state name cfg r0 r r' Hs); simpl; auto.
        - intros i Hi. symmetry. apply (set_state name cfg r0 r r' Hs); simpl; auto. }
      apply (is_derive_scal (fun x => rquad n (out r' "M") (fun i => if Nat.eqb k i then x else state r' "dq" i) (fun i => if Nat.eqb k i then x else state r' "dq" i))).
      apply (d_quad n (fun _ => out r' "M") (fun _ _ => 0%R) (fun x i => if Nat.eqb k i then x else state r' "dq" i)
        (fun x i => if Nat.eqb k i then x else state r' "dq" i) (unit_vec k) (unit_vec k)).
      + intros. apply is_derive_cst.
      + intros i Hi. apply unit_derive.
      + intros i Hi. apply unit_derive.
    - cbv beta. rewrite rquad_0A by auto.
      assert (U : forall i, (if Nat.eqb k i then state r' "dq" k else state r' "dq" i) = state r' "dq" i)
        by (intros i; destruct (Nat.eqb_spec k i); subst; auto).
      rewrite (rquad_ext n _ (out r' "M") (unit_vec k) (unit_vec k) _ (state r' "dq")) by auto.
      rewrite (rquad_ext n _ (out r' "M") _ (state r' "dq") (unit_vec k) (unit_vec k)) by auto.
      rewrite rquad_unit_l, rquad_unit_r; auto; [|apply (M_symm name cfg r0 r b r' Hs HB)]. unfold Hierarchy.scal; simpl; unfold mult; simpl. field.
  Qed.
  (* dT/dq_k *)
  Lemma T_q k : k < n -> is_partial (kinetic r0) "q" k r' (/ 2 * rquad n (fun i j => dm i j k) (state r' "dq") (state r' "dq"))%R.
  Proof.
    intros Hk. unfold is_partial, kinetic. fold n.
    apply (is_derive_scal (fun x => rquad n (out (set_entry r' "q" k x) "M") (state (set_entry r' "q" k x) "dq") (state (set_entry r' "q" k x) "dq"))).
    eapply is_derive_eq.
    - apply (d_quad n (fun x => out (set_entry r' "q" k x) "M") (fun i j => dm i j k) (fun x => state (set_entry r' "q" k x) "dq")
        (fun x => state (set_entry r' "q" k x) "dq") (fun _ => 0%R) (fun _ => 0%R)).
      + intros i j Hi Hj. apply (M_partial name cfg r0 r b r' Hs HB); auto.
      + intros i Hi. apply is_derive_ext with (fun _ => state r' "dq" i); [|apply is_derive_cst].
        intros x. symmetry. apply set_state_ne. discriminate.
      + intros i Hi. apply is_derive_ext with (fun _ => state r' "dq" i); [|apply is_derive_cst].
        intros x. symmetry. apply set_state_ne. discriminate.
    - rewrite (rquad_0l n _ (fun _ => 0%R)), (rquad_0r n _ _ (fun _ => 0%R)) by auto. rewrite !Rplus_0_r. apply rquad_ext; auto; intros; apply set_state_ne; discriminate.
  Qed.
  (* Coriolis term against the derivative of M *)
  Lemma cor_balance k : k < n ->
    (rmv n (out r' "M_dot") (state r' "dq") k =
     rmv n (out r' "C") (state r' "dq") k + / 2 * rquad n (fun i j => dm i j k) (state r' "dq") (state r' "dq"))%R.
  Proof.
    intros Hk. unfold rquad, rdot, rmv. set (d := state r' "dq").
    rewrite (rsum_ext n _ (fun j => rsum n (fun m => dm k j m * d m * d j)%R)).
    2:{ intros j Hj. rewrite (Md_val name cfg r0 r b r' Hs HB) by auto. now rewrite <- rsum_scal_r. }
    rewrite (rsum_ext n (fun j => out r' "C" k j * d j)%R (fun j => rsum n (fun m => / 2 * (dm k j m * d m * d j) + / 2 * (dm k m j * d j * d m) - / 2 * (dm j m k * d j * d m))%R)).
    2:{ intros j Hj. rewrite (proj1 (C_chr name cfg r0 r b r' Hs HB k j Hk Hj)). rewrite <- rsum_scal_r. apply rsum_ext.
        intros m Hm. unfold d, dm, env. field. }
    set (A := rsum n (fun j => rsum n (fun m => dm k j m * d m * d j)%R)).
    assert (E2 : rsum n (fun j => rsum n (fun m => dm k m j * d j * d m)%R) = A) by apply rsum_swap.
    rewrite (rsum_ext n _ (fun j => / 2 * rsum n (fun m => dm k j m * d m * d j) + / 2 * rsum n (fun m => dm k m j * d j * d m) - / 2 * rsum n (fun m => dm j m k * d j * d m))%R)
      by (intros; now rewrite rsum_minus, rsum_plus, !rsum_scal).
    rewrite rsum_minus, rsum_plus, !rsum_scal. rewrite E2. fold A.
    rewrite (rsum_ext n (fun i => d i * _)%R (fun j => rsum n (fun m => dm j m k * d j * d m)%R)); [field|].
    intros i Hi. rewrite <- rsum_scal. apply rsum_ext. intros; ring.
  Qed.
End Kin.

(* gradient of the potential *)
Section Grav.
  Variables (name : string) (cfg : ynode) (r0 r r' : robot).
  Hypothesis Hs : session name cfg r0 r r'.
  Hypothesis HX : exact_angles r0.
  Let n := numJoints r0.
  Lemma par_not_state k len : In (k, len) (par_sizes r0) -> ~ In k skeys.
  Proof.
    intros H. unfold par_sizes in H. destruct (Nat.ltb 0 (Dl_order r0)), (ELASTIC r0); simpl in H;
    repeat match type of H with _ \/ _ => destruct H as [H|H] | False => destruct H end; injection H as <- _; simpl; intuition discriminate.
  Qed.
  Lemma q_motion k i : In k skeys -> motion name cfg r0 r (set_entry r' k i).
  Proof.
    intros Hk. constructor; [intros; now apply set_session|].
    intros k' len s t Hk'. rewrite !set_arg_ne; auto; intros ->; exact (par_not_state _ _ Hk' Hk).
  Qed.
  Theorem G_grad k : k < n -> is_partial (potential r0) "q" k r' (out r' "G" k 0).
  Proof.
    intros Hk. destruct (session_built _ _ _ _ _ Hs) as [b HB]. pose proof (built_sess _ _ _ _ _ _ Hs HB) as HS.
    pose proof (q_motion "q" k ltac:(simpl; auto)) as Hm.
    unfold is_partial.
    eapply is_derive_eq.
    - apply (U_rate name cfg r0 r b (set_entry r' "q" k) (state r' "q" k) Hm HB HX (unit_vec k)).
      intros i Hi. apply is_derive_ext with (fun x => if Nat.eqb k i then x else state r' "q" i).
      + intros x. symmetry. apply (set_state name cfg r0 r r' Hs); simpl; auto.
      + apply (unit_derive k (fun i => state r' "q" i)).
    - fold n. rewrite (rsum_unit n k (fun i => out (set_entry r' "q" k (state r' "q" k)) "G" i 0%nat)) by auto.
      apply (out_local r0 b _ _ (set_sess name cfg r0 r b r' Hs HB "q" k _) HS fG I); cbn [vrows vcols]; rewrite ?(n_b _ _ _ HS); auto.
      intros k' _. destruct (string_dec k' "q") as [->|N]; [|now apply set_arg_ne].
      rewrite set_arg. apply replace_same.
  Qed.
End Grav.

Section EL.
  Variables (name : string) (cfg : ynode) (r0 r : robot) (rho : R -> robot) (t : R).
  Hypothesis Hm : motion name cfg r0 r rho.
  Hypothesis HX : exact_angles r0.
  Let n := numJoints r0.
  Hypothesis H1 : follows_at r0 rho "q" "dq" t.
  Let Hs s : session name cfg r0 r (rho s) := mo_session _ _ _ _ _ Hm s.

  Theorem kinetic_energy :
    (forall i, 1 <= i <= n -> exists v w, link_moves r0 rho t i v w) /\
    forall v w, (forall i, 1 <= i <= n -> link_moves r0 rho t i (v i) (w i)) ->
      kinetic r0 (rho t) = links r0 (fun i => link_energy r0 (rho t) i (fwd r0 (rho t) i) (v i) (w i)).
  Proof.
    destruct (session_built _ _ _ _ _ (Hs t)) as [b HB]. split.
    - intros i Hi. do 2 eexists. apply (moves_exist name cfg r0 r b rho t Hm HB HX _ H1 i Hi).
    - intros v w H. apply (energy_of name cfg r0 r b rho t Hm HB HX _ H1 v w H).
  Qed.
  Hypothesis H2 : follows_at r0 rho "dq" "ddq" t.
  Lemma momentum_rate k : k < n -> is_derive (fun s => rmv n (out (rho s) "M") (state (rho s) "dq") k) t
     (rmv n (out (rho t) "M_dot") (state (rho t) "dq") k + rmv n (out (rho t) "M") (state (rho t) "ddq") k)%R.
  Proof.
    intros Hk. unfold rmv. rewrite <- rsum_plus.
    apply (d_rsum n (fun j s => out (rho s) "M" k j * state (rho s) "dq" j)%R). intros j Hj.
    destruct (M_rates name cfg r0 r rho t Hm H1) as (_ & D & _).
    apply is_derive_mul; [apply D; auto|apply H2; auto].
  Qed.
  Theorem euler_lagrange k : k < n -> exists (P : R -> R) (Tq Uq : R),
    (forall s, is_partial (kinetic r0) "dq" k (rho s) (P s)) /\
    is_partial (kinetic r0) "q" k (rho t) Tq /\ is_partial (potential r0) "q" k (rho t) Uq /\
    is_derive P t (torque r0 (rho t) k + Tq - Uq)%R.
  Proof.
    intros Hk. destruct (session_built _ _ _ _ _ (Hs t)) as [b HB].
    exists (fun s => rmv n (out (rho s) "M") (state (rho s) "dq") k).
    eexists. exists (out (rho t) "G" k 0). split; [|split; [|split]].
    - intros s. apply (T_dq name cfg r0 r b (rho s) (Hs s) HB k Hk).
    - apply (T_q name cfg r0 r b (rho t) (Hs t) HB k Hk).
    - apply (G_grad name cfg r0 r (rho t) (Hs t) HX k Hk).
    - eapply is_derive_eq; [apply momentum_rate; auto|].
      pose proof (cor_balance name cfg r0 r b (rho t) (Hs t) HB k Hk) as CB. unfold torque. fold n in CB |- *. lra.
  Qed.
  Theorem power_balance :
    is_derive (fun s => kinetic r0 (rho s) + potential r0 (rho s))%R t
      (rdot n (state (rho t) "dq") (torque r0 (rho t))).
  Proof.
    destruct (session_built _ _ _ _ _ (Hs t)) as [b HB].
    destruct (M_rates name cfg r0 r rho t Hm H1) as (_ & D & _).
    eapply is_derive_eq.
    - apply is_derive_add; [|apply (U_rate name cfg r0 r b rho t Hm HB HX _ H1)].
      unfold kinetic. apply (is_derive_scal (fun s => rquad (numJoints r0) (out (rho s) "M") (state (rho s) "dq") (state (rho s) "dq"))).
      apply (d_quad n (fun s => out (rho s) "M") (out (rho t) "M_dot") (fun s => state (rho s) "dq") (fun s => state (rho s) "dq")
        (state (rho t) "ddq") (state (rho t) "ddq")); auto.
    - set (d := state (rho t) "dq"). set (a := state (rho t) "ddq").
      pose proof (M_symm name cfg r0 r b (rho t) (Hs t) HB) as MS.
      assert (Q : rquad n (out (rho t) "M") a d = rquad n (out (rho t) "M") d a).
      { unfold rquad, rdot, rmv.
        rewrite (rsum_ext n _ (fun i => rsum n (fun k => a i * (out (rho t) "M" i k * d k))%R)) by (intros; now rewrite rsum_scal).
        rewrite rsum_swap. apply rsum_ext. intros k Hk. rewrite <- rsum_scal. apply rsum_ext. intros i Hi. rewrite (MS k i) by auto. ring. }
      assert (K : rquad n (fun i j => out (rho t) "M_dot" i j - 2 * out (rho t) "C" i j)%R d d = 0%R).
      { apply (skew_form r0). intros i j Hi Hj. apply (skew_entries name cfg r0 r b (rho t) (Hs t) HB); auto. }
      assert (K' : rquad n (out (rho t) "M_dot") d d = (2 * rquad n (out (rho t) "C") d d)%R).
      { unfold rquad, rdot, rmv in *. rewrite <- rsum_scal.
        rewrite (rsum_ext n _ (fun i => d i * rsum n (fun k => out (rho t) "M_dot" i k * d k) - 2 * (d i * rsum n (fun k => out (rho t) "C" i k * d k)))%R) in K.
        - rewrite rsum_minus in K. lra.
        - intros i Hi. rewrite (rsum_ext n _ (fun k => out (rho t) "M_dot" i k * d k - 2 * (out (rho t) "C" i k * d k))%R) by (intros; ring).
          rewrite rsum_minus, rsum_scal. ring. }
      rewrite Q, K'. unfold torque. fold n. fold d a. unfold rdot at 1.
      rewrite (rsum_ext n (fun k => d k * _)%R (fun k => d k * rmv n (out (rho t) "M") a k + d k * rmv n (out (rho t) "C") d k + out (rho t) "G" k 0%nat * d k)%R) by (intros; ring).
      rewrite !rsum_plus. unfold Hierarchy.scal; simpl; unfold mult; simpl. unfold rquad, rdot. field.
  Qed.
End EL.
