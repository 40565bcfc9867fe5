(* How the Coriolis matrix depends on the velocities: C is linear in dq, and C(u) v = C(v) u. *)
From Coq Require Import Reals Lra Lia Arith List String Bool ZArith.
From Coquelicot Require Import Coquelicot.
From Verif.Model Require Import Base Expr SX Robot Kinematics Dynamics Regressors Yaml Build.
From Verif.Spec Require Import Math Setup Kinematics Dynamics.
From Verif.Proofs Require Import Sums Calc Rel Pure PureRel Maps Names Shape Dims Sizes Deps BuildEq Load Init Final Closed Get KinThm Coriolis Partial DynMain Tail.
Import ListNotations.
Open Scope nat_scope.
Open Scope string_scope.

Section Vel.
  Variables (name : string) (cfg : ynode) (r0 r b : robot).
  Hypothesis B : built r0 b r.
  Let n := numJoints r0.
  Let Hb := bt_base _ _ _ B.
  Let dmr (x : robot) := dM (Mx b) (renv r0 x).
  Lemma dm_same r1 r2 : sess r0 b r1 -> (forall k, k <> "dq" -> arg r1 k = arg r2 k) ->
    forall i j k, i < n -> j < n -> dmr r1 i j k = dmr r2 i j k.
  Proof.
    intros s1 HA i j k Hi Hj. unfold dmr, dM. apply eval_ext. intros s Ho. apply occurs_diff in Ho.
    unfold n in Hi, Hj. rewrite <- (n_b _ _ _ s1) in Hi, Hj.
    pose proof (val_closed _ _ Hb fM I i j Hi Hj s Ho) as HI. unfold isym in HI. apply in_flat_map in HI. destruct HI as (m & Hm & HI).
    unfold isyms in HI. apply in_map_iff in HI. destruct HI as (l & <- & Hl). unfold renv, param. cbn [fst snd].
    destruct (deps_keys b fM m I (alist_deps _ _ _ Hm)) as [len Hlen]. rewrite keyname_symname by (eapply keys_arg; eauto).
    rewrite HA; [reflexivity|]. intros ->. apply alist_deps in Hm. cbn [deps] in Hm. unfold kinp in Hm. simpl in Hm. intuition discriminate.
  Qed.
  Lemma dm_sym r1 : session name cfg r0 r r1 -> forall i j k, i < n -> j < n -> k < n -> dmr r1 i j k = dmr r1 j i k.
  Proof.
    intros S1 i j k Hi Hj Hk.
    pose proof (M_partial name cfg r0 r b r1 S1 B i j k Hi Hj Hk) as D1. pose proof (M_partial name cfg r0 r b r1 S1 B j i k Hj Hi Hk) as D2.
    unfold is_partial in D1, D2. cbn beta in D1, D2. apply is_derive_unique in D1, D2. unfold dmr. rewrite <- D1, <- D2.
    apply Derive_ext. intros x.
    apply (M_symm name cfg r0 r b (set_entry r1 "q" k x) (set_session name cfg r0 r r1 _ _ _ S1) B); auto.
  Qed.
  Theorem C_linear r1 r2 r3 u v : session name cfg r0 r r1 -> session name cfg r0 r r2 -> session name cfg r0 r r3 ->
    (forall k, k <> "dq" -> arg r1 k = arg r3 k) -> (forall k, k <> "dq" -> arg r2 k = arg r3 k) ->
    (forall k, k < n -> state r3 "dq" k = (u * state r1 "dq" k + v * state r2 "dq" k)%R) ->
    forall i j, i < n -> j < n -> out r3 "C" i j = (u * out r1 "C" i j + v * out r2 "C" i j)%R.
  Proof.
    intros S1 S2 S3 H1 H2 HV i j Hi Hj.
    rewrite (proj1 (C_chr name cfg r0 r b r1 S1 B i j Hi Hj)), (proj1 (C_chr name cfg r0 r b r2 S2 B i j Hi Hj)), (proj1 (C_chr name cfg r0 r b r3 S3 B i j Hi Hj)).
    rewrite <- !rsum_scal, <- rsum_plus. apply rsum_ext. intros k Hk. rewrite HV by auto. fold dmr.
    pose proof (dm_same r1 r3 (built_sess _ _ _ _ _ _ S1 B) H1) as E1. pose proof (dm_same r2 r3 (built_sess _ _ _ _ _ _ S2 B) H2) as E2. unfold dmr in E1, E2.
    rewrite !E1, !E2 by auto. field.
  Qed.
  Theorem C_swap r1 r2 : session name cfg r0 r r1 -> session name cfg r0 r r2 -> (forall k, k <> "dq" -> arg r1 k = arg r2 k) ->
    forall i, i < n -> rsum n (fun j => out r1 "C" i j * state r2 "dq" j)%R = rsum n (fun j => out r2 "C" i j * state r1 "dq" j)%R.
  Proof.
    intros S1 S2 H1 i Hi. pose proof (dm_same r1 r2 (built_sess _ _ _ _ _ _ S1 B) H1) as E1. unfold dmr in E1.
    pose proof (dm_sym r2 S2) as Y. unfold dmr in Y.
    set (g := fun j k => ((dM (Mx b) (renv r0 r2) i j k + dM (Mx b) (renv r0 r2) i k j - dM (Mx b) (renv r0 r2) j k i) / 2)%R).
    assert (G : forall j k, j < n -> k < n -> g j k = g k j) by (intros j k Hj Hk; unfold g; rewrite (Y j k i) by auto; field).
    rewrite (rsum_ext n _ (fun j => rsum n (fun k => g j k * (state r1 "dq" k * state r2 "dq" j))%R)).
    - rewrite rsum_swap. apply rsum_ext. intros k Hk.
      rewrite (proj1 (C_chr name cfg r0 r b r2 S2 B i k Hi Hk)), <- rsum_scal_r. apply rsum_ext. intros j Hj.
      rewrite G by auto. unfold g. ring.
    - intros j Hj. rewrite (proj1 (C_chr name cfg r0 r b r1 S1 B i j Hi Hj)), <- rsum_scal_r. apply rsum_ext. intros k Hk.
      rewrite !E1 by auto. unfold g. ring.
  Qed.
End Vel.
