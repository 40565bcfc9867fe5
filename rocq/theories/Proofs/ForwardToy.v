(* A revolute first joint feels some force on the tool. *)
From Coq Require Import Reals Lra Lia Arith List String Bool ZArith.
From Verif.Model Require Import Base Expr SX Robot Yaml Build.
From Verif.Spec Require Import Math Setup Kinematics Dynamics.
From Verif.Proofs Require Import Sums Lin3 Frames Rel Pure PureRel Maps Names Shape Dims Sizes Deps Load Final Get Kin KinThm KinMain.
Import ListNotations.
Open Scope nat_scope.
Open Scope string_scope.

Lemma felt name cfg r0 r r' : session name cfg r0 r r' -> exact_angles r0 -> 0 < numJoints r0 -> prism r0 0 = false ->
  rsum 6 (fun a => out r' "J_ee" a 0%nat * out r' "J_ee" a 0%nat)%R <> 0%R.
Proof.
  intros S HX N P. destruct (session_sess _ _ _ _ _ S) as (b & SS & _).
  assert (E : forall a, a < 3 -> out r' "J_ee" (3 + a) 0 = vcomp (axis (chain_of b (renv r0 r')) 0) a).
  { intros a Ha. rewrite (Jee_a _ _ _ SS a 0 Ha N). unfold jw, wcol. rewrite (prism_b _ _ _ SS), P, (proj2 (Nat.ltb_lt _ _) N). reflexivity. }
  assert (U : dot (axis (chain_of b (renv r0 r')) 0) (axis (chain_of b (renv r0 r')) 0) = 1%R).
  { unfold axis. rewrite rot_dot; [unfold dot, ez; cbn; ring|]. apply (FR_is_rot _ _ _ SS HX). lia. }
  set (u := axis _ 0) in *. clearbody u. cbn [rsum]. pose proof (E 0 ltac:(lia)) as A. pose proof (E 1 ltac:(lia)) as B. pose proof (E 2 ltac:(lia)) as C.
  cbn in A, B, C. rewrite A, B, C. unfold dot in U. revert U. generalize (out r' "J_ee" 0 0) (out r' "J_ee" 1 0) (out r' "J_ee" 2 0). intros x y z U H.
  pose proof (Rle_0_sqr x). pose proof (Rle_0_sqr y). pose proof (Rle_0_sqr z). unfold Rsqr in *. lra.
Qed.
