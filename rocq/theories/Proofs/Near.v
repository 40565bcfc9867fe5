(* Without any assumption on the angles: every published rotation keeps lengths up to the rounding of
   small constant cosines and sines. *)
From Coq Require Import Reals Lra Lia Arith List String Bool ZArith.
From Verif.Model Require Import Base Expr SX Robot Kinematics Dynamics Regressors Yaml Build.
From Verif.Spec Require Import Math Setup Kinematics.
From Verif.Proofs Require Import Sums Calc Lin3 Frames Pure PureRel Get Kin KinThm KinMain.
Import ListNotations.
Open Scope nat_scope.
Open Scope string_scope.

Definition e30 : R := (/ 10 ^ 30)%R.
Lemma e30_range : (0 < e30 < 1)%R.
Proof. unfold e30. split; [apply Rinv_0_lt_compat, pow_lt; lra|]. rewrite <- Rinv_1. apply Rinv_lt_contravar; [|apply Rlt_pow_R1; [lra|lia]]. rewrite Rmult_1_l. apply pow_lt; lra. Qed.
Definition near (k : nat) (M : mtx) : Prop :=
  forall v, ((1 - e30) ^ k * dot v v <= dot (mv M v) (mv M v) <= dot v v)%R.
Lemma near_mm j k A B : near j A -> near k B -> near (j + k) (mm A B).
Proof.
  intros HA HB v. rewrite mv_mm. destruct (HA (mv B v)) as [A1 A2]. destruct (HB v) as [B1 B2]. split; [|lra].
  eapply Rle_trans; [|exact A1]. rewrite pow_add, Rmult_assoc. apply Rmult_le_compat_l; auto.
  apply pow_le. pose proof e30_range; lra.
Qed.
Lemma cs_near env a : (1 - e30 <= cz env a * cz env a + sz env a * sz env a <= 1)%R.
Proof.
  pose proof e30_range as He. unfold cz, sz, ZIS. simpl.
  pose proof (unit_cs (eval env a)) as U.
  destruct (is_constant a) eqn:E; simpl; [|lra].
  rewrite (const_eval env a E) in *. unfold const_value in *. simpl. set (x := eval (fun _ => 0%R) a) in *.
  assert (HS : forall y, (Rabs y < / 10 ^ 15 -> y * y <= e30)%R).
  { intros y Hy. replace e30 with ((/ 10 ^ 15) * (/ 10 ^ 15))%R.
    - rewrite <- (Rabs_pos_eq (y * y)) by apply Rle_0_sqr. rewrite Rabs_mult.
      pose proof (Rabs_pos y). apply Rmult_le_compat; lra.
    - unfold e30. rewrite <- Rinv_mult. f_equal. rewrite <- pow_add. reflexivity. }
  pose proof (Rle_0_sqr (cos x)) as P1. pose proof (Rle_0_sqr (sin x)) as P2. unfold Rsqr in P1, P2.
  unfold EPSILON.
  assert (EX : eval env a = x) by (rewrite (const_eval env a E); reflexivity).
  destruct (Rlt_dec (Rabs (cos x)) _) as [c|c]; destruct (Rlt_dec (Rabs (sin x)) _) as [s|s]; simpl; rewrite ?EX;
    try (pose proof (HS _ c)); try (pose proof (HS _ s)); try lra.
  assert (e30 < / 2)%R; [|exfalso; lra]. unfold e30. apply Rinv_lt_contravar; [apply Rmult_lt_0_compat; [lra|apply pow_lt; lra]|].
  apply Rlt_le_trans with (10 ^ 1)%R; [lra|]. apply Rle_pow; [lra|lia].
Qed.
Lemma sc_bound (e u x y z : R) : (0 <= e)%R -> (1 - e <= u <= 1)%R -> (0 <= x)%R -> (0 <= y)%R -> (0 <= z)%R ->
  ((1 - e) * (x + y + z) <= u * (x + y) + z <= x + y + z)%R.
Proof. intros. assert (0 <= (u - (1 - e)) * (x + y) /\ 0 <= (1 - u) * (x + y) /\ 0 <= e * z)%R by (repeat split; apply Rmult_le_pos; lra). lra. Qed.
Lemma near_of env a M : M = Rx3 (cz env a) (sz env a) \/ M = Ry3 (cz env a) (sz env a) \/ M = Rz3 (cz env a) (sz env a) -> near 1 M.
Proof.
  intros HM [x y z]. pose proof e30_range as He. pose proof (cs_near env a) as U. rewrite pow_1.
  pose proof (Rle_0_sqr x) as X. pose proof (Rle_0_sqr y) as Y. pose proof (Rle_0_sqr z) as Z. unfold Rsqr in X, Y, Z.
  destruct HM as [->|[->| ->]]; unfold dot, mv, Rx3, Ry3, Rz3; simpl.
  - pose proof (sc_bound e30 _ _ _ _ ltac:(lra) U Y Z X). lra.
  - pose proof (sc_bound e30 _ _ _ _ ltac:(lra) U X Z Y). lra.
  - pose proof (sc_bound e30 _ _ _ _ ltac:(lra) U X Y Z). lra.
Qed.
Lemma near_frame env f : near 3 (frame_rot env f).
Proof. unfold frame_rot. apply (near_mm 2 1); [apply (near_mm 1 1)|]; eapply near_of; eauto. Qed.
Lemma near_T b env i : near 2 (rot3 env (Tlx b i)).
Proof. rewrite (proj1 (Tlx_val b env i)). apply (near_mm 1 1); eapply near_of; cbn; eauto. Qed.
Lemma near_FR b env i : near (2 * i + 3) (FR (chain_of b env) i).
Proof.
  induction i as [|i IH].
  - apply near_frame.
  - replace (2 * S i + 3) with (2 * i + 3 + 2) by lia. cbn [FR]. apply near_mm; auto.
    rewrite <- (proj1 (Tlx_val b env i)). apply near_T.
Qed.

Lemma near_out k A M : (forall a c, a < 3 -> c < 3 -> A a c = mcomp M a c) -> near k M -> keeps_length k A.
Proof.
  intros E HN v. pose proof (HN (vec_of v)) as HV. unfold dot, mv, vec_of in HV. cbn -[pow] in HV.
  unfold rdot, rmv. cbn [rsum]. rewrite !E by lia. cbn [mcomp]. fold e30.
  match goal with |- (?x <= ?y <= ?z)%R =>
    match type of HV with (?x' <= ?y' <= ?z')%R => replace x with x' by ring; replace y with y' by ring; replace z with z' by ring end end.
  exact HV.
Qed.

Theorem lengths name cfg r0 r r' : session name cfg r0 r r' ->
  (forall i, 1 <= i <= numJoints r0 -> keeps_length 2 (out r' ("T_" ++ to_string i))) /\
  (forall i, i <= numJoints r0 -> keeps_length (2 * i + 3) (out r' ("T_0_" ++ to_string i))) /\
  keeps_length (2 * numJoints r0 + 6) (out r' "T_0_ee").
Proof.
  intros Hs. destruct (session_sess _ _ _ _ _ Hs) as (b & H & _). split; [|split].
  - intros i Hi. eapply near_out; [|apply near_T with (b := b) (i := i - 1) (env := renv r0 r')].
    intros a c Ha Hc. rewrite (proj2 (out_T _ _ _ H i Hi)) by lia. unfold rot3. now rewrite mcomp_of.
  - intros i Hi. eapply near_out; [|apply near_FR with (b := b) (env := renv r0 r')].
    intros a c Ha Hc. apply (T0_rot _ _ _ H); auto.
  - replace (2 * numJoints r0 + 6) with (2 * numJoints r0 + 3 + 3) by lia.
    eapply near_out; [|apply near_mm; [apply near_FR with (b := b) (env := renv r0 r')|apply near_frame with (env := renv r0 r') (f := mdl b "par_Ln2EE")]].
    intros a c Ha Hc. apply (Tee_rot _ _ _ H); auto.
Qed.
