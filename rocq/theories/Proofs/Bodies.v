(* roll-pitch-yaw matrices, merging and moving rigid bodies *)
From Coq Require Import Reals Lra Lia String List Arith.
From Verif.Model Require Import Base Inertia Bodies.
From Verif.Spec Require Import Math Bodies.
Import ListNotations.
Open Scope R_scope.

Ltac i3 i := destruct i as [|[|[|i]]]; [| | |exfalso; lia].
Ltac ex := unfold rmul, rmv, rdot, rtr, rsum, sum3, p_at; simpl.

Lemma ypr_rotation_is yaw pitch roll i j : (i < 3)%nat -> (j < 3)%nat ->
  ypr_rotation yaw pitch roll i j = framemat 0 0 0 yaw pitch roll i j.
Proof. intros Hi Hj. i3 i; i3 j; unfold ypr_rotation, framemat; ex; ring. Qed.
Lemma ypr_entries_is yaw pitch roll i j : (i < 3)%nat -> (j < 3)%nat ->
  ypr_entries (cos yaw) (sin yaw) (cos pitch) (sin pitch) (cos roll) (sin roll) i j =
  ypr_rotation yaw pitch roll i j - (if (Nat.eqb i 0 && Nat.eqb j 2)%bool then 2 * (sin yaw * sin roll) else 0).
Proof. intros Hi Hj. rewrite ypr_rotation_is by auto. i3 i; i3 j; unfold framemat; simpl; ring. Qed.

Theorem entries_correct yaw pitch roll :
  (forall i j, (i < 3)%nat -> (j < 3)%nat ->
     ypr_entries (cos yaw) (sin yaw) (cos pitch) (sin pitch) (cos roll) (sin roll) i j = ypr_rotation yaw pitch roll i j)
  <-> sin yaw * sin roll = 0.
Proof.
  split.
  - intros H. specialize (H 0%nat 2%nat ltac:(lia) ltac:(lia)). rewrite ypr_entries_is in H by lia. simpl in H. lra.
  - intros H i j Hi Hj. rewrite ypr_entries_is by auto. destruct (_ && _)%bool; lra.
Qed.
Lemma ypr_rotation_rot yaw pitch roll : rotation (ypr_rotation yaw pitch roll).
Proof.
  pose proof (sin2_cos2 yaw) as A. pose proof (sin2_cos2 pitch) as B. pose proof (sin2_cos2 roll) as C. unfold Rsqr in *.
  split.
  - intros i j Hi Hj. unfold rsum. rewrite !ypr_rotation_is by auto. unfold framemat, framecs.
    set (cy := cos yaw) in *. set (sy := sin yaw) in *. set (cp := cos pitch) in *. set (sp := sin pitch) in *.
    set (cr := cos roll) in *. set (sr := sin roll) in *.
    clearbody cy sy cp sp cr sr.
    assert (A' : sy * sy = 1 - cy * cy) by lra. assert (B' : sp * sp = 1 - cp * cp) by lra. assert (C' : sr * sr = 1 - cr * cr) by lra.
    i3 i; i3 j; unfold rid; simpl; ring [A' B' C'].
  - unfold rdet3. rewrite !ypr_rotation_is by lia. unfold framemat, framecs.
    set (cy := cos yaw) in *. set (sy := sin yaw) in *. set (cp := cos pitch) in *. set (sp := sin pitch) in *.
    set (cr := cos roll) in *. set (sr := sin roll) in *. clearbody cy sy cp sp cr sr.
    assert (A' : sy * sy = 1 - cy * cy) by lra. assert (B' : sp * sp = 1 - cp * cp) by lra. assert (C' : sr * sr = 1 - cr * cr) by lra.
    ring [A' B' C'].
Qed.
(* when the sign matters the matrix is not orthogonal at all, except in one special case of the pitch *)
Lemma entries_row0 yaw pitch roll : let E := ypr_entries (cos yaw) (sin yaw) (cos pitch) (sin pitch) (cos roll) (sin roll) in
  E 0%nat 0%nat * E 0%nat 0%nat + E 0%nat 1%nat * E 0%nat 1%nat + E 0%nat 2%nat * E 0%nat 2%nat =
  1 - 4 * (sin yaw * sin roll * (cos yaw * sin pitch * cos roll)).
Proof.
  pose proof (sin2_cos2 yaw) as A. pose proof (sin2_cos2 pitch) as B. pose proof (sin2_cos2 roll) as C. unfold Rsqr in *.
  simpl. set (cy := cos yaw) in *. set (sy := sin yaw) in *. set (cp := cos pitch) in *. set (sp := sin pitch) in *.
  set (cr := cos roll) in *. set (sr := sin roll) in *. clearbody cy sy cp sp cr sr.
  assert (A' : sy * sy = 1 - cy * cy) by lra. assert (B' : sp * sp = 1 - cp * cp) by lra. assert (C' : sr * sr = 1 - cr * cr) by lra.
  ring [A' B' C'].
Qed.

Lemma inertia_createI b i j : (i < 3)%nat -> (j < 3)%nat -> createI (b_I b) i j = inertia b i j.
Proof. intros Hi Hj. i3 i; i3 j; reflexivity. Qed.
Lemma inertia_sym b i j : inertia b i j = inertia b j i.
Proof. destruct i as [|[|[|i]]]; destruct j as [|[|[|j]]]; reflexivity. Qed.

Theorem merge_ok b1 b2 old : b_mass b1 + b_mass b2 <> 0 ->
  let b := mergeBodyInertial b1 b2 old in
  b_mass b = b_mass b1 + b_mass b2 /\
  (forall a, (a < 3)%nat -> moment b a = moment b1 a + moment b2 a) /\
  (forall i j, (i < 3)%nat -> (j < 3)%nat -> inertia_origin b i j = inertia_origin b1 i j + inertia_origin b2 i j).
Proof.
  intros H b. split; [reflexivity|]. subst b. unfold mergeBodyInertial, moment, inertia_origin, com, v3div, v3add, v3sc.
  split.
  - intros a Ha. unfold p_at. i3 a; simpl; field; auto.
  - intros i j Hi Hj. unfold rdot, rsum, com, inertia. simpl.
    unfold m3add, m3mul, m3sc, m3tr, v3sub, hat, hatR, createI, sum3, upper.
    unfold p_at. i3 i; i3 j; simpl; field; auto.
Qed.
Lemma same_from_moments b b' : b_mass b <> 0 -> b_mass b = b_mass b' ->
  (forall a, (a < 3)%nat -> moment b a = moment b' a) ->
  (forall i j, (i < 3)%nat -> (j < 3)%nat -> inertia_origin b i j = inertia_origin b' i j) -> same_body b b'.
Proof.
  intros N M F I. assert (C : forall a, (a < 3)%nat -> com b a = com b' a).
  { intros a Ha. specialize (F a Ha). unfold moment in F. rewrite <- M in F. apply Rmult_eq_reg_l in F; auto. }
  split; [auto|split; [auto|]]. intros i j Hi Hj. specialize (I i j Hi Hj). unfold inertia_origin in I. rewrite <- M in I.
  replace (rdot 3 (com b') (com b')) with (rdot 3 (com b) (com b)) in I by (unfold rdot, rsum; rewrite !C by lia; auto).
  rewrite !C in I by auto. lra.
Qed.
Lemma same_moments b b' : same_body b b' -> (forall a, (a < 3)%nat -> moment b a = moment b' a) /\
  (forall i j, (i < 3)%nat -> (j < 3)%nat -> inertia_origin b i j = inertia_origin b' i j).
Proof.
  intros (M & C & I). split; intros; unfold moment, inertia_origin.
  - rewrite M, C; auto.
  - rewrite M, I, (C i), (C j) by auto. replace (rdot 3 (com b') (com b')) with (rdot 3 (com b) (com b)); auto.
    unfold rdot, rsum. rewrite !C by lia; auto.
Qed.
Theorem merge_comm b1 b2 o o' : b_mass b1 + b_mass b2 <> 0 ->
  same_body (mergeBodyInertial b1 b2 o) (mergeBodyInertial b2 b1 o').
Proof.
  intros H. assert (H' : b_mass b2 + b_mass b1 <> 0) by lra.
  destruct (merge_ok b1 b2 o H) as (M & F & I). destruct (merge_ok b2 b1 o' H') as (M' & F' & I').
  apply same_from_moments; [rewrite M; auto|rewrite M, M'; ring| |].
  - intros. rewrite F, F' by auto. ring.
  - intros. rewrite I, I' by auto. ring.
Qed.
Theorem merge_assoc b1 b2 b3 o1 o2 o3 o4 : b_mass b1 + b_mass b2 <> 0 -> b_mass b2 + b_mass b3 <> 0 ->
  b_mass b1 + b_mass b2 + b_mass b3 <> 0 ->
  same_body (mergeBodyInertial (mergeBodyInertial b1 b2 o1) b3 o2) (mergeBodyInertial b1 (mergeBodyInertial b2 b3 o3) o4).
Proof.
  intros H12 H23 H. destruct (merge_ok b1 b2 o1 H12) as (M & F & I). destruct (merge_ok b2 b3 o3 H23) as (M' & F' & I').
  set (b12 := mergeBodyInertial b1 b2 o1) in *. set (b23 := mergeBodyInertial b2 b3 o3) in *. clearbody b12 b23.
  assert (N1 : b_mass b12 + b_mass b3 <> 0) by (rewrite M; auto).
  assert (N2 : b_mass b1 + b_mass b23 <> 0) by (rewrite M'; lra).
  destruct (merge_ok b12 b3 o2 N1) as (A1 & A2 & A3). destruct (merge_ok b1 b23 o4 N2) as (B1 & B2 & B3).
  apply same_from_moments; [rewrite A1; auto|rewrite A1, B1, M, M'; ring| |].
  - intros. rewrite A2, B2, F, F' by auto. ring.
  - intros. rewrite A3, B3, I, I' by auto. ring.
Qed.

(* moving a body with the matrices the code computes *)
Theorem transform_ok d rpy b old :
  let A := rpyRot rpy in let B := rmul 3 A (rpyRot (b_rpy b)) in
  let t := transformBodyInertial d rpy b old in
  b_name t = b_name b /\ b_mass t = b_mass b /\
  (forall a, (a < 3)%nat -> com t a = moved A (fun a => nth a d 0) (com b) a) /\
  (forall i j, (i < 3)%nat -> (j < 3)%nat -> inertia t i j = conjugate B (inertia b) i j).
Proof.
  cbv zeta. split; [reflexivity|]. split; [reflexivity|]. split.
  - intros a Ha. unfold com, transformBodyInertial, moved, rmv, v3add, m3v. cbn [b_xyz map].
    i3 a; simpl; unfold p_at, sum3, com; simpl; ring.
  - intros i j Hi Hj. unfold transformBodyInertial, conjugate. set (A := rpyRot rpy). set (B := rpyRot (b_rpy b)). clearbody A B.
    unfold inertia, rmul, rtr, rsum. cbn [b_I]. unfold upper.
    i3 i; i3 j; simpl; unfold m3mul, m3tr, createI, sum3, p_at; ring.
Qed.
Lemma trace_conjugate A I : rotation A -> trace (conjugate A I) = trace I.
Proof.
  intros [O _].
  pose proof (O 0%nat 0%nat ltac:(lia) ltac:(lia)) as O00. pose proof (O 0%nat 1%nat ltac:(lia) ltac:(lia)) as O01.
  pose proof (O 0%nat 2%nat ltac:(lia) ltac:(lia)) as O02. pose proof (O 1%nat 1%nat ltac:(lia) ltac:(lia)) as O11.
  pose proof (O 1%nat 2%nat ltac:(lia) ltac:(lia)) as O12. pose proof (O 2%nat 2%nat ltac:(lia) ltac:(lia)) as O22.
  unfold rsum, rid in *. simpl in *. unfold trace, conjugate, rmul, rtr, rsum.
  transitivity (I 0%nat 0%nat * (A 0%nat 0%nat * A 0%nat 0%nat + A 1%nat 0%nat * A 1%nat 0%nat + A 2%nat 0%nat * A 2%nat 0%nat)
    + (I 0%nat 1%nat + I 1%nat 0%nat) * (A 0%nat 0%nat * A 0%nat 1%nat + A 1%nat 0%nat * A 1%nat 1%nat + A 2%nat 0%nat * A 2%nat 1%nat)
    + (I 0%nat 2%nat + I 2%nat 0%nat) * (A 0%nat 0%nat * A 0%nat 2%nat + A 1%nat 0%nat * A 1%nat 2%nat + A 2%nat 0%nat * A 2%nat 2%nat)
    + I 1%nat 1%nat * (A 0%nat 1%nat * A 0%nat 1%nat + A 1%nat 1%nat * A 1%nat 1%nat + A 2%nat 1%nat * A 2%nat 1%nat)
    + (I 1%nat 2%nat + I 2%nat 1%nat) * (A 0%nat 1%nat * A 0%nat 2%nat + A 1%nat 1%nat * A 1%nat 2%nat + A 2%nat 1%nat * A 2%nat 2%nat)
    + I 2%nat 2%nat * (A 0%nat 2%nat * A 0%nat 2%nat + A 1%nat 2%nat * A 1%nat 2%nat + A 2%nat 2%nat * A 2%nat 2%nat)).
  - ring.
  - replace (A 0%nat 0%nat * A 0%nat 0%nat + A 1%nat 0%nat * A 1%nat 0%nat + A 2%nat 0%nat * A 2%nat 0%nat) with 1 by lra.
    replace (A 0%nat 0%nat * A 0%nat 1%nat + A 1%nat 0%nat * A 1%nat 1%nat + A 2%nat 0%nat * A 2%nat 1%nat) with 0 by lra.
    replace (A 0%nat 0%nat * A 0%nat 2%nat + A 1%nat 0%nat * A 1%nat 2%nat + A 2%nat 0%nat * A 2%nat 2%nat) with 0 by lra.
    replace (A 0%nat 1%nat * A 0%nat 1%nat + A 1%nat 1%nat * A 1%nat 1%nat + A 2%nat 1%nat * A 2%nat 1%nat) with 1 by lra.
    replace (A 0%nat 1%nat * A 0%nat 2%nat + A 1%nat 1%nat * A 1%nat 2%nat + A 2%nat 1%nat * A 2%nat 2%nat) with 0 by lra.
    replace (A 0%nat 2%nat * A 0%nat 2%nat + A 1%nat 2%nat * A 1%nat 2%nat + A 2%nat 2%nat * A 2%nat 2%nat) with 1 by lra.
    ring.
Qed.

Lemma rotation_ext A B : (forall i j, (i < 3)%nat -> (j < 3)%nat -> A i j = B i j) -> rotation A -> rotation B.
Proof.
  intros E [O D]. split.
  - intros i j Hi Hj. rewrite <- (O i j Hi Hj). unfold rsum. rewrite !E by lia. reflexivity.
  - rewrite <- D. unfold rdet3. rewrite !E by lia. reflexivity.
Qed.
Lemma rotation_mul A B : rotation A -> rotation B -> rotation (rmul 3 A B).
Proof.
  intros [OA DA] [OB DB]. split.
  - intros i j Hi Hj. rewrite <- (OB i j Hi Hj).
    pose proof (OA 0%nat 0%nat ltac:(lia) ltac:(lia)) as O00. pose proof (OA 0%nat 1%nat ltac:(lia) ltac:(lia)) as O01.
    pose proof (OA 0%nat 2%nat ltac:(lia) ltac:(lia)) as O02. pose proof (OA 1%nat 1%nat ltac:(lia) ltac:(lia)) as O11.
    pose proof (OA 1%nat 2%nat ltac:(lia) ltac:(lia)) as O12. pose proof (OA 2%nat 2%nat ltac:(lia) ltac:(lia)) as O22.
    unfold rmul, rsum, rid in *. simpl in O00, O01, O02, O11, O12, O22.
    transitivity (B 0%nat i * B 0%nat j * (0 + A 0%nat 0%nat * A 0%nat 0%nat + A 1%nat 0%nat * A 1%nat 0%nat + A 2%nat 0%nat * A 2%nat 0%nat)
      + (B 0%nat i * B 1%nat j + B 1%nat i * B 0%nat j) * (0 + A 0%nat 0%nat * A 0%nat 1%nat + A 1%nat 0%nat * A 1%nat 1%nat + A 2%nat 0%nat * A 2%nat 1%nat)
      + (B 0%nat i * B 2%nat j + B 2%nat i * B 0%nat j) * (0 + A 0%nat 0%nat * A 0%nat 2%nat + A 1%nat 0%nat * A 1%nat 2%nat + A 2%nat 0%nat * A 2%nat 2%nat)
      + B 1%nat i * B 1%nat j * (0 + A 0%nat 1%nat * A 0%nat 1%nat + A 1%nat 1%nat * A 1%nat 1%nat + A 2%nat 1%nat * A 2%nat 1%nat)
      + (B 1%nat i * B 2%nat j + B 2%nat i * B 1%nat j) * (0 + A 0%nat 1%nat * A 0%nat 2%nat + A 1%nat 1%nat * A 1%nat 2%nat + A 2%nat 1%nat * A 2%nat 2%nat)
      + B 2%nat i * B 2%nat j * (0 + A 0%nat 2%nat * A 0%nat 2%nat + A 1%nat 2%nat * A 1%nat 2%nat + A 2%nat 2%nat * A 2%nat 2%nat)); [ring|].
    rewrite O00, O01, O02, O11, O12, O22. ring.
  - replace 1 with (rdet3 A * rdet3 B) by (rewrite DA, DB; ring). unfold rdet3, rmul, rsum. ring.
Qed.

Definition yaw_roll_ok (rpy : list R) : Prop := sin (nth 2 rpy 0) * sin (nth 0 rpy 0) = 0.
Lemma rpyRot_correct rpy :
  (forall i j, (i < 3)%nat -> (j < 3)%nat -> rpyRot rpy i j = ypr_rotation (nth 2 rpy 0) (nth 1 rpy 0) (nth 0 rpy 0) i j)
  <-> sin (nth 2 rpy 0) * sin (nth 0 rpy 0) = 0.
Proof. unfold rpyRot, p_at. apply entries_correct. Qed.
Lemma get_rotation_correct f :
  (forall i j, (i < 3)%nat -> (j < 3)%nat -> get_rotation f i j = ypr_rotation (nth 0 (f_ypr f) 0) (nth 1 (f_ypr f) 0) (nth 2 (f_ypr f) 0) i j)
  <-> sin (nth 0 (f_ypr f) 0) * sin (nth 2 (f_ypr f) 0) = 0.
Proof. unfold get_rotation, p_at. apply entries_correct. Qed.
Lemma get_transform_correct f : sin (nth 0 (f_ypr f) 0) * sin (nth 2 (f_ypr f) 0) = 0 ->
  forall i j, (i < 4)%nat -> (j < 4)%nat -> get_transform f i j =
    framemat (nth 0 (f_tr f) 0) (nth 1 (f_tr f) 0) (nth 2 (f_tr f) 0) (nth 0 (f_ypr f) 0) (nth 1 (f_ypr f) 0) (nth 2 (f_ypr f) 0) i j.
Proof.
  intros H i j Hi Hj. unfold get_transform. destruct (Nat.ltb_spec i 3) as [Li|Li]; destruct (Nat.ltb_spec j 3) as [Lj|Lj]; simpl.
  - unfold p_at. rewrite (proj2 (entries_correct _ _ _) H) by auto. rewrite ypr_rotation_is by auto.
    i3 i; i3 j; reflexivity.
  - replace j with 3%nat by lia. simpl. i3 i; reflexivity.
  - replace i with 3%nat by lia. i3 j; reflexivity.
  - replace i with 3%nat by lia. replace j with 3%nat by lia. reflexivity.
Qed.

(* the matrix written out is a rotation only when the wrong sign does not show: the length of the last column and the
   determinant change with the square of the error *)
Lemma entries_rotation y p r :
  rotation (ypr_entries (cos y) (sin y) (cos p) (sin p) (cos r) (sin r)) <-> sin y * sin r = 0.
Proof.
  split.
  - intros [O D]. specialize (O 2%nat 2%nat ltac:(lia) ltac:(lia)).
    pose proof (sin2_cos2 y) as Y. pose proof (sin2_cos2 p) as P. pose proof (sin2_cos2 r) as Z. unfold Rsqr in *.
    unfold rdet3 in D. unfold rsum, rid in O. simpl in O, D.
    set (cy := cos y) in *. set (sy := sin y) in *. set (cp := cos p) in *. set (sp := sin p) in *.
    set (cr := cos r) in *. set (sr := sin r) in *. clearbody cy sy cp sp cr sr.
    assert (Ey : cy * cy = 1 - sy * sy) by lra. assert (Ep : cp * cp = 1 - sp * sp) by lra. assert (Er : cr * cr = 1 - sr * sr) by lra.
    assert (N : 4 * cy * sy * sp * cr * sr = 0).
    { transitivity (sp * sp * (cr * cr) * (cy * cy + sy * sy) + sr * sr * (cy * cy + sy * sy) + cp * cp * (cr * cr)
        - (0 + (cy * sp * cr - sy * sr) * (cy * sp * cr - sy * sr) + (sy * sp * cr - cy * sr) * (sy * sp * cr - cy * sr) + cp * cr * (cp * cr))); [ring|].
      rewrite O. rewrite Ey, Ep, Er. ring. }
    assert (T : 2 * (sy * sr) * (sy * sr * (cp * cp + sp * sp) + cy * cr * sp) = 0).
    { match type of D with ?d = 1 =>
        transitivity ((cy * cy + sy * sy) * (cp * cp + sp * sp) * (cr * cr + sr * sr) - d); [ring|rewrite D, Ey, Ep, Er; ring] end. }
    assert (F : (sy * sr) * (sy * sr) = 0).
    { rewrite Ep in T. replace (1 - sp * sp + sp * sp) with 1 in T by ring. lra. }
    destruct (Rmult_integral _ _ F); auto.
  - intros H. refine (rotation_ext _ _ _ (ypr_rotation_rot y p r)). intros i j Hi Hj. symmetry. apply entries_correct; auto.
Qed.

Lemma rpyRot_rotation rpy : rotation (rpyRot rpy) <-> sin (nth 2 rpy 0) * sin (nth 0 rpy 0) = 0.
Proof. unfold rpyRot, p_at. apply entries_rotation. Qed.
Lemma get_rotation_rotation f : rotation (get_rotation f) <-> sin (nth 0 (f_ypr f) 0) * sin (nth 2 (f_ypr f) 0) = 0.
Proof. unfold get_rotation, p_at. apply entries_rotation. Qed.

Lemma pi4 : exists c, 0 < c /\ cos (PI / 4) = c /\ sin (PI / 4) = c.
Proof.
  exists (cos (PI / 4)). split; [|split; [auto|rewrite sin_PI4, cos_PI4; auto]].
  rewrite cos_PI4. apply Rdiv_lt_0_compat; [lra|]. apply sqrt_lt_R0. lra.
Qed.
Lemma rpy_not_rotation : exists rpy, List.length rpy = 3%nat /\ ~ rotation (rpyRot rpy).
Proof.
  exists [PI / 4; PI / 4; PI / 4]. split; [reflexivity|]. intros [O _].
  specialize (O 2%nat 2%nat ltac:(lia) ltac:(lia)). pose proof (sin2_cos2 (PI / 4)) as S. unfold Rsqr in S.
  destruct pi4 as (c & P & C & D). unfold rpyRot, p_at in O. simpl in O. unfold rid in O. simpl in O. rewrite C, D in *.
  clear C D.
  assert (X : 4 * (c * c) * (c * c) * c = 0).
  { replace (4 * (c * c) * (c * c) * c) with (1 - (0 + (c * c * c - c * c) * (c * c * c - c * c) + (c * c * c - c * c) * (c * c * c - c * c) + c * c * (c * c))
        + (2 * (c * c) * (c * c) * (c * c) + 3 * ((c * c) * (c * c)) - 1)) by ring.
    rewrite O. assert (E : c * c = / 2) by lra. rewrite E. simpl. lra. }
  assert (0 < c * c) by nra. assert (0 < 4 * (c * c) * (c * c) * c) by (apply Rmult_lt_0_compat; nra). lra.
Qed.

Definition unit_body : body := mkBody "b" 1 [1; 0; 0; 1; 0; 1] [0; 0; 0] [0; 0; 0] [0].
Lemma transform_trace_lost : exists d rpy b old, List.length rpy = 3%nat /\
  trace (inertia (transformBodyInertial d rpy b old)) <> trace (inertia b).
Proof.
  exists [0; 0; 0], [PI / 4; PI / 4; PI / 4], unit_body, unit_body. split; [reflexivity|].
  destruct (transform_ok [0; 0; 0] [PI / 4; PI / 4; PI / 4] unit_body unit_body) as (_ & _ & _ & I).
  unfold trace. rewrite !I by lia. pose proof (sin2_cos2 (PI / 4)) as S. unfold Rsqr in S.
  destruct pi4 as (c & P & C & D). unfold conjugate, rmul, rtr, rsum, rpyRot, p_at. simpl.
  rewrite C, D in *. rewrite cos_0, sin_0. clear C D I.
  match goal with |- ?x <> ?y => assert (E : x = 3 - 4 * ((c * c) * (c * c) * c) + (4 * (c * c) * (c * c) * (c * c) + 8 * ((c * c) * (c * c)) + c * c - 3)) by ring end.
  rewrite E. assert (E2 : c * c = / 2) by lra. rewrite E2.
  assert (0 < c) by lra. lra.
Qed.

(* the frame change is rigid when the angles avoid the wrong entry *)
Theorem transform_rigid d rpy b old :
  sin (nth 2 rpy 0) * sin (nth 0 rpy 0) = 0 -> sin (nth 2 (b_rpy b) 0) * sin (nth 0 (b_rpy b) 0) = 0 ->
  let A := ypr_rotation (nth 2 rpy 0) (nth 1 rpy 0) (nth 0 rpy 0) in
  let B := rmul 3 A (ypr_rotation (nth 2 (b_rpy b) 0) (nth 1 (b_rpy b) 0) (nth 0 (b_rpy b) 0)) in
  let t := transformBodyInertial d rpy b old in
  b_mass t = b_mass b /\ rotation A /\ rotation B /\
  (forall a, (a < 3)%nat -> com t a = moved A (fun a => nth a d 0) (com b) a) /\
  (forall i j, (i < 3)%nat -> (j < 3)%nat -> inertia t i j = conjugate B (inertia b) i j) /\
  trace (inertia t) = trace (inertia b).
Proof.
  intros H1 H2. cbv zeta. destruct (transform_ok d rpy b old) as (_ & M & C & I).
  pose proof (proj2 (rpyRot_correct rpy) H1) as E1. pose proof (proj2 (rpyRot_correct (b_rpy b)) H2) as E2.
  assert (RA : rotation (ypr_rotation (nth 2 rpy 0) (nth 1 rpy 0) (nth 0 rpy 0))) by apply ypr_rotation_rot.
  assert (RB : rotation (rmul 3 (ypr_rotation (nth 2 rpy 0) (nth 1 rpy 0) (nth 0 rpy 0))
     (ypr_rotation (nth 2 (b_rpy b) 0) (nth 1 (b_rpy b) 0) (nth 0 (b_rpy b) 0)))) by (apply rotation_mul; apply ypr_rotation_rot).
  assert (C' : forall a, (a < 3)%nat -> com (transformBodyInertial d rpy b old) a =
     moved (ypr_rotation (nth 2 rpy 0) (nth 1 rpy 0) (nth 0 rpy 0)) (fun a => nth a d 0) (com b) a).
  { intros a Ha. rewrite C by auto. unfold moved, rmv, rsum. rewrite !E1 by lia. reflexivity. }
  assert (I' : forall i j, (i < 3)%nat -> (j < 3)%nat -> inertia (transformBodyInertial d rpy b old) i j =
     conjugate (rmul 3 (ypr_rotation (nth 2 rpy 0) (nth 1 rpy 0) (nth 0 rpy 0))
       (ypr_rotation (nth 2 (b_rpy b) 0) (nth 1 (b_rpy b) 0) (nth 0 (b_rpy b) 0))) (inertia b) i j).
  { intros i j Hi Hj. rewrite I by auto. unfold conjugate, rmul, rtr, rsum. rewrite !E1, !E2 by lia. reflexivity. }
  split; [auto|]. split; [auto|]. split; [auto|]. split; [auto|]. split; [auto|].
  rewrite <- (trace_conjugate _ (inertia b) RB). unfold trace. rewrite !I' by lia. reflexivity.
Qed.
Lemma rpy_sample : sin (nth 2 [PI / 4; PI / 4; 0] 0) * sin (nth 0 [PI / 4; PI / 4; 0] 0) = 0 /\
  sin (nth 1 [PI / 4; PI / 4; 0] 0) <> 0.
Proof.
  simpl. split; [rewrite sin_0; ring|]. destruct pi4 as (c & P & _ & ->). lra.
Qed.

(* centres of mass move rigidly, by whatever rotation and displacement, only when the wrong entry does not show *)
Lemma transform_exactly d rpy old :
  (exists A c, rotation A /\ forall b a, (a < 3)%nat -> com (transformBodyInertial d rpy b old) a = moved A c (com b) a)
  <-> sin (nth 2 rpy 0) * sin (nth 0 rpy 0) = 0.
Proof.
  rewrite <- rpyRot_rotation. split.
  - intros (A & c & RA & H). refine (rotation_ext _ _ _ RA).
    assert (X : forall v a, (a < 3)%nat -> moved A c (fun k => nth k v 0) a = moved (rpyRot rpy) (fun k => nth k d 0) (fun k => nth k v 0) a).
    { intros v a Ha. destruct (transform_ok d rpy (mkBody "b" 1 [] v [] []) old) as (_ & _ & C & _).
      rewrite <- (C a Ha : _ = moved (rpyRot rpy) (fun k => nth k d 0) (fun k => nth k v 0) a).
      symmetry. exact (H (mkBody "b" 1 [] v [] []) a Ha). }
    intros i j Hi Hj. pose proof (X [0; 0; 0] i Hi) as Z.
    pose proof (X [1; 0; 0] i Hi) as X0. pose proof (X [0; 1; 0] i Hi) as X1. pose proof (X [0; 0; 1] i Hi) as X2.
    unfold moved, rmv, rsum in *. cbn [nth] in *. i3 j; lra.
  - intros RA. exists (rpyRot rpy), (fun a => nth a d 0). split; [exact RA|]. intros b.
    destruct (transform_ok d rpy b old) as (_ & _ & C & _). exact C.
Qed.
