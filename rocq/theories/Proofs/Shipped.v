(* The shipped configurations: they load, and their robots meet the hypotheses of the other theorems. *)
From Coq Require Import QArith Qreals Reals List String Arith ZArith Bool Lia Lra Psatz.
From Verif.Model Require Import Base Robot Yaml Build Template Clients.
From Verif.Spec Require Import Math Setup Kinematics Dynamics Api State Template Config Clients Shipped.
From Verif.Proofs Require Import Names Load Final Get Sample Api RobotName MainFiles Motion DynMain Forward Clients TGet.
Import ListNotations.
Open Scope nat_scope.
Open Scope string_scope.

(* numbers as they stand in the files *)
Inductive num := NZ (z : Z) | NQ (q : Q) | NH | NN | NP.
Arguments NZ z%Z. Arguments NQ q%Q.
Definition den (h : R) (x : num) : R :=
  match x with NZ z => IZR z | NQ q => Q2R q | NH => h | NN => (- h)%R | NP => (2 * h)%R end.
Record numbers := mkNumbers { n_dh : list num; n_base : list num; n_tool : list num; n_dyn : list num }.

(* angles *)
Definition safe (q : Q) : bool := Qeq_bool q 0 || (Qle_bool 0.1 q && Qle_bool q 1) || (Qle_bool (-1) q && Qle_bool q (-0.1)).
Definition ok_angle (x : num) : bool := match x with NZ z => Z.eqb z 0 | NQ q => safe q | _ => true end.
Definition clean (a : R) : Prop := ((Rabs (cos a) < / 10 ^ 15 -> cos a = 0) /\ (Rabs (sin a) < / 10 ^ 15 -> sin a = 0))%R.
Lemma big x : (/ 12 <= x)%R -> (Rabs x < / 10 ^ 15)%R -> x = 0%R.
Proof.
  intros H A. assert (E : (10 ^ 15 = 1000000000000000)%R) by ring. rewrite E in A.
  rewrite Rabs_right in A by lra. lra.
Qed.
Lemma sin_low a : (/ 10 <= a <= 1)%R -> (/ 12 <= sin a)%R.
Proof.
  intros [A B]. destruct (pre_sin_bound a 0) as [L _]; try lra.
  unfold sin_approx, sin_term in L. simpl in L. nra.
Qed.
Lemma cos_low a : (/ 10 <= a <= 1)%R -> (/ 12 <= cos a)%R.
Proof.
  intros [A B]. destruct (pre_cos_bound a 0) as [L _]; try lra. unfold cos_approx, cos_term in L. simpl in L. nra.
Qed.
Lemma clean_mid a : (/ 10 <= a <= 1)%R -> clean a.
Proof. intros H. split; apply big; [now apply cos_low|now apply sin_low]. Qed.
Lemma clean_neg a : clean a -> clean (- a).
Proof.
  intros [A B]. split; [now rewrite cos_neg|]. rewrite sin_neg, Rabs_Ropp. intros H. rewrite (B H). ring.
Qed.
Lemma clean_PI : clean (2 * (PI / 2)).
Proof. replace (2 * (PI / 2))%R with PI by field. split; [|rewrite sin_PI; auto]. rewrite cos_PI. intros H. exfalso.
  replace (Rabs (-1)) with (Rabs 1) in H by (rewrite Rabs_R1, Rabs_left; lra). assert (/ 12 <= 1)%R by lra. pose proof (big 1 H0 H). lra. Qed.
Lemma ok_clean x : ok_angle x = true -> clean (den (PI / 2) x).
Proof.
  destruct x as [z|q| | |]; cbn [ok_angle den]; intros H.
  - apply Z.eqb_eq in H. subst. apply small_angle. auto.
  - unfold safe in H. rewrite !orb_true_iff, !andb_true_iff, !Qle_bool_iff, Qeq_bool_iff in H.
    destruct H as [[H|[A B]]|[A B]].
    + apply Qeq_eqR in H. rewrite H. replace (Q2R 0) with 0%R by (unfold Q2R; simpl; ring). apply small_angle. auto.
    + apply Qle_Rle in A, B. apply clean_mid. unfold Q2R at 1 in A. unfold Q2R at 2 in B. simpl in A, B. lra.
    + apply Qle_Rle in A, B. replace (Q2R q) with (- - Q2R q)%R by ring. apply clean_neg, clean_mid.
      unfold Q2R at 1 in A. unfold Q2R at 2 in B. simpl in A, B. lra.
  - apply small_angle. auto.
  - apply clean_neg, small_angle. auto.
  - apply clean_PI.
Qed.

(* inertias *)
Definition val (x : num) : Q := match x with NZ z => inject_Z z | NQ q => q | _ => 0 end.
Definition plain (x : num) : bool := match x with NZ _ | NQ _ => true | _ => false end.
Lemma den_val h x : plain x = true -> den h x = Q2R (val x).
Proof. destruct x; try discriminate; intros _; cbn; auto. unfold Q2R, inject_Z. cbn. now rewrite Rinv_1, Rmult_1_r. Qed.
Definition minor2 (a b d : Q) : Q := a * d - b * b.
Definition minor3 (a b c d e f : Q) : Q := a * (d * f - e * e) - b * (b * f - e * c) + c * (b * e - d * c).
Definition qlt (a b : Q) : bool := negb (Qle_bool b a).
Definition at_ (l : list num) (k : nat) : Q := val (nth k l (NZ 0)).
Definition pd_link (l : list num) (i : nat) : bool :=
  let p := fun k => at_ l (10 * i + k) in
  qlt 0 (p 0%nat) && qlt 0 (p 4) && qlt 0 (minor2 (p 4) (p 5) (p 7)) && qlt 0 (minor3 (p 4) (p 5) (p 6) (p 7) (p 8) (p 9)).
(* a mass, and an inertia of six equal entries *)
Definition flat_link (l : list num) (i : nat) : bool :=
  let p := fun k => at_ l (10 * i + k) in
  qlt 0 (p 0%nat) && qlt 0 (p 4) && forallb (fun k => Qeq_bool (p k) (p 4)) [5; 6; 7; 8; 9].
Lemma qlt_R a b : qlt a b = true -> (Q2R a < Q2R b)%R.
Proof.
  unfold qlt. rewrite negb_true_iff. intros H. apply Qlt_Rlt. apply Qnot_le_lt. intros C. apply Qle_bool_iff in C. congruence.
Qed.
Lemma Q2R_0 : Q2R 0 = 0%R.
Proof. unfold Q2R. simpl. ring. Qed.
Definition sym6 (a b c d e f : R) : rmat := fun i j =>
  match i, j with
  | 0, 0 => a | 0, 1 | 1, 0 => b | 0, 2 | 2, 0 => c | 1, 1 => d | 1, 2 | 2, 1 => e | 2, 2 => f | _, _ => 0%R
  end.
Lemma sylvester a b c d e f : (0 < a -> 0 < a * d - b * b -> 0 < a * (d * f - e * e) - b * (b * f - e * c) + c * (b * e - d * c) ->
  pd3 (sym6 a b c d e f))%R.
Proof.
  intros A B C x (k & Hk & Hx). unfold rquad, rdot, rmv. cbn [rsum sym6].
  set (X := x 0%nat). set (Y := x 1%nat). set (Z := x 2%nat).
  set (D2 := (a * d - b * b)%R) in *. set (D3 := (a * (d * f - e * e) - b * (b * f - e * c) + c * (b * e - d * c))%R) in *.
  match goal with |- (0 < ?q)%R => assert (E : (a * D2 * q = D2 * (a * X + b * Y + c * Z) ^ 2 + (D2 * Y + (a * e - b * c) * Z) ^ 2 + a * D3 * Z ^ 2)%R)
    by (unfold D2, D3; ring); set (Q := q) in * end.
  assert (P : (0 < a * D2)%R) by (apply Rmult_lt_0_compat; assumption).
  destruct (Rle_lt_dec Q 0) as [L|L]; [exfalso|exact L].
  pose proof (pow2_ge_0 (a * X + b * Y + c * Z)) as S1. pose proof (pow2_ge_0 (D2 * Y + (a * e - b * c) * Z)) as S2. pose proof (pow2_ge_0 Z) as S3.
  assert (A3 : (0 < a * D3)%R) by (apply Rmult_lt_0_compat; assumption).
  assert (N : (a * D2 * Q <= 0)%R) by nra.
  assert (T1 : (0 <= D2 * (a * X + b * Y + c * Z) ^ 2)%R) by (apply Rmult_le_pos; lra).
  assert (T3 : (0 <= a * D3 * Z ^ 2)%R) by (apply Rmult_le_pos; lra).
  assert (sq0 : forall u, (u ^ 2 = 0 -> u = 0)%R) by (intros u Hu; apply Rsqr_0_uniq; unfold Rsqr; lra).
  assert (Z0 : Z = 0%R). { apply sq0. destruct (Rmult_integral (a * D3) (Z ^ 2)); lra. }
  assert (Y0 : Y = 0%R).
  { assert (K : (D2 * Y + (a * e - b * c) * Z = 0)%R) by (apply sq0; lra). rewrite Z0 in K. destruct (Rmult_integral D2 Y); lra. }
  assert (X0 : X = 0%R).
  { assert (K : (a * X + b * Y + c * Z = 0)%R) by (apply sq0; destruct (Rmult_integral D2 ((a * X + b * Y + c * Z) ^ 2)); lra).
    rewrite Z0, Y0 in K. destruct (Rmult_integral a X); lra. }
  destruct k as [|[|[|k]]]; try lia; contradiction.
Qed.
Lemma flat_psd a : (0 <= a)%R -> psd3 (sym6 a a a a a a).
Proof.
  intros A x. unfold rquad, rdot, rmv. cbn [rsum sym6].
  match goal with |- (0 <= ?q)%R => replace q with (a * (x 0%nat + x 1%nat + x 2%nat) ^ 2)%R by ring end.
  apply Rmult_le_pos; [exact A|apply pow2_ge_0].
Qed.
Lemma psd_of_pd A : pd3 A -> psd3 A.
Proof.
  intros P x. destruct (Req_dec (x 0) 0) as [E0|E0]; [|apply Rlt_le, P; exists 0; split; [lia|exact E0]].
  destruct (Req_dec (x 1) 0) as [E1|E1]; [|apply Rlt_le, P; exists 1; split; [lia|exact E1]].
  destruct (Req_dec (x 2) 0) as [E2|E2]; [|apply Rlt_le, P; exists 2; split; [lia|exact E2]].
  unfold rquad, rdot, rmv. cbn [rsum]. rewrite E0, E1, E2. lra.
Qed.
Lemma inertia_sym6 r0 r' i a c : Dynamics.inertia r0 r' i a c =
  sym6 (dyn r0 r' i 4) (dyn r0 r' i 5) (dyn r0 r' i 6) (dyn r0 r' i 7) (dyn r0 r' i 8) (dyn r0 r' i 9) a c.
Proof. destruct a as [|[|[|a]]], c as [|[|[|c]]]; reflexivity. Qed.
Lemma rquad_ext3 A B x : (forall a c, A a c = B a c) -> rquad 3 A x x = rquad 3 B x x.
Proof. intros H. unfold rquad, rdot, rmv. cbn [rsum]. rewrite !H. reflexivity. Qed.

(* link entries *)
Definition readable (nd : ynode) : bool :=
  match entry nd "inertial" with
  | Some inertial => forallb (fun k => match entry inertial k with Some v => match as_double v with Some _ => true | None => false end | None => false end) inertial_keys
  | None => false
  end &&
  match entry nd "friction" with
  | None => true
  | Some fr => match entry fr "Dl" with Some dl => match as_vector as_double dl with Some _ => true | None => false end | None => false end
  end.
Lemma readable_ok nd : readable nd = true -> complete_link inertial_keys nd.
Proof.
  unfold readable. rewrite andb_true_iff. intros [A B]. split.
  - destruct (entry nd "inertial") as [i|]; [|discriminate]. exists i. split; [reflexivity|]. intros k Hk.
    rewrite forallb_forall in A. specialize (A k Hk). unfold number_at. destruct (entry i k) as [v|]; [|discriminate].
    destruct (as_double v) as [x|] eqn:E; [|discriminate]. eauto.
  - destruct (entry nd "friction") as [fr|]; [right|now left]. destruct (entry fr "Dl") as [dl|] eqn:E; [|discriminate].
    destruct (as_vector as_double dl) as [v|] eqn:F; [|discriminate]. eauto 6.
Qed.
Definition all_readable (n : nat) (cfg : ynode) : bool :=
  match entry cfg "dynamics" with Some d => forallb (fun kv => readable (snd kv)) (firstn n (ychildren d)) | None => true end.
Lemma all_readable_ok n cfg : all_readable n cfg = true -> complete_links inertial_keys n cfg.
Proof.
  unfold all_readable. intros H d E k nd Hk. rewrite E in H. rewrite forallb_forall in H. apply readable_ok, (H (k, nd) Hk).
Qed.
Definition unif (fl : list Z) : bool := forallb (Z.eqb 1) fl || forallb (Z.eqb 0) fl.
Lemma unif_ok fl : unif fl = true -> uniform fl.
Proof.
  unfold unif, uniform. rewrite orb_true_iff, !forallb_forall. intros [H|H]; [left|right]; intros z Hz; symmetry; apply Z.eqb_eq, H, Hz.
Qed.

(* everything that is computed *)
Definition check (cfg : ynode) (r0 : robot) (c : numbers) : bool :=
  let n := numJoints r0 in
  (starts (robotName r0) && solid (robotName r0)) && Nat.leb 1 n && Nat.eqb (List.length (n_dyn c)) (10 * n) &&
  forallb (fun t => existsb (String.eqb t) ["R"; "P"; "R_SEA"; "P_SEA"]) (jointsType r0) &&
  forallb (fun kl => Nat.eqb (List.length (flags r0 (fst kl))) (snd kl) && Nat.eqb (List.length (arg r0 (fst kl))) (snd kl)) (par_sizes r0) &&
  forallb (fun j => negb (prism r0 j) && ok_angle (nth (j * 4 + 1) (n_dh c) (NZ 0))) (seq 0 n) &&
  forallb (fun i => ok_angle (nth i (n_base c) (NZ 0)) && ok_angle (nth i (n_tool c) (NZ 0))) [3; 4; 5] &&
  forallb plain (n_dyn c) && forallb (fun i => pd_link (n_dyn c) i || flat_link (n_dyn c) i) (seq 0 n) &&
  (ELASTIC r0 || Nat.eqb (numElasticJoints r0) 0) && all_readable n cfg &&
  forallb (fun kl => existsb (String.eqb (fst kl)) compacted || unif (flags r0 (fst kl))) (par_sizes r0).
Definition good (h : R) (name : string) (cfg : ynode) (c : numbers) : Prop := exists r0,
  robot_from_file name cfg false = Ok r0 /\ check cfg r0 c = true /\
  arg r0 "par_DHtable" = map (den h) (n_dh c) /\ arg r0 "par_world2L0" = map (den h) (n_base c) /\
  arg r0 "par_Ln2EE" = map (den h) (n_tool c) /\ arg r0 "par_DYN" = map (den h) (n_dyn c).
Ltac ship := match goal with |- good ?h ?name ?cfg ?c =>
  exists (match robot_from_file name cfg false with Ok r => r | _ => Sample.no_robot end);
  split; [vm_compute; reflexivity|]; split; [vm_compute; reflexivity|]; repeat split; vm_compute; reflexivity end.

Definition num_RRR : numbers := mkNumbers
  [NZ 0; NZ 0; NZ 1; NZ 0; NZ 1; NH; NZ 0; NZ 0; NZ 1; NZ 0; NZ 0; NZ 0]
  [NZ 0; NZ 0; NZ 0; NZ 0; NZ 0; NZ 0] [NZ 1; NZ 0; NZ 0; NZ 0; NZ 0; NN]
  [NQ 5.0; NQ 2.0; NQ 2.0; NQ 2.0; NQ 2.0; NQ 2.0; NQ 2.0; NQ 2.0; NQ 2.0; NQ 2.0; NQ 3.0; NQ 2.0; NQ 2.0; NQ 2.0;
    NQ 2.0; NQ 2.0; NQ 2.0; NQ 2.0; NQ 2.0; NQ 2.0; NQ 1.0; NQ 2.0; NQ 0.3; NQ 2.0; NQ 2.0; NQ 2.0; NQ 2.0;
    NQ 2.0; NQ 2.0; NQ 2.0].
Definition num_seaRRR : numbers := mkNumbers
  [NZ 0; NZ 0; NZ 1; NZ 0; NZ 0; NH; NZ 0; NZ 0; NZ 1; NZ 0; NZ 0; NZ 0]
  [NZ 0; NZ 0; NZ 0; NZ 0; NZ 0; NZ 0] [NZ 1; NZ 0; NZ 0; NZ 0; NZ 0; NN]
  [NQ 1.0; NQ 1.0; NQ 1.0; NQ 1.0; NQ 1.0; NQ 1.0; NQ 1.0; NQ 1.0; NQ 1.0; NQ 1.0; NQ 1.0; NQ 1.0; NQ 1.0; NQ 1.0;
    NQ 1.0; NQ 1.0; NQ 1.0; NQ 1.0; NQ 1.0; NQ 1.0; NQ 1.0; NQ 1.0; NQ 1.0; NQ 1.0; NQ 1.0; NQ 1.0; NQ 1.0;
    NQ 1.0; NQ 1.0; NQ 1.0].
Definition num_franka : numbers := mkNumbers
  [NZ 0; NZ 0; NQ 0.3330; NZ 0; NZ 0; NN; NZ 0; NZ 0; NZ 0; NH; NQ 0.3160; NZ 0; NQ 0.0825; NH; NZ 0; NZ 0;
    NQ (-0.0825); NN; NQ 0.384; NZ 0; NZ 0; NH; NZ 0; NZ 0; NQ 0.088; NH; NQ 0.107; NZ 0]
  [NZ 0; NZ 0; NZ 0; NZ 0; NZ 0; NZ 0] [NZ 0; NZ 0; NZ 0; NZ 0; NZ 0; NZ 0]
  [NQ 4.970684; NQ 3.875e-3; NQ 2.081e-3; NQ (-4.762e-2); NQ 7.0337e-1; NQ (-1.3900e-4); NQ 6.7720e-3;
    NQ 7.0661e-1; NQ 1.9169e-2; NQ 9.1170e-3; NQ 0.646926; NQ (-3.141e-3); NQ (-2.872e-2); NQ 3.495e-3;
    NQ 7.9620e-3; NQ (-3.9250e-3); NQ 1.0254e-02; NQ 2.8110e-02; NQ 7.0400e-04; NQ 2.5995e-02; NQ 3.228604;
    NQ 2.7518e-02; NQ 3.9252e-02; NQ (-6.6502e-02); NQ 3.7242e-02; NQ (-4.7610e-03); NQ (-1.1396e-02);
    NQ 3.6155e-02; NQ (-1.2805e-02); NQ 1.0830e-02; NQ 3.587895; NQ (-5.317e-02); NQ 1.04419e-01;
    NQ 2.7454e-02; NQ 2.5853e-02; NQ 7.7960e-03; NQ (-1.3320e-03); NQ 1.9552e-02; NQ 8.6410e-03; NQ 2.8323e-02;
    NQ 1.225946; NQ (-1.1953e-02); NQ 4.1065e-02; NQ (-3.8437e-02); NQ 3.5549e-02; NQ (-2.1170e-03);
    NQ (-4.0370e-03); NQ 2.9474e-02; NQ 2.2900e-04; NQ 8.6270e-03; NQ 1.666555; NQ 6.0149e-02;
    NQ (-1.4117e-02); NQ (-1.0517e-02); NQ 1.9640e-03; NQ 1.0900e-04; NQ (-1.1580e-03); NQ 4.3540e-03;
    NQ 3.4100e-04; NQ 5.4330e-03; NQ 0.735522; NQ 1.0517e-02; NQ (-4.252e-03); NQ (-4.5403e-02); NQ 1.2516e-02;
    NQ (-4.28e-04); NQ (-1.196e-03); NQ 1.0027e-02; NQ (-7.41e-04); NQ 4.815e-03].
Definition num_frankaWrist : numbers := mkNumbers
  [NZ 0; NZ 0; NQ 0.3330; NZ 0; NZ 0; NN; NZ 0; NZ 0; NZ 0; NH; NQ 0.3160; NZ 0; NQ 0.0825; NH; NZ 0; NZ 0;
    NQ (-0.0825); NN; NQ 0.384; NZ 0; NZ 0; NH; NZ 0; NZ 0; NQ 0.088; NH; NQ 0.161; NZ 0; NQ 0.10; NH; NZ 0;
    NZ 0]
  [NZ 0; NZ 0; NZ 0; NZ 0; NZ 0; NZ 0] [NZ 0; NZ 0; NZ 0; NZ 0; NZ 0; NZ 0]
  [NQ 4.970684; NQ 3.875e-3; NQ 2.081e-3; NQ (-4.762e-2); NQ 7.0337e-1; NQ (-1.3900e-4); NQ 6.7720e-3;
    NQ 7.0661e-1; NQ 1.9169e-2; NQ 9.1170e-3; NQ 0.646926; NQ (-3.141e-3); NQ (-2.872e-2); NQ 3.495e-3;
    NQ 7.9620e-3; NQ (-3.9250e-3); NQ 1.0254e-02; NQ 2.8110e-02; NQ 7.0400e-04; NQ 2.5995e-02; NQ 3.228604;
    NQ 2.7518e-02; NQ 3.9252e-02; NQ (-6.6502e-02); NQ 3.7242e-02; NQ (-4.7610e-03); NQ (-1.1396e-02);
    NQ 3.6155e-02; NQ (-1.2805e-02); NQ 1.0830e-02; NQ 3.587895; NQ (-5.317e-02); NQ 1.04419e-01;
    NQ 2.7454e-02; NQ 2.5853e-02; NQ 7.7960e-03; NQ (-1.3320e-03); NQ 1.9552e-02; NQ 8.6410e-03; NQ 2.8323e-02;
    NQ 1.225946; NQ (-1.1953e-02); NQ 4.1065e-02; NQ (-3.8437e-02); NQ 3.5549e-02; NQ (-2.1170e-03);
    NQ (-4.0370e-03); NQ 2.9474e-02; NQ 2.2900e-04; NQ 8.6270e-03; NQ 1.666555; NQ 6.0149e-02;
    NQ (-1.4117e-02); NQ (-1.0517e-02); NQ 1.9640e-03; NQ 1.0900e-04; NQ (-1.1580e-03); NQ 4.3540e-03;
    NQ 3.4100e-04; NQ 5.4330e-03; NQ 1.66560124; NQ 0.0292; NQ 0.0069; NQ (-0.0413); NQ 1.2516e-02;
    NQ (-4.2800e-04); NQ (-1.1960e-03); NQ 1.0027e-02; NQ (-7.4100e-04); NQ 4.8150e-03; NQ 0.86; NQ 0.05;
    NQ 0.0; NQ 0.0; NQ 0.001; NZ 0; NZ 0; NQ 0.001; NZ 0; NQ 0.001].
Definition num_lewis : numbers := mkNumbers
  [NZ 0; NZ 0; NQ 0.04; NZ 0; NZ 0; NQ (-0.9); NQ 0.4430; NQ (-0.15); NZ 0; NN; NZ 0; NZ 0; NZ 0; NH; NQ 0.3160;
    NZ 0; NQ 0.0825; NH; NZ 0; NZ 0; NQ (-0.0825); NN; NQ 0.384; NZ 0; NZ 0; NH; NZ 0; NZ 0; NQ 0.088; NH;
    NQ 0.107; NZ 0]
  [NZ 0; NZ 0; NZ 0; NZ 0; NZ 0; NZ 0] [NZ 0; NZ 0; NZ 0; NZ 0; NZ 0; NZ 0]
  [NQ 5.43; NQ (-0.041018); NQ 0.049974; NQ 0.2; NQ 0.00315; NQ 8.2904E-07; NQ 0.00015; NQ 0.00388; NQ 8.2299E-06;
    NQ 0.004285; NQ 2.9274653454; NQ 0.0000004128; NQ (-0.0181251324); NQ (-0.0386035970);
    NQ 0.0239273164851079; NQ 0.0000133179034557; NQ (-0.000114047749186); NQ 0.0224821613275756;
    NQ (-0.001995032062824); NQ 0.0063500982585300; NQ 2.9355370338; NQ 0.0031828864; NQ (-0.0743221644);
    NQ 0.0088146084; NQ 0.0419389462576094; NQ 0.0002025733152109; NQ 0.0040777842271799;
    NQ 0.0251451488501472; NQ (-0.004225215800657); NQ 0.0617021447288883; NQ 2.2449013699; NQ 0.0407015686;
    NQ (-0.0048200565); NQ (-0.0289730823); NQ 0.0241014254724088; NQ 0.0024046945590421;
    NQ (-0.002856269270114); NQ 0.0197405326670817; NQ (-0.002104212683891); NQ 0.0190444944822448;
    NQ 2.6155955791; NQ (-0.0459100965); NQ 0.0630492960; NQ (-0.0085187868); NQ 0.0345299832191320;
    NQ 0.0132255226598281; NQ 0.0101514299848411; NQ 0.0288816219330490; NQ (-0.000976283387070);
    NQ 0.0412547117114664; NQ 2.3271207594; NQ (-0.0016039605); NQ 0.0292536262; NQ (-0.0972965990);
    NQ 0.0516102784636628; NQ (-0.005715173387783); NQ (-0.003567316762587); NQ 0.0478772971337148;
    NQ 0.0106739851085359; NQ 0.0164236255793572; NQ 1.8170376524; NQ 0.0597131221; NQ (-0.0410294666);
    NQ (-0.0101692726); NQ 0.0054123335943834; NQ 0.0061934563602858; NQ 0.0014219289306117;
    NQ 0.0140583295455099; NQ (-0.001314075374112); NQ 0.0160808179242125; NQ 0.6271432862; NQ 0.0045225817;
    NQ 0.0086261921; NQ (-0.0161633251); NQ 0.0002109238915010; NQ (-0.000024332991144); NQ 0.0000456448039377;
    NQ 0.0001771856800241; NQ 0.0000874407022322; NQ 0.0000599319059965].
Definition num_richard : numbers := mkNumbers
  [NZ 0; NZ 0; NQ 0.04; NZ 0; NZ 0; NQ 0.9; NQ 0.4430; NQ 0.15; NZ 0; NN; NZ 0; NZ 0; NZ 0; NH; NQ 0.3160; NZ 0;
    NQ 0.0825; NH; NZ 0; NZ 0; NQ (-0.0825); NN; NQ 0.384; NZ 0; NZ 0; NH; NZ 0; NZ 0; NQ 0.088; NH; NQ 0.107;
    NZ 0]
  [NZ 0; NZ 0; NZ 0; NZ 0; NZ 0; NZ 0] [NZ 0; NZ 0; NZ 0; NZ 0; NZ 0; NZ 0]
  [NQ 5.43; NQ (-0.041018); NQ 0.049974; NQ 0.2; NQ 0.00315; NQ 8.2904E-07; NQ 0.00015; NQ 0.00388; NQ 8.2299E-06;
    NQ 0.004285; NQ 2.9274653454; NQ 0.0000004128; NQ (-0.0181251324); NQ (-0.0386035970);
    NQ 0.0239273164851079; NQ 0.0000133179034557; NQ (-0.000114047749186); NQ 0.0224821613275756;
    NQ (-0.001995032062824); NQ 0.0063500982585300; NQ 2.9355370338; NQ 0.0031828864; NQ (-0.0743221644);
    NQ 0.0088146084; NQ 0.0419389462576094; NQ 0.0002025733152109; NQ 0.0040777842271799;
    NQ 0.0251451488501472; NQ (-0.004225215800657); NQ 0.0617021447288883; NQ 2.2449013699; NQ 0.0407015686;
    NQ (-0.0048200565); NQ (-0.0289730823); NQ 0.0241014254724088; NQ 0.0024046945590421;
    NQ (-0.002856269270114); NQ 0.0197405326670817; NQ (-0.002104212683891); NQ 0.0190444944822448;
    NQ 2.6155955791; NQ (-0.0459100965); NQ 0.0630492960; NQ (-0.0085187868); NQ 0.0345299832191320;
    NQ 0.0132255226598281; NQ 0.0101514299848411; NQ 0.0288816219330490; NQ (-0.000976283387070);
    NQ 0.0412547117114664; NQ 2.3271207594; NQ (-0.0016039605); NQ 0.0292536262; NQ (-0.0972965990);
    NQ 0.0516102784636628; NQ (-0.005715173387783); NQ (-0.003567316762587); NQ 0.0478772971337148;
    NQ 0.0106739851085359; NQ 0.0164236255793572; NQ 1.8170376524; NQ 0.0597131221; NQ (-0.0410294666);
    NQ (-0.0101692726); NQ 0.0054123335943834; NQ 0.0061934563602858; NQ 0.0014219289306117;
    NQ 0.0140583295455099; NQ (-0.001314075374112); NQ 0.0160808179242125; NQ 0.6271432862; NQ 0.0045225817;
    NQ 0.0086261921; NQ (-0.0161633251); NQ 0.0002109238915010; NQ (-0.000024332991144); NQ 0.0000456448039377;
    NQ 0.0001771856800241; NQ 0.0000874407022322; NQ 0.0000599319059965].
Definition num_egoRightArm : numbers := mkNumbers
  [NZ 0; NH; NQ 0.085; NH; NZ 0; NH; NQ 0.0; NH; NZ 0; NN; NQ 0.17; NN; NZ 0; NN; NZ 0; NZ 0; NZ 0; NH; NQ 0.14;
    NZ 0]
  [NZ 0; NZ 0; NZ 0; NQ 0.174532922; NQ 0.0; NQ (-0.1047197530)] [NZ 0; NZ 0; NQ 0.1; NP; NH; NZ 0]
  [NQ 0.5; NQ 0.0; NQ 0.0; NQ (-0.085); NQ 0.01; NQ 0.0; NQ 0.0; NQ 0.01; NQ 0.0; NQ 0.01; NQ 0.6; NQ 0.0; NQ 0.0;
    NQ 0.0; NQ 0.01; NQ 0.0; NQ 0.0; NQ 0.01; NQ 0.0; NQ 0.01; NQ 0.6; NQ 0.0; NQ 0.0; NQ (-0.1); NQ 0.01;
    NQ 0.0; NQ 0.0; NQ 0.01; NQ 0.0; NQ 0.01; NQ 0.6; NQ 0.0; NQ 0.0; NQ 0.0; NQ 0.01; NQ 0.0; NQ 0.0; NQ 0.01;
    NQ 0.0; NQ 0.01; NQ 1.0; NQ 0.0; NQ 0.0; NQ 0.15; NQ 0.01; NQ 0.0; NQ 0.0; NQ 0.01; NQ 0.0; NQ 0.01].
Definition num_R3 : numbers := mkNumbers
  [NZ 0; NZ 0; NZ 1; NZ 0; NZ 0; NH; NZ 0; NZ 0; NZ 1; NZ 0; NZ 0; NZ 0]
  [NZ 0; NZ 0; NZ 0; NZ 0; NZ 0; NZ 0] [NZ 1; NZ 0; NZ 0; NZ 0; NZ 0; NN]
  [NQ 1.0; NQ 1.0; NQ 1.0; NQ 1.0; NQ 1.0; NQ 1.0; NQ 1.0; NQ 1.0; NQ 1.0; NQ 1.0; NQ 1.0; NQ 1.0; NQ 1.0; NQ 1.0;
    NQ 1.0; NQ 1.0; NQ 1.0; NQ 1.0; NQ 1.0; NQ 1.0; NQ 1.0; NQ 1.0; NQ 1.0; NQ 1.0; NQ 1.0; NQ 1.0; NQ 1.0;
    NQ 1.0; NQ 1.0; NQ 1.0].
Definition num_R5 : numbers := mkNumbers
  [NZ 0; NZ 0; NZ 1; NZ 0; NZ 0; NH; NZ 0; NZ 0; NZ 0; NN; NZ 0; NZ 0; NZ 0; NH; NZ 2; NZ 0; NZ 1; NZ 0; NZ 0;
    NZ 0]
  [NZ 0; NZ 0; NZ 0; NZ 0; NZ 0; NZ 0] [NZ 1; NZ 0; NZ 0; NZ 0; NZ 0; NN]
  [NQ 1.0; NQ 1.0; NQ 1.0; NQ 1.0; NQ 1.0; NQ 1.0; NQ 1.0; NQ 1.0; NQ 1.0; NQ 1.0; NQ 1.0; NQ 1.0; NQ 1.0; NQ 1.0;
    NQ 1.0; NQ 1.0; NQ 1.0; NQ 1.0; NQ 1.0; NQ 1.0; NQ 1.0; NQ 1.0; NQ 1.0; NQ 1.0; NQ 1.0; NQ 1.0; NQ 1.0;
    NQ 1.0; NQ 1.0; NQ 1.0; NQ 1.0; NQ 1.0; NQ 1.0; NQ 1.0; NQ 1.0; NQ 1.0; NQ 1.0; NQ 1.0; NQ 1.0; NQ 1.0;
    NQ 1.0; NQ 1.0; NQ 1.0; NQ 1.0; NQ 1.0; NQ 1.0; NQ 1.0; NQ 1.0; NQ 1.0; NQ 1.0].
Definition num_R7 : numbers := mkNumbers
  [NZ 0; NZ 0; NZ 1; NZ 0; NZ 0; NH; NZ 0; NZ 0; NZ 0; NN; NZ 0; NZ 0; NZ 0; NH; NZ 2; NZ 0; NZ 0; NN; NZ 0; NZ 0;
    NZ 0; NH; NZ 2; NZ 0; NZ 1; NZ 0; NZ 0; NZ 0]
  [NZ 0; NZ 0; NZ 0; NZ 0; NZ 0; NZ 0] [NZ 1; NZ 0; NZ 0; NZ 0; NZ 0; NN]
  [NQ 1.0; NQ 1.0; NQ 1.0; NQ 1.0; NQ 1.0; NQ 1.0; NQ 1.0; NQ 1.0; NQ 1.0; NQ 1.0; NQ 1.0; NQ 1.0; NQ 1.0; NQ 1.0;
    NQ 1.0; NQ 1.0; NQ 1.0; NQ 1.0; NQ 1.0; NQ 1.0; NQ 1.0; NQ 1.0; NQ 1.0; NQ 1.0; NQ 1.0; NQ 1.0; NQ 1.0;
    NQ 1.0; NQ 1.0; NQ 1.0; NQ 1.0; NQ 1.0; NQ 1.0; NQ 1.0; NQ 1.0; NQ 1.0; NQ 1.0; NQ 1.0; NQ 1.0; NQ 1.0;
    NQ 1.0; NQ 1.0; NQ 1.0; NQ 1.0; NQ 1.0; NQ 1.0; NQ 1.0; NQ 1.0; NQ 1.0; NQ 1.0; NQ 1.0; NQ 1.0; NQ 1.0;
    NQ 1.0; NQ 1.0; NQ 1.0; NQ 1.0; NQ 1.0; NQ 1.0; NQ 1.0; NQ 1.0; NQ 1.0; NQ 1.0; NQ 1.0; NQ 1.0; NQ 1.0;
    NQ 1.0; NQ 1.0; NQ 1.0; NQ 1.0].
Definition num_R9 : numbers := mkNumbers
  [NZ 0; NZ 0; NZ 1; NZ 0; NZ 0; NH; NZ 0; NZ 0; NZ 0; NN; NZ 0; NZ 0; NZ 0; NH; NZ 2; NZ 0; NZ 0; NN; NZ 0; NZ 0;
    NZ 0; NH; NZ 2; NZ 0; NZ 0; NN; NZ 0; NZ 0; NZ 0; NH; NZ 2; NZ 0; NZ 1; NZ 0; NZ 0; NZ 0]
  [NZ 0; NZ 0; NZ 0; NZ 0; NZ 0; NZ 0] [NZ 1; NZ 0; NZ 0; NZ 0; NZ 0; NN]
  [NQ 1.0; NQ 1.0; NQ 1.0; NQ 1.0; NQ 1.0; NQ 1.0; NQ 1.0; NQ 1.0; NQ 1.0; NQ 1.0; NQ 1.0; NQ 1.0; NQ 1.0; NQ 1.0;
    NQ 1.0; NQ 1.0; NQ 1.0; NQ 1.0; NQ 1.0; NQ 1.0; NQ 1.0; NQ 1.0; NQ 1.0; NQ 1.0; NQ 1.0; NQ 1.0; NQ 1.0;
    NQ 1.0; NQ 1.0; NQ 1.0; NQ 1.0; NQ 1.0; NQ 1.0; NQ 1.0; NQ 1.0; NQ 1.0; NQ 1.0; NQ 1.0; NQ 1.0; NQ 1.0;
    NQ 1.0; NQ 1.0; NQ 1.0; NQ 1.0; NQ 1.0; NQ 1.0; NQ 1.0; NQ 1.0; NQ 1.0; NQ 1.0; NQ 1.0; NQ 1.0; NQ 1.0;
    NQ 1.0; NQ 1.0; NQ 1.0; NQ 1.0; NQ 1.0; NQ 1.0; NQ 1.0; NQ 1.0; NQ 1.0; NQ 1.0; NQ 1.0; NQ 1.0; NQ 1.0;
    NQ 1.0; NQ 1.0; NQ 1.0; NQ 1.0; NQ 1.0; NQ 1.0; NQ 1.0; NQ 1.0; NQ 1.0; NQ 1.0; NQ 1.0; NQ 1.0; NQ 1.0;
    NQ 1.0; NQ 1.0; NQ 1.0; NQ 1.0; NQ 1.0; NQ 1.0; NQ 1.0; NQ 1.0; NQ 1.0; NQ 1.0; NQ 1.0].
Definition num_R9_noDynSymb : numbers := mkNumbers
  [NZ 0; NZ 0; NZ 1; NZ 0; NZ 0; NH; NZ 0; NZ 0; NZ 0; NN; NZ 0; NZ 0; NZ 0; NH; NZ 2; NZ 0; NZ 0; NN; NZ 0; NZ 0;
    NZ 0; NH; NZ 2; NZ 0; NZ 0; NN; NZ 0; NZ 0; NZ 0; NH; NZ 2; NZ 0; NZ 1; NZ 0; NZ 0; NZ 0]
  [NZ 0; NZ 0; NZ 0; NZ 0; NZ 0; NZ 0] [NZ 1; NZ 0; NZ 0; NZ 0; NZ 0; NN]
  [NQ 1.0; NQ 1.0; NQ 1.0; NQ 1.0; NQ 1.0; NQ 1.0; NQ 1.0; NQ 1.0; NQ 1.0; NQ 1.0; NQ 1.0; NQ 1.0; NQ 1.0; NQ 1.0;
    NQ 1.0; NQ 1.0; NQ 1.0; NQ 1.0; NQ 1.0; NQ 1.0; NQ 1.0; NQ 1.0; NQ 1.0; NQ 1.0; NQ 1.0; NQ 1.0; NQ 1.0;
    NQ 1.0; NQ 1.0; NQ 1.0; NQ 1.0; NQ 1.0; NQ 1.0; NQ 1.0; NQ 1.0; NQ 1.0; NQ 1.0; NQ 1.0; NQ 1.0; NQ 1.0;
    NQ 1.0; NQ 1.0; NQ 1.0; NQ 1.0; NQ 1.0; NQ 1.0; NQ 1.0; NQ 1.0; NQ 1.0; NQ 1.0; NQ 1.0; NQ 1.0; NQ 1.0;
    NQ 1.0; NQ 1.0; NQ 1.0; NQ 1.0; NQ 1.0; NQ 1.0; NQ 1.0; NQ 1.0; NQ 1.0; NQ 1.0; NQ 1.0; NQ 1.0; NQ 1.0;
    NQ 1.0; NQ 1.0; NQ 1.0; NQ 1.0; NQ 1.0; NQ 1.0; NQ 1.0; NQ 1.0; NQ 1.0; NQ 1.0; NQ 1.0; NQ 1.0; NQ 1.0;
    NQ 1.0; NQ 1.0; NQ 1.0; NQ 1.0; NQ 1.0; NQ 1.0; NQ 1.0; NQ 1.0; NQ 1.0; NQ 1.0; NQ 1.0].
Definition num_R9_kinSymb : numbers := mkNumbers
  [NZ 0; NZ 0; NZ 1; NZ 0; NZ 0; NH; NZ 0; NZ 0; NZ 0; NN; NZ 0; NZ 0; NZ 0; NH; NZ 2; NZ 0; NZ 0; NN; NZ 0; NZ 0;
    NZ 0; NH; NZ 2; NZ 0; NZ 0; NN; NZ 0; NZ 0; NZ 0; NH; NZ 2; NZ 0; NZ 1; NZ 0; NZ 0; NZ 0]
  [NZ 0; NZ 0; NZ 0; NZ 0; NZ 0; NZ 0] [NZ 1; NZ 0; NZ 0; NZ 0; NZ 0; NN]
  [NQ 1.0; NQ 1.0; NQ 1.0; NQ 1.0; NQ 1.0; NQ 1.0; NQ 1.0; NQ 1.0; NQ 1.0; NQ 1.0; NQ 1.0; NQ 1.0; NQ 1.0; NQ 1.0;
    NQ 1.0; NQ 1.0; NQ 1.0; NQ 1.0; NQ 1.0; NQ 1.0; NQ 1.0; NQ 1.0; NQ 1.0; NQ 1.0; NQ 1.0; NQ 1.0; NQ 1.0;
    NQ 1.0; NQ 1.0; NQ 1.0; NQ 1.0; NQ 1.0; NQ 1.0; NQ 1.0; NQ 1.0; NQ 1.0; NQ 1.0; NQ 1.0; NQ 1.0; NQ 1.0;
    NQ 1.0; NQ 1.0; NQ 1.0; NQ 1.0; NQ 1.0; NQ 1.0; NQ 1.0; NQ 1.0; NQ 1.0; NQ 1.0; NQ 1.0; NQ 1.0; NQ 1.0;
    NQ 1.0; NQ 1.0; NQ 1.0; NQ 1.0; NQ 1.0; NQ 1.0; NQ 1.0; NQ 1.0; NQ 1.0; NQ 1.0; NQ 1.0; NQ 1.0; NQ 1.0;
    NQ 1.0; NQ 1.0; NQ 1.0; NQ 1.0; NQ 1.0; NQ 1.0; NQ 1.0; NQ 1.0; NQ 1.0; NQ 1.0; NQ 1.0; NQ 1.0; NQ 1.0;
    NQ 1.0; NQ 1.0; NQ 1.0; NQ 1.0; NQ 1.0; NQ 1.0; NQ 1.0; NQ 1.0; NQ 1.0; NQ 1.0; NQ 1.0].

Lemma good_RRR h : good h "RRR" (cfg_RRR h) num_RRR.
Proof. ship. Qed.
Lemma good_seaRRR h : good h "seaRRR" (cfg_seaRRR h) num_seaRRR.
Proof. ship. Qed.
Lemma good_franka h : good h "franka" (cfg_franka h) num_franka.
Proof. ship. Qed.
Lemma good_frankaWrist h : good h "frankaWrist" (cfg_frankaWrist h) num_frankaWrist.
Proof. ship. Qed.
Lemma good_lewis h : good h "lewis" (cfg_lewis h) num_lewis.
Proof. ship. Qed.
Lemma good_richard h : good h "richard" (cfg_richard h) num_richard.
Proof. ship. Qed.
Lemma good_egoRightArm h : good h "egoRightArm" (cfg_egoRightArm h) num_egoRightArm.
Proof. ship. Qed.
Lemma good_R3 h : good h "R3" (cfg_R3 h) num_R3.
Proof. ship. Qed.
Lemma good_R5 h : good h "R5" (cfg_R5 h) num_R5.
Proof. ship. Qed.
Lemma good_R7 h : good h "R7" (cfg_R7 h) num_R7.
Proof. ship. Qed.
Lemma good_R9 h : good h "R9" (cfg_R9 h) num_R9.
Proof. ship. Qed.
Lemma good_R9_noDynSymb h : good h "R9_noDynSymb" (cfg_R9_noDynSymb h) num_R9_noDynSymb.
Proof. ship. Qed.
Lemma good_R9_kinSymb h : good h "R9_kinSymb" (cfg_R9_kinSymb h) num_R9_kinSymb.
Proof. ship. Qed.

Lemma shipped_good h name cfg : In (name, cfg) (shipped h) -> ~ In name outdated -> exists c, good h name cfg c.
Proof.
  intros H N. unfold shipped in H. cbn [In] in H.
  repeat (destruct H as [H|H]; [injection H as <- <-; try (exfalso; apply N; cbn; tauto);
    lazymatch goal with
    | |- exists c, good _ "RRR" _ c => exists num_RRR; apply good_RRR
    | |- exists c, good _ "seaRRR" _ c => exists num_seaRRR; apply good_seaRRR
    | |- exists c, good _ "franka" _ c => exists num_franka; apply good_franka
    | |- exists c, good _ "frankaWrist" _ c => exists num_frankaWrist; apply good_frankaWrist
    | |- exists c, good _ "lewis" _ c => exists num_lewis; apply good_lewis
    | |- exists c, good _ "richard" _ c => exists num_richard; apply good_richard
    | |- exists c, good _ "egoRightArm" _ c => exists num_egoRightArm; apply good_egoRightArm
    | |- exists c, good _ "R3" _ c => exists num_R3; apply good_R3
    | |- exists c, good _ "R5" _ c => exists num_R5; apply good_R5
    | |- exists c, good _ "R7" _ c => exists num_R7; apply good_R7
    | |- exists c, good _ "R9" _ c => exists num_R9; apply good_R9
    | |- exists c, good _ "R9_noDynSymb" _ c => exists num_R9_noDynSymb; apply good_R9_noDynSymb
    | |- exists c, good _ "R9_kinSymb" _ c => exists num_R9_kinSymb; apply good_R9_kinSymb
    end|]). contradiction.
Qed.
Lemma old_throws h name cfg : In (name, cfg) (shipped h) -> In name outdated ->
  forall b, robot_from_file name cfg b = Throw "configuration could not be parsed".
Proof.
  intros H N b. unfold shipped in H. cbn [In] in H. unfold outdated in N. cbn [In] in N.
  repeat (destruct H as [H|H]; [injection H as <- <-; lazymatch goal with
    | |- robot_from_file "R15" _ _ = _ => vm_compute; reflexivity
    | |- robot_from_file "R30" _ _ = _ => vm_compute; reflexivity
    | _ => exfalso; decompose [or] N; try contradiction; discriminate end|]). contradiction.
Qed.

Section Good.
Variables (h : R) (name : string) (cfg : ynode) (c : numbers).
Hypothesis G : good h name cfg c.
Variable r0 : robot.
Hypothesis L : robot_from_file name cfg false = Ok r0.
Let n := numJoints r0.

Lemma good_parts : (identifier (robotName r0) /\ 1 <= n /\ List.length (n_dyn c) = 10 * n) /\
  (forall t, In t (jointsType r0) -> In t ["R"; "P"; "R_SEA"; "P_SEA"]) /\
  (forall k len, In (k, len) (par_sizes r0) -> List.length (flags r0 k) = len /\ List.length (arg r0 k) = len) /\
  (forall j, j < n -> prism r0 j = false /\ ok_angle (nth (j * 4 + 1) (n_dh c) (NZ 0)) = true) /\
  (forall i, 3 <= i < 6 -> ok_angle (nth i (n_base c) (NZ 0)) = true /\ ok_angle (nth i (n_tool c) (NZ 0)) = true) /\
  (forall x, In x (n_dyn c) -> plain x = true) /\ (forall i, i < n -> pd_link (n_dyn c) i = true \/ flat_link (n_dyn c) i = true) /\
  has_motors r0 /\ complete_links inertial_keys n cfg /\
  (forall k len, In (k, len) (par_sizes r0) -> ~ In k compacted -> uniform (flags r0 k)) /\
  arg r0 "par_DHtable" = map (den h) (n_dh c) /\ arg r0 "par_world2L0" = map (den h) (n_base c) /\
  arg r0 "par_Ln2EE" = map (den h) (n_tool c) /\ arg r0 "par_DYN" = map (den h) (n_dyn c).
Proof.
  destruct G as (r1 & E & K & A1 & A2 & A3 & A4). rewrite L in E. injection E as <-.
  unfold check in K. rewrite !andb_true_iff in K. fold n in K.
  destruct K as (((((((((((K1 & K2) & K3) & K4) & K5) & K6) & K7) & K8) & K9) & K10) & K11) & K12).
  rewrite !forallb_forall in *.
  split; [split; [apply identifier_check; now rewrite andb_true_iff|split; [now apply Nat.leb_le|now apply Nat.eqb_eq]]|].
  split.
  { intros t Ht. specialize (K4 t Ht). apply existsb_exists in K4. destruct K4 as (s & Hs & Es). apply String.eqb_eq in Es. now subst. }
  split.
  { intros k len Hk. specialize (K5 (k, len) Hk). cbn [fst snd] in K5. rewrite andb_true_iff, !Nat.eqb_eq in K5. exact K5. }
  split.
  { intros j Hj. specialize (K6 j). rewrite andb_true_iff, negb_true_iff in K6. apply K6, in_seq. lia. }
  split.
  { intros i Hi. specialize (K7 i). rewrite andb_true_iff in K7. apply K7. cbn. lia. }
  split; [exact K8|]. split.
  { intros i Hi. specialize (K9 i). rewrite orb_true_iff in K9. apply K9, in_seq. lia. }
  split. { rewrite orb_true_iff, Nat.eqb_eq in K10. exact K10. }
  split; [now apply all_readable_ok|]. split; [|auto].
  intros k len Hk Hn. specialize (K12 (k, len) Hk). cbn [fst] in K12. rewrite orb_true_iff in K12. destruct K12 as [K|K]; [|now apply unif_ok].
  exfalso. apply Hn. apply existsb_exists in K. destruct K as (s & Hs & Es). apply String.eqb_eq in Es. now subst.
Qed.
Lemma good_wf : well_formed r0.
Proof. destruct good_parts as ((A & B & _) & C & D & _). constructor; assumption. Qed.
Lemma good_exact : h = (PI / 2)%R -> exact_angles r0.
Proof.
  intros Eh. destruct good_parts as (_ & _ & _ & A & B & _ & _ & _ & _ & _ & E1 & E2 & E3 & _). rewrite Eh in E1, E2, E3.
  assert (N : forall l i, nth i (map (den (PI / 2)) l) 0%R = den (PI / 2) (nth i l (NZ 0))).
  { intros l i. exact (map_nth (den (PI / 2)) l (NZ 0) i). }
  intros k i [[-> (j & Hj & Hi)]|[Hk Hi]] _; cbv zeta.
  - destruct (A j Hj) as [P O]. destruct Hi as [->|[_ P']]; [|congruence]. rewrite E1, N. now apply ok_clean.
  - destruct (B i Hi) as [P O]. destruct Hk as [->| ->]; rewrite ?E2, ?E3, N; now apply ok_clean.
Qed.
Lemma good_session : exists r, session name cfg r0 r r.
Proof.
  destruct (built_file _ _ _ L good_wf) as [r Hr]. exists r. exact (fresh_session _ _ _ _ L good_wf Hr).
Qed.

Section State.
Variables r r' : robot.
Hypothesis S : session name cfg r0 r r'.
Hypothesis D : arg r' "par_DYN" = arg r "par_DYN".
Lemma good_dyn i k : 1 <= i <= n -> k < 10 -> dyn r0 r' i k = Q2R (at_ (n_dyn c) (10 * (i - 1) + k)).
Proof.
  intros Hi Hk. destruct good_parts as ((_ & _ & Ln) & _ & _ & _ & _ & P & _ & _ & _ & _ & _ & _ & _ & E4).
  assert (Hin : In ("par_DYN", 10 * n) (par_sizes r0)) by (unfold par_sizes; apply in_app_iff; left; cbn; auto 10).
  unfold dyn, param. rewrite D. fold (param r0 r "par_DYN" (10 * (i - 1) + k)). rewrite (param_built _ _ _ _ _ S _ _ _ Hin), E4.
  change 0%R with (den h (NZ 0)). rewrite map_nth. rewrite den_val; [reflexivity|]. apply P, nth_In. lia.
Qed.
Lemma good_mass i : 1 <= i <= n -> (0 < mass r0 r' i)%R.
Proof.
  intros Hi. unfold mass. rewrite good_dyn by lia. rewrite <- Q2R_0. apply qlt_R.
  destruct good_parts as (_ & _ & _ & _ & _ & _ & K & _). destruct (K (i - 1)) as [H|H]; [lia| |];
    [unfold pd_link in H|unfold flat_link in H]; rewrite !andb_true_iff in H; tauto.
Qed.
Lemma good_pd i : 1 <= i <= n -> pd_link (n_dyn c) (i - 1) = true -> pd3 (Dynamics.inertia r0 r' i).
Proof.
  intros Hi H x Hx. rewrite (rquad_ext3 _ _ x (inertia_sym6 r0 r' i)), !good_dyn by lia.
  unfold pd_link in H. cbv zeta in H. rewrite !andb_true_iff in H. destruct H as [[[_ H1] H2] H3].
  apply qlt_R in H1, H2, H3. rewrite Q2R_0 in H1, H2, H3. unfold minor2, minor3 in H2, H3.
  rewrite ?Q2R_minus, ?Q2R_plus, ?Q2R_mult, ?Q2R_minus, ?Q2R_mult in H2.
  repeat first [rewrite Q2R_minus in H3|rewrite Q2R_plus in H3|rewrite Q2R_mult in H3]. now apply sylvester.
Qed.
Lemma good_psd i : 1 <= i <= n -> psd3 (Dynamics.inertia r0 r' i).
Proof.
  intros Hi. destruct good_parts as (_ & _ & _ & _ & _ & _ & K & _). destruct (K (i - 1)) as [H|H]; [lia| |].
  - apply psd_of_pd, good_pd; assumption.
  - intros x. rewrite (rquad_ext3 _ _ x (inertia_sym6 r0 r' i)), !good_dyn by lia.
    unfold flat_link in H. cbv zeta in H. rewrite !andb_true_iff, forallb_forall in H. destruct H as [[_ H1] H2].
    assert (E : forall k, In k [5; 6; 7; 8; 9] -> Q2R (at_ (n_dyn c) (10 * (i - 1) + k)) = Q2R (at_ (n_dyn c) (10 * (i - 1) + 4))).
    { intros k Hk. apply Qeq_eqR, Qeq_bool_iff, H2, Hk. }
    rewrite (E 5), (E 6), (E 7), (E 8), (E 9) by (cbn; tauto). apply flat_psd. apply qlt_R in H1. rewrite Q2R_0 in H1. lra.
Qed.
End State.
End Good.

(* what all the theorems ask for *)
Theorem shipped_session h name cfg : In (name, cfg) (shipped h) -> ~ In name outdated -> exists r0 r, session name cfg r0 r r.
Proof.
  intros H N. destruct (shipped_good h name cfg H N) as [c G]. pose proof G as (r0 & L & _). exists r0. exact (good_session h name cfg c G r0 L).
Qed.
Lemma not_outdated h name cfg r0 : In (name, cfg) (shipped h) -> robot_from_file name cfg false = Ok r0 -> ~ In name outdated.
Proof. intros H L N. pose proof (old_throws h name cfg H N false). congruence. Qed.
Lemma numeric_flags h name cfg r0 : In (name, cfg) (shipped h) -> robot_from_file name cfg false = Ok r0 ->
  symbolic r0 "par_DYN" = if existsb (String.eqb name) numeric_inertia then 0 else 10 * numJoints r0.
Proof.
  intros H L. pose proof (not_outdated h name cfg r0 H L) as N.
  unfold shipped in H. cbn [In] in H.
  repeat (destruct H as [H|H]; [injection H as <- <-; try (exfalso; apply N; cbn; tauto);
    match type of L with ?x = _ => assert (K : match x with Ok r => symbolic r "par_DYN" = if existsb (String.eqb (robotName r)) numeric_inertia then 0 else 10 * numJoints r | _ => True end)
      by (vm_compute; reflexivity) end; rewrite L in K; rewrite (loaded_name _ _ _ L) in K; exact K|]). contradiction.
Qed.

Theorem shipped_meets h name cfg r0 r r' : In (name, cfg) (shipped h) -> session name cfg r0 r r' ->
  (h = (PI / 2)%R -> exact_angles r0) /\ has_motors r0 /\ complete_links inertial_keys (numJoints r0) cfg /\
  (forall k len, In (k, len) (par_sizes r0) -> ~ In k compacted -> uniform (flags r0 k)) /\
  symbolic r0 "par_DYN" = (if existsb (String.eqb name) numeric_inertia then 0 else 10 * numJoints r0).
Proof.
  intros H S. pose proof (se_load _ _ _ _ _ S) as L. destruct (shipped_good _ name cfg H (not_outdated _ _ _ _ H L)) as [c G].
  pose proof (good_exact _ _ _ _ G r0 L). destruct (good_parts _ _ _ _ G r0 L) as (_ & _ & _ & _ & _ & _ & _ & A & B & C & _).
  pose proof (numeric_flags _ name cfg r0 H L). auto.
Qed.
Theorem shipped_masses h name cfg r0 r r' : In (name, cfg) (shipped h) -> session name cfg r0 r r' -> arg r' "par_DYN" = arg r "par_DYN" ->
  forall i, 1 <= i <= numJoints r0 -> (0 < mass r0 r' i)%R /\ psd3 (Dynamics.inertia r0 r' i).
Proof.
  intros H S D i Hi. pose proof (se_load _ _ _ _ _ S) as L. destruct (shipped_good _ name cfg H (not_outdated _ _ _ _ H L)) as [c G].
  split; [exact (good_mass _ _ _ _ G r0 L r r' S D i Hi)|exact (good_psd _ _ _ _ G r0 L r r' S D i Hi)].
Qed.
Lemma arms_good h name cfg : In (name, cfg) (shipped h) -> In name arms -> exists c, good h name cfg c /\
  forallb (pd_link (n_dyn c)) (seq 0 (Nat.div (List.length (n_dyn c)) 10)) = true.
Proof.
  intros H N. unfold shipped in H. cbn [In] in H. unfold arms in N. cbn [In] in N.
  repeat (destruct H as [H|H]; [injection H as <- <-;
    lazymatch goal with
    | |- exists c, good _ "franka" _ c /\ _ => exists num_franka; split; [apply good_franka|vm_compute; reflexivity]
    | |- exists c, good _ "frankaWrist" _ c /\ _ => exists num_frankaWrist; split; [apply good_frankaWrist|vm_compute; reflexivity]
    | |- exists c, good _ "lewis" _ c /\ _ => exists num_lewis; split; [apply good_lewis|vm_compute; reflexivity]
    | |- exists c, good _ "richard" _ c /\ _ => exists num_richard; split; [apply good_richard|vm_compute; reflexivity]
    | |- exists c, good _ "egoRightArm" _ c /\ _ => exists num_egoRightArm; split; [apply good_egoRightArm|vm_compute; reflexivity]
    | _ => exfalso; decompose [or] N; try contradiction; discriminate end|]). contradiction.
Qed.
Theorem arms_inertia h name cfg r0 r r' : In (name, cfg) (shipped h) -> In name arms -> session name cfg r0 r r' -> arg r' "par_DYN" = arg r "par_DYN" ->
  forall i, 1 <= i <= numJoints r0 -> (0 < mass r0 r' i)%R /\ pd3 (Dynamics.inertia r0 r' i).
Proof.
  intros H A S D i Hi. pose proof (se_load _ _ _ _ _ S) as L. destruct (arms_good h name cfg H A) as (c & G & P).
  split; [exact (good_mass _ _ _ _ G r0 L r r' S D i Hi)|apply (good_pd _ _ _ _ G r0 L r r' S D i Hi)].
  rewrite forallb_forall in P. apply P, in_seq. destruct (good_parts _ _ _ _ G r0 L) as ((_ & _ & E) & _). rewrite E, Nat.mul_comm, Nat.div_mul by lia. lia.
Qed.
Theorem shipped_semidefinite h name cfg r0 r r' : In (name, cfg) (shipped h) -> session name cfg r0 r r' -> arg r' "par_DYN" = arg r "par_DYN" ->
  forall x, (0 <= rquad (numJoints r0) (out r' "M") x x)%R.
Proof.
  intros H S D x. destruct (session_built _ _ _ _ _ S) as [b HB]. apply (M_semi name cfg r0 r b r' S HB).
  intros i Hi. destruct (shipped_masses h name cfg r0 r r' H S D i Hi) as [A B]. split; [lra|exact B].
Qed.
Lemma arms_hyps h name cfg r0 r r' : In (name, cfg) (shipped h) -> In name arms -> session name cfg r0 r r' -> arg r' "par_DYN" = arg r "par_DYN" ->
  (forall i, 1 <= i <= numJoints r0 -> (0 <= mass r0 r' i)%R /\ psd3 (Dynamics.inertia r0 r' i)) /\
  (forall i, 1 <= i <= numJoints r0 -> if prism r0 (i - 1) then (0 < mass r0 r' i)%R else pd3 (Dynamics.inertia r0 r' i)).
Proof.
  intros H A S D. pose proof (arms_inertia h name cfg r0 r r' H A S D) as P. split; intros i Hi; destruct (P i Hi) as [M I].
  - split; [lra|now apply psd_of_pd].
  - destruct (prism r0 (i - 1)); assumption.
Qed.
Theorem arms_forward h name cfg r0 r r' : In (name, cfg) (shipped h) -> In name arms -> session name cfg r0 r r' -> arg r' "par_DYN" = arg r "par_DYN" ->
  let n := numJoints r0 in
  (forall x, (exists j, j < n /\ x j <> 0%R) -> (0 < rquad n (out r' "M") x x)%R) /\
  forall tau, exists v, List.length v = n /\ (forall i, i < n -> torque r0 (fst (set_arg r' "ddq" v)) i = tau i) /\
    forall u, List.length u = n -> (forall i, i < n -> torque r0 (fst (set_arg r' "ddq" u)) i = tau i) -> u = v.
Proof.
  intros H A S D n. destruct (arms_hyps h name cfg r0 r r' H A S D) as [HP HQ]. split.
  - exact (proj2 (mass_pd name cfg r0 r r' S HP HQ)).
  - exact (forward name cfg r0 r r' S HP HQ).
Qed.
Theorem shipped_generated junk h0 name cfg r0 r r' upd : In (name, cfg) (shipped h0) -> session name cfg r0 r r' ->
  exists t, t_load_conf junk (new_class r) (Some cfg) upd = Ok t /\
  forall h, (forall c, In c h -> In (fst c) tsetters) -> let t1 := t_run h t in
  (forall k len, In (k, len) (state_sizes r0) -> member t1 k = arg r' k) ->
  (forall k len, In (k, len) (par_sizes r0) -> (member t1 k = member t k /\ arg r' k = arg r k) \/ member t1 k = arg r' k) ->
  forall nm, Api.published r nm -> t_get r t1 nm = get r' nm.
Proof.
  intros H S. destruct (shipped_meets h0 name cfg r0 r r' H S) as (_ & _ & C & U & _). exact (load_then_get junk name cfg r0 r r' upd S C U).
Qed.
Lemma numeric_iff name : existsb (String.eqb name) numeric_inertia = true <-> In name numeric_inertia.
Proof.
  rewrite existsb_exists. split; [intros (x & Hx & E); apply String.eqb_eq in E; now subst|intros H; exists name; split; [exact H|apply String.eqb_refl]].
Qed.
Theorem shipped_test name cfg r0 r q dq dqr ddqr x dx ddx : In (name, cfg) (shipped (PI / 2)) -> session name cfg r0 r r ->
  (forall v, In v [q; dq; dqr; ddqr] -> List.length v = numJoints r0) -> (forall v, In v [x; dx; ddx] -> List.length v = numElasticJoints r0) ->
  if existsb (String.eqb name) numeric_inertia then robot_test name cfg q dq dqr ddqr x dx ddx = UB "indeterminate value"
  else exists out err, robot_test name cfg q dq dqr ddqr x dx ddx = Ok (out ++ [("err_dyn_reg", err)])%list /\ zero_vector (numJoints r0) err.
Proof.
  intros H S Q X. destruct (shipped_meets _ name cfg r0 r r H S) as (E & M & _ & _ & F). specialize (E eq_refl). pose proof (wf_joints _ (se_wf _ _ _ _ _ S)) as J.
  destruct (existsb (String.eqb name) numeric_inertia).
  - apply (robot_test_numeric name cfg r0 r q dq dqr ddqr x dx ddx S). lia.
  - destruct (robot_test_ok name cfg r0 r q dq dqr ddqr x dx ddx S E F M Q X) as (r' & first & shown & err & _ & _ & _ & T & _ & _ & _ & _ & _ & Z).
    exists (first ++ shown)%list, err. split; [now rewrite <- app_assoc|exact Z].
Qed.
Lemma franka_met : exists cfg r0 r, In ("franka", cfg) (shipped (PI / 2)) /\ session "franka" cfg r0 r r /\ numJoints r0 = 7 /\
  In "franka" arms /\ ~ In "franka" outdated /\ nth 0 (arg r0 "par_DYN") 0%R = (4970684 * / 1000000)%R.
Proof.
  assert (H : In ("franka", cfg_franka (PI / 2)) (shipped (PI / 2))) by (unfold shipped; cbn [In]; auto).
  assert (N : ~ In "franka" outdated) by (cbn; intros [E|[E|[]]]; discriminate).
  destruct (shipped_session _ _ _ H N) as (r0 & r & S). exists (cfg_franka (PI / 2)), r0, r.
  split; [exact H|]. split; [exact S|]. pose proof (se_load _ _ _ _ _ S) as L.
  split; [|split; [cbn; auto|split; [exact N|]]].
  - destruct (good_franka (PI / 2)) as (r1 & L1 & _). 
    assert (K : match robot_from_file "franka" (cfg_franka (PI / 2)) false with Ok r => numJoints r = 7 | _ => True end) by (vm_compute; reflexivity).
    rewrite L in K. exact K.
  - destruct (good_parts _ _ _ _ (good_franka (PI / 2)) r0 L) as (_ & _ & _ & _ & _ & _ & _ & _ & _ & _ & _ & _ & _ & E4).
    rewrite E4. reflexivity.
Qed.
