(* Dynamics of the last joints: what comes before them only matters through gravity. *)
From Coq Require Import Reals Lra Lia Arith List String Bool ZArith.
From Coquelicot Require Import Coquelicot.
From Verif.Model Require Import Base Expr SX Robot Kinematics Dynamics Regressors Yaml Build.
From Verif.Spec Require Import Math Setup Kinematics Dynamics Tail.
From Verif.Proofs Require Import Sums Calc Rel Lin3 Frames Pure PureRel Maps Names Shape Dims Sizes Deps BuildEq Load Init Final Closed Get Kin KinThm Motion KinMain Smooth Rates Partial Coriolis Mass DynMain.
Import ListNotations.
Open Scope nat_scope.
Open Scope string_scope.

(* two chains with a common tail differ by a rigid motion *)
Section Chains.
  Variables (c1 c2 : chain) (s1 s2 k : nat).
  Hypothesis HA : forall j, 1 <= j < k -> cA c1 (s1 + j) = cA c2 (s2 + j).
  Hypothesis HZ : forall j, 1 <= j < k -> cZ c1 (s1 + j) = cZ c2 (s2 + j).
  Hypothesis Ha : forall j, 1 <= j < k -> ca c1 (s1 + j) = ca c2 (s2 + j).
  Hypothesis Hd : forall j, 1 <= j < k -> cd c1 (s1 + j) = cd c2 (s2 + j).
  Hypothesis R1 : is_rot (FR c1 (S s1)).
  Hypothesis R2 : is_rot (FR c2 (S s2)).
  Definition QQ : mtx := mm (FR c1 (S s1)) (mt (FR c2 (S s2))).
  Definition tt_ : vec := vsub3 (FP c1 (S s1)) (mv QQ (FP c2 (S s2))).
  Lemma is_rot_mt A : is_rot A -> is_rot (mt A).
  Proof.
    intros (A1 & A2 & A3 & A4). split; [rewrite mt_mt; auto|]. split; [rewrite mt_mt; auto|]. split.
    - rewrite <- A3. destruct A. unfold det3, mt. simpl. ring.
    - intros v. specialize (A4 (mv (mt A) v)). rewrite <- (mv_mm A), A2, mv_I in A4.
      rewrite <- (mm_I_l (hat3 (mv (mt A) v))), <- A1, (mm_assoc (mt A)), <- A4, !mm_assoc, A2, mm_I_r. reflexivity.
  Qed.
  Lemma Q_rot : is_rot QQ.
  Proof. apply is_rot_mm; auto. apply is_rot_mt; auto. Qed.
  Lemma tail_R j : j < k -> FR c1 (S (s1 + j)) = mm QQ (FR c2 (S (s2 + j))).
  Proof.
    induction j as [|j IH]; intros Hj.
    - rewrite !Nat.add_0_r. unfold QQ. rewrite mm_assoc. destruct R2 as (E & _). rewrite E, mm_I_r. reflexivity.
    - change (FR c1 (S (s1 + S j))) with (mm (FR c1 (s1 + S j)) (mm (cA c1 (s1 + S j)) (cZ c1 (s1 + S j)))).
      change (FR c2 (S (s2 + S j))) with (mm (FR c2 (s2 + S j)) (mm (cA c2 (s2 + S j)) (cZ c2 (s2 + S j)))).
      rewrite HA, HZ by lia. rewrite <- (mm_assoc QQ). f_equal.
      rewrite <- !plus_n_Sm. apply IH. lia.
  Qed.
  Lemma tail_P j : j < k -> FP c1 (S (s1 + j)) = vadd (mv QQ (FP c2 (S (s2 + j)))) tt_.
  Proof.
    induction j as [|j IH]; intros Hj.
    - rewrite !Nat.add_0_r. unfold tt_. generalize (mv QQ (FP c2 (S s2))) (FP c1 (S s1)). r3.
    - change (FP c1 (S (s1 + S j))) with (vadd (mv (FR c1 (s1 + S j)) (lpos c1 (s1 + S j))) (FP c1 (s1 + S j))).
      change (FP c2 (S (s2 + S j))) with (vadd (mv (FR c2 (s2 + S j)) (lpos c2 (s2 + S j))) (FP c2 (s2 + S j))).
      assert (L : lpos c1 (s1 + S j) = lpos c2 (s2 + S j)) by (unfold lpos; rewrite HA, Ha, Hd by lia; reflexivity).
      rewrite L, <- !plus_n_Sm, IH, tail_R by lia. rewrite mv_vadd, mv_mm, vadd_assoc. reflexivity.
  Qed.
  Lemma tail_axis j : j < k -> axis c1 (s1 + j) = mv QQ (axis c2 (s2 + j)).
  Proof. intros Hj. unfold axis. rewrite tail_R, mv_mm by auto. reflexivity. Qed.
  Lemma tail_w p1 p2 j : j < k -> p1 (s1 + j) = p2 (s2 + j) -> wcol p1 c1 (s1 + j) = mv QQ (wcol p2 c2 (s2 + j)).
  Proof. intros Hj E. unfold wcol. rewrite E. destruct (p2 _); [now rewrite mv_vzero|now apply tail_axis]. Qed.
  Lemma tail_v p1 p2 P j : j < k -> p1 (s1 + j) = p2 (s2 + j) ->
    vcol p1 c1 (vadd (mv QQ P) tt_) (s1 + j) = mv QQ (vcol p2 c2 P (s2 + j)).
  Proof.
    intros Hj E. unfold vcol. rewrite E. destruct (p2 _); [now apply tail_axis|].
    rewrite tail_axis, tail_P by auto. rewrite <- rot_cross by apply Q_rot. f_equal.
    generalize QQ tt_ P (FP c2 (S (s2 + j))). r3.
  Qed.
End Chains.

(* positions up to whole turns *)
Lemma same_place_refl b x : same_place b x x.
Proof. destruct b; [reflexivity|]. exists 0%Z. simpl. ring. Qed.
Lemma same_place_eq b x y : x = y -> same_place b x y.
Proof. intros ->. apply same_place_refl. Qed.
Lemma turns x z : cos (x + IZR z * (2 * PI)) = cos x /\ sin (x + IZR z * (2 * PI)) = sin x.
Proof.
  destruct z as [|p|p].
  - rewrite Rmult_0_l, Rplus_0_r. auto.
  - replace (IZR (Z.pos p) * (2 * PI))%R with (2 * INR (Pos.to_nat p) * PI)%R by (rewrite INR_IZR_INZ, positive_nat_Z; ring).
    now rewrite cos_period, sin_period.
  - set (y := (x + IZR (Z.neg p) * (2 * PI))%R). replace x with (y + 2 * INR (Pos.to_nat p) * PI)%R; [now rewrite cos_period, sin_period|].
    unfold y. rewrite INR_IZR_INZ, positive_nat_Z. change (Z.neg p) with (- Z.pos p)%Z. rewrite opp_IZR. ring.
Qed.
Lemma is_derive_shift (f : R -> R) (a c l : R) : is_derive f (a + c)%R l -> is_derive (fun x => f (x + c)%R) a l.
Proof.
  intros H. replace l with (1 * l)%R by ring. apply (is_derive_comp f (fun x => x + c)%R a l 1%R); [exact H|].
  assert (D : is_derive (fun x : R => plus x c) a (plus 1%R 0%R)).
  { apply (is_derive_plus (fun x : R => x) (fun _ => c)); [apply (@is_derive_id R_AbsRing)|apply (@is_derive_const R_AbsRing)]. }
  replace 1%R with (@plus R_AbelianGroup 1%R 0%R) by (unfold plus; simpl; ring). exact D.
Qed.

(* the published quantities *)
Section Tails.
  Variables (nm1 : string) (cf1 : ynode) (r1 q1 b1 r1' : robot) (nm2 : string) (cf2 : ynode) (r2 q2 b2 r2' : robot).
  Hypothesis S1 : session nm1 cf1 r1 q1 r1'.
  Hypothesis S2 : session nm2 cf2 r2 q2 r2'.
  Hypothesis B1 : built r1 b1 q1.
  Hypothesis B2 : built r2 b2 q2.
  Hypothesis X1 : exact_angles r1.
  Hypothesis X2 : exact_angles r2.
  Variables (k s1 s2 : nat).
  Hypothesis HT : same_tail k s1 r1 r1' s2 r2 r2'.
  Let E1 : sess r1 b1 r1' := built_sess _ _ _ _ _ _ S1 B1.
  Let E2 : sess r2 b2 r2' := built_sess _ _ _ _ _ _ S2 B2.
  Notation e1 := (renv r1 r1').
  Notation e2 := (renv r2 r2').
  Notation c1 := (chain_of b1 e1).
  Notation c2 := (chain_of b2 e2).

  (* local data in textbook terms *)
  Lemma cA_val r0 b r' j : sess r0 b r' -> exact_angles r0 -> j < numJoints r0 ->
    cA (chain_of b (renv r0 r')) j = Rx3 (cos (dh r0 r' j 1)) (sin (dh r0 r' j 1)).
  Proof.
    intros H HX Hj. cbn [chain_of cA]. unfold dh.
    destruct (cz_par _ _ _ H "par_DHtable" (4 * numJoints r0) (j * 4 + 1)) as [-> ->]; [eapply key_DH; eauto|lia|].
    destruct (snap_exact _ _ _ H HX "par_DHtable" (4 * numJoints r0) (j * 4 + 1)) as [-> ->]; auto; [|eapply key_DH; eauto|lia].
    left. split; auto. exists j. auto.
  Qed.
  Lemma cZ_val r0 b r' j : sess r0 b r' -> exact_angles r0 -> j < numJoints r0 ->
    cZ (chain_of b (renv r0 r')) j = Rz3 (cos (joint_theta r0 r' j)) (sin (joint_theta r0 r' j)).
  Proof.
    intros H HX Hj. cbn [chain_of cZ]. destruct (cz_theta _ _ _ H j Hj) as [-> ->].
    destruct (prism r0 j) eqn:Hp; auto. unfold joint_theta, dh. rewrite Hp.
    destruct (snap_exact _ _ _ H HX "par_DHtable" (4 * numJoints r0) (j * 4 + 3)) as [-> ->]; auto; [|eapply key_DH; eauto|lia].
    left. split; auto. exists j. auto.
  Qed.
  Lemma ca_val r0 b r' j : sess r0 b r' -> j < numJoints r0 -> ca (chain_of b (renv r0 r')) j = dh r0 r' j 0.
  Proof.
    intros H Hj. cbn [chain_of ca]. unfold ev, dh. rewrite Nat.add_0_r.
    apply (eval_key _ _ _ H "par_DHtable" (4 * numJoints r0)); [eapply key_DH; eauto|lia].
  Qed.
  Lemma cd_val r0 b r' j : sess r0 b r' -> j < numJoints r0 -> cd (chain_of b (renv r0 r')) j = joint_d r0 r' j.
  Proof. intros H Hj. cbn [chain_of cd]. apply (dxx_val _ _ _ H); auto. Qed.

  Let N1 : numJoints r1 = s1 + k := st_n1 _ _ _ _ _ _ _ HT.
  Let N2 : numJoints r2 = s2 + k := st_n2 _ _ _ _ _ _ _ HT.
  Lemma tA j : 1 <= j < k -> cA c1 (s1 + j) = cA c2 (s2 + j).
  Proof. intros Hj. rewrite (cA_val r1), (cA_val r2) by (auto; lia). rewrite (st_dh _ _ _ _ _ _ _ HT j 1) by lia. reflexivity. Qed.
  Lemma t_theta j : 1 <= j < k -> cos (joint_theta r1 r1' (s1 + j)) = cos (joint_theta r2 r2' (s2 + j)) /\
    sin (joint_theta r1 r1' (s1 + j)) = sin (joint_theta r2 r2' (s2 + j)).
  Proof.
    intros Hj. pose proof (st_q _ _ _ _ _ _ _ HT j Hj) as Q. unfold joint_theta. rewrite <- (st_kind _ _ _ _ _ _ _ HT) by lia.
    rewrite (st_dh _ _ _ _ _ _ _ HT j 3) by lia. destruct (prism r1 (s1 + j)); [auto|]. destruct Q as [z ->]. rewrite <- Rplus_assoc. apply turns.
  Qed.
  Lemma t_d j : 1 <= j < k -> joint_d r1 r1' (s1 + j) = joint_d r2 r2' (s2 + j).
  Proof.
    intros Hj. pose proof (st_q _ _ _ _ _ _ _ HT j Hj) as Q. unfold joint_d. rewrite <- (st_kind _ _ _ _ _ _ _ HT) by lia.
    rewrite (st_dh _ _ _ _ _ _ _ HT j 2) by lia. destruct (prism r1 (s1 + j)); [|reflexivity]. now rewrite Q.
  Qed.
  Lemma tZ j : 1 <= j < k -> cZ c1 (s1 + j) = cZ c2 (s2 + j).
  Proof. intros Hj. rewrite (cZ_val r1), (cZ_val r2) by (auto; lia). destruct (t_theta j Hj) as [-> ->]. reflexivity. Qed.
  Lemma ta j : 1 <= j < k -> ca c1 (s1 + j) = ca c2 (s2 + j).
  Proof. intros Hj. rewrite (ca_val r1), (ca_val r2) by (auto; lia). apply (st_dh _ _ _ _ _ _ _ HT); lia. Qed.
  Lemma td j : 1 <= j < k -> cd c1 (s1 + j) = cd c2 (s2 + j).
  Proof. intros Hj. rewrite (cd_val r1), (cd_val r2) by (auto; lia). apply t_d; lia. Qed.
  Lemma tR1 : 1 <= k -> is_rot (FR c1 (S s1)).
  Proof. intros Hk. apply (FR_is_rot _ _ _ E1 X1). lia. Qed.
  Lemma tR2 : 1 <= k -> is_rot (FR c2 (S s2)).
  Proof. intros Hk. apply (FR_is_rot _ _ _ E2 X2). lia. Qed.
  Lemma t_prism j : j < k -> prismatic b1 (s1 + j) = prismatic b2 (s2 + j).
  Proof. intros Hj. rewrite (prism_b _ _ _ E1), (prism_b _ _ _ E2). apply (st_kind _ _ _ _ _ _ _ HT); auto. Qed.
  Lemma t_pdyn j c : j < k -> c < 10 -> p_dyn b1 e1 (s1 + j) c = p_dyn b2 e2 (s2 + j) c.
  Proof.
    intros Hj Hc. rewrite (p_dyn_val nm1 cf1 r1 q1 b1 r1' S1 B1), (p_dyn_val nm2 cf2 r2 q2 b2 r2' S2 B2) by lia.
    replace (S (s1 + j)) with (s1 + j + 1) by lia. replace (S (s2 + j)) with (s2 + j + 1) by lia. apply (st_dyn _ _ _ _ _ _ _ HT); auto.
  Qed.
  Lemma t_mass j : j < k -> m_l b1 e1 (s1 + j) = m_l b2 e2 (s2 + j).
  Proof. intros Hj. pose proof (t_pdyn j 0 Hj ltac:(lia)) as E. unfold p_dyn in E. rewrite !Nat.add_0_r in E. exact E. Qed.
  Lemma t_inert j : j < k -> inert3 b1 e1 (s1 + j) = inert3 b2 e2 (s2 + j).
  Proof. intros Hj. unfold inert3. rewrite !t_pdyn by lia. reflexivity. Qed.
  Notation Q := (QQ c1 c2 s1 s2).
  Notation T := (tt_ c1 c2 s1 s2).
  Lemma t_com j : j < k -> com b1 e1 (s1 + j) = com b2 e2 (s2 + j).
  Proof.
    intros Hj. unfold com. pose proof (t_pdyn j 1 Hj ltac:(lia)) as A. pose proof (t_pdyn j 2 Hj ltac:(lia)) as B.
    pose proof (t_pdyn j 3 Hj ltac:(lia)) as C. unfold p_dyn in A, B, C. 
    apply V3_eq; [replace ((s1 + j) * 10 + 0 + 1) with ((s1 + j) * 10 + 1) by lia; replace ((s2 + j) * 10 + 0 + 1) with ((s2 + j) * 10 + 1) by lia
                 |replace ((s1 + j) * 10 + 1 + 1) with ((s1 + j) * 10 + 2) by lia; replace ((s2 + j) * 10 + 1 + 1) with ((s2 + j) * 10 + 2) by lia
                 |replace ((s1 + j) * 10 + 2 + 1) with ((s1 + j) * 10 + 3) by lia; replace ((s2 + j) * 10 + 2 + 1) with ((s2 + j) * 10 + 3) by lia]; assumption.
  Qed.
  Lemma t_cpos j : j < k -> cpos b1 e1 (s1 + j) = vadd (mv Q (cpos b2 e2 (s2 + j))) T.
  Proof.
    intros Hj. assert (A1 := tR1 ltac:(lia)). assert (A2 := tR2 ltac:(lia)). unfold cpos. rewrite t_com by auto.
    rewrite (tail_R c1 c2 s1 s2 k tA tZ), (tail_P c1 c2 s1 s2 k tA tZ ta td) by auto.
    rewrite mv_vadd, mv_mm. generalize (mv Q (FP c2 (S (s2 + j)))) T (mv Q (mv (FR c2 (S (s2 + j))) (com b2 e2 (s2 + j)))). r3.
  Qed.
  Lemma ltb_shift s i l : Nat.ltb (s + i) (S (s + l)) = Nat.ltb i (S l).
  Proof. destruct (Nat.ltb_spec i (S l)), (Nat.ltb_spec (s + i) (S (s + l))); auto; lia. Qed.
  Lemma t_jlv i l : i < k -> l < k ->
    jlv b1 e1 (cpos b1 e1 (s1 + l)) (s1 + l) (s1 + i) = mv Q (jlv b2 e2 (cpos b2 e2 (s2 + l)) (s2 + l) (s2 + i)).
  Proof.
    intros Hi Hl. unfold jlv. rewrite !ltb_shift. destruct (Nat.ltb i (S l)); [|now rewrite mv_vzero].
    assert (A1 := tR1 ltac:(lia)). assert (A2 := tR2 ltac:(lia)).
    rewrite t_cpos by auto. apply (tail_v c1 c2 s1 s2 k tA tZ ta td); auto using t_prism.
  Qed.
  Lemma t_bw i l : i < k -> l < k -> bw b1 e1 (s1 + l) (s1 + i) = bw b2 e2 (s2 + l) (s2 + i).
  Proof.
    intros Hi Hl. assert (A1 := tR1 ltac:(lia)). assert (A2 := tR2 ltac:(lia)).
    unfold bw, jwv, Rl. rewrite !ltb_shift. destruct (Nat.ltb i (S l)); [|now rewrite !mv_vzero].
    rewrite (fun A => tail_w c1 c2 s1 s2 k tA tZ A (prismatic b1) (prismatic b2)) by auto using t_prism.
    rewrite (tail_R c1 c2 s1 s2 k tA tZ) by auto. rewrite mt_mm, mv_mm, rot_inv by (apply Q_rot; auto). reflexivity.
  Qed.
  Lemma t_Mterm l i j : l < k -> i < k -> j < k -> Mterm b1 e1 (s1 + l) (s1 + i) (s1 + j) = Mterm b2 e2 (s2 + l) (s2 + i) (s2 + j).
  Proof.
    intros Hl Hi Hj. unfold Mterm. rewrite !t_bw, t_mass, t_inert, !t_jlv by auto.
    rewrite rot_dot by (apply Q_rot; [apply tR1|apply tR2]; lia). reflexivity.
  Qed.
  Lemma Mterm_0 b e l i j : l < i -> Mterm b e l i j = 0%R.
  Proof.
    intros Hl. unfold Mterm, jlv, bw, jwv. replace (Nat.ltb i (S l)) with false by (symmetry; apply Nat.ltb_ge; lia).
    rewrite mv_vzero. unfold dot, vzero. cbn [vx vy vz]. ring.
  Qed.
  Lemma tail_M i j : i < k -> j < k -> out r1' "M" (s1 + i) (s1 + j) = out r2' "M" (s2 + i) (s2 + j).
  Proof.
    intros Hi Hj. rewrite (outM nm1 cf1 r1 q1 b1 r1' S1 B1), (outM nm2 cf2 r2 q2 b2 r2' S2 B2) by lia.
    rewrite !Mx_val, (n_b _ _ _ E1), (n_b _ _ _ E2), N1, N2, !rsum_split.
    rewrite (rsum_0 s1), (rsum_0 s2) by (intros; apply Mterm_0; lia). f_equal.
    apply rsum_ext. intros l Hl. apply t_Mterm; auto.
  Qed.
  Lemma fwd_R r0 b r' i a c : sess r0 b r' -> exact_angles r0 -> i <= numJoints r0 -> a < 3 -> c < 3 ->
    fwd r0 r' i a c = mcomp (FR (chain_of b (renv r0 r')) i) a c.
  Proof.
    intros H HX Hi Ha Hc. rewrite <- (fwd_exact _ _ _ H HX i Hi), <- (T0x_snap _ _ _ H i Hi) by lia.
    rewrite <- (proj1 (T0x_val b (renv r0 r') i)). unfold rot3. now rewrite mcomp_of.
  Qed.
  Lemma grav_in nm cf r0 q b r' i a : session nm cf r0 q r' -> built r0 b q -> exact_angles r0 -> i <= numJoints r0 -> a < 3 ->
    gravity_in r0 r' i a = vcomp (mv (mt (FR (chain_of b (renv r0 r')) i)) (grav b (renv r0 r'))) a.
  Proof.
    intros Hs HB HX Hi Ha. pose proof (built_sess _ _ _ _ _ _ Hs HB) as H. unfold gravity_in. cbn [rsum].
    rewrite !(fwd_R r0 b r') by (auto; lia). rewrite <- !(grav_val nm cf r0 q b r' Hs HB) by lia.
    unfold mv, mt. destruct a as [|[|[|a]]]; try lia; cbn [vcomp mcomp vx vy vz m00 m01 m02 m10 m11 m12 m20 m21 m22]; ring.
  Qed.
  Lemma tail_G i : i < k -> (forall a, a < 3 -> gravity_in r1 r1' (s1 + 1) a = gravity_in r2 r2' (s2 + 1) a) ->
    out r1' "G" (s1 + i) 0 = out r2' "G" (s2 + i) 0.
  Proof.
    intros Hi HG. rewrite (outG nm1 cf1 r1 q1 b1 r1' S1 B1), (outG nm2 cf2 r2 q2 b2 r2' S2 B2) by lia.
    assert (RG : forall r0 b r', sess r0 b r' -> rows (mdl b "par_gravity") = 3).
    { intros r0 b r' H. apply (ps_r _ _ _ _ (bs_shape _ _ (ss_base _ _ _ H) "par_gravity" 3 (key_g _ _ _ H))). }
    rewrite !Gx_val by eauto.
    rewrite (n_b _ _ _ E1), (n_b _ _ _ E2), N1, N2, !rsum_split.
    assert (Z : forall b e l i s, l < s -> (- m_l b e l * dot (grav b e) (jlv b e (cpos b e l) l (s + i)) = 0)%R).
    { intros b e l i0 s Hl. unfold jlv. replace (Nat.ltb (s + i0) (S l)) with false by (symmetry; apply Nat.ltb_ge; lia).
      unfold dot, vzero. cbn [vx vy vz]. ring. }
    rewrite (rsum_0 s1), (rsum_0 s2) by (intros; apply Z; auto). f_equal.
    apply rsum_ext. intros l Hl. rewrite t_mass, t_jlv by auto. f_equal.
    assert (A1 := tR1 ltac:(lia)). assert (A2 := tR2 ltac:(lia)).
    rewrite dot_mv. f_equal. unfold QQ. rewrite mt_mm, mt_mt, mv_mm.
    assert (EG : mv (mt (FR c1 (S s1))) (grav b1 e1) = mv (mt (FR c2 (S s2))) (grav b2 e2)).
    { pose proof (fun a Ha => HG a Ha) as HG'. rewrite !Nat.add_1_r in HG'.
      assert (EV : forall a, a < 3 -> vcomp (mv (mt (FR c1 (S s1))) (grav b1 e1)) a = vcomp (mv (mt (FR c2 (S s2))) (grav b2 e2)) a).
      { intros a Ha. rewrite <- (grav_in nm1 cf1 r1 q1 b1), <- (grav_in nm2 cf2 r2 q2 b2) by (auto; lia). auto. }
      apply v3_eq; [apply (EV 0)|apply (EV 1)|apply (EV 2)]; lia. }
    rewrite EG. apply rot_inv2. auto.
  Qed.
End Tails.

Lemma q_skey : In "q" skeys.
Proof. simpl; auto. Qed.
Section Coriolis.
  Variables (nm1 : string) (cf1 : ynode) (r1 q1 b1 r1' : robot) (nm2 : string) (cf2 : ynode) (r2 q2 b2 r2' : robot).
  Hypothesis S1 : session nm1 cf1 r1 q1 r1'.
  Hypothesis S2 : session nm2 cf2 r2 q2 r2'.
  Hypothesis B1 : built r1 b1 q1.
  Hypothesis B2 : built r2 b2 q2.
  Hypothesis X1 : exact_angles r1.
  Hypothesis X2 : exact_angles r2.
  Variables (k s1 s2 : nat).
  Hypothesis HT : same_tail k s1 r1 r1' s2 r2 r2'.
  Let N1 : numJoints r1 = s1 + k := st_n1 _ _ _ _ _ _ _ HT.
  Let N2 : numJoints r2 = s2 + k := st_n2 _ _ _ _ _ _ _ HT.
  Notation e1 := (renv r1 r1').
  Notation e2 := (renv r2 r2').

  Lemma set_dh r0 r' i x j c : dh r0 (set_entry r' "q" i x) j c = dh r0 r' j c.
  Proof. unfold dh. apply set_param; [apply q_skey|simpl; intuition discriminate]. Qed.
  Lemma set_dyn r0 r' i x j c : dyn r0 (set_entry r' "q" i x) j c = dyn r0 r' j c.
  Proof. unfold dyn. apply set_param; [apply q_skey|simpl; intuition discriminate]. Qed.
  Lemma set_tail kk x y : kk < k -> same_place (prism r1 (s1 + kk)) x y ->
    same_tail k s1 r1 (set_entry r1' "q" (s1 + kk) x) s2 r2 (set_entry r2' "q" (s2 + kk) y).
  Proof.
    intros Hk HP. destruct HT as [A1 A2 A3 A4 A5 A6]. constructor; auto.
    - intros j c Hj Hc. rewrite !set_dh. auto.
    - intros j Hj. rewrite (set_state nm1 cf1 r1 q1 r1' S1), (set_state nm2 cf2 r2 q2 r2' S2) by (auto using q_skey; lia).
      destruct (Nat.eqb_spec (s1 + kk) (s1 + j)) as [E|E], (Nat.eqb_spec (s2 + kk) (s2 + j)); auto; try lia. now rewrite <- E.
    - intros j c Hj Hc. rewrite !set_dyn. auto.
  Qed.
  Lemma set_self nm cf r0 q r' s x : session nm cf r0 q r' -> numJoints r0 = s + k -> 0 < k ->
    same_tail k s r0 (set_entry r' "q" (s + 0) x) s r0 r'.
  Proof.
    intros Hs Hn Hk. constructor; auto.
    - intros. apply set_dh.
    - intros j Hj. rewrite (set_state nm cf r0 q r' Hs) by (auto using q_skey; lia).
      destruct (Nat.eqb_spec (s + 0) (s + j)); [lia|apply same_place_refl].
    - intros. apply set_dyn.
  Qed.
  Lemma dm_first nm cf r0 q b r' s i j : session nm cf r0 q r' -> built r0 b q -> exact_angles r0 -> numJoints r0 = s + k ->
    i < k -> j < k -> dM (Mx b) (renv r0 r') (s + i) (s + j) (s + 0) = 0%R.
  Proof.
    intros Hs HB HX Hn Hi Hj.
    pose proof (M_partial nm cf r0 q b r' Hs HB (s + i) (s + j) (s + 0) ltac:(lia) ltac:(lia) ltac:(lia)) as D.
    unfold is_partial in D. cbn beta in D.
    rewrite <- (is_derive_unique _ _ _ D). apply is_derive_unique.
    apply is_derive_ext with (fun _ => out r' "M" (s + i) (s + j)); [|apply is_derive_cst].
    intros x. symmetry.
    apply (tail_M nm cf r0 q b _ nm cf r0 q b r' (set_session nm cf r0 q r' "q" (s + 0) x Hs) Hs HB HB HX HX k s s); auto.
    apply (set_self nm cf r0 q r'); auto; lia.
  Qed.
  Lemma tail_dm i j kk : i < k -> j < k -> kk < k ->
    dM (Mx b1) e1 (s1 + i) (s1 + j) (s1 + kk) = dM (Mx b2) e2 (s2 + i) (s2 + j) (s2 + kk).
  Proof.
    intros Hi Hj Hk. destruct kk as [|kk].
    - rewrite (dm_first nm1 cf1 r1 q1), (dm_first nm2 cf2 r2 q2); auto.
    - pose proof (M_partial nm1 cf1 r1 q1 b1 r1' S1 B1 (s1 + i) (s1 + j) (s1 + S kk) ltac:(lia) ltac:(lia) ltac:(lia)) as D1.
      pose proof (M_partial nm2 cf2 r2 q2 b2 r2' S2 B2 (s2 + i) (s2 + j) (s2 + S kk) ltac:(lia) ltac:(lia) ltac:(lia)) as D2.
      unfold is_partial in D1, D2. cbn beta in D1, D2.
      assert (C : exists c, state r1' "q" (s1 + S kk) = (state r2' "q" (s2 + S kk) + c)%R /\ forall x, same_place (prism r1 (s1 + S kk)) (x + c) x).
      { pose proof (st_q _ _ _ _ _ _ _ HT (S kk) ltac:(lia)) as Q. unfold same_place in *. destruct (prism r1 (s1 + S kk)).
        - exists 0%R. rewrite Q. split; intros; ring.
        - destruct Q as [z Q]. exists (IZR z * (2 * PI))%R. split; [exact Q|]. intros x. now exists z. }
      destruct C as (c & EC & HC). rewrite EC in D1. apply is_derive_shift in D1.
      apply is_derive_unique in D1, D2. rewrite <- D1, <- D2. apply Derive_ext. intros x.
      apply (tail_M nm1 cf1 r1 q1 b1 _ nm2 cf2 r2 q2 b2 _ (set_session nm1 cf1 r1 q1 r1' _ _ _ S1) (set_session nm2 cf2 r2 q2 r2' _ _ _ S2) B1 B2 X1 X2 k); auto.
      apply set_tail; auto.
  Qed.
  Hypothesis Z1 : at_rest s1 r1' "dq".
  Hypothesis Z2 : at_rest s2 r2' "dq".
  Hypothesis HV : same_on_tail "dq" k s1 r1' s2 r2'.
  Lemma tail_C i j : i < k -> j < k ->
    out r1' "C" (s1 + i) (s1 + j) = out r2' "C" (s2 + i) (s2 + j) /\
    out r1' "C_std" (s1 + i) (s1 + j) = out r2' "C_std" (s2 + i) (s2 + j).
  Proof.
    intros Hi Hj.
    destruct (C_chr nm1 cf1 r1 q1 b1 r1' S1 B1 (s1 + i) (s1 + j) ltac:(lia) ltac:(lia)) as [-> ->].
    destruct (C_chr nm2 cf2 r2 q2 b2 r2' S2 B2 (s2 + i) (s2 + j) ltac:(lia) ltac:(lia)) as [-> ->].
    assert (E : forall (A B : R), A = B -> A = B /\ A = B) by auto. apply E. clear E.
    rewrite N1, N2, !rsum_split. rewrite (rsum_0 s1), (rsum_0 s2).
    - f_equal. apply rsum_ext. intros kk Hk. rewrite HV, !tail_dm by auto. reflexivity.
    - intros l Hl. rewrite (Z2 l Hl). ring.
    - intros l Hl. rewrite (Z1 l Hl). ring.
  Qed.
  Lemma tail_Md i j : i < k -> j < k -> out r1' "M_dot" (s1 + i) (s1 + j) = out r2' "M_dot" (s2 + i) (s2 + j).
  Proof.
    intros Hi Hj. rewrite (Md_val nm1 cf1 r1 q1 b1 r1' S1 B1), (Md_val nm2 cf2 r2 q2 b2 r2' S2 B2) by lia.
    rewrite N1, N2, !rsum_split. rewrite (rsum_0 s1), (rsum_0 s2).
    - f_equal. apply rsum_ext. intros kk Hk. rewrite HV, !tail_dm by auto. reflexivity.
    - intros l Hl. rewrite (Z2 l Hl). ring.
    - intros l Hl. rewrite (Z1 l Hl). ring.
  Qed.
  Lemma tail_torque i : at_rest s1 r1' "ddq" -> at_rest s2 r2' "ddq" -> same_on_tail "ddq" k s1 r1' s2 r2' ->
    (forall a, a < 3 -> gravity_in r1 r1' (s1 + 1) a = gravity_in r2 r2' (s2 + 1) a) -> i < k ->
    torque r1 r1' (s1 + i) = torque r2 r2' (s2 + i).
  Proof.
    intros W1 W2 HW HG Hi. unfold torque, rmv. rewrite N1, N2, !rsum_split.
    rewrite (rsum_0 s1), (rsum_0 s2), (rsum_0 s1), (rsum_0 s2);
      try (intros l Hl; rewrite ?(Z1 l Hl), ?(Z2 l Hl), ?(W1 l Hl), ?(W2 l Hl); ring).
    rewrite (tail_G nm1 cf1 r1 q1 b1 r1' nm2 cf2 r2 q2 b2 r2' S1 S2 B1 B2 X1 X2 k s1 s2 HT) by auto.
    f_equal. f_equal; f_equal; apply rsum_ext; intros j Hj.
    - rewrite HW, (tail_M nm1 cf1 r1 q1 b1 r1' nm2 cf2 r2 q2 b2 r2' S1 S2 B1 B2 X1 X2 k s1 s2 HT) by auto. reflexivity.
    - rewrite HV, (proj1 (tail_C i j Hi Hj)) by auto. reflexivity.
  Qed.
End Coriolis.

(* two robots with a common beginning *)
Section Heads.
  Variables (nm1 : string) (cf1 : ynode) (r1 q1 b1 r1' : robot) (nm2 : string) (cf2 : ynode) (r2 q2 b2 r2' : robot).
  Hypothesis S1 : session nm1 cf1 r1 q1 r1'.
  Hypothesis S2 : session nm2 cf2 r2 q2 r2'.
  Hypothesis B1 : built r1 b1 q1.
  Hypothesis B2 : built r2 b2 q2.
  Hypothesis X1 : exact_angles r1.
  Hypothesis X2 : exact_angles r2.
  Variable m : nat.
  Hypothesis HH : same_head m r1 r1' r2 r2'.
  Let E1 : sess r1 b1 r1' := built_sess _ _ _ _ _ _ S1 B1.
  Let E2 : sess r2 b2 r2' := built_sess _ _ _ _ _ _ S2 B2.
  Let N1 : m <= numJoints r1 := sh_n1 _ _ _ _ _ HH.
  Let N2 : m <= numJoints r2 := sh_n2 _ _ _ _ _ HH.
  Notation e1 := (renv r1 r1').
  Notation e2 := (renv r2 r2').
  Notation c1 := (chain_of b1 e1).
  Notation c2 := (chain_of b2 e2).
  Lemma h_theta j : j < m -> cos (joint_theta r1 r1' j) = cos (joint_theta r2 r2' j) /\ sin (joint_theta r1 r1' j) = sin (joint_theta r2 r2' j).
  Proof.
    intros Hj. pose proof (sh_q _ _ _ _ _ HH j Hj) as Q. unfold joint_theta. rewrite <- (sh_kind _ _ _ _ _ HH) by lia.
    rewrite (sh_dh _ _ _ _ _ HH j 3) by lia. destruct (prism r1 j); [auto|]. destruct Q as [z ->]. rewrite <- Rplus_assoc. apply turns.
  Qed.
  Lemma h_d j : j < m -> joint_d r1 r1' j = joint_d r2 r2' j.
  Proof.
    intros Hj. pose proof (sh_q _ _ _ _ _ HH j Hj) as Q. unfold joint_d. rewrite <- (sh_kind _ _ _ _ _ HH) by lia.
    rewrite (sh_dh _ _ _ _ _ HH j 2) by lia. destruct (prism r1 j); [|reflexivity]. now rewrite Q.
  Qed.
  Lemma frame_rot_val r0 b r' : sess r0 b r' -> exact_angles r0 ->
    cR0 (chain_of b (renv r0 r')) = (let p := param r0 r' "par_world2L0" in
      mm (mm (Rz3 (cos (p 3)) (sin (p 3))) (Ry3 (cos (p 4)) (sin (p 4)))) (Rx3 (cos (p 5)) (sin (p 5)))) /\
    cp0 (chain_of b (renv r0 r')) = (let p := param r0 r' "par_world2L0" in V3 (p 0) (p 1) (p 2)).
  Proof.
    intros H HX. cbn [chain_of cR0 cp0]. unfold frame_rot, frame_pos. cbv zeta.
    assert (K : In ("par_world2L0", 6) (keys b)) by (eapply key_W; eauto).
    split.
    - assert (G : forall i, 3 <= i < 6 -> cz (renv r0 r') (el (mdl b "par_world2L0") i 0) = cos (param r0 r' "par_world2L0" i) /\
         sz (renv r0 r') (el (mdl b "par_world2L0") i 0) = sin (param r0 r' "par_world2L0" i)).
      { intros i Hi. destruct (cz_par _ _ _ H "par_world2L0" 6 i K ltac:(lia)) as [-> ->].
        apply (snap_exact _ _ _ H HX "par_world2L0" 6 i); auto; [|lia]. right. auto. }
      destruct (G 3 ltac:(lia)) as [-> ->]. destruct (G 4 ltac:(lia)) as [-> ->]. destruct (G 5 ltac:(lia)) as [-> ->]. reflexivity.
    - unfold ev. rewrite !(eval_key _ _ _ H "par_world2L0" 6) by (auto; lia). reflexivity.
  Qed.
  Lemma head_FR i : i <= m -> FR c1 i = FR c2 i.
  Proof.
    induction i as [|i IH]; intros Hi.
    - cbn [FR]. rewrite (proj1 (frame_rot_val r1 b1 r1' E1 X1)), (proj1 (frame_rot_val r2 b2 r2' E2 X2)). cbv zeta.
      rewrite !(sh_base _ _ _ _ _ HH) by lia. reflexivity.
    - cbn [FR]. rewrite IH by lia. rewrite (cA_val r1), (cA_val r2), (cZ_val r1), (cZ_val r2) by (auto; lia).
      destruct (h_theta i ltac:(lia)) as [-> ->]. rewrite (sh_dh _ _ _ _ _ HH i 1) by lia. reflexivity.
  Qed.
  Lemma head_FP i : i <= m -> FP c1 i = FP c2 i.
  Proof.
    induction i as [|i IH]; intros Hi.
    - cbn [FP]. rewrite (proj2 (frame_rot_val r1 b1 r1' E1 X1)), (proj2 (frame_rot_val r2 b2 r2' E2 X2)). cbv zeta.
      rewrite !(sh_base _ _ _ _ _ HH) by lia. reflexivity.
    - cbn [FP]. rewrite IH, head_FR by lia. unfold lpos.
      rewrite (cA_val r1), (cA_val r2), (ca_val r1), (ca_val r2), (cd_val r1), (cd_val r2) by (auto; lia).
      rewrite h_d, !(sh_dh _ _ _ _ _ HH i) by lia. reflexivity.
  Qed.
  Lemma head_T i : i <= m -> agree 4 4 (out r1' ("T_0_" ++ to_string i)) (out r2' ("T_0_" ++ to_string i)).
  Proof.
    intros Hi a c Ha Hc. destruct (out_T0 _ _ _ E1 i ltac:(lia)) as [_ ->]; auto. destruct (out_T0 _ _ _ E2 i ltac:(lia)) as [_ ->]; auto.
    destruct (T0x_val b1 e1 i) as (A1 & A2 & A3 & A4 & A5 & A6). destruct (T0x_val b2 e2 i) as (C1 & C2 & C3 & C4 & C5 & C6).
    rewrite head_FR in A1 by auto. rewrite head_FP in A2 by auto. rewrite <- C1 in A1. rewrite <- C2 in A2.
    unfold rot3, mtx_of in A1. unfold pos3, vec_of in A2. injection A1; intros. injection A2; intros.
    destruct a as [|[|[|[|a]]]]; try lia; destruct c as [|[|[|[|c]]]]; try lia; congruence.
  Qed.
  Lemma head_axis j : j < m -> axis c1 j = axis c2 j.
  Proof. intros Hj. unfold axis. rewrite head_FR by lia. reflexivity. Qed.
  Lemma head_jw i a c : i <= m -> jw b1 e1 i a c = jw b2 e2 i a c.
  Proof.
    intros Hi. unfold jw, wcol. destruct (Nat.ltb_spec c i); auto. rewrite (prism_b _ _ _ E1), (prism_b _ _ _ E2).
    rewrite (sh_kind _ _ _ _ _ HH), head_axis by lia. reflexivity.
  Qed.
  Lemma head_jl P i a c : i <= m -> jl b1 e1 P i a c = jl b2 e2 P i a c.
  Proof.
    intros Hi. unfold jl, vcol. destruct (Nat.ltb_spec c i); auto. rewrite (prism_b _ _ _ E1), (prism_b _ _ _ E2).
    rewrite (sh_kind _ _ _ _ _ HH), head_axis, head_FP by lia. reflexivity.
  Qed.
  Lemma head_J i a c : 1 <= i <= m -> a < 6 -> c < numJoints r1 -> c < numJoints r2 ->
    out r1' ("J_" ++ to_string i) a c = out r2' ("J_" ++ to_string i) a c.
  Proof.
    intros Hi Ha H1 H2. destruct (Nat.ltb_spec a 3).
    - rewrite (J_lin _ _ _ E1), (J_lin _ _ _ E2), head_FP, head_jl by lia. reflexivity.
    - replace a with (3 + (a - 3)) by lia. rewrite (J_ang _ _ _ E1), (J_ang _ _ _ E2), head_jw by lia. reflexivity.
  Qed.
  Lemma head_Jcm i a c : 1 <= i <= m -> same_com i r1 r1' r2 r2' -> a < 6 -> c < numJoints r1 -> c < numJoints r2 ->
    out r1' ("J_cm_" ++ to_string i) a c = out r2' ("J_cm_" ++ to_string i) a c.
  Proof.
    intros Hi HC Ha H1 H2. destruct (Nat.ltb_spec a 3).
    - rewrite (Jcm_lin _ _ _ E1), (Jcm_lin _ _ _ E2) by lia. unfold cpos.
      replace (S (i - 1)) with i by lia. rewrite head_FP, head_FR by lia.
      replace (com b1 e1 (i - 1)) with (com b2 e2 (i - 1)); [apply head_jl; lia|].
      assert (P1 := p_dyn_val nm1 cf1 r1 q1 b1 r1' S1 B1 (i - 1)). assert (P2 := p_dyn_val nm2 cf2 r2 q2 b2 r2' S2 B2 (i - 1)).
      unfold p_dyn in P1, P2. replace (S (i - 1)) with i in * by lia.
      unfold com. rewrite <- !Nat.add_assoc. cbn [Nat.add]. rewrite !P1, !P2, !HC by lia. reflexivity.
    - replace a with (3 + (a - 3)) by lia. rewrite (Jcm_ang _ _ _ E1), (Jcm_ang _ _ _ E2), head_jw by lia. reflexivity.
  Qed.
End Heads.

(* columns of the joints after link i *)
Lemma J_beyond r0 b r' i a c : sess r0 b r' -> 1 <= i <= numJoints r0 -> i <= c < numJoints r0 -> a < 6 ->
  out r' ("J_" ++ to_string i) a c = 0%R /\ out r' ("J_cm_" ++ to_string i) a c = 0%R.
Proof.
  intros H Hi Hc Ha. destruct (Nat.ltb_spec a 3).
  - rewrite (J_lin _ _ _ H), (Jcm_lin _ _ _ H) by lia. unfold jl.
    replace (Nat.ltb c i) with false by (symmetry; apply Nat.ltb_ge; lia). auto.
  - replace a with (3 + (a - 3)) by lia. rewrite (J_ang _ _ _ H), (Jcm_ang _ _ _ H) by lia. unfold jw.
    replace (Nat.ltb c i) with false by (symmetry; apply Nat.ltb_ge; lia). auto.
Qed.

(* M and G in terms of the published Jacobians of the centres of mass and the published rotations *)
Section Formulas.
  Variables (nm : string) (cf : ynode) (r0 q b r' : robot).
  Hypothesis S : session nm cf r0 q r'.
  Hypothesis B : built r0 b q.
  Let E : sess r0 b r' := built_sess _ _ _ _ _ _ S B.
  Lemma G_formula i : i < numJoints r0 ->
    out r' "G" i 0 = (- links r0 (fun l => mass r0 r' l * rdot 3 (param r0 r' "par_gravity") (fun a => out r' ("J_cm_" ++ to_string l) a i)))%R.
  Proof.
    intros Hi. rewrite (outG nm cf r0 q b r' S B) by lia.
    rewrite Gx_val by (apply (ps_r _ _ _ _ (bs_shape _ _ (ss_base _ _ _ E) "par_gravity" 3 (key_g _ _ _ E)))).
    rewrite (n_b _ _ _ E). unfold links. rewrite <- rsum_opp. apply rsum_ext. intros l Hl.
    rewrite (m_l_val nm cf r0 q b r' S B) by auto.
    unfold rdot. cbn [rsum]. rewrite !(Jcm_lin _ _ _ E) by lia. rewrite <- !(grav_val nm cf r0 q b r' S B) by lia.
    replace (Datatypes.S l - 1) with l by lia. rewrite !jl_v. unfold dot. cbn [vcomp]. ring.
  Qed.
  Lemma M_formula i j : i < numJoints r0 -> j < numJoints r0 ->
    out r' "M" i j = links r0 (fun l =>
      let J := out r' ("J_cm_" ++ to_string l) in let A := out r' ("T_0_" ++ to_string l) in
      let wi := rmv 3 (rtr A) (fun a => J (3 + a) i) in let wj := rmv 3 (rtr A) (fun a => J (3 + a) j) in
      (mass r0 r' l * rdot 3 (fun a => J a i) (fun a => J a j) + rquad 3 (inertia r0 r' l) wi wj)%R).
  Proof.
    intros Hi Hj. rewrite (outM nm cf r0 q b r' S B) by lia. rewrite Mx_val, (n_b _ _ _ E). unfold links. apply rsum_ext. intros l Hl.
    cbv zeta. unfold Mterm. rewrite (m_l_val nm cf r0 q b r' S B) by auto. rewrite (form_val nm cf r0 q b r' S B) by auto. f_equal.
    - f_equal. unfold rdot. cbn [rsum]. rewrite !(Jcm_lin _ _ _ E) by lia. replace (Datatypes.S l - 1) with l by lia.
      rewrite !jl_v. unfold dot. cbn [vcomp]. ring.
    - assert (EW : forall x a, x < numJoints r0 -> a < 3 ->
        vcomp (bw b (renv r0 r') l x) a = rmv 3 (rtr (out r' ("T_0_" ++ to_string (Datatypes.S l)))) (fun a => out r' ("J_cm_" ++ to_string (Datatypes.S l)) (3 + a) x) a).
      { intros x a Hx Ha. unfold rmv, rtr. cbn [rsum]. rewrite !(T0_rot _ _ _ E), !(Jcm_ang _ _ _ E) by lia. rewrite !jw_v.
        unfold bw, Rl, mv, mt. destruct a as [|[|[|a]]]; try lia; cbn [vcomp mcomp vx vy vz m00 m01 m02 m10 m11 m12 m20 m21 m22]; ring. }
      unfold rquad, rdot. apply rsum_ext. intros a Ha. rewrite EW by auto. f_equal.
      unfold rmv at 1 2. apply rsum_ext. intros c Hc. rewrite EW by auto. reflexivity.
  Qed.
End Formulas.

Section Gravity.
  Variables (n1 : string) (f1 : ynode) (r1 q1 b1 r1' : robot) (n2 : string) (f2 : ynode) (r2 q2 b2 r2' : robot)
    (n3 : string) (f3 : ynode) (r3 q3 b3 r3' : robot).
  Hypothesis S1 : session n1 f1 r1 q1 r1'.
  Hypothesis S2 : session n2 f2 r2 q2 r2'.
  Hypothesis S3 : session n3 f3 r3 q3 r3'.
  Hypothesis B1 : built r1 b1 q1.
  Hypothesis B2 : built r2 b2 q2.
  Hypothesis B3 : built r3 b3 q3.
  Hypothesis X1 : exact_angles r1.
  Hypothesis X2 : exact_angles r2.
  Hypothesis X3 : exact_angles r3.
  Lemma grav_linear (u v : R) i : same_but_gravity r1 r1' r2 r2' -> same_but_gravity r1 r1' r3 r3' ->
    (forall a, a < 3 -> param r3 r3' "par_gravity" a = (u * param r1 r1' "par_gravity" a + v * param r2 r2' "par_gravity" a)%R) ->
    i < numJoints r1 -> out r3' "G" i 0 = (u * out r1' "G" i 0%nat + v * out r2' "G" i 0%nat)%R.
  Proof.
    intros (A1 & A2 & A3) (C1 & C2 & C3) HG Hi.
    rewrite (G_formula n1 f1 r1 q1 b1 r1' S1 B1), (G_formula n2 f2 r2 q2 b2 r2' S2 B2), (G_formula n3 f3 r3 q3 b3 r3' S3 B3) by lia.
    unfold links. rewrite <- A1, <- C1. rewrite <- !rsum_opp, <- !rsum_scal, <- rsum_plus. apply rsum_ext. intros l Hl.
    assert (J2 : forall a, a < 3 -> out r2' ("J_cm_" ++ to_string (S l)) a i = out r1' ("J_cm_" ++ to_string (S l)) a i).
    { intros a Ha. symmetry. apply (head_Jcm n1 f1 r1 q1 b1 r1' n2 f2 r2 q2 b2 r2' S1 S2 B1 B2 X1 X2 _ A2); try lia.
      intros c Hc. apply A3; lia. }
    assert (J3 : forall a, a < 3 -> out r3' ("J_cm_" ++ to_string (S l)) a i = out r1' ("J_cm_" ++ to_string (S l)) a i).
    { intros a Ha. symmetry. apply (head_Jcm n1 f1 r1 q1 b1 r1' n3 f3 r3 q3 b3 r3' S1 S3 B1 B3 X1 X3 _ C2); try lia.
      intros c Hc. apply C3; lia. }
    unfold mass. rewrite <- A3, <- C3 by lia. unfold rdot. cbn [rsum]. rewrite !J2, !J3, !HG by lia. ring.
  Qed.
End Gravity.
Lemma grav_zero nm cf r0 q b r' : session nm cf r0 q r' -> built r0 b q ->
  (forall a, a < 3 -> param r0 r' "par_gravity" a = 0%R) -> forall i, i < numJoints r0 -> out r' "G" i 0 = 0%R.
Proof.
  intros S B HG i Hi. rewrite (G_formula nm cf r0 q b r' S B) by auto. unfold links. rewrite rsum_0; [ring|].
  intros l Hl. unfold rdot. cbn [rsum]. rewrite !HG by lia. ring.
Qed.
