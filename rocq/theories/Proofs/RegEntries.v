(* Entries of the regressors. *)
From Coq Require Import Reals Lra Lia Arith List String Bool ZArith FunctionalExtensionality.
From Coquelicot Require Import Coquelicot.
From Verif.Model Require Import Base Expr SX Robot Kinematics Dynamics Regressors Yaml Build.
From Verif.Spec Require Import Math Setup Kinematics Dynamics Regressor.
From Verif.Proofs Require Import Sums Calc Rel Lin3 Frames Pure PureRel Maps Names Shape Dims Sizes Deps BuildEq Load Init Final Closed Get Kin KinThm Motion KinMain Smooth Rates Partial Coriolis Mass DynMain Energy Lagrange Regress.
Import ListNotations.
Open Scope nat_scope.
Open Scope string_scope.

(* entries of the regressors *)
Section RegEntries.
  Variable b : robot.
  Let n := numJoints b.
  Variable env : sym -> R.
  Hypothesis Hr1 : cols (mdl b "ddqr") = 1.
  Hypothesis Hr2 : cols (mdl b "dqr") = 1.
  Hypothesis Hr3 : rows (mdl b "ddqr") = n.
  Hypothesis Hr4 : rows (mdl b "dqr") = n.
  Hypothesis Hg : rows (mdl b "par_gravity") = 3 /\ cols (mdl b "par_gravity") = 1.
  Hypothesis Hq : symvec "q" n (mdl b "q").
  Lemma blocks_el f : (forall l, l < n -> rows (f l) = n /\ cols (f l) = 10) ->
    forall k i l c, k <= n -> i < n -> l < k -> c < 10 -> el (blocks b k f) i (l * 10 + c) = el (f l) i c.
  Proof.
    intros HF. induction k as [|k IH]; intros i l c Hk Hi Hl Hc; [lia|]. cbn [blocks set_block el].
    destruct (HF k ltac:(lia)) as [-> ->]. unfold STD_PAR_LINK. rewrite Nat.add_0_l, Nat.sub_0_r, (proj2 (Nat.ltb_lt i n)) by auto. cbn [Nat.leb andb].
    destruct (Nat.eq_dec l k) as [->|N].
    - rewrite (proj2 (Nat.leb_le (k * 10) (k * 10 + c))), (proj2 (Nat.ltb_lt (k * 10 + c) (k * 10 + 10))) by lia. cbn [andb].
      now replace (k * 10 + c - k * 10) with c by lia.
    - rewrite (proj2 (Nat.leb_gt (k * 10) (l * 10 + c))) by lia. cbn [andb]. apply IH; lia.
  Qed.
  Lemma M0_rows l : rows (M0x b l) = n. Proof. cbn. apply Nat.sub_0_r. Qed.
  Lemma M0_cols l : cols (M0x b l) = n. Proof. cbn. apply Nat.sub_0_r. Qed.
  Lemma M1_rows l a : rows (M1x b l a) = n. Proof. cbn. apply Nat.sub_0_r. Qed.
  Lemma M1_cols l a : cols (M1x b l a) = n. Proof. cbn. apply Nat.sub_0_r. Qed.
  Lemma M2_rows l a : rows (M2x b l a) = n. Proof. cbn. apply Nat.sub_0_r. Qed.
  Lemma M2_cols l a : cols (M2x b l a) = n. Proof. cbn. apply Nat.sub_0_r. Qed.
  Lemma MB_rows l c : rows (MB b l c) = n /\ cols (MB b l c) = n.
  Proof.
    destruct c as [|[|[|[|c]]]]; cbn [MB]; rewrite ?M0_rows, ?M1_rows, ?M2_rows, ?M0_cols, ?M1_cols, ?M2_cols; auto.
  Qed.
  Lemma CofM_rows M : rows M = n -> rows (CofM b M) = n.
  Proof. intros H. unfold CofM, stdCmatrix. cbn. exact (sv_r _ _ _ Hq). Qed.
  Lemma CofM_cols M : cols (CofM b M) = n.
  Proof. unfold CofM, stdCmatrix. cbn. exact (sv_r _ _ _ Hq). Qed.

  Lemma mt_rows A B : rows (mtimes A B) = rows A. Proof. reflexivity. Qed.
  Lemma mt_cols A B : cols (mtimes A B) = cols B. Proof. reflexivity. Qed.
  Lemma neg_rows A : rows (mneg A) = rows A. Proof. reflexivity. Qed.
  Lemma neg_cols A : cols (mneg A) = cols A. Proof. reflexivity. Qed.
  Lemma st1_dims l : rows (fst (st1 b l)) = n /\ cols (fst (st1 b l)) = 3 /\ rows (snd (st1 b l)) = n /\ cols (snd (st1 b l)) = 3.
  Proof. unfold st1. cbn [for_ set_block rows cols fst snd zeros]. auto. Qed.
  Lemma st2_dims l : rows (fst (st2 b l)) = n /\ cols (fst (st2 b l)) = 6 /\ rows (snd (st2 b l)) = n /\ cols (snd (st2 b l)) = 6.
  Proof. unfold st2. cbn [for_ set_block rows cols fst snd zeros]. auto. Qed.
  Lemma setcol m c0 v i j : rows v = n -> cols v = 1 -> i < n ->
    el (set_block m 0 c0 v) i j = if Nat.eqb j c0 then el v i 0 else el m i j.
  Proof.
    intros Hr Hc Hi. cbn [set_block el]. rewrite Hr, Hc. cbn [Nat.leb andb]. rewrite Nat.add_0_l, (proj2 (Nat.ltb_lt i n)) by auto. cbn [andb].
    rewrite Nat.sub_0_r. destruct (Nat.eqb_spec j c0) as [->|N].
    - rewrite Nat.leb_refl, (proj2 (Nat.ltb_lt c0 (c0 + 1))) by lia. cbn [andb]. now rewrite Nat.sub_diag.
    - destruct (Nat.leb_spec c0 j), (Nat.ltb_spec j (c0 + 1)); cbn [andb]; auto; lia.
  Qed.
  Lemma st1_el l i c : i < n -> c < 3 ->
    el (fst (st1 b l)) i c = el (mtimes (M1x b l c) (mdl b "ddqr")) i 0 /\
    el (snd (st1 b l)) i c = el (mneg (mtimes (CofM b (M1x b l c)) (mdl b "dqr"))) i 0.
  Proof.
    intros Hi Hc. unfold st1. cbn [for_ fst snd Nat.add].
    split; rewrite !setcol by (rewrite ?neg_rows, ?neg_cols, ?mt_rows, ?mt_cols, ?CofM_rows; auto using M1_rows);
      destruct c as [|[|[|c]]]; try lia; reflexivity.
  Qed.
  Lemma st2_el l i c : i < n -> c < 6 ->
    el (fst (st2 b l)) i c = el (mtimes (M2x b l c) (mdl b "ddqr")) i 0 /\
    el (snd (st2 b l)) i c = el (mneg (mtimes (CofM b (M2x b l c)) (mdl b "dqr"))) i 0.
  Proof.
    intros Hi Hc. unfold st2. cbn [for_ fst snd Nat.add].
    split; rewrite !setcol by (rewrite ?neg_rows, ?neg_cols, ?mt_rows, ?mt_cols, ?CofM_rows; auto using M2_rows);
      destruct c as [|[|[|[|[|[|c]]]]]]; try lia; reflexivity.
  Qed.
  Lemma hc3_el A B C i c : cols A = 1 -> cols B = 3 -> cols C = 6 -> c < 10 ->
    el (horzcat3 A B C) i c = match c with 0 => el A i 0 | 1 => el B i 0 | 2 => el B i 1 | 3 => el B i 2 | S (S (S (S e))) => el C i e end.
  Proof.
    intros HA HB HC Hc. unfold horzcat3. cbn [horzcat2 el cols]. rewrite HA, HB.
    do 10 (destruct c as [|c]; [reflexivity|]). lia.
  Qed.
  Definition GB (l c : nat) (i : nat) : R :=
    match c with 0 => ev env (Z0 b l) i 0 | 1 => ev env (Z1 b l) i 0 | 2 => ev env (Z1 b l) i 1 | 3 => ev env (Z1 b l) i 2 | _ => 0%R end.
  Lemma Z0_dims l : rows (Z0 b l) = n /\ cols (Z0 b l) = 1.
  Proof. cbn. rewrite Nat.sub_0_r. split; auto. apply Hg. Qed.
  Lemma Z1_dims l : rows (Z1 b l) = n /\ cols (Z1 b l) = 3.
  Proof. cbn. rewrite (proj2 Hg). split; auto. exact (sv_r _ _ _ Hq). Qed.
  Lemma X0_dims l : rows (dX0 b l) = n /\ cols (dX0 b l) = 1 /\ rows (W0 b l) = n /\ cols (W0 b l) = 1.
  Proof. unfold dX0, W0. rewrite neg_rows, neg_cols, !mt_rows, !mt_cols, M0_rows, CofM_rows; auto using M0_rows. Qed.
  Lemma regM_el l i c : l < n -> i < n -> c < 10 -> el (regMx b) i (l * 10 + c) = el (mtimes (MB b l c) (mdl b "ddqr")) i 0.
  Proof.
    intros Hl Hi Hc. unfold regMx. fold n. destruct (X0_dims l) as (A1 & A2 & A3 & A4). destruct (st1_dims l) as (B1 & B2 & B3 & B4). destruct (st2_dims l) as (C1 & C2 & C3 & C4).
    rewrite blocks_el by (auto; intros m Hm; unfold regMi; cbn [horzcat3 horzcat2 rows cols];
      destruct (X0_dims m) as (-> & -> & _), (st1_dims m) as (_ & -> & _), (st2_dims m) as (_ & -> & _); auto).
    unfold regMi. rewrite hc3_el by auto.
    destruct c as [|c]; [reflexivity|].
    destruct c as [|c]; [cbn [MB]; exact (proj1 (st1_el l i 0 Hi ltac:(lia)))|].
    destruct c as [|c]; [cbn [MB]; exact (proj1 (st1_el l i 1 Hi ltac:(lia)))|].
    destruct c as [|c]; [cbn [MB]; exact (proj1 (st1_el l i 2 Hi ltac:(lia)))|].
    cbn [MB]. exact (proj1 (st2_el l i c Hi ltac:(lia))).
  Qed.
  Lemma regC_el l i c : l < n -> i < n -> c < 10 ->
    ev env (regCx b) i (l * 10 + c) = ev env (mtimes (CofM b (MB b l c)) (mdl b "dqr")) i 0.
  Proof.
    intros Hl Hi Hc. unfold ev, regCx. fold n. destruct (X0_dims l) as (A1 & A2 & A3 & A4). destruct (st1_dims l) as (B1 & B2 & B3 & B4). destruct (st2_dims l) as (C1 & C2 & C3 & C4).
    rewrite blocks_el by (auto; intros m Hm; unfold regCi; cbn [horzcat3 horzcat2 rows cols mneg];
      destruct (X0_dims m) as (_ & _ & -> & ->), (st1_dims m) as (_ & _ & _ & ->), (st2_dims m) as (_ & _ & _ & ->); auto).
    unfold regCi. rewrite hc3_el by (rewrite ?neg_cols; auto).
    assert (N : forall e, eval env (Opp (Opp e)) = eval env e) by (intros; cbn [eval]; ring).
    destruct c as [|c]; [cbn [MB mneg el W0]; apply N|].
    destruct c as [|c]; [cbn [MB mneg el]; rewrite (proj2 (st1_el l i 0 Hi ltac:(lia))); cbn [mneg el]; apply N|].
    destruct c as [|c]; [cbn [MB mneg el]; rewrite (proj2 (st1_el l i 1 Hi ltac:(lia))); cbn [mneg el]; apply N|].
    destruct c as [|c]; [cbn [MB mneg el]; rewrite (proj2 (st1_el l i 2 Hi ltac:(lia))); cbn [mneg el]; apply N|].
    cbn [MB mneg el]. rewrite (proj2 (st2_el l i c Hi ltac:(lia))). cbn [mneg el]. apply N.
  Qed.
  Lemma regG_el l i c : l < n -> i < n -> c < 10 -> ev env (regGx b) i (l * 10 + c) = GB l c i.
  Proof.
    intros Hl Hi Hc. unfold ev, regGx. fold n. destruct (Z0_dims l) as (A1 & A2). destruct (Z1_dims l) as (B1 & B2).
    rewrite blocks_el by (auto; intros m Hm; unfold regGi; cbn [horzcat3 horzcat2 rows cols zeros];
      destruct (Z0_dims m) as (-> & ->), (Z1_dims m) as (_ & ->); auto).
    unfold regGi. rewrite hc3_el by auto. unfold GB, ev.
    do 4 (destruct c as [|c]; [reflexivity|]). reflexivity.
  Qed.
  Lemma Yr_el l i c : l < n -> i < n -> c < 10 ->
    ev env (Yrx b) i (l * 10 + c) = (ev env (regMx b) i (l * 10 + c) + ev env (regCx b) i (l * 10 + c) + ev env (regGx b) i (l * 10 + c))%R.
  Proof.
    intros Hl Hi Hc. rewrite regC_el, regG_el by auto. unfold ev at 2. rewrite regM_el by auto.
    unfold ev at 1, Yrx. fold n. destruct (X0_dims l) as (A1 & A2 & A3 & A4). destruct (st1_dims l) as (B1 & B2 & B3 & B4). destruct (st2_dims l) as (C1 & C2 & C3 & C4).
    rewrite blocks_el by (auto; intros m Hm; unfold Yri; cbn [horzcat3 horzcat2 rows cols madd msub];
      destruct (X0_dims m) as (-> & -> & _), (st1_dims m) as (_ & -> & _), (st2_dims m) as (_ & -> & _); auto).
    unfold Yri. rewrite hc3_el by (cbn [madd msub cols]; auto).
    destruct c as [|c]; [cbn [MB GB madd msub el eval W0 mneg]; unfold ev, W0; cbn [mneg el eval]; unfold dX0; ring|].
    destruct c as [|c]; [cbn [MB GB madd msub el eval]; destruct (st1_el l i 0 Hi ltac:(lia)) as [U1 U2]; rewrite U1, U2; unfold ev; cbn [mneg el eval]; ring|].
    destruct c as [|c]; [cbn [MB GB madd msub el eval]; destruct (st1_el l i 1 Hi ltac:(lia)) as [U1 U2]; rewrite U1, U2; unfold ev; cbn [mneg el eval]; ring|].
    destruct c as [|c]; [cbn [MB GB madd msub el eval]; destruct (st1_el l i 2 Hi ltac:(lia)) as [U1 U2]; rewrite U1, U2; unfold ev; cbn [mneg el eval]; ring|].
    cbn [MB GB msub el eval]. destruct (st2_el l i c Hi ltac:(lia)) as [U1 U2]. rewrite U1, U2. unfold ev. cbn [mneg el eval]. ring.
  Qed.
End RegEntries.
