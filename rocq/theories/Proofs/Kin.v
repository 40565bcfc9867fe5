(* Values of the transforms and Jacobians: a chain of frames over the reals. *)
From Coq Require Import Reals Lra Lia Arith List String Bool ZArith.
From Verif.Model Require Import Base Expr SX Robot Kinematics Dynamics Regressors.
From Verif.Spec Require Import Math.
From Verif.Proofs Require Import Sums Calc Lin3 Frames Pure PureRel.
Import ListNotations.
Open Scope nat_scope.
Open Scope string_scope.

Definition vcomp (v : vec) (a : nat) : R := match a with 0 => vx v | 1 => vy v | _ => vz v end.
Definition mcomp (A : mtx) (a c : nat) : R :=
  match a, c with
  | 0, 0 => m00 A | 0, 1 => m01 A | 0, _ => m02 A
  | 1, 0 => m10 A | 1, 1 => m11 A | 1, _ => m12 A
  | _, 0 => m20 A | _, 1 => m21 A | _, _ => m22 A
  end.
Definition mtx_of (f : nat -> nat -> R) : mtx :=
  M3 (f 0 0) (f 0 1) (f 0 2) (f 1 0) (f 1 1) (f 1 2) (f 2 0) (f 2 1) (f 2 2).
Definition vec_of (f : nat -> R) : vec := V3 (f 0) (f 1) (f 2).
Lemma mcomp_of f a c : a < 3 -> c < 3 -> mcomp (mtx_of f) a c = f a c.
Proof. intros. destruct a as [|[|[|a]]]; try lia; destruct c as [|[|[|c]]]; try lia; reflexivity. Qed.
Lemma vcomp_of f a : a < 3 -> vcomp (vec_of f) a = f a.
Proof. intros. destruct a as [|[|[|a]]]; try lia; reflexivity. Qed.
Lemma mtx_of_ext f A : (forall a c, a < 3 -> c < 3 -> f a c = mcomp A a c) -> mtx_of f = A.
Proof. intros H. unfold mtx_of. rewrite !H by lia. destruct A; reflexivity. Qed.
Lemma vec_of_ext f v : (forall a, a < 3 -> f a = vcomp v a) -> vec_of f = v.
Proof. intros H. unfold vec_of. rewrite !H by lia. destruct v; reflexivity. Qed.

(* cosine and sine as used by the code *)
Definition cz (env : sym -> R) (a : expr) : R := eval env (ZIS (Cos a)).
Definition sz (env : sym -> R) (a : expr) : R := eval env (ZIS (Sin a)).
Lemma const_eval env e : is_constant e = true -> eval env e = const_value e.
Proof.
  unfold const_value. induction e; simpl; intros H; auto; try discriminate;
    try (apply andb_prop in H; destruct H; rewrite IHe1, IHe2; auto); rewrite IHe; auto.
Qed.
Lemma sz_neg env a : eval env (ZIS (Opp (Sin a))) = (- sz env a)%R.
Proof.
  unfold sz, ZIS. simpl. destruct (is_constant a) eqn:E; auto.
  unfold const_value. simpl. rewrite Rabs_Ropp.
  destruct (Rlt_dec _ _); simpl; lra.
Qed.

Definition rot3 (env : sym -> R) (T : sx) : mtx := mtx_of (ev env T).
Definition pos3 (env : sym -> R) (T : sx) : vec := vec_of (fun a => ev env T a 3).
Definition last_row (env : sym -> R) (T : sx) : Prop :=
  ev env T 3 0 = 0%R /\ ev env T 3 1 = 0%R /\ ev env T 3 2 = 0%R /\ ev env T 3 3 = 1%R.

Ltac evs := cbn -[eval ZIS Rplus Rmult Ropp IZR] in *.

(* homogeneous matrices *)
Lemma rot_homog env A p : rows A = 3 -> cols A = 3 -> rows p = 3 -> cols p = 1 ->
  rot3 env (homog A p) = mtx_of (ev env A) /\ pos3 env (homog A p) = vec_of (fun a => ev env p a 0) /\
  last_row env (homog A p).
Proof.
  intros H1 H2 H3 H4. unfold rot3, pos3, last_row, homog, ev, mtx_of, vec_of. cbn. rewrite H1, H2, H3, H4. cbn.
  repeat split.
Qed.
Lemma rot_mtimes env A B : cols A = 4 -> last_row env B ->
  rot3 env (mtimes A B) = mm (rot3 env A) (rot3 env B) /\
  pos3 env (mtimes A B) = vadd (mv (rot3 env A) (pos3 env B)) (pos3 env A) /\
  (last_row env A -> last_row env (mtimes A B)).
Proof.
  intros H1 (L0 & L1 & L2 & L3). unfold ev in L0, L1, L2, L3. split; [|split].
  - unfold rot3, mtx_of, ev. cbn [mtimes el]. rewrite H1. cbn [esum eval]. unfold mm. cbn.
    apply M3_eq; rewrite ?L0, ?L1, ?L2; ring.
  - unfold rot3, pos3, mtx_of, vec_of, ev. cbn [mtimes el]. rewrite H1. cbn [esum eval]. unfold vadd, mv. cbn.
    apply V3_eq; rewrite ?L3; ring.
  - intros (A0 & A1 & A2 & A3). unfold last_row, ev in *. cbn [mtimes el]. rewrite H1. cbn [esum eval].
    rewrite ?A0, ?A1, ?A2, ?A3, ?L0, ?L1, ?L2, ?L3. repeat split; ring.
Qed.
Lemma mm_of env A B : cols A = 3 -> mtx_of (ev env (mtimes A B)) = mm (mtx_of (ev env A)) (mtx_of (ev env B)).
Proof.
  intros H. unfold mtx_of, ev. cbn [mtimes el]. rewrite H. cbn [esum eval]. unfold mm. cbn. apply M3_eq; ring.
Qed.
Lemma Rx_of env a : mtx_of (ev env (R_x a)) = Rx3 (cz env (sc a)) (sz env (sc a)).
Proof. unfold mtx_of, ev, Rx3. cbn -[ZIS]. rewrite sz_neg. reflexivity. Qed.
Lemma Ry_of env a : mtx_of (ev env (R_y a)) = Ry3 (cz env (sc a)) (sz env (sc a)).
Proof. unfold mtx_of, ev, Ry3. cbn -[ZIS]. rewrite sz_neg. reflexivity. Qed.
Lemma Rz_of env a : mtx_of (ev env (R_z a)) = Rz3 (cz env (sc a)) (sz env (sc a)).
Proof. unfold mtx_of, ev, Rz3. cbn -[ZIS]. rewrite sz_neg. reflexivity. Qed.

Definition frame_rot (env : sym -> R) (f : sx) : mtx :=
  mm (mm (Rz3 (cz env (el f 3 0)) (sz env (el f 3 0))) (Ry3 (cz env (el f 4 0)) (sz env (el f 4 0))))
     (Rx3 (cz env (el f 5 0)) (sz env (el f 5 0))).
Definition frame_pos (env : sym -> R) (f : sx) : vec := V3 (ev env f 0 0) (ev env f 1 0) (ev env f 2 0).
Lemma frame_of env f :
  rot3 env (get_transform f) = frame_rot env f /\ pos3 env (get_transform f) = frame_pos env f /\
  last_row env (get_transform f).
Proof.
  unfold get_transform.
  match goal with |- context [homog ?A ?p] => destruct (rot_homog env A p) as (E1 & E2 & E3); auto end.
  rewrite E1, E2. split; [|split]; auto.
  rewrite !mm_of, Rx_of, Ry_of, Rz_of by reflexivity. reflexivity.
Qed.

Section Kin.
  Variable b : robot.
  Let n := numJoints b.

  Definition prismatic (j : nat) : bool := is_P (jtype b j).
  Definition chain_of (env : sym -> R) : chain :=
    mkChain (frame_rot env (mdl b "par_world2L0")) (frame_pos env (mdl b "par_world2L0"))
      (fun i => Rx3 (cz env (el (mdl b "par_DHtable") (i * 4 + 1) 0)) (sz env (el (mdl b "par_DHtable") (i * 4 + 1) 0)))
      (fun i => Rz3 (cz env (sc (thx b i))) (sz env (sc (thx b i))))
      (fun i => ev env (mdl b "par_DHtable") (i * 4) 0)
      (fun i => eval env (sc (dx_ b i))).

  Lemma cols_T0x i : cols (T0x b i) = 4.
  Proof. destruct i; reflexivity. Qed.
  Lemma Tlx_val env i :
    rot3 env (Tlx b i) = mm (cA (chain_of env) i) (cZ (chain_of env) i) /\
    pos3 env (Tlx b i) = lpos (chain_of env) i /\ last_row env (Tlx b i).
  Proof.
    unfold Tlx.
    match goal with |- context [homog ?A ?p] => destruct (rot_homog env A p) as (E1 & E2 & E3); auto end.
    rewrite E1, E2. split; [|split]; auto.
    - rewrite mm_of, Rx_of, Rz_of by reflexivity. reflexivity.
    - unfold lpos, chain_of. cbn [cA cd ca]. unfold vec_of, ev. cbn -[ZIS dx_].
      rewrite sz_neg, Nat.add_0_r. unfold vadd, mv, Rx3. cbn -[ZIS dx_].
      apply V3_eq; unfold cz, sz; ring.
  Qed.
  Lemma T0x_val env i :
    rot3 env (T0x b i) = FR (chain_of env) i /\ pos3 env (T0x b i) = FP (chain_of env) i /\
    last_row env (T0x b i).
  Proof.
    induction i as [|i (I1 & I2 & I3)].
    - cbn [T0x FR FP chain_of cR0 cp0]. apply frame_of.
    - destruct (Tlx_val env i) as (L1 & L2 & L3). cbn [T0x FR FP].
      destruct (rot_mtimes env (T0x b i) (Tlx b i) (cols_T0x i) L3) as (E1 & E2 & E3).
      rewrite E1, E2, I1, I2, L1, L2. auto.
  Qed.
  Definition ee_rot env : mtx := frame_rot env (mdl b "par_Ln2EE").
  Definition ee_pos env : vec := frame_pos env (mdl b "par_Ln2EE").
  Lemma Teex_val env :
    rot3 env (Teex b) = mm (FR (chain_of env) n) (ee_rot env) /\
    pos3 env (Teex b) = vadd (mv (FR (chain_of env) n) (ee_pos env)) (FP (chain_of env) n) /\
    last_row env (Teex b).
  Proof.
    unfold Teex. fold n. destruct (T0x_val env n) as (I1 & I2 & I3).
    destruct (frame_of env (mdl b "par_Ln2EE")) as (L1 & L2 & L3).
    destruct (rot_mtimes env (T0x b n) _ (cols_T0x n) L3) as (E1 & E2 & E3).
    rewrite E1, E2, I1, I2, L1, L2. auto.
  Qed.

  (* Jacobian columns *)
  Lemma axis_val env j a : a < 3 -> ev env (axis_of (T0x b (j + 1))) a 0 = vcomp (axis (chain_of env) j) a.
  Proof.
    intros Ha. destruct (T0x_val env (j + 1)) as (I1 & I2 & I3). unfold axis.
    rewrite Nat.add_1_r in *. rewrite <- I1. unfold axis_of, ev, rot3, mtx_of, mv, ez, ev. cbn -[T0x].
    destruct a as [|[|[|a]]]; try lia; cbn -[T0x]; ring.
  Qed.
  Lemma tra_val env i a : a < 3 -> ev env (tra_of (T0x b i)) a 0 = vcomp (FP (chain_of env) i) a.
  Proof.
    intros Ha. destruct (T0x_val env i) as (I1 & I2 & I3). rewrite <- I2.
    unfold tra_of, pos3, ev, vec_of. cbn -[T0x]. destruct a as [|[|[|a]]]; try lia; reflexivity.
  Qed.
  Lemma rot_val env i a c : a < 3 -> c < 3 -> ev env (rot_of (T0x b i)) a c = mcomp (FR (chain_of env) i) a c.
  Proof.
    intros Ha Hc. destruct (T0x_val env i) as (I1 & I2 & I3). rewrite <- I1. unfold rot3. rewrite mcomp_of by auto.
    reflexivity.
  Qed.

  Definition jdims (J : sx * sx) : Prop :=
    rows (fst J) = 3 /\ cols (fst J) = n /\ rows (snd J) = 3 /\ cols (snd J) = n.
  Lemma jcol_dims O j J : jdims J -> jdims (jcol b O j J).
  Proof. destruct J as [Jp Jo]. unfold jcol, jdims. simpl. destruct (is_P _); simpl; auto. Qed.

  Lemma col_range c j : (Nat.leb j c && Nat.ltb c (j + 1)) = Nat.eqb c j.
  Proof.
    destruct (Nat.eqb_spec c j) as [->|N].
    - rewrite Nat.leb_refl. simpl. apply Nat.ltb_lt. lia.
    - destruct (Nat.leb_spec j c); simpl; auto. apply Nat.ltb_ge. lia.
  Qed.
  Lemma set_col_val env m j v a c : rows v = 3 -> cols v = 1 -> a < 3 ->
    ev env (set_block m 0 j v) a c = if Nat.eqb c j then ev env v a 0 else ev env m a c.
  Proof.
    intros Hr Hc Ha. unfold ev. cbn [set_block el]. rewrite Hr, Hc. cbn [Nat.leb Nat.add andb].
    rewrite (proj2 (Nat.ltb_lt a 3) Ha). cbn [andb]. rewrite col_range.
    destruct (Nat.eqb_spec c j) as [->|N]; auto. now rewrite Nat.sub_diag, Nat.sub_0_r.
  Qed.
  Lemma hat_val env v w a : cols w = 1 -> a < 3 ->
    ev env (mtimes (hat v) w) a 0 =
    vcomp (cross (vec_of (fun a => ev env v a 0)) (vec_of (fun a => ev env w a 0))) a.
  Proof.
    intros Hw Ha. unfold ev, vec_of, cross. cbn. destruct a as [|[|[|a]]]; try lia; cbn; ring.
  Qed.
  Lemma vsub3_of f g : vec_of (fun a => (f a - g a)%R) = vsub3 (vec_of f) (vec_of g).
  Proof. reflexivity. Qed.

  Lemma jcol_val env O P j J a c : cols O = 1 -> vec_of (fun a => ev env O a 0) = P -> a < 3 ->
    ev env (fst (jcol b O j J)) a c =
      (if Nat.eqb c j then vcomp (vcol prismatic (chain_of env) P j) a else ev env (fst J) a c) /\
    ev env (snd (jcol b O j J)) a c =
      (if Nat.eqb c j then (if prismatic j then ev env (snd J) a c else vcomp (axis (chain_of env) j) a)
       else ev env (snd J) a c).
  Proof.
    intros HC HO Ha. destruct J as [Jp Jo]. unfold jcol, vcol, prismatic.
    pose proof (axis_val env j) as HA. pose proof (tra_val env (j + 1)) as HT.
    destruct (is_P (jtype b j)); cbn [fst snd].
    - rewrite set_col_val by auto. rewrite HA by auto. split; auto. destruct (Nat.eqb c j); auto.
    - rewrite !set_col_val by (auto; cbn; auto). rewrite HA by auto. split; auto.
      destruct (Nat.eqb c j); auto. rewrite hat_val by auto. f_equal. f_equal.
      + apply vec_of_ext. auto.
      + change (vec_of (fun a0 => (ev env O a0 0 - ev env (tra_of (T0x b (j + 1))) a0 0)%R) =
                vsub3 P (FP (chain_of env) (S j))).
        rewrite vsub3_of, HO. f_equal. rewrite Nat.add_1_r in HT. rewrite Nat.add_1_r. apply vec_of_ext. auto.
  Qed.
  Lemma jfor_val env O P k J a c : cols O = 1 -> vec_of (fun a => ev env O a 0) = P -> a < 3 ->
    (forall j, prismatic j = true -> ev env (snd J) a j = 0%R) ->
    ev env (fst (for_ k 0 (jcol b O) J)) a c =
      (if Nat.ltb c k then vcomp (vcol prismatic (chain_of env) P c) a else ev env (fst J) a c) /\
    ev env (snd (for_ k 0 (jcol b O) J)) a c =
      (if Nat.ltb c k then vcomp (wcol prismatic (chain_of env) c) a else ev env (snd J) a c).
  Proof.
    intros HC HO Ha HJ. induction k as [|k IH]; [auto|].
    rewrite for_S. destruct IH as [I1 I2].
    destruct (jcol_val env O P (0 + k) (for_ k 0 (jcol b O) J) a c HC HO Ha) as [E1 E2].
    rewrite E1, E2, I1, I2. cbn [Nat.add].
    destruct (Nat.eqb_spec c k) as [->|N].
    - rewrite Nat.ltb_irrefl, (proj2 (Nat.ltb_lt k (S k)) (Nat.lt_succ_diag_r k)).
      split; auto. unfold wcol. destruct (prismatic k) eqn:E; auto.
      rewrite HJ by auto. destruct a as [|[|a]]; reflexivity.
    - replace (Nat.ltb c (S k)) with (Nat.ltb c k); auto.
      destruct (Nat.ltb_spec c k), (Nat.ltb_spec c (S k)); auto; lia.
  Qed.

  (* linear and angular blocks of the Jacobian of a point of link i (1-based) *)
  Definition jl (env : sym -> R) (P : vec) (i : nat) (a c : nat) : R :=
    if Nat.ltb c i then vcomp (vcol prismatic (chain_of env) P c) a else 0%R.
  Definition jw (env : sym -> R) (i : nat) (a c : nat) : R :=
    if Nat.ltb c i then vcomp (wcol prismatic (chain_of env) c) a else 0%R.
  Lemma jw_prism env i a c : prismatic c = true -> jw env i a c = 0%R.
  Proof.
    intros H. unfold jw, wcol. rewrite H. destruct (Nat.ltb c i); auto. destruct a as [|[|a]]; reflexivity.
  Qed.

  Lemma Jst_val env i a c : i <= n -> a < 3 ->
    (1 <= i -> ev env (fst (Jst b i)) a c = jl env (FP (chain_of env) i) i a c) /\
    ev env (snd (Jst b i)) a c = jw env i a c.
  Proof.
    intros Hi Ha. revert c. induction i as [|i IH]; intros c.
    - split; [lia|]. unfold jw. cbn. reflexivity.
    - cbn [Jst]. unfold jstep. fold n. rewrite (proj2 (Nat.ltb_lt i n)) by lia.
      destruct (Nat.eqb_spec i n) as [|_]; [lia|].
      assert (HO : vec_of (fun a => ev env (tra_of (T0x b (i + 1))) a 0) = FP (chain_of env) (i + 1)).
      { apply vec_of_ext. intros; apply tra_val; auto. }
      assert (HP : forall j, prismatic j = true -> ev env (snd (Jst b i)) a j = 0%R).
      { intros j Hj. rewrite (proj2 (IH ltac:(lia) j)). apply jw_prism; auto. }
      destruct (jfor_val env (tra_of (T0x b (i + 1))) _ (i + 1) (Jst b i) a c eq_refl HO Ha HP) as [E1 E2].
      destruct (for_ (i + 1) 0 _ _) as [Jp Jo]. cbn [fst snd] in *. rewrite E1, E2.
      rewrite Nat.add_1_r in *. unfold jl, jw.
      destruct (IH ltac:(lia) c) as [I1 I2]. rewrite I2. unfold jw.
      destruct (Nat.ltb_spec c (S i)); [split; auto|].
      assert (E : Nat.ltb c i = false) by (apply Nat.ltb_ge; lia). rewrite E. split; auto. intros _.
      destruct i as [|i]; [cbn; reflexivity|]. rewrite I1 by lia. unfold jl. now rewrite E.
  Qed.
  Lemma Jst_rows i : rows (fst (Jst b i)) = 3 /\ rows (snd (Jst b i)) = 3 /\ cols (fst (Jst b i)) = n /\ cols (snd (Jst b i)) = n.
  Proof.
    assert (HF : forall O k J, jdims J -> jdims (for_ k 0 (jcol b O) J)).
    { intros O k J HJ. apply (for_ind (fun _ => jdims)); auto. intros; apply jcol_dims; auto. }
    assert (HJ : jdims (Jst b i)).
    { induction i; [repeat split|]. cbn [Jst]. unfold jstep.
      match goal with |- context [for_ ?k 0 (jcol b ?O) ?J] => pose proof (HF O k J IHi) as HH; destruct (for_ k 0 (jcol b O) J) end.
      destruct HH as (A & B & C & D). simpl in *. destruct (Nat.eqb i (numJoints b)); repeat split; auto. }
    destruct HJ as (A & B & C & D); auto.
  Qed.
  Lemma Jx_el i a c : el (Jx b i) a c = if Nat.ltb a 3 then el (fst (Jst b (S i))) a c else el (snd (Jst b (S i))) (a - 3) c.
  Proof.
    unfold Jx. pose proof (Jst_rows (S i)) as (A & _). destruct (Jst b (S i)) as [Jp Jo]. cbn [fst snd vertcat2 el] in *. now rewrite A.
  Qed.
  (* J_{i+1} *)
  Lemma Jx_lin env i a c : i < n -> a < 3 -> ev env (Jx b i) a c = jl env (FP (chain_of env) (S i)) (S i) a c.
  Proof.
    intros Hi Ha. unfold ev. rewrite Jx_el, (proj2 (Nat.ltb_lt a 3)) by auto. apply Jst_val; lia.
  Qed.
  Lemma Jx_ang env i a c : i < n -> a < 3 -> ev env (Jx b i) (3 + a) c = jw env (S i) a c.
  Proof.
    intros Hi Ha. unfold ev. rewrite Jx_el, (proj2 (Nat.ltb_ge (3 + a) 3)) by lia.
    replace (3 + a - 3) with a by lia. apply Jst_val; lia.
  Qed.
  (* J_ee *)
  Definition tool (env : sym -> R) : vec := vadd (mv (FR (chain_of env) n) (ee_pos env)) (FP (chain_of env) n).

  Lemma Jee_ang env a c : 1 <= n -> a < 3 -> ev env (Jeex b) (3 + a) c = jw env n a c.
  Proof.
    intros Hn Ha. unfold ev, Jeex. fold n. rewrite Jx_el, (proj2 (Nat.ltb_ge (3 + a) 3)) by lia.
    replace (3 + a - 3) with a by lia. cbn [Jst]. unfold jstep. fold n. rewrite Nat.ltb_irrefl, Nat.eqb_refl.
    replace (n - 1 + 1) with n by lia.
    assert (HO : vec_of (fun a => ev env (tra_of (T0x b n)) a 0) = FP (chain_of env) n).
    { apply vec_of_ext. intros; apply tra_val; auto. }
    assert (HP : forall j, prismatic j = true -> ev env (snd (Jst b n)) a j = 0%R).
    { intros j Hj. destruct (Jst_val env n a j) as [_ ->]; auto. apply jw_prism; auto. }
    destruct (jfor_val env (tra_of (T0x b n)) _ n (Jst b n) a c eq_refl HO Ha HP) as [E1 E2].
    destruct (for_ n 0 _ _) as [Jp Jo]. cbn [fst snd] in *. unfold ev in E2. rewrite E2.
    destruct (Jst_val env n a c) as [_ E]; auto. unfold ev in E. rewrite E. unfold jw. destruct (Nat.ltb c n); auto.
  Qed.
  Lemma jl_shift env P Q i a c : is_rot (FR (chain_of env) i) -> a < 3 ->
    jl env P i a c = (jl env Q i a c + vcomp (cross (vec_of (fun a => jw env i a c)) (vsub3 P Q)) a)%R.
  Proof.
    intros _ Ha. unfold jl, jw. destruct (Nat.ltb c i).
    - rewrite (vec_of_ext _ (wcol prismatic (chain_of env) c)) by auto.
      unfold vcol, wcol. destruct (prismatic c).
      + destruct a as [|[|a]]; cbn; ring.
      + destruct a as [|[|a]]; cbn; ring.
    - destruct a as [|[|a]]; cbn; ring.
  Qed.
  Lemma Jee_lin env a c : 1 <= n -> a < 3 -> is_rot (FR (chain_of env) n) ->
    ev env (Jeex b) a c = jl env (tool env) n a c.
  Proof.
    intros Hn Ha Hrot. rewrite (jl_shift env (tool env) (FP (chain_of env) n)) by auto.
    unfold ev, Jeex. fold n. rewrite Jx_el, (proj2 (Nat.ltb_lt a 3)) by lia.
    cbn [Jst]. unfold jstep. fold n. rewrite Nat.ltb_irrefl, Nat.eqb_refl.
    replace (n - 1 + 1) with n by lia.
    assert (HO : vec_of (fun a => ev env (tra_of (T0x b n)) a 0) = FP (chain_of env) n).
    { apply vec_of_ext. intros; apply tra_val; auto. }
    assert (HP : forall a, a < 3 -> forall j, prismatic j = true -> ev env (snd (Jst b n)) a j = 0%R).
    { intros a0 H0 j Hj. destruct (Jst_val env n a0 j) as [_ ->]; auto. apply jw_prism; auto. }
    assert (E : forall a, a < 3 ->
       ev env (fst (for_ n 0 (jcol b (tra_of (T0x b n))) (Jst b n))) a c = jl env (FP (chain_of env) n) n a c /\
       ev env (snd (for_ n 0 (jcol b (tra_of (T0x b n))) (Jst b n))) a c = jw env n a c).
    { intros a0 H0. destruct (jfor_val env (tra_of (T0x b n)) _ n (Jst b n) a0 c eq_refl HO H0 (HP a0 H0)) as [E1 E2].
      destruct (Jst_val env n a0 c) as [F1 F2]; auto. rewrite E1, E2, F1, F2 by auto. unfold jl, jw.
      destruct (Nat.ltb c n); auto. }
    destruct (for_ n 0 _ _) as [Jp Jo] eqn:HF. cbn [fst snd] in *. cbn [msub el eval].
    pose proof (proj1 (E a Ha)) as E1. unfold ev in E1. rewrite E1. unfold Rminus. f_equal.
    assert (HW : forall a, a < 3 -> eval env (el Jo a c) = jw env n a c) by (intros; apply E; auto).
    pose proof (fun a c => rot_val env n a c) as HR. unfold ev in HR.
    destruct (frame_of env (mdl b "par_Ln2EE")) as (_ & HE & _). unfold pos3, ev, vec_of in HE.
    remember (get_transform (mdl b "par_Ln2EE")) as TE.
    cbn [mtimes4 mtimes3 mtimes el cols rot_of sub mT hat esum eval Nat.sub rows] in HR |- *.
    unfold mtimes4, mtimes3. cbn [mtimes el cols rot_of sub mT hat esum eval Nat.sub rows tra_of].
    rewrite !HW by lia.
    cbn [rot_of sub el] in HR. rewrite !HR by lia. cbn [Nat.add]. 
    assert (HEc : eval env (el TE 0 3) = vx (ee_pos env) /\ eval env (el TE 1 3) = vy (ee_pos env) /\ eval env (el TE 2 3) = vz (ee_pos env)).
    { unfold ee_pos. rewrite <- HE. auto. }
    destruct HEc as (-> & -> & ->).
    transitivity (- vcomp (mv (mm (mm (FR (chain_of env) n) (hat3 (ee_pos env))) (mt (FR (chain_of env) n))) (vec_of (fun a => jw env n a c))) a)%R.
    - unfold vec_of, mv, mm, hat3, mt. destruct a as [|[|[|a]]]; try lia; cbn -[jw]; ring.
    - rewrite <- rot_hat by auto. unfold tool.
      generalize (mv (FR (chain_of env) n) (ee_pos env)) (FP (chain_of env) n) (vec_of (fun a => jw env n a c)).
      intros u v w. destruct u, v, w, a as [|[|a]]; cbn; ring.
  Qed.
  (* centre of mass Jacobians *)
  Definition com (env : sym -> R) (i : nat) : vec :=
    V3 (ev env (mdl b "par_DYN") (i * 10 + 0 + 1) 0) (ev env (mdl b "par_DYN") (i * 10 + 1 + 1) 0) (ev env (mdl b "par_DYN") (i * 10 + 2 + 1) 0).
  Definition cpos (env : sym -> R) (i : nat) : vec :=
    vadd (FP (chain_of env) (S i)) (mv (FR (chain_of env) (S i)) (com env i)).
  Lemma OCx_val env i : vec_of (fun a => ev env (OCx b i) a 0) = cpos env i.
  Proof.
    apply vec_of_ext. intros a Ha.
    pose proof (tra_val env (i + 1)) as HT. pose proof (rot_val env (i + 1)) as HR. unfold ev in HT, HR.
    unfold ev, OCx. cbn [madd el eval]. rewrite HT by auto.
    cbn [mtimes el cols rot_of sub Nat.sub esum eval] in HR |- *. rewrite !HR by lia.
    unfold par_com, STD_PAR_LINK. cbn [set_at el scal sc mat_at zeros Nat.eqb andb].
    rewrite Nat.add_1_r in *. unfold cpos, com, ev.
    generalize (FP (chain_of env) (S i)) (FR (chain_of env) (S i)). intros v A.
    destruct v, A, a as [|[|[|a]]]; try lia; cbn -[Nat.mul Nat.add]; ring.
  Qed.
  Lemma Cst_val env i a c : i <= n -> a < 3 ->
    (forall k, i = S k -> ev env (fst (Cst_ b i)) a c = jl env (cpos env k) i a c) /\
    ev env (snd (Cst_ b i)) a c = jw env i a c.
  Proof.
    intros Hi Ha. revert c. induction i as [|i IH]; intros c.
    - split; [discriminate|]. unfold jw. cbn. reflexivity.
    - cbn [Cst_]. unfold cstep.
      assert (HP : forall j, prismatic j = true -> ev env (snd (Cst_ b i)) a j = 0%R).
      { intros j Hj. rewrite (proj2 (IH ltac:(lia) j)). apply jw_prism; auto. }
      destruct (jfor_val env (OCx b i) _ (i + 1) (Cst_ b i) a c eq_refl (OCx_val env i) Ha HP) as [E1 E2].
      rewrite E1, E2. rewrite Nat.add_1_r in *. unfold jl, jw.
      destruct (IH ltac:(lia) c) as [I1 I2]. rewrite I2. unfold jw.
      destruct (Nat.ltb_spec c (S i)); [split; auto|].
      { intros k [= <-]. reflexivity. }
      assert (E : Nat.ltb c i = false) by (apply Nat.ltb_ge; lia). rewrite E. split; auto. intros k [= <-].
      destruct i as [|i]; [cbn; reflexivity|]. rewrite (I1 i) by lia. unfold jl. now rewrite E.
  Qed.
  Lemma Jcv_val env i a c : i < n -> a < 3 -> ev env (Jcv b i) a c = jl env (cpos env i) (S i) a c.
  Proof. intros. apply Cst_val; auto. Qed.
  Lemma Jcw_val env i a c : i < n -> a < 3 -> ev env (Jcw b i) a c = jw env (S i) a c.
  Proof. intros. apply Cst_val; auto. Qed.
End Kin.
