(* Whole turns of revolute joints: every published function but the spring force sees a revolute joint variable
   only inside the sine and cosine of its joint angle, and differentiation keeps it so. *)
From Coq Require Import Reals Lra Lia Arith List String Bool ZArith.
From Coquelicot Require Import Coquelicot.
From Verif.Model Require Import Base Expr SX Robot Kinematics Dynamics Regressors Yaml Build.
From Verif.Spec Require Import Math Setup Kinematics Api Tail.
From Verif.Proofs Require Import Calc Rel Pure PureRel Maps Names Shape Dims Sizes Deps BuildEq Load Init Final Closed Get KinThm Catalogue Tail.
Import ListNotations.
Open Scope nat_scope.
Open Scope string_scope.

Section Safe.
  Variable turning : sym -> Prop.
  (* turning symbols occur only as the second term of a sum directly under sine or cosine *)
  Fixpoint safe (e : expr) : Prop :=
    match e with
    | Cst _ => True
    | Var s => ~ turning s
    | Add a b | Sub a b | Mul a b | Div a b => safe a /\ safe b
    | Opp a | Sqrt a => safe a
    | Pow a _ => safe a
    | Sin a | Cos a => match a with Add c (Var _) => safe c | _ => safe a end
    end.
  Definition angle (a : expr) : Prop := match a with Add c (Var _) => safe c | _ => safe a end.
  Lemma safe_angle a : safe a -> angle a.
  Proof. destruct a; auto. destruct a2; auto. intros [H _]. exact H. Qed.
  Lemma safe_diff_both v e : (safe e -> safe (diff v e)) /\ (angle e -> safe (diff v e)).
  Proof.
    assert (W : forall P Q R : Prop, (P -> R) -> (Q -> P) -> (P -> R) /\ (Q -> R)) by tauto.
    induction e as [r|s|a [IHa _] b [IHb _]|a [IHa _] b [IHb _]|a [IHa _] b [IHb _]|a [IHa _] b [IHb _]|a [IHa _]|a [_ IHa]|a [_ IHa]|a [IHa _]|a [IHa _] n].
    1, 2, 4-11: apply W; [|intros H; exact H]; cbn [safe diff].
    - auto.
    - intros _. destruct (sym_eqb v s); exact I.
    - intros [H1 H2]. destruct (occurs v a), (occurs v b); cbn [safe]; auto.
    - intros [H1 H2]. destruct (occurs v a), (occurs v b); cbn [safe]; auto.
    - intros [H1 H2]. destruct (occurs v a), (occurs v b); cbn [safe]; repeat split; auto.
    - intros H. destruct (occurs v a); cbn [safe]; auto.
    - intros H. destruct (occurs v a); cbn [safe]; auto.
    - intros H. destruct (occurs v a); cbn [safe]; auto.
    - intros H. destruct (occurs v a); cbn [safe]; auto.
    - intros H. destruct (occurs v a); cbn [safe]; auto.
    - assert (A : safe a -> safe (diff v b) -> safe (diff v (Add a b))).
      { intros H1 H2. cbn [diff]. destruct (occurs v a), (occurs v b); cbn [safe]; auto. }
      split; [intros [H1 H2]; apply A; auto|]. unfold angle. destruct b; try (intros [H1 H2]; apply A; auto; fail).
      intros H1. apply A; auto. cbn [diff]. destruct (sym_eqb v s); exact I.
  Qed.
  Lemma safe_diff v e : safe e -> safe (diff v e).
  Proof. apply safe_diff_both. Qed.

  Variables e1 e2 : sym -> R.
  Hypothesis same : forall s, ~ turning s -> e1 s = e2 s.
  Hypothesis turned : forall s, exists z : Z, e1 s = (e2 s + IZR z * (2 * PI))%R.
  Lemma eval_safe_both e : (safe e -> eval e1 e = eval e2 e) /\
    (angle e -> cos (eval e1 e) = cos (eval e2 e) /\ sin (eval e1 e) = sin (eval e2 e)).
  Proof.
    assert (E : forall e, eval e1 e = eval e2 e -> cos (eval e1 e) = cos (eval e2 e) /\ sin (eval e1 e) = sin (eval e2 e)) by (intros e0 ->; auto).
    assert (W : forall e, (safe e -> eval e1 e = eval e2 e) -> (angle e -> safe e) -> (safe e -> eval e1 e = eval e2 e) /\
      (angle e -> cos (eval e1 e) = cos (eval e2 e) /\ sin (eval e1 e) = sin (eval e2 e))) by (intros e0 A B; split; auto).
    induction e as [r|s|a IHa b IHb|a IHa b IHb|a IHa b IHb|a IHa b IHb|a IHa|a IHa|a IHa|a IHa|a IHa n].
    1, 2, 4-11: apply W; [|intros H; exact H]; cbn [safe eval].
    - auto.
    - apply same.
    - intros [H1 H2]. now rewrite (proj1 IHa H1), (proj1 IHb H2).
    - intros [H1 H2]. now rewrite (proj1 IHa H1), (proj1 IHb H2).
    - intros [H1 H2]. now rewrite (proj1 IHa H1), (proj1 IHb H2).
    - intros H. now rewrite (proj1 IHa H).
    - intros H. apply (proj2 IHa H).
    - intros H. apply (proj2 IHa H).
    - intros H. now rewrite (proj1 IHa H).
    - intros H. now rewrite (proj1 IHa H).
    - assert (A : safe (Add a b) -> eval e1 (Add a b) = eval e2 (Add a b)).
      { cbn [safe eval]. intros [H1 H2]. now rewrite (proj1 IHa H1), (proj1 IHb H2). }
      split; [exact A|]. cbn [angle]. destruct b; try (intros H; apply E, A, H).
      intros H. cbn [eval]. rewrite (proj1 IHa H). destruct (turned s) as [z ->].
      rewrite <- Rplus_assoc. apply turns.
  Qed.
  Lemma eval_safe e : safe e -> eval e1 e = eval e2 e.
  Proof. apply eval_safe_both. Qed.

  Definition QT (a _ : expr) : Prop := safe a.
  Lemma congr_QT : congr QT.
  Proof. constructor; unfold QT; simpl; auto. Qed.
  Lemma safe_ZIS e : safe e -> safe (ZIS e).
  Proof. intros H. unfold ZIS. destruct (is_constant e); auto. destruct (Rlt_dec _ _); auto. exact I. Qed.
  Lemma trig_QT a a' : angle a -> trig_rel QT a a'.
  Proof. intros H. repeat split; apply safe_ZIS; exact H. Qed.
  Lemma safe_esum n f : (forall k, k < n -> safe (f k)) -> safe (esum n f).
  Proof. induction n; intros H; [exact I|]. cbn [esum]. split; auto. Qed.
End Safe.

Definition spring (f : fn) : bool := match f with fk | frk => true | _ => false end.

Section Turn.
  Variables (cv : cvals) (b : robot).
  Hypothesis Hb : base cv b.
  Definition turning (s : sym) : Prop := fst s = "q" /\ is_P (jtype b (snd s)) = false.
  Lemma key_safe k len i : k <> "q" -> In (k, len) (keys b) -> i < len -> safe turning (el (mdl b k) i 0).
  Proof.
    intros Hk Hl Hi. rewrite (ps_el _ _ _ _ (bs_shape _ _ Hb k len Hl)) by auto. destruct (flag_set _); cbn [safe]; auto.
    intros [E _]. cbn [fst] in E. apply Hk. apply symname_inj; [eapply keys_arg; eauto| |exact E].
    eapply keys_arg. apply (in_keys_q b).
  Qed.
  Lemma q_var i : i < numJoints b -> el (mdl b "q") i 0 = Var ("q", i).
  Proof.
    intros Hi. pose proof (bs_shape _ _ Hb "q" _ (in_keys_q b)) as P. rewrite (ps_el _ _ _ _ P) by auto.
    rewrite (bs_state _ _ Hb "q" (numJoints b)); [reflexivity|unfold state_keys; simpl; auto|].
    apply nth_In. rewrite (ps_fl _ _ _ _ P). auto.
  Qed.
  Lemma core_safe f : core f = true -> enabled b f ->
    forall i j, i < vrows b f -> j < vcols b f -> safe turning (el (val b f) i j).
  Proof.
    intros Hc He.
    assert (D : forall i c, i < numJoints b -> c < 4 -> safe turning (el (mdl b "par_DHtable") (i * 4 + c) 0)).
    { intros i c Hi Hc'. eapply key_safe; [discriminate|apply in_keys_par; cbn [In]; auto|lia]. }
    assert (M : mrel (QT turning) (vrows b f) (vcols b f) (val b f) (val b f)).
    { apply (core_mrel_q (QT turning) (congr_QT turning) cv cv b b Hb Hb eq_refl eq_refl (deps b f)) with (st := fun _ => True); auto.
      - intros k len _ Hk Hl. pose proof (bs_shape _ _ Hb k len Hl) as P. destruct P. constructor; auto.
        intros i j Hi Hj. replace j with 0 by lia. eapply key_safe; eauto.
      - intros _. pose proof (bs_shape _ _ Hb "q" _ (in_keys_q b)) as P. destruct P. constructor; auto.
      - intros _ i Hi Hp. unfold QT. rewrite q_var by auto. intros [_ E]. cbn [snd] in E. congruence.
      - intros _ i Hi. apply trig_QT, safe_angle. apply D; auto.
      - intros _ _ i Hi. apply trig_QT. unfold thx, DHrow. destruct (is_P (jtype b i)); cbn.
        + apply safe_angle. apply D; auto.
        + rewrite q_var by auto. apply D; auto.
      - intros _ i Hi. apply trig_QT, safe_angle. eapply key_safe; [discriminate|apply in_keys_par; cbn [In]; auto|lia].
      - intros _ i Hi. apply trig_QT, safe_angle. eapply key_safe; [discriminate|apply in_keys_par; cbn [In]; auto|lia].
      - intros v a a' _ Ha. apply safe_diff, Ha.
      - intros _ a c a' c' Ha Hc'. split; auto. }
    apply (mr_el _ _ _ _ _ M).
  Qed.
  Lemma regJ_safe f : f = frJdq \/ f = frJTw -> enabled b f ->
    forall i j, i < vrows b f -> j < vcols b f -> safe turning (el (val b f) i j).
  Proof.
    intros Hf He i j Hi Hj. assert (D1 : forall a d, a < d -> a mod d = a /\ a / d = 0).
    { intros a d H. split; [apply Nat.mod_small|apply Nat.div_small]; auto. }
    destruct (core_dims cv b Hb fJee eq_refl I) as [JR JC JO]. cbn [val vrows vcols] in JR, JC, JO.
    pose proof (core_safe fJee eq_refl I) as JS. cbn [val vrows vcols] in JS.
    destruct Hf as [-> | ->]; cbn [val vrows vcols] in *.
    - unfold reg_Jdqx. cbn [el jacobian]. unfold diff_wrt. destruct (sym_of _); [|exact I]. apply safe_diff.
      cbn [rows mtimes el]. rewrite JR. destruct (D1 _ _ Hi) as [-> ->]. rewrite JC. apply safe_esum. intros k Hk. split; [apply JS; auto|].
      apply (key_safe "dq" (numJoints b)); auto; [discriminate|]. unfold keys, state_keys. rewrite !in_app_iff. simpl. tauto.
    - unfold reg_JTwx. cbn [el jacobian]. unfold diff_wrt. destruct (sym_of _); [|exact I]. apply safe_diff.
      cbn [rows cols mtimes mT el]. rewrite JC. destruct (D1 _ _ Hi) as [-> ->]. rewrite JR. apply safe_esum. intros k Hk. split; [apply JS; auto|].
      apply (key_safe "w" 6); auto; [discriminate|]. unfold keys, state_keys. rewrite !in_app_iff. simpl. tauto.
  Qed.
End Turn.

Section Main.
  Variables (name : string) (cfg : ynode) (r0 r b r1 r2 : robot).
  Hypothesis S1 : session name cfg r0 r r1.
  Hypothesis S2 : session name cfg r0 r r2.
  Hypothesis B : built r0 b r.
  Hypothesis HA : forall k, k <> "q" -> arg r1 k = arg r2 k.
  Hypothesis HT : forall j, j < numJoints r0 -> same_place (prism r0 j) (state r1 "q" j) (state r2 "q" j).
  Let s1 : sess r0 b r1 := built_sess _ _ _ _ _ _ S1 B.
  Let s2 : sess r0 b r2 := built_sess _ _ _ _ _ _ S2 B.
  Let Hb := bt_base _ _ _ B.
  Lemma env_same s : fst s <> "q" -> renv r0 r1 s = renv r0 r2 s.
  Proof.
    intros Hs. unfold renv, param. rewrite HA; auto. unfold keyname.
    repeat match goal with |- context [String.eqb ?x ?y] => destruct (String.eqb x y); [discriminate|] end. exact Hs.
  Qed.
  Lemma env_q j : j < numJoints b -> renv r0 r1 ("q", j) = state r1 "q" j /\ renv r0 r2 ("q", j) = state r2 "q" j.
  Proof.
    intros Hj. assert (K : In ("q", numJoints b) (state_keys b)) by (unfold state_keys; simpl; auto).
    split; [exact (param_state r0 b r1 s1 "q" _ j K)|exact (param_state r0 b r2 s2 "q" _ j K)].
  Qed.
  Lemma turns_eval e : (forall s, occurs s e = true -> fst s = "q" -> snd s < numJoints b) -> safe (turning b) e ->
    eval (renv r0 r1) e = eval (renv r0 r2) e.
  Proof.
    intros Hq Hs.
    pose (cut := fun (env : sym -> R) s => if String.eqb (fst s) "q" && negb (Nat.ltb (snd s) (numJoints b)) then 0%R else env s).
    assert (C : forall env, eval env e = eval (cut env) e).
    { intros env. apply eval_ext. intros s Ho. unfold cut. destruct (String.eqb_spec (fst s) "q") as [E|E]; [|reflexivity].
      rewrite (proj2 (Nat.ltb_lt _ _) (Hq s Ho E)). reflexivity. }
    rewrite (C (renv r0 r1)), (C (renv r0 r2)).
    assert (P : forall j, is_P (jtype b j) = prism r0 j) by exact (prism_b r0 b r1 s1).
    apply (eval_safe (turning b)); [| |exact Hs].
    - intros [k j] Ht. unfold cut, turning in *. cbn [fst snd] in *. destruct (String.eqb_spec k "q") as [->|E]; [|apply env_same; auto].
      destruct (Nat.ltb_spec j (numJoints b)); [|reflexivity]. cbn [andb negb]. destruct (env_q j) as [-> ->]; auto.
      pose proof (HT j) as Hj. rewrite <- (n_b _ _ _ s1) in Hj. specialize (Hj ltac:(auto)). rewrite <- P in Hj.
      destruct (is_P (jtype b j)) eqn:E; [exact Hj|]. exfalso. auto.
    - intros [k j]. unfold cut. cbn [fst snd]. destruct (String.eqb_spec k "q") as [->|E]; [|exists 0%Z; rewrite env_same by auto; simpl; ring].
      destruct (Nat.ltb_spec j (numJoints b)); [|exists 0%Z; simpl; ring]. cbn [andb negb]. destruct (env_q j) as [-> ->]; auto.
      pose proof (HT j) as Hj. rewrite <- (n_b _ _ _ s1) in Hj. specialize (Hj ltac:(auto)). unfold same_place in Hj.
      destruct (prism r0 j); [|exact Hj]. exists 0%Z. rewrite Hj. simpl. ring.
  Qed.
  Theorem turns_out f : enabled b f -> spring f = false ->
    agree (vrows b f) (vcols b f) (out r1 (name_of f)) (out r2 (name_of f)).
  Proof.
    intros He Hs i j Hi Hj. destruct (get_out _ _ _ s1 f He) as [_ V1]. destruct (get_out _ _ _ s2 f He) as [_ V2].
    rewrite V1, V2 by auto. unfold ev.
    assert (W : forall s, occurs s (el (val b f) i j) = true -> exists k m len, In k (alist b f) /\ In (k, len) (keys b) /\ m < len /\ s = (symname k, m)).
    { intros s Ho. pose proof (val_closed _ _ Hb f He i j Hi Hj s Ho) as HI. unfold isym in HI. apply in_flat_map in HI. destruct HI as (k & Hk & HI).
      unfold isyms in HI. apply in_map_iff in HI. destruct HI as (m & <- & Hm).
      destruct (deps_keys b f k He (alist_deps _ _ _ Hk)) as [len Hlen]. exists k, m, len. repeat split; auto.
      apply in_fidx in Hm. destruct Hm as [Hm _]. rewrite (ps_fl _ _ _ _ (bs_shape _ _ Hb k len Hlen)) in Hm. exact Hm. }
    assert (SQ : forall k len, In (k, len) (keys b) -> symname k = "q" -> k = "q").
    { intros k len Hk E. apply symname_inj; [eapply keys_arg; eauto|eapply keys_arg; apply (in_keys_q b)|exact E]. }
    assert (G : safe (turning b) (el (val b f) i j) -> eval (renv r0 r1) (el (val b f) i j) = eval (renv r0 r2) (el (val b f) i j)).
    { apply turns_eval. intros s Ho E. destruct (W s Ho) as (k & m & len & Hk & Hl & Hm & ->). cbn [fst snd] in *.
      pose proof (SQ k len Hl E). subst k.
      assert (Hr : rows (mdl b "q") = len) by (apply (ps_r _ _ _ _ (bs_shape _ _ Hb "q" len Hl))).
      rewrite (ps_r _ _ _ _ (bs_shape _ _ Hb "q" _ (in_keys_q b))) in Hr. lia. }
    destruct (core f) eqn:Hc; [apply G, (core_safe _ _ Hb); auto|].
    destruct f; try discriminate Hc; try discriminate Hs.
    all: try (apply G, (regJ_safe _ _ Hb); auto; fail).
    all: apply eval_ext; intros s Ho; destruct (W s Ho) as (k & m & len & Hk & Hl & Hm & ->); apply env_same; cbn [fst];
      intros E; pose proof (SQ k len Hl E); subst k; revert Hk; cbn [alist]; unfold al, obtain_symb_parameters;
      rewrite ?in_app_iff, ?filter_In; simpl; intuition discriminate.
  Qed.
End Main.
