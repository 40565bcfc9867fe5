(* Partial derivatives of the published matrices. *)
From Coq Require Import Reals Lra Lia Arith List String Bool ZArith FunctionalExtensionality.
From Coquelicot Require Import Coquelicot.
From Verif.Model Require Import Base Expr SX Robot Kinematics Dynamics Regressors Yaml Build.
From Verif.Spec Require Import Math Setup Kinematics Dynamics.
From Verif.Proofs Require Import Sums Calc Rel Lin3 Frames Pure PureRel Maps Names Shape Dims Sizes Deps BuildEq Load Init Final Closed Get Kin KinThm Motion KinMain Smooth.
Import ListNotations.
Open Scope nat_scope.
Open Scope string_scope.

Lemma replace_len i x l : List.length (replace_nth i x l) = List.length l.
Proof. revert i. induction l; intros [|i]; simpl; auto. Qed.
Lemma replace_get i x l j : i < List.length l ->
  nth j (replace_nth i x l) 0%R = if Nat.eqb i j then x else nth j l 0%R.
Proof.
  revert i j. induction l as [|a l IH]; intros [|i] [|j] Hi; simpl in *; auto; try lia.
  apply IH. lia.
Qed.
Lemma replace_same i l : replace_nth i (nth i l 0%R) l = l.
Proof. revert i. induction l; intros [|i]; simpl; auto. f_equal. auto. Qed.
Lemma set_arg r k i x : arg (set_entry r k i x) k = replace_nth i x (arg r k).
Proof. unfold set_entry, arg. simpl. apply mget_mset. Qed.
Lemma set_arg_ne r k i x k' : k' <> k -> arg (set_entry r k i x) k' = arg r k'.
Proof. intros. unfold set_entry, arg. simpl. now apply mget_mset_ne. Qed.

Definition skeys : list string := ["q"; "dq"; "ddq"; "d3q"; "d4q"; "dqr"; "ddqr"].

Section Part.
  Variables (name : string) (cfg : ynode) (r0 r : robot).
  Lemma set_session r' k i x : session name cfg r0 r r' -> session name cfg r0 r (set_entry r' k i x).
  Proof.
    intros [L W B A S P]. constructor; auto.
    - unfold set_entry. rewrite A at 1. reflexivity.
    - intros k' len Hk. destruct (string_dec k' k) as [->|N].
      + rewrite set_arg, replace_len. auto.
      + rewrite set_arg_ne by auto. auto.
    - intros k' len Hk. destruct (string_dec k' k) as [->|N].
      + rewrite set_arg, replace_len. eauto.
      + rewrite set_arg_ne by auto. eauto.
  Qed.
  Section At.
  Variables (b r' : robot).
  Hypothesis Hs : session name cfg r0 r r'.
  Hypothesis HB : built r0 b r.
  Let n := numJoints r0.
  Let HS : sess r0 b r' := built_sess _ _ _ _ _ _ Hs HB.

  Lemma set_sess k i x : sess r0 b (set_entry r' k i x).
  Proof. eapply built_sess; eauto. apply set_session; eauto. Qed.
  Lemma state_len k : In k skeys -> List.length (arg r' k) = n.
  Proof.
    intros Hk. apply (se_state _ _ _ _ _ Hs). unfold state_sizes. apply in_app_iff. left.
    unfold skeys in Hk. simpl in *. fold n. intuition (subst; auto 10).
  Qed.
  Lemma set_state k i x j : In k skeys -> i < n -> state (set_entry r' k i x) k j = if Nat.eqb i j then x else state r' k j.
  Proof. intros Hk Hi. unfold state. rewrite set_arg, replace_get; auto. rewrite state_len; auto. Qed.
  Lemma set_state_ne k i x k' j : k' <> k -> state (set_entry r' k i x) k' j = state r' k' j.
  Proof. intros N. unfold state. now rewrite set_arg_ne. Qed.
  Lemma set_param k i x k' j : In k skeys -> ~ In k' skeys -> param r0 (set_entry r' k i x) k' j = param r0 r' k' j.
  Proof. intros Hk Hk'. unfold param. rewrite set_arg_ne; auto. intros ->; auto. Qed.
  Lemma keyname_st k s : In k skeys -> keyname s = k -> s = k.
  Proof.
    intros Hk E. unfold keyname in E. unfold skeys in Hk.
    repeat match type of E with (if ?c then _ else _) = _ => destruct c; [subst k; simpl in Hk; intuition discriminate|] end. auto.
  Qed.
  Lemma set_env k i x s : In k skeys -> i < n -> renv r0 (set_entry r' k i x) s = upd (renv r0 r') (k, i) x s.
  Proof.
    intros Hk Hi. destruct s as [nm j]. unfold renv, upd, sym_eqb. cbn [fst snd].
    destruct (string_dec (keyname nm) k) as [E|N].
    - pose proof (keyname_st _ _ Hk E) as ->. rewrite E, String.eqb_refl. cbn [andb].
      rewrite (param_state _ _ _ (set_sess k i x) k n), (param_state _ _ _ HS k n) by (apply (key_st _ _ _ HS); auto).
      apply set_state; auto.
    - rewrite (proj2 (String.eqb_neq k nm)).
      + cbn [andb]. unfold param. rewrite set_arg_ne; auto.
      + intros <-. apply N. unfold skeys in Hk. simpl in Hk.
        repeat (destruct Hk as [<-|Hk]; [reflexivity|]). destruct Hk.
  Qed.
  Lemma env_st k i : In k skeys -> i < n -> renv r0 r' (k, i) = state r' k i.
  Proof.
    intros Hk Hi. unfold renv. cbn [fst snd].
    replace (keyname k) with k by (unfold skeys in Hk; simpl in Hk; repeat (destruct Hk as [<-|Hk]; [reflexivity|]); destruct Hk).
    apply (param_state _ _ _ HS k n). apply (key_st _ _ _ HS); auto.
  Qed.
  (* the partial derivative of a published entry is the value of its symbolic derivative *)
  Lemma out_partial f k i a c : core f = true -> f <> fJeepinv -> enabled b f -> In k skeys -> i < n ->
    a < vrows b f -> c < vcols b f ->
    is_partial (fun r' => out r' (name_of f) a c) k i r' (eval (renv r0 r') (diff (k, i) (el (val b f) a c))).
  Proof.
    intros Hc Hp He Hk Hi Ha Hcc. unfold is_partial. rewrite <- (env_st k i Hk Hi).
    eapply is_derive_ext; [|apply (diff_sound allp)].
    - intros x. cbn beta. rewrite (proj2 (get_out _ _ _ (set_sess k i x) f He) a c Ha Hcc). unfold ev.
      apply eval_ext. intros s _. symmetry. apply set_env; auto.
    - exact I.
    - eapply core_poly; eauto using ss_base.
  Qed.
  End At.
End Part.
