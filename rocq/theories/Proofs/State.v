(* Setters, inertial conversions, parameter files. *)
From Coq Require Import Reals List String Arith ZArith Bool Lia Lra.
From Verif.Model Require Import Base Expr SX Robot Yaml Inertia Build.
From Verif.Spec Require Import Math Setup State.
From Verif.Proofs Require Import Maps Load.
Import ListNotations.
Open Scope nat_scope.
Open Scope string_scope.

Lemma with_args_same r : r = with_args r (args r).
Proof. destruct r; reflexivity. Qed.
Lemma with_args_twice r a b : with_args (with_args r a) b = with_args r b.
Proof. reflexivity. Qed.
Lemma get_ext r r1 : r1 = with_args r (args r1) -> (forall k, get_arg r1 k = get_arg r k) -> forall nm, get r1 nm = get r nm.
Proof.
  intros E H nm. unfold get. replace (fun_args r1) with (fun_args r) by (rewrite E; reflexivity).
  replace (casadi_fun r1) with (casadi_fun r) by (rewrite E; reflexivity).
  destruct (mfind nm (fun_args r)); auto. destruct (mfind nm (casadi_fun r)); auto.
  f_equal. apply map_ext. exact H.
Qed.

(* ---- element by element assignment ---- *)
Lemma lset_spec {A} (l : list A) i v : i < List.length l ->
  lset l i v = Some (firstn i l ++ v :: skipn (S i) l)%list.
Proof.
  revert i. induction l as [|a l IH]; simpl; intros i H; [lia|]. destruct i; simpl; auto.
  rewrite IH by lia. reflexivity.
Qed.
Lemma lset_none {A} (l : list A) i v : List.length l <= i -> lset l i v = None.
Proof. revert i. induction l; simpl; intros i H; auto. destruct i; [lia|]. rewrite IHl by lia. auto. Qed.
Lemma lset_app {A} (p : list A) x s v : lset (p ++ x :: s) (List.length p) v = Some (p ++ v :: s)%list.
Proof. induction p; simpl; auto. now rewrite IHp. Qed.
Lemma assign_gen v : forall k p s, List.length s = k ->
  forall w, List.length w = k -> (forall j, j < k -> nth (List.length p + j) v 0%R = nth j w 0%R) ->
  assign_loop k (List.length p) v (p ++ s) = Ok (p ++ w)%list.
Proof.
  induction k; simpl; intros p s Hs w Hw H.
  - destruct s; [|discriminate]. destruct w; [|discriminate]. auto.
  - destruct s as [|x s]; [discriminate|]. destruct w as [|y w]; [discriminate|].
    rewrite lset_app. pose proof (H 0 ltac:(lia)) as H0. rewrite Nat.add_0_r in H0. simpl in H0. rewrite H0.
    replace (p ++ y :: s)%list with ((p ++ [y]) ++ s)%list by now rewrite <- app_assoc.
    replace (S (List.length p)) with (List.length (p ++ [y])) by (rewrite app_length; simpl; lia).
    rewrite (IHk _ s) with (w := w); [now rewrite <- app_assoc| | |].
    + simpl in Hs; lia.
    + simpl in Hw; lia.
    + intros j Hj. rewrite app_length. simpl. rewrite <- Nat.add_assoc. apply (H (S j)). lia.
Qed.
Lemma assign_all v a : List.length a = List.length v -> assign_loop (List.length v) 0 v a = Ok v.
Proof. intros H. apply (assign_gen v (List.length v) [] a H v eq_refl). intros; reflexivity. Qed.
Lemma assign_short v : forall k i a, List.length a < i + k -> i <= List.length a ->
  assign_loop k i v a = Throw "casadi: index out of range".
Proof.
  induction k; simpl; intros i a H Hi; [lia|].
  destruct (Nat.eq_dec i (List.length a)) as [->|N].
  - now rewrite lset_none.
  - rewrite lset_spec by lia. apply IHk; rewrite app_length, firstn_length; cbn [List.length]; rewrite skipn_length; lia.
Qed.

Lemma touch_arg r k k' : arg (with_args r (mtouch [] k (args r))) k' = arg r k'.
Proof.
  unfold arg, mget, mtouch; cbn [args with_args]. destruct (string_dec k' k) as [->|N].
  - rewrite mfind_minsert. destruct (mfind k (args r)); auto.
  - now rewrite mfind_minsert_ne.
Qed.

Lemma set_sized_ok k n r v : List.length (get_arg r k) = n -> List.length v = n ->
  exists r1, set_sized k n r v = Ok (r1, 1) /\ get_arg r1 k = v /\ changes_only k r r1.
Proof.
  intros Ha Hv. unfold set_sized. rewrite Hv, Nat.eqb_refl. rewrite touch_arg.
  unfold get_arg in Ha. rewrite <- Hv in *. rewrite assign_all by auto. cbn [bind].
  eexists. split; [reflexivity|]. split; [|split].
  - unfold get_arg, arg; cbn [args with_args]. now rewrite mget_mset.
  - reflexivity.
  - intros k' N. unfold get_arg. unfold arg at 1; cbn [args with_args]. rewrite mget_mset_ne by auto.
    apply (touch_arg r k k').
Qed.
Lemma set_sized_refused k n r v : List.length v <> n ->
  exists r1, set_sized k n r v = Ok (r1, 0) /\ changes_nothing r r1.
Proof.
  intros H. unfold set_sized. apply Nat.eqb_neq in H. rewrite H. eexists. split; [reflexivity|].
  split; [reflexivity|].
  assert (A : forall k', get_arg (with_args r (mtouch [] k (args r))) k' = get_arg r k') by (intros; apply touch_arg).
  split; [exact A|]. apply get_ext; [reflexivity|exact A].
Qed.
Lemma set_sized_short k n r v : List.length (get_arg r k) < n -> List.length v = n ->
  set_sized k n r v = Throw "casadi: index out of range".
Proof.
  intros Ha Hv. unfold set_sized. rewrite Hv, Nat.eqb_refl, touch_arg. rewrite assign_short; auto. lia.
Qed.

Lemma setter_sized s : In s setters -> forall r v, s_call s r v = set_sized (s_arg s) (s_len s r) r v.
Proof. intros H r v. unfold setters in H. simpl in H. decompose [or] H; try contradiction; subst s; reflexivity. Qed.

Theorem setter_accepts s r v : In s setters -> List.length (get_arg r (s_arg s)) = s_len s r ->
  List.length v = s_len s r ->
  exists r1, s_call s r v = Ok (r1, 1) /\ get_arg r1 (s_arg s) = v /\ changes_only (s_arg s) r r1.
Proof. intros Hs Ha Hv. rewrite (setter_sized s Hs). apply set_sized_ok; auto. Qed.
Theorem setter_refuses s r v : In s setters -> List.length v <> s_len s r ->
  exists r1, s_call s r v = Ok (r1, 0) /\ changes_nothing r r1.
Proof. intros Hs Hv. rewrite (setter_sized s Hs). apply set_sized_refused; auto. Qed.
Theorem setter_short s r v : In s setters -> List.length (get_arg r (s_arg s)) < s_len s r ->
  List.length v = s_len s r -> s_call s r v = Throw "casadi: index out of range".
Proof. intros Hs Ha Hv. rewrite (setter_sized s Hs). apply set_sized_short; auto. Qed.

(* ---- histories ---- *)
Definition usable (r0 : robot) : list setter := (state_setters ++ (if ELASTIC r0 then motor_setters else []))%list.
Lemma usable_in r0 s : In s (usable r0) -> In s setters.
Proof.
  unfold usable, setters. rewrite !in_app_iff. destruct (ELASTIC r0); simpl; tauto.
Qed.
Lemma usable_size r0 s : In s (usable r0) -> In (s_arg s, s_len s r0) (state_sizes r0).
Proof.
  unfold usable, state_sizes. rewrite !in_app_iff. destruct (ELASTIC r0); simpl; intros H; decompose [or] H; try contradiction; subst s; simpl; tauto.
Qed.
Lemma s_len_args s r a : In s setters -> s_len s (with_args r a) = s_len s r.
Proof. intros H. unfold setters in H. simpl in H. decompose [or] H; try contradiction; subst s; reflexivity. Qed.
Lemma last_accepted_args r a k : forall h v0, (forall s v, In (s, v) h -> In s setters) ->
  last_accepted (with_args r a) k h v0 = last_accepted r k h v0.
Proof.
  induction h as [|[s v] h IH]; simpl; intros v0 H; auto. rewrite IH by (intros; eapply H; eauto).
  rewrite s_len_args; auto. eapply H; eauto.
Qed.
Theorem history r : forall h r', r' = with_args r (args r') ->
  (forall s v, In (s, v) h -> In s setters /\ List.length (get_arg r' (s_arg s)) = s_len s r) ->
  exists r1, run h r' = Ok (r1, map (result_code r) h) /\ r1 = with_args r (args r1) /\
    forall k, get_arg r1 k = last_accepted r k h (get_arg r' k).
Proof.
  induction h as [|[s v] h IH]; intros r' Hr H.
  - exists r'. simpl. auto.
  - destruct (H s v (or_introl eq_refl)) as [Hs Hl].
    assert (Hn : s_len s r' = s_len s r) by (rewrite Hr; apply s_len_args; auto).
    cbn [run]. destruct (Nat.eqb (List.length v) (s_len s r)) eqn:E.
    + apply Nat.eqb_eq in E.
      destruct (setter_accepts s r' v Hs) as (r1 & E1 & Ev & A & B); [congruence|congruence|].
      rewrite E1. cbn [bind].
      assert (Hr1 : r1 = with_args r (args r1)) by (rewrite A, Hr; reflexivity).
      destruct (IH r1 Hr1) as (r2 & E2 & Hr2 & HL).
      { intros s' v' Hi. destruct (H s' v' (or_intror Hi)) as [Hs' Hl']. split; auto.
        destruct (string_dec (s_arg s') (s_arg s)) as [Ea|N].
        - rewrite Ea, Ev. rewrite E, <- Hl, <- Ea, Hl'. reflexivity.
        - rewrite B by auto. auto. }
      rewrite E2. cbn [bind]. exists r2. split; [|split; auto].
      * unfold result_code at 2. cbn [map fst snd]. unfold result_code at 1. cbn [fst snd]. apply Nat.eqb_eq in E. rewrite E. reflexivity.
      * intros k. rewrite HL. cbn [last_accepted]. apply Nat.eqb_eq in E. rewrite E, andb_true_r.
        destruct (String.eqb_spec (s_arg s) k) as [Ek|N]; [subst k; now rewrite Ev|]. rewrite B by auto. reflexivity.
    + destruct (setter_refuses s r' v Hs) as (r1 & E1 & A & B & _).
      { rewrite Hn. now apply Nat.eqb_neq. }
      rewrite E1. cbn [bind].
      assert (Hr1 : r1 = with_args r (args r1)) by (rewrite A, Hr; reflexivity).
      destruct (IH r1 Hr1) as (r2 & E2 & Hr2 & HL).
      { intros s' v' Hi. destruct (H s' v' (or_intror Hi)) as [Hs' Hl']. split; auto. now rewrite B. }
      rewrite E2. cbn [bind]. exists r2. split; [|split; auto].
      * cbn [map]. unfold result_code at 2. cbn [fst snd]. rewrite E. reflexivity.
      * intros k. rewrite HL. cbn [last_accepted]. rewrite E, andb_false_r, B. reflexivity.
Qed.

Lemma last_accepted_len r k n : forall h v0, List.length v0 = n ->
  (forall s v, In (s, v) h -> s_arg s = k -> s_len s r = n) -> List.length (last_accepted r k h v0) = n.
Proof.
  induction h as [|[s v] h IH]; simpl; intros v0 H0 H; auto. apply IH; [|intros; eapply H; eauto].
  destruct (String.eqb_spec (s_arg s) k) as [E|N]; cbn [andb]; auto.
  destruct (Nat.eqb_spec (List.length v) (s_len s r)) as [E1|N]; auto. rewrite E1. eapply H; eauto.
Qed.
Lemma last_accepted_other r k : forall h v0, (forall s v, In (s, v) h -> s_arg s <> k) -> last_accepted r k h v0 = v0.
Proof.
  induction h as [|[s v] h IH]; simpl; intros v0 H; auto. rewrite IH by (intros; eapply H; eauto).
  destruct (String.eqb_spec (s_arg s) k) as [E|N]; auto. exfalso. eapply H; eauto.
Qed.
Lemma state_par_disjoint r k n m : In (k, n) (state_sizes r) -> In (k, m) (par_sizes r) -> False.
Proof.
  unfold state_sizes, par_sizes. rewrite !in_app_iff. intros H H'.
  destruct (ELASTIC r), (Nat.ltb 0 (Dl_order r)); simpl in H, H';
  decompose [or] H; try contradiction; match goal with P : (_, _) = (k, _) |- _ => inversion P; subst; clear P end;
  decompose [or] H'; try contradiction; match goal with P : (_, _) = (_, _) |- _ => inversion P end.
Qed.
Lemma state_sizes_fun r k n m : In (k, n) (state_sizes r) -> In (k, m) (state_sizes r) -> n = m.
Proof.
  unfold state_sizes. rewrite !in_app_iff. intros H H'.
  destruct (ELASTIC r); simpl in H, H';
  decompose [or] H; try contradiction; match goal with P : (_, _) = (k, _) |- _ => inversion P; subst; clear P end;
  decompose [or] H'; try contradiction; match goal with P : (_, _) = (_, _) |- _ => inversion P; reflexivity end.
Qed.
