(* Derivatives of the published matrices along a motion. *)
From Coq Require Import Reals Lra Lia Arith List String Bool ZArith.
From Coquelicot Require Import Coquelicot.
From Verif.Model Require Import Base Expr SX Robot Kinematics Dynamics Regressors Yaml Build.
From Verif.Spec Require Import Math Setup Kinematics.
From Verif.Proofs Require Import Sums Calc Rel Lin3 Frames Pure PureRel Maps Names Shape Dims Sizes Deps BuildEq Load Init Final Closed Get Kin KinThm Motion KinMain.
Import ListNotations.
Open Scope nat_scope.
Open Scope string_scope.

Definition allp (_ : sym) : Prop := True.
Definition QP (a _ : expr) : Prop := poly allp a.
Lemma congr_QP : congr QP.
Proof. constructor; unfold QP; simpl; auto. intros a _ r _ H. split; auto. intros s _; reflexivity. Qed.
Lemma poly_ZIS e : poly allp e -> poly allp (ZIS e).
Proof. intros H. unfold ZIS. destruct (is_constant e); auto. destruct (Rlt_dec _ _); auto. exact I. Qed.
Lemma trig_QP a a' : poly allp a -> trig_rel QP a a'.
Proof. intros H. repeat split; apply poly_ZIS; exact H. Qed.

Section Poly.
  Variables (cv : cvals) (b : robot).
  Hypothesis Hb : base cv b.
  Lemma key_poly k len i : In (k, len) (keys b) -> i < len -> poly allp (el (mdl b k) i 0).
  Proof. intros Hk Hi. destruct (key_leaf cv b Hb k len i Hk Hi) as [[s ->]|[r ->]]; exact I. Qed.
  Lemma key_QP k len : In (k, len) (keys b) -> mrel QP len 1 (mdl b k) (mdl b k).
  Proof.
    intros Hk. pose proof (bs_shape _ _ Hb k len Hk) as P. destruct P. constructor; auto.
    intros i j Hi Hj. replace j with 0 by lia. eapply key_poly; eauto.
  Qed.
  Lemma DH_poly i c : i < numJoints b -> c < 4 -> poly allp (el (mdl b "par_DHtable") (i * 4 + c) 0).
  Proof. intros. eapply key_poly; [apply in_keys_par; cbn [In]; auto|lia]. Qed.
  Lemma th_poly i : i < numJoints b -> poly allp (sc (thx b i)).
  Proof.
    intros Hi. unfold thx, DHrow. destruct (is_P (jtype b i)); simpl.
    - apply DH_poly; auto.
    - split; [apply DH_poly; auto|]. eapply key_poly; [apply in_keys_q|auto].
  Qed.
  Lemma core_poly f : core f = true -> f <> fJeepinv -> enabled b f ->
    forall i j, i < vrows b f -> j < vcols b f -> poly allp (el (val b f) i j).
  Proof.
    intros Hc Hp He.
    assert (M : mrel QP (vrows b f) (vcols b f) (val b f) (val b f)).
    { eapply (core_mrel QP congr_QP cv cv b b Hb Hb eq_refl eq_refl (deps b f)); auto.
      - intros; eapply key_QP; eauto.
      - intros Hd k Hk. apply trig_QP, DH_poly; auto.
      - intros Hd Hq k Hk. apply trig_QP, th_poly; auto.
      - intros Hd k Hk. apply trig_QP. eapply key_poly; [apply in_keys_par; cbn [In]; auto|lia].
      - intros Hd k Hk. apply trig_QP. eapply key_poly; [apply in_keys_par; cbn [In]; auto|lia].
      - instantiate (1 := fun _ => True). intros v a a' _ Ha. apply poly_diff; auto. exact I.
      - simpl. auto.
      - intros E; contradiction. }
    apply (mr_el _ _ _ _ _ M).
  Qed.
End Poly.

Lemma eval_derive (E : R -> sym -> R) (D : sym -> R) t0 e : poly allp e ->
  (forall s, occurs s e = true -> is_derive (fun t => E t s) t0 (D s)) ->
  is_derive (fun t => eval (E t) e) t0 (dir (E t0) D e).
Proof.
  assert (Hin : forall e, inert allp e -> forall t, eval (E t) e = eval (E t0) e).
  { intros e' He' t. apply eval_ext. intros s Hs. rewrite He' in Hs; [discriminate|exact I]. }
  induction e; cbn [poly eval dir occurs]; intros Hp Ho;
    repeat match goal with H : _ /\ _ |- _ => destruct H end.
  - apply (is_derive_const r t0).
  - apply Ho. apply sym_eqb_refl.
  - apply is_derive_add; [apply IHe1|apply IHe2]; auto; intros s Hs; apply Ho; rewrite Hs; auto using orb_true_r.
  - apply is_derive_sub; [apply IHe1|apply IHe2]; auto; intros s Hs; apply Ho; rewrite Hs; auto using orb_true_r.
  - apply is_derive_mul; [apply IHe1|apply IHe2]; auto; intros s Hs; apply Ho; rewrite Hs; auto using orb_true_r.
  - apply is_derive_ext with (fun t => (/ eval (E t0) e2 * eval (E t) e1)%R).
    { intros t. rewrite (Hin e2 ltac:(auto) t). apply Rmult_comm. }
    unfold Rdiv. rewrite Rmult_comm. apply (is_derive_scal (fun t => eval (E t) e1) t0 (/ eval (E t0) e2)).
    apply IHe1; auto. intros s Hs; apply Ho; now rewrite Hs.
  - apply is_derive_neg; auto.
  - rewrite Rmult_comm. apply (is_derive_comp sin (fun t => eval (E t) e)); auto. apply is_derive_sin.
  - replace (- (sin (eval (E t0) e) * dir (E t0) D e))%R
      with (dir (E t0) D e * (- sin (eval (E t0) e)))%R by ring.
    apply (is_derive_comp cos (fun t => eval (E t) e)); auto. apply is_derive_cos.
  - apply is_derive_ext with (fun _ => sqrt (eval (E t0) e)).
    { intros t. now rewrite (Hin e Hp t). }
    apply (is_derive_const (sqrt (eval (E t0) e)) t0).
  - replace (INR n * eval (E t0) e ^ pred n * dir (E t0) D e)%R
      with (INR n * dir (E t0) D e * eval (E t0) e ^ pred n)%R by ring.
    apply (is_derive_pow (fun t => eval (E t) e)); auto.
Qed.

(* directions along a vector of symbols *)
Definition dvec (nm : string) (n : nat) (w : nat -> R) (s : sym) : R :=
  if String.eqb (fst s) nm && Nat.ltb (snd s) n then w (snd s) else 0%R.
Lemma dir_dvec env nm n w e : poly allp e ->
  rsum n (fun k => eval env (diff (nm, k) e) * w k)%R = dir env (dvec nm n w) e.
Proof.
  intros Hp. induction n as [|n IH]; cbn [rsum].
  - symmetry. apply dir_zero. intros s _. unfold dvec. rewrite (proj2 (Nat.ltb_ge (snd s) 0)) by lia. now rewrite andb_false_r.
  - rewrite IH, (eval_diff allp) by (auto; exact I). rewrite Rmult_comm, <- dir_scal, <- dir_plus.
    apply dir_ext. intros [nm' k] _. unfold dvec, delta, sym_eqb. cbn [fst snd]. rewrite (String.eqb_sym nm' nm).
    destruct (String.eqb nm nm'); cbn [andb]; [|ring].
    destruct (Nat.eqb_spec n k) as [->|N].
    + rewrite Nat.ltb_irrefl, (proj2 (Nat.ltb_lt k (S k))) by lia. ring.
    + destruct (Nat.ltb_spec k n), (Nat.ltb_spec k (S n)); try lia; ring.
Qed.
Lemma eval_jtimes env nm n e x v i j : symvec nm n x -> poly allp (el e i j) ->
  eval env (el (jtimes e x v) i j) = dir env (dvec nm n (fun k => ev env v k 0)) (el e i j).
Proof.
  intros Hx Hp. rewrite <- dir_dvec by auto. cbn [jtimes el]. rewrite eval_esum. rewrite (sv_r _ _ _ Hx).
  apply rsum_ext. intros k Hk. cbn [eval]. unfold diff_wrt. rewrite (sv_el _ _ _ Hx) by auto. reflexivity.
Qed.

(* the rate at which each symbol moves *)
Definition drate (r' : robot) (s : sym) : R :=
  if String.eqb (fst s) "q" then state r' "dq" (snd s) else
  if String.eqb (fst s) "dq" then state r' "ddq" (snd s) else
  if String.eqb (fst s) "ddq" then state r' "d3q" (snd s) else 0%R.

Lemma par_name k len r : In (k, len) (par_sizes r) ->
  In k ["par_DHtable"; "par_world2L0"; "par_Ln2EE"; "par_gravity"; "par_DYN"; "par_Dl"; "par_K"; "par_D"; "par_Dm"; "par_Mm"].
Proof.
  unfold par_sizes. rewrite !in_app_iff. intros [H|[H|H]].
  - repeat (destruct H as [H|H]; [injection H as <- <-; simpl; auto 12|]). destruct H.
  - destruct (Nat.ltb 0 (Dl_order r)); [|destruct H]. destruct H as [H|[]]. injection H as <- <-. simpl; auto 12.
  - destruct (ELASTIC r); [|destruct H]. repeat (destruct H as [H|H]; [injection H as <- <-; simpl; auto 12|]). destruct H.
Qed.
Lemma drate_par r' k i : In k ["par_DHtable"; "par_world2L0"; "par_Ln2EE"; "par_gravity"; "par_DYN"; "par_Dl"; "par_K"; "par_D"; "par_Dm"; "par_Mm"] ->
  drate r' (symname k, i) = 0%R.
Proof. intros H. repeat (destruct H as [<-|H]; [reflexivity|]). destruct H. Qed.
Lemma core_par b f k : core f = true -> In k (deps b f) -> ~ In k ["q"; "dq"; "ddq"; "d3q"; "dqr"; "ddqr"] ->
  In k ["par_DHtable"; "par_world2L0"; "par_Ln2EE"; "par_gravity"; "par_DYN"].
Proof.
  intros Hc Hk Hn. destruct f; try discriminate Hc; cbn [deps] in Hk;
    repeat match type of Hk with In _ (if ?c then _ else _) => destruct c end;
    repeat (destruct Hk as [<-|Hk]; [first [solve [simpl; auto 12] | exfalso; apply Hn; simpl; auto 12]|]); destruct Hk.
Qed.

Section Rate.
  Variables (name : string) (cfg : ynode) (r0 r b : robot) (rho : R -> robot).
  Hypothesis Hm : motion name cfg r0 r rho.
  Hypothesis HB : built r0 b r.
  Let n := numJoints r0.
  Notation E := (E r0 rho).
  Variable t : R.

  Definition chainl : list (string * string) := [("q", "dq"); ("dq", "ddq"); ("ddq", "d3q")].
  Definition driven (f : fn) : Prop := forall k, In k (deps b f) ->
    (exists dk, In (k, dk) chainl /\ follows_at r0 rho k dk t) \/
    In k ["par_DHtable"; "par_world2L0"; "par_Ln2EE"; "par_gravity"; "par_DYN"].

  Lemma base_b : base (cvof r0) b.
  Proof. exact (ss_base _ _ _ (mo_sess _ _ _ _ _ _ Hm HB t)). Qed.
  Lemma par5 k : In k ["par_DHtable"; "par_world2L0"; "par_Ln2EE"; "par_gravity"; "par_DYN"] ->
    exists len, In (k, len) (par_sizes r0).
  Proof.
    intros H. repeat (destruct H as [<-|H]; [eexists; unfold par_sizes; simpl; eauto 10|]). destruct H.
  Qed.
  Lemma sym_rate f s : driven f -> isym b f s -> is_derive (fun x => E x s) t (drate (rho t) s).
  Proof.
    intros HD Hs. unfold isym in Hs. apply in_flat_map in Hs. destruct Hs as (k & Hk & Hs).
    unfold isyms in Hs. apply in_map_iff in Hs. destruct Hs as (i & <- & Hi). apply in_fidx in Hi. destruct Hi as [Hi _].
    apply alist_deps in Hk.
    pose proof (mo_sess _ _ _ _ _ _ Hm HB) as HS.
    destruct (HD k Hk) as [(dk & Hdk & Hf)|Hp].
    - assert (Hst : In k ["q"; "dq"; "ddq"; "d3q"; "d4q"; "dqr"; "ddqr"]).
      { destruct Hdk as [Hdk|[Hdk|[Hdk|[]]]]; injection Hdk as <- <-; simpl; auto. }
      assert (Hsz : In (k, n) (state_keys b)) by exact (key_st _ _ _ (HS t) k Hst).
      assert (Hin : i < n).
      { rewrite (ps_fl _ _ _ _ (bs_shape _ _ base_b k n (in_or_app _ _ _ (or_introl Hsz)))) in Hi. exact Hi. }
      assert (EQ : symname k = k /\ keyname k = k /\ drate (rho t) (k, i) = state (rho t) dk i).
      { destruct Hdk as [Hdk|[Hdk|[Hdk|[]]]]; injection Hdk as <- <-; repeat split. }
      destruct EQ as (E1 & E2 & E3). rewrite E1, E3. unfold Motion.E, renv. cbn [fst snd]. rewrite E2.
      apply is_derive_ext with (fun x => state (rho x) k i); [|apply Hf; auto].
      intros x. symmetry. apply (param_state _ _ _ (HS x) k n); auto.
    - destruct (par5 k Hp) as [len Hl]. rewrite drate_par by (simpl in *; tauto).
      apply is_derive_ext with (fun _ => E t (symname k, i)); [|apply is_derive_cst].
      intros x. unfold Motion.E, renv. cbn [fst snd].
      assert (Ha : keyname (symname k) = k) by (repeat (destruct Hp as [<-|Hp]; [reflexivity|]); destruct Hp).
      rewrite Ha. apply (mo_param _ _ _ _ _ Hm k len). auto.
  Qed.
  Theorem out_rate f i j : core f = true -> f <> fJeepinv -> enabled b f -> driven f -> i < vrows b f -> j < vcols b f ->
    is_derive (fun s => out (rho s) (name_of f) i j) t (dir (E t) (drate (rho t)) (el (val b f) i j)).
  Proof.
    intros Hc Hp He HD Hi Hj. pose proof (mo_sess _ _ _ _ _ _ Hm HB) as HS.
    apply is_derive_ext with (fun s => eval (E s) (el (val b f) i j)).
    { intros s. symmetry. apply (proj2 (get_out _ _ _ (HS s) f He)); auto. }
    apply eval_derive.
    - eapply core_poly; eauto using base_b.
    - intros s Hs. apply (sym_rate f); auto. eapply val_closed; eauto using base_b.
  Qed.

  (* splitting the rate over the three state vectors *)
  Definition sdir (k dk : string) (e : expr) : R := dir (E t) (dvec k n (state (rho t) dk)) e.
  Lemma isym_state f k i : isym b f (k, i) -> In k ["q"; "dq"; "ddq"] -> core f = true -> In k (deps b f) /\ i < n.
  Proof.
    intros Hs Hk Hc. unfold isym in Hs. apply in_flat_map in Hs. destruct Hs as (k' & Hk' & Hs).
    unfold isyms in Hs. apply in_map_iff in Hs. destruct Hs as (i' & E' & Hi). injection E' as E1 ->.
    apply in_fidx in Hi. destruct Hi as [Hi _]. apply alist_deps in Hk'.
    assert (k' = k) as ->.
    { destruct (in_dec string_dec k' ["q"; "dq"; "ddq"; "d3q"; "dqr"; "ddqr"]) as [I|N].
      - assert (symname k' = k') by (repeat (destruct I as [<-|I]; [reflexivity|]); destruct I). congruence.
      - pose proof (core_par b f k' Hc Hk' N) as P. exfalso.
        repeat (destruct P as [<-|P]; [cbn in E1; subst k; repeat (destruct Hk as [Hk|Hk]; [discriminate Hk|]); destruct Hk|]). destruct P. }
    split; auto.
    assert (Hst : In k ["q"; "dq"; "ddq"; "d3q"; "d4q"; "dqr"; "ddqr"]) by (simpl in *; tauto).
    pose proof (key_st _ _ _ (mo_sess _ _ _ _ _ _ Hm HB t) k Hst) as Hsz.
    rewrite (ps_fl _ _ _ _ (bs_shape _ _ base_b k n (in_or_app _ _ _ (or_introl Hsz)))) in Hi. exact Hi.
  Qed.
  Lemma rate_split f i j : core f = true -> enabled b f -> i < vrows b f -> j < vcols b f ->
    dir (E t) (drate (rho t)) (el (val b f) i j) =
      (sdir "q" "dq" (el (val b f) i j) + sdir "dq" "ddq" (el (val b f) i j) + sdir "ddq" "d3q" (el (val b f) i j))%R.
  Proof.
    intros Hc He Hi Hj. unfold sdir. rewrite <- !dir_plus. apply dir_ext. intros [k x] Hs.
    assert (Hk : isym b f (k, x)) by (eapply val_closed; eauto using base_b).
    unfold drate, dvec. cbn [fst snd].
    destruct (String.eqb_spec k "q") as [->|N1]; [|destruct (String.eqb_spec k "dq") as [->|N2];
      [|destruct (String.eqb_spec k "ddq") as [->|N3]]]; cbn [andb String.eqb Ascii.eqb Bool.eqb]; try ring;
      destruct (isym_state f _ x Hk) as [_ Hx]; simpl; auto; rewrite (proj2 (Nat.ltb_lt x n)) by auto; ring.
  Qed.
  Lemma sdir_no f k dk i j : core f = true -> enabled b f -> i < vrows b f -> j < vcols b f ->
    In k ["q"; "dq"; "ddq"] -> ~ In k (deps b f) -> sdir k dk (el (val b f) i j) = 0%R.
  Proof.
    intros Hc He Hi Hj Hk Hn. unfold sdir. apply dir_zero. intros [k' x] Hs.
    assert (Hk' : isym b f (k', x)) by (eapply val_closed; eauto using base_b).
    unfold dvec. cbn [fst snd]. destruct (String.eqb_spec k' k) as [->|N]; auto.
    destruct (isym_state f k x Hk' Hk Hc). contradiction.
  Qed.
  Lemma svec_b k : In k ["q"; "dq"; "ddq"] -> symvec k n (mdl b k).
  Proof.
    intros Hk. apply (state_sym _ _ base_b k n).
    - apply (key_st _ _ _ (mo_sess _ _ _ _ _ _ Hm HB t)). simpl in *; tauto.
    - destruct Hk as [<-|[<-|[<-|[]]]]; reflexivity.
  Qed.
  Lemma sdir_jt f k dk i j : core f = true -> f <> fJeepinv -> enabled b f -> i < vrows b f -> j < vcols b f ->
    In (k, dk) chainl -> eval (E t) (el (jtimes (val b f) (mdl b k) (mdl b dk)) i j) = sdir k dk (el (val b f) i j).
  Proof.
    intros Hc Hp He Hi Hj Hk.
    assert (Hs : In k ["q"; "dq"; "ddq"]) by (destruct Hk as [Hk|[Hk|[Hk|[]]]]; injection Hk as <- <-; simpl; auto).
    assert (Hd : In dk ["q"; "dq"; "ddq"; "d3q"; "d4q"; "dqr"; "ddqr"]) by (destruct Hk as [Hk|[Hk|[Hk|[]]]]; injection Hk as <- <-; simpl; auto).
    rewrite (eval_jtimes _ k n); [|apply svec_b; auto|eapply core_poly; eauto using base_b].
    unfold sdir. apply dir_ext. intros s _. unfold dvec. destruct (String.eqb (fst s) k && Nat.ltb (snd s) n) eqn:Q; auto.
    apply andb_prop in Q. destruct Q as [_ Q]. apply Nat.ltb_lt in Q.
    apply (eval_state _ _ _ (mo_sess _ _ _ _ _ _ Hm HB t)); auto.
  Qed.
End Rate.
