(* Dynamics of the built robot in the vocabulary of Spec/Dynamics.v. *)
From Coq Require Import Reals Lra Lia Arith List String Bool ZArith.
From Coquelicot Require Import Coquelicot.
From Verif.Model Require Import Base Expr SX Robot Kinematics Dynamics Regressors Yaml Build.
From Verif.Spec Require Import Math Setup Kinematics Dynamics.
From Verif.Proofs Require Import Sums Calc Rel Lin3 Frames Pure PureRel Maps Names Shape Dims Sizes Deps BuildEq Load Init Final Closed Get Kin KinThm Motion KinMain Smooth Rates Partial Coriolis Mass.
Import ListNotations.
Open Scope nat_scope.
Open Scope string_scope.

Section Dyn.
  Variables (name : string) (cfg : ynode) (r0 r b r' : robot).
  Hypothesis Hs : session name cfg r0 r r'.
  Hypothesis HB : built r0 b r.
  Let n := numJoints r0.
  Notation env := (renv r0 r').
  Let HS : sess r0 b r' := built_sess _ _ _ _ _ _ Hs HB.
  Let Hb : base (cvof r0) b := ss_base _ _ _ HS.

  Lemma nb : numJoints b = n.
  Proof. exact (n_b _ _ _ HS). Qed.
  Lemma p_dyn_val l c : l < n -> c < 10 -> p_dyn b env l c = dyn r0 r' (S l) c.
  Proof.
    intros Hl Hc. unfold p_dyn, ev, dyn. replace (10 * (S l - 1) + c) with (l * 10 + c) by lia.
    apply (eval_key _ _ _ HS "par_DYN" (10 * n)); [exact (key_DYN _ _ _ HS)|lia].
  Qed.
  Lemma m_l_val l : l < n -> m_l b env l = mass r0 r' (S l).
  Proof. intros Hl. unfold mass. rewrite <- p_dyn_val by lia. unfold m_l, p_dyn. now rewrite Nat.add_0_r. Qed.
  Lemma inert_val l a c : l < n -> a < 3 -> c < 3 -> mcomp (inert3 b env l) a c = inertia r0 r' (S l) a c.
  Proof.
    intros Hl Ha Hc. unfold inert3. rewrite !p_dyn_val by lia.
    destruct a as [|[|[|a]]]; try lia; destruct c as [|[|[|c]]]; try lia; reflexivity.
  Qed.
  Lemma form_val l u v : l < n -> dot u (mv (inert3 b env l) v) = rquad 3 (inertia r0 r' (S l)) (vcomp u) (vcomp v).
  Proof.
    intros Hl. unfold rquad, rdot, rmv. cbn [rsum]. rewrite <- !inert_val by lia. unfold dot, mv. cbn [vcomp mcomp vx vy vz]. ring.
  Qed.
  Lemma grav_val c : c < 3 -> vcomp (grav b env) c = param r0 r' "par_gravity" c.
  Proof.
    intros Hc. unfold grav, ev. rewrite !(eval_key _ _ _ HS "par_gravity" 3) by (try (eapply key_g; eauto); lia).
    destruct c as [|[|[|c]]]; try lia; reflexivity.
  Qed.

  Lemma out_val f i j : enabled b f -> i < vrows b f -> j < vcols b f -> out r' (name_of f) i j = ev env (val b f) i j.
  Proof. intros He Hi Hj. apply (proj2 (get_out _ _ _ HS f He)); auto. Qed.
  Lemma answers_f f : enabled b f -> answers r' (name_of f) (vrows b f) (vcols b f).
  Proof. intros He. apply (proj1 (get_out _ _ _ HS f He)). Qed.
  Lemma outM i j : i < n -> j < n -> out r' "M" i j = ev env (Mx b) i j.
  Proof. intros. apply (out_val fM); simpl; rewrite ?nb; auto. Qed.
  Lemma outC i j : i < n -> j < n -> out r' "C" i j = ev env (Cx b) i j.
  Proof. intros. apply (out_val fC); simpl; rewrite ?nb; auto. Qed.
  Lemma outCs i j : i < n -> j < n -> out r' "C_std" i j = ev env (Cstdx b) i j.
  Proof. intros. apply (out_val fCstd); simpl; rewrite ?nb; auto. Qed.
  Lemma outG i : i < n -> out r' "G" i 0 = ev env (Gx b) i 0.
  Proof. intros. apply (out_val fG); simpl; rewrite ?nb; auto. Qed.
  Lemma ansM : answers r' "M" n n.
  Proof. pose proof (answers_f fM I) as A. simpl in A. rewrite nb in A. exact A. Qed.
  Lemma ansC : answers r' "C" n n.
  Proof. pose proof (answers_f fC I) as A. simpl in A. rewrite nb in A. exact A. Qed.
  Lemma ansCs : answers r' "C_std" n n.
  Proof. pose proof (answers_f fCstd I) as A. simpl in A. rewrite nb in A. exact A. Qed.
  Lemma ansG : answers r' "G" n 1.
  Proof. pose proof (answers_f fG I) as A. simpl in A. rewrite nb in A. exact A. Qed.
  Lemma ansMd : answers r' "M_dot" n n.
  Proof. pose proof (answers_f fMd I) as A. simpl in A. rewrite nb in A. exact A. Qed.

  (* --- C10 --- *)
  Lemma M_symm i j : i < n -> j < n -> out r' "M" i j = out r' "M" j i.
  Proof. intros Hi Hj. rewrite !outM by auto. apply Mx_sym. Qed.

  (* --- C12 --- *)
  Lemma quad_out x : rquad n (out r' "M") x x = rquad n (ev env (Mx b)) x x.
  Proof.
    unfold rquad, rdot, rmv. apply rsum_ext. intros i Hi. f_equal. apply rsum_ext. intros j Hj. now rewrite outM.
  Qed.
  Lemma form_nonneg l : l < n -> psd3 (inertia r0 r' (S l)) -> forall v, (0 <= form (inert3 b env l) v)%R.
  Proof. intros Hl HP v. unfold form. rewrite form_val by auto. apply HP. Qed.
  Lemma form_pos l : l < n -> pd3 (inertia r0 r' (S l)) -> forall v, v <> vzero -> (0 < form (inert3 b env l) v)%R.
  Proof.
    intros Hl HP v Hv. unfold form. rewrite form_val by auto. apply HP.
    destruct (Req_dec (vx v) 0) as [Ex|Ex]; [|exists 0; auto].
    destruct (Req_dec (vy v) 0) as [Ey|Ey]; [|exists 1; auto].
    destruct (Req_dec (vz v) 0) as [Ez|Ez]; [|exists 2; auto].
    exfalso. apply Hv. apply v3_eq; auto.
  Qed.
  Lemma M_semi x : (forall i, 1 <= i <= n -> (0 <= mass r0 r' i)%R /\ psd3 (inertia r0 r' i)) ->
    (0 <= rquad n (out r' "M") x x)%R.
  Proof.
    intros HP. rewrite quad_out. rewrite <- nb. apply M_psd. rewrite nb. intros l Hl. rewrite m_l_val by auto.
    destruct (HP (S l)) as [A B]; [lia|]. split; auto. apply form_nonneg; auto.
  Qed.
  Lemma M_def x : (forall i, 1 <= i <= n -> (0 <= mass r0 r' i)%R /\ psd3 (inertia r0 r' i)) ->
    (forall i, 1 <= i <= n -> if prism r0 (i - 1) then (0 < mass r0 r' i)%R else pd3 (inertia r0 r' i)) ->
    (exists j, j < n /\ x j <> 0%R) -> (0 < rquad n (out r' "M") x x)%R.
  Proof.
    intros HP HQ HX. rewrite quad_out. rewrite <- nb. apply M_pd; rewrite ?nb; auto.
    - intros l Hl. rewrite m_l_val by auto. destruct (HP (S l)) as [A B]; [lia|]. split; auto. apply form_nonneg; auto.
    - intros l Hl. specialize (HQ (S l) ltac:(lia)). replace (S l - 1) with l in HQ by lia.
      rewrite (prism_b _ _ _ HS). rewrite m_l_val by auto. destruct (prism r0 l); auto. apply form_pos; auto.
  Qed.

  (* --- C13, C14 --- *)
  Let dm (i j k : nat) : R := dM (Mx b) env i j k.
  Lemma q_sym : symvec "q" n (mdl b "q").
  Proof. apply (state_sym _ _ Hb "q" n); [|reflexivity]. apply (key_st _ _ _ HS). simpl; auto. Qed.
  Lemma dq_shape : rows (mdl b "dq") = n /\ cols (mdl b "dq") = 1.
  Proof.
    assert (S : symvec "dq" n (mdl b "dq")) by (apply (state_sym _ _ Hb "dq" n); [apply (key_st _ _ _ HS); simpl; auto|reflexivity]).
    destruct S; auto.
  Qed.
  Lemma dq_val k : k < n -> ev env (mdl b "dq") k 0 = state r' "dq" k.
  Proof. intros. apply (eval_state _ _ _ HS); simpl; auto. Qed.
  Lemma M_dims : rows (Mx b) = n /\ cols (Mx b) = n.
  Proof. destruct (val_dims _ b Hb fM I) as [A B _]. simpl in A, B. rewrite nb in *. auto. Qed.
  Lemma M_partial i j k : i < n -> j < n -> k < n ->
    is_partial (fun r' => out r' "M" i j) "q" k r' (dm i j k).
  Proof.
    intros Hi Hj Hk. apply (out_partial name cfg r0 r b r' Hs HB fM "q" k i j); simpl; rewrite ?nb; auto; discriminate.
  Qed.
  Lemma C_chr i j : i < n -> j < n ->
    out r' "C" i j = rsum n (fun k => (dm i j k + dm i k j - dm j k i) / 2 * state r' "dq" k)%R /\
    out r' "C_std" i j = rsum n (fun k => (dm i j k + dm i k j - dm j k i) / 2 * state r' "dq" k)%R.
  Proof.
    intros Hi Hj. rewrite outC, outCs by auto. unfold Cx, Cstdx, dqsel.
    destruct M_dims, dq_shape.
    rewrite (stdC_val n), (classic_val n); auto using q_sym. unfold Chr.
    split; apply rsum_ext; intros k Hk; rewrite dq_val by auto; reflexivity.
  Qed.
  Lemma dm_sym i j k : i < n -> j < n -> dm i j k = dm j i k.
  Proof.
    intros Hi Hj. unfold dm, dM.
    assert (P : forall i j, i < n -> j < n -> poly allp (el (Mx b) i j)).
    { intros i0 j0 Hi0 Hj0. apply (core_poly _ b Hb fM); simpl; rewrite ?nb; auto; discriminate. }
    apply (diff_unique allp env ("q", k) _ (fun x => eval (upd env ("q", k) x) (el (Mx b) j i))); auto; [exact I| |].
    - intros x. apply Mx_sym.
    - apply (diff_sound allp); auto. exact I.
  Qed.
  Lemma Md_val i j : i < n -> j < n -> out r' "M_dot" i j = rsum n (fun k => dm i j k * state r' "dq" k)%R.
  Proof.
    intros Hi Hj. rewrite (out_val fMd) by (simpl; rewrite ?nb; auto). cbn [val]. unfold Mdotx, ev.
    cbn [jtimes el]. rewrite eval_esum, (sv_r _ _ _ q_sym). apply rsum_ext. intros k Hk. cbn [eval].
    unfold diff_wrt. rewrite (sv_el _ _ _ q_sym) by auto. cbn [sym_of]. f_equal. apply dq_val; auto.
  Qed.
  Lemma skew_entries i j : i < n -> j < n ->
    (out r' "M_dot" i j - 2 * out r' "C" i j = - (out r' "M_dot" j i - 2 * out r' "C" j i))%R.
  Proof.
    intros Hi Hj. rewrite !Md_val by auto. rewrite (proj1 (C_chr i j Hi Hj)), (proj1 (C_chr j i Hj Hi)).
    rewrite <- !rsum_scal, <- !rsum_minus, <- rsum_opp. apply rsum_ext. intros k Hk. field.
  Qed.
  Lemma skew_form A : (forall i j, i < n -> j < n -> A i j = (- A j i)%R) -> forall x, rquad n A x x = 0%R.
  Proof.
    intros HA x. assert (H : rquad n A x x = (- rquad n A x x)%R); [|lra].
    unfold rquad, rdot, rmv. rewrite <- rsum_opp.
    rewrite (rsum_ext n _ (fun i => rsum n (fun k => x i * (A i k * x k))%R)) by (intros; now rewrite rsum_scal).
    rewrite rsum_swap. apply rsum_ext. intros k Hk. rewrite <- rsum_scal, <- rsum_opp. apply rsum_ext. intros i Hi.
    rewrite (HA i k) by auto. ring.
  Qed.
End Dyn.

(* a positive definite matrix has trivial kernel *)
Lemma pd_kernel n A x : (forall y, (exists j, j < n /\ y j <> 0%R) -> (0 < rquad n A y y)%R) ->
  (forall i, i < n -> rmv n A x i = 0%R) -> forall j, j < n -> x j = 0%R.
Proof.
  intros HP HK j Hj. destruct (Req_dec (x j) 0) as [E|N]; auto. exfalso.
  assert (H : (0 < rquad n A x x)%R) by (apply HP; eauto).
  unfold rquad, rdot in H. rewrite rsum_0 in H; [lra|]. intros i Hi. rewrite HK by auto. ring.
Qed.
