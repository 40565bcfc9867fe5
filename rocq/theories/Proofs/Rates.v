(* Time derivatives published by the code. *)
From Coq Require Import Reals Lra Lia Arith List String Bool ZArith.
From Coquelicot Require Import Coquelicot.
From Verif.Model Require Import Base Expr SX Robot Kinematics Dynamics Regressors Yaml Build.
From Verif.Spec Require Import Math Setup Kinematics.
From Verif.Proofs Require Import Sums Calc Rel Lin3 Frames Pure PureRel Maps Names Shape Dims Sizes Deps BuildEq Load Init Final Closed Get Kin KinThm Motion KinMain Smooth.
Import ListNotations.
Open Scope nat_scope.
Open Scope string_scope.

Section Rates.
  Variables (name : string) (cfg : ynode) (r0 r b : robot) (rho : R -> robot).
  Hypothesis Hm : motion name cfg r0 r rho.
  Hypothesis HB : built r0 b r.
  Let n := numJoints r0.
  Variable t : R.

  Definition follow_up (ks : list string) : Prop :=
    forall k dk, In (k, dk) chainl -> In k ks -> follows_at r0 rho k dk t.
  Lemma drv f : core f = true -> (forall k, In k (deps b f) -> In k ["d3q"; "dqr"; "ddqr"] -> False) ->
    follow_up (deps b f) -> driven r0 b rho t f.
  Proof.
    intros Hc Hno HF k Hk. destruct (in_dec string_dec k ["q"; "dq"; "ddq"; "d3q"; "dqr"; "ddqr"]) as [I|N].
    - destruct (in_dec string_dec k ["d3q"; "dqr"; "ddqr"]) as [J|J]; [exfalso; eauto|].
      left. destruct I as [<-|[<-|[<-|I]]]; [exists "dq"|exists "ddq"|exists "d3q"|exfalso; apply J; simpl in *; tauto];
        (split; [simpl; auto|apply HF; simpl; auto]).
    - right. eapply core_par; eauto.
  Qed.
  Lemma rate_general f g : core f = true -> f <> fJeepinv -> enabled b f -> enabled b g ->
    vrows b g = vrows b f -> vcols b g = vcols b f ->
    (forall k, In k (deps b f) -> In k ["d3q"; "dqr"; "ddqr"] -> False) -> follow_up (deps b f) ->
    (forall i j, i < vrows b f -> j < vcols b f -> eval (E r0 rho t) (el (val b g) i j) =
       (sdir r0 rho t "q" "dq" (el (val b f) i j) + sdir r0 rho t "dq" "ddq" (el (val b f) i j) + sdir r0 rho t "ddq" "d3q" (el (val b f) i j))%R) ->
    forall i j, i < vrows b f -> j < vcols b f ->
      is_derive (fun s => out (rho s) (name_of f) i j) t (out (rho t) (name_of g) i j).
  Proof.
    intros Hc Hp He Hg Er Ec Hno HF HV i j Hi Hj.
    rewrite (proj2 (get_out _ _ _ (mo_sess _ _ _ _ _ _ Hm HB t) g Hg)) by (rewrite ?Er, ?Ec; auto).
    unfold ev. change (renv r0 (rho t)) with (E r0 rho t). rewrite (HV i j Hi Hj).
    rewrite <- (rate_split name cfg r0 r b rho Hm HB t f i j Hc He Hi Hj).
    apply (out_rate name cfg r0 r b rho Hm HB t f i j); auto. apply drv; auto.
  Qed.
  Ltac nodep := let H1 := fresh in let H2 := fresh in intros k H1 H2; simpl in H1, H2; intuition (subst; discriminate).

  Let S1 := sdir_jt name cfg r0 r b rho Hm HB t.
  Let S0 := sdir_no name cfg r0 r b rho Hm HB t.
  Ltac absent := simpl; intuition discriminate.
  Ltac close1 f := intros i j Hi Hj;
    rewrite (S0 f "dq" "ddq" i j), (S0 f "ddq" "d3q" i j) by (auto; simpl; try absent; auto);
    rewrite <- (S1 f "q" "dq" i j) by (auto; try discriminate; simpl; auto); cbn [val]; rewrite ?Rplus_0_r; reflexivity.
  Ltac close2 f := intros i j Hi Hj;
    rewrite (S0 f "ddq" "d3q" i j) by (auto; simpl; try absent; auto);
    rewrite <- (S1 f "q" "dq" i j), <- (S1 f "dq" "ddq" i j) by (auto; try discriminate; simpl; auto); cbn [val];
    rewrite ?Rplus_0_r; reflexivity.
  Ltac close3 f := intros i j Hi Hj;
    rewrite <- (S1 f "q" "dq" i j), <- (S1 f "dq" "ddq" i j), <- (S1 f "ddq" "d3q" i j) by (auto; try discriminate; simpl; auto); cbn [val];
    reflexivity.

  Ltac sub HF := let k := fresh in let dk := fresh in let Hk := fresh in let Hd := fresh in
    intros k dk Hk Hd; apply HF; auto; simpl in Hk;
    destruct Hk as [Hk|[Hk|[Hk|[]]]]; injection Hk as <- <-; simpl; auto; simpl in Hd; exfalso; intuition discriminate.
  Ltac start f g HF := pose proof (rate_general f g) as G; cbn [vrows vcols name_of] in G;
    rewrite ?(n_b _ _ _ (mo_sess _ _ _ _ _ _ Hm HB t)) in G; fold n in G;
    intros HF; apply G; auto; try discriminate; try exact I; try nodep; try (sub HF);
    unfold n; rewrite <- ?(n_b _ _ _ (mo_sess _ _ _ _ _ _ Hm HB t)).

  Lemma Jee_dot : follow_up ["q"] -> forall i j, i < 6 -> j < n ->
    is_derive (fun s => out (rho s) "J_ee" i j) t (out (rho t) "J_ee_dot" i j).
  Proof. start fJee fJeed HF. close1 fJee. Qed.
  Lemma Jee_ddot : follow_up ["q"; "dq"] -> forall i j, i < 6 -> j < n ->
    is_derive (fun s => out (rho s) "J_ee_dot" i j) t (out (rho t) "J_ee_ddot" i j).
  Proof. start fJeed fJeedd HF. close2 fJeed. Qed.
  Lemma M_dot : follow_up ["q"] -> forall i j, i < n -> j < n ->
    is_derive (fun s => out (rho s) "M" i j) t (out (rho t) "M_dot" i j).
  Proof. start fM fMd HF. close1 fM. Qed.
  Lemma M_ddot : follow_up ["q"; "dq"] -> forall i j, i < n -> j < n ->
    is_derive (fun s => out (rho s) "M_dot" i j) t (out (rho t) "M_ddot" i j).
  Proof. start fMd fMdd HF. close2 fMd. Qed.
  Lemma C_dot : follow_up ["q"; "dq"] -> forall i j, i < n -> j < n ->
    is_derive (fun s => out (rho s) "C" i j) t (out (rho t) "C_dot" i j).
  Proof. start fC fCd HF. close2 fC. Qed.
  Lemma C_ddot : follow_up ["q"; "dq"; "ddq"] -> forall i j, i < n -> j < n ->
    is_derive (fun s => out (rho s) "C_dot" i j) t (out (rho t) "C_ddot" i j).
  Proof. start fCd fCdd HF. close3 fCd. Qed.
  Lemma G_dot : follow_up ["q"] -> forall i j, i < n -> j < 1 ->
    is_derive (fun s => out (rho s) "G" i j) t (out (rho t) "G_dot" i j).
  Proof. start fG fGd HF. close1 fG. Qed.
  Lemma G_ddot : follow_up ["q"; "dq"] -> forall i j, i < n -> j < 1 ->
    is_derive (fun s => out (rho s) "G_dot" i j) t (out (rho t) "G_ddot" i j).
  Proof. start fGd fGdd HF. close2 fGd. Qed.
End Rates.

Section RateThm.
  Variables (name : string) (cfg : ynode) (r0 r : robot) (rho : R -> robot) (t : R).
  Hypothesis Hm : motion name cfg r0 r rho.
  Let n := numJoints r0.
  Ltac go b HB HS := destruct (mo_built name cfg r0 r rho t Hm) as [b HB];
    pose proof (mo_sess _ _ _ _ _ _ Hm HB t) as HS.
  Ltac fu := let k := fresh in let dk := fresh in let H1 := fresh in let H2 := fresh in
    intros k dk H1 H2; simpl in H1; destruct H1 as [H1|[H1|[H1|[]]]]; injection H1 as <- <-; auto;
    simpl in H2; exfalso; intuition discriminate.
  Ltac ans f := let b := fresh in let HB := fresh in let HS := fresh in let A := fresh in go b HB HS; pose proof (proj1 (get_out _ _ _ HS f I)) as A; cbn [vrows vcols name_of] in A;
    rewrite ?(n_b _ _ _ HS) in A; exact A.

  Lemma Jee_rates : follows_at r0 rho "q" "dq" t ->
    (answers (rho t) "J_ee" 6 n /\ answers (rho t) "J_ee_dot" 6 n /\ answers (rho t) "J_ee_ddot" 6 n) /\
    (forall i j, i < 6 -> j < n -> is_derive (fun s => out (rho s) "J_ee" i j) t (out (rho t) "J_ee_dot" i j)) /\
    (follows_at r0 rho "dq" "ddq" t -> forall i j, i < 6 -> j < n ->
       is_derive (fun s => out (rho s) "J_ee_dot" i j) t (out (rho t) "J_ee_ddot" i j)).
  Proof.
    intros H1. split; [|split].
    - split; [ans fJee|split; [ans fJeed|ans fJeedd]].
    - go b HB HS. apply (Jee_dot name cfg r0 r b rho Hm HB t). fu.
    - intros H2. go b HB HS. apply (Jee_ddot name cfg r0 r b rho Hm HB t). fu.
  Qed.
  Lemma M_rates : follows_at r0 rho "q" "dq" t ->
    (answers (rho t) "M" n n /\ answers (rho t) "M_dot" n n /\ answers (rho t) "M_ddot" n n) /\
    (forall i j, i < n -> j < n -> is_derive (fun s => out (rho s) "M" i j) t (out (rho t) "M_dot" i j)) /\
    (follows_at r0 rho "dq" "ddq" t -> forall i j, i < n -> j < n ->
       is_derive (fun s => out (rho s) "M_dot" i j) t (out (rho t) "M_ddot" i j)).
  Proof.
    intros H1. split; [|split].
    - split; [ans fM|split; [ans fMd|ans fMdd]].
    - go b HB HS. apply (M_dot name cfg r0 r b rho Hm HB t). fu.
    - intros H2. go b HB HS. apply (M_ddot name cfg r0 r b rho Hm HB t). fu.
  Qed.
  Lemma C_rates : follows_at r0 rho "q" "dq" t -> follows_at r0 rho "dq" "ddq" t ->
    (answers (rho t) "C" n n /\ answers (rho t) "C_dot" n n /\ answers (rho t) "C_ddot" n n) /\
    (forall i j, i < n -> j < n -> is_derive (fun s => out (rho s) "C" i j) t (out (rho t) "C_dot" i j)) /\
    (follows_at r0 rho "ddq" "d3q" t -> forall i j, i < n -> j < n ->
       is_derive (fun s => out (rho s) "C_dot" i j) t (out (rho t) "C_ddot" i j)).
  Proof.
    intros H1 H2. split; [|split].
    - split; [ans fC|split; [ans fCd|ans fCdd]].
    - go b HB HS. apply (C_dot name cfg r0 r b rho Hm HB t). fu.
    - intros H3. go b HB HS. apply (C_ddot name cfg r0 r b rho Hm HB t). fu.
  Qed.
  Lemma G_rates : follows_at r0 rho "q" "dq" t ->
    (answers (rho t) "G" n 1 /\ answers (rho t) "G_dot" n 1 /\ answers (rho t) "G_ddot" n 1) /\
    (forall i, i < n -> is_derive (fun s => out (rho s) "G" i 0) t (out (rho t) "G_dot" i 0)) /\
    (follows_at r0 rho "dq" "ddq" t -> forall i, i < n ->
       is_derive (fun s => out (rho s) "G_dot" i 0) t (out (rho t) "G_ddot" i 0)).
  Proof.
    intros H1. split; [|split].
    - split; [ans fG|split; [ans fGd|ans fGdd]].
    - go b HB HS. intros i Hi. apply (G_dot name cfg r0 r b rho Hm HB t); auto. fu.
    - intros H2. go b HB HS. intros i Hi. apply (G_ddot name cfg r0 r b rho Hm HB t); auto. fu.
  Qed.
End RateThm.
