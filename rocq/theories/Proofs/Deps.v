(* Which arguments each published function declares. *)
From Coq Require Import Reals List Arith String Bool Lia ZArith.
From Verif.Model Require Import Base Expr SX Robot Kinematics Dynamics Regressors.
From Verif.Proofs Require Import Calc Rel Maps Pure PureRel Names Shape Dims Sizes.
Import ListNotations.
Open Scope nat_scope.
Open Scope string_scope.

Lemma al_In b s p k : In k (al b s p) -> In k (s ++ p).
Proof. unfold al, obtain_symb_parameters. rewrite !in_app_iff, filter_In. tauto. Qed.
Lemma al_NoDup b s p : NoDup (s ++ p) -> NoDup (al b s p).
Proof.
  unfold al, obtain_symb_parameters. induction s; simpl; intros H.
  - apply NoDup_filter; auto.
  - inversion H; subst. constructor; auto. intros Hin. apply H2. rewrite in_app_iff in *. rewrite filter_In in Hin. tauto.
Qed.
Lemma alist_deps b f k : In k (alist b f) -> In k (deps b f).
Proof.
  destruct f; cbn [alist deps]; intros H; auto.
  all: repeat match goal with |- context [if ?c then _ else _] => destruct c end; try (apply al_In in H; exact H).
Qed.
Ltac nodup := repeat (constructor; [simpl; intuition discriminate|]); constructor.
Lemma alist_NoDup b f : NoDup (alist b f).
Proof.
  destruct f; cbn [alist].
  all: repeat match goal with |- context [if ?c then _ else _] => destruct c end.
  all: try (apply al_NoDup). all: try (simpl; nodup).
Qed.
Lemma deps_keys b f k : enabled b f -> In k (deps b f) -> exists len, In (k, len) (keys b).
Proof.
  intros He Hk.
  assert (HD : forall k0, In k0 ["q"; "dq"; "ddq"; "d3q"; "dqr"; "ddqr"; "w"; "par_DHtable"; "par_world2L0"; "par_Ln2EE"; "par_gravity"; "par_DYN"] ->
             exists len, In (k0, len) (keys b)).
  { intros k0 H0. simpl in H0. unfold keys, state_keys, par_keys.
    repeat (destruct H0 as [<-|H0]; [eexists; rewrite !in_app_iff; simpl; intuition reflexivity|]). destruct H0. }
  assert (HE : ELASTIC b = true -> forall k0, In k0 ["x"; "dx"; "ddx"; "par_K"; "par_D"; "par_Dm"; "par_Mm"] ->
             exists len, In (k0, len) (keys b)).
  { intros E k0 H0. simpl in H0. unfold keys, state_keys, par_keys. rewrite E.
    repeat (destruct H0 as [<-|H0]; [eexists; rewrite !in_app_iff; simpl; intuition reflexivity|]). destruct H0. }
  assert (HDl : 0 < Dl_order b -> exists len, In ("par_Dl", len) (keys b)).
  { intros H. apply Nat.ltb_lt in H. unfold keys, par_keys. rewrite H. eexists. rewrite !in_app_iff. simpl. intuition reflexivity. }
  destruct f; cbn [deps enabled] in *.
  all: repeat match goal with H : context [if ?c then _ else _] |- _ => destruct c end.
  all: try (apply HD; simpl in Hk |- *; intuition congruence).
  - simpl in Hk. destruct Hk as [<-|[<-|[]]]; auto. apply HD; simpl; tauto.
  - simpl in Hk. destruct Hk as [<-|[]]; auto. apply HDl; lia.
  - destruct He. simpl in Hk. destruct Hk as [<-|[<-|[<-|[]]]]; [apply HD|apply HE; auto|apply HE; auto]; simpl; tauto.
  - destruct He. apply HE; auto. simpl in *; tauto.
  - destruct He. simpl in Hk. destruct Hk as [<-|[<-|[<-|[]]]]; [apply HD|apply HE; auto|apply HE; auto]; simpl; tauto.
  - destruct He. apply HE; auto. simpl in *; tauto.
  - destruct He. apply HE; auto. simpl in *; tauto.
  - destruct He. apply HE; auto. simpl in *; tauto.
  - apply HE; auto. simpl in *; tauto.
  - destruct He. simpl in Hk. destruct Hk as [<-|[<-|[]]]; [apply HD|apply HE; auto]; simpl; tauto.
  - destruct He. simpl in Hk. destruct Hk as [<-|[<-|[]]]; [apply HD|apply HE; auto]; simpl; tauto.
  - destruct He. apply HE; auto. simpl in *; tauto.
  - destruct He. apply HE; auto. simpl in *; tauto.
Qed.

