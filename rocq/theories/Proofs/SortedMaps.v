(* Maps built by mset from the empty map have each key once. *)
From Coq Require Import List String Ascii NArith Bool Sorting.Sorted.
From Verif.Model Require Import Base.
Import ListNotations.
Open Scope string_scope.

Lemma acmp_lt a b : Ascii.compare a b = Lt <-> (N_of_ascii a < N_of_ascii b)%N.
Proof. unfold Ascii.compare. apply N.compare_lt_iff. Qed.
Lemma acmp_eq a b : Ascii.compare a b = Eq <-> a = b.
Proof.
  split; [apply Ascii.compare_eq_iff|]. intros ->. unfold Ascii.compare. apply N.compare_refl.
Qed.
Lemma scmp_trans : forall a b c, String.compare a b = Lt -> String.compare b c = Lt -> String.compare a c = Lt.
Proof.
  induction a as [|x a IH]; intros [|y b] [|z c]; simpl; try discriminate; auto.
  destruct (Ascii.compare x y) eqn:E1; try discriminate; destruct (Ascii.compare y z) eqn:E2; try discriminate.
  - apply acmp_eq in E1, E2. subst. rewrite (proj2 (acmp_eq z z) eq_refl). apply IH.
  - apply acmp_eq in E1. subst. now rewrite E2.
  - apply acmp_eq in E2. subst. now rewrite E1.
  - apply acmp_lt in E1, E2. assert (E : Ascii.compare x z = Lt) by (apply acmp_lt; eapply N.lt_trans; eauto). now rewrite E.
Qed.
Definition slt (a b : string) : Prop := String.compare a b = Lt.
Lemma ltb_slt a b : String.ltb a b = true <-> slt a b.
Proof. unfold String.ltb, slt. destruct (String.compare a b); split; congruence. Qed.
Lemma slt_irrefl a : ~ slt a a.
Proof. unfold slt. intros H. pose proof (String.compare_antisym a a) as E. rewrite H in E. discriminate. Qed.
Lemma slt_total a b : a <> b -> ~ slt a b -> slt b a.
Proof.
  unfold slt. intros N H. pose proof (String.compare_antisym b a) as E. rewrite E.
  destruct (String.compare a b) eqn:C; [apply String.compare_eq_iff in C; congruence|congruence|reflexivity].
Qed.

Section M.
  Context {V : Type}.
  Definition skeys (m : smap V) : Prop := StronglySorted slt (map fst m).
  Lemma in_mset k (v : V) (m : smap V) x : In x (map fst (mset k v m)) <-> x = k \/ In x (map fst m).
  Proof.
    induction m as [|[k' v'] t IH]; simpl; [intuition|].
    destruct (String.eqb_spec k k') as [->|N]; simpl; [intuition|].
    destruct (String.ltb k k'); simpl; [intuition|]. rewrite IH. intuition.
  Qed.
  Lemma skeys_mset k (v : V) (m : smap V) : skeys m -> skeys (mset k v m).
  Proof.
    unfold skeys. induction m as [|[k' v'] t IH]; simpl; intros H; [repeat constructor|].
    inversion H as [|? ? H1 H2]; subst.
    destruct (String.eqb_spec k k') as [->|N]; simpl; [constructor; auto|].
    destruct (String.ltb k k') eqn:L; simpl.
    - apply ltb_slt in L. constructor; [constructor; auto|]. constructor; auto.
      eapply Forall_impl; [|exact H2]. intros a Ha. eapply scmp_trans; eauto.
    - constructor; auto. apply Forall_forall. intros x Hx. apply in_mset in Hx. destruct Hx as [->|Hx].
      + apply slt_total; auto. intros S. apply ltb_slt in S. congruence.
      + rewrite Forall_forall in H2. auto.
  Qed.
  Lemma skeys_nodup m : skeys m -> NoDup (map fst m).
  Proof.
    unfold skeys. generalize (map fst m). induction l as [|a l IH]; intros H; constructor; inversion H; subst; auto.
    intros Hi. rewrite Forall_forall in H3. apply (slt_irrefl a). auto.
  Qed.
  Lemma skeys_nil : skeys [].
  Proof. constructor. Qed.
  Lemma in_mfind k (m : smap V) : In k (map fst m) -> exists v : V, mfind k m = Some v.
  Proof.
    induction m as [|[k' v'] t IH]; simpl; [tauto|]. intros H. destruct (String.eqb_spec k k') as [->|N]; eauto.
    destruct H as [->|H]; [congruence|auto].
  Qed.
End M.
