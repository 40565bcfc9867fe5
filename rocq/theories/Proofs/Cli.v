(* the robot name taken from the path of the configuration file *)
From Coq Require Import String Ascii List Bool Arith Lia ZArith.
From Verif.Model Require Import Base Robot Text.
From Verif.Spec Require Import Text.
From Verif.Proofs Require Import Text.
Import ListNotations.
Open Scope nat_scope.
Open Scope string_scope.

Lemma flo_app s t set : find_last_of (s ++ t) set =
  match find_last_of t set with Some p => Some (String.length s + p) | None => find_last_of s set end.
Proof.
  induction s as [|a s IH]; simpl; [destruct (find_last_of t set); auto|].
  rewrite IH. destruct (find_last_of t set); auto.
Qed.
Lemma flo_none s set : find_last_of s set = None <-> forall i a, char_at s i a -> in_chars a set = false.
Proof.
  unfold char_at. induction s as [|b s IH]; simpl.
  - split; auto. intros _ [|i] a H; discriminate.
  - destruct (find_last_of s set) eqn:E.
    + split; [discriminate|]. intros H. assert (X : Some n = None); [|discriminate X].
      apply IH. intros i a G. apply (H (S i) a G).
    + destruct (in_chars b set) eqn:B; split; intros H; try discriminate; auto.
      * specialize (H 0 b eq_refl). congruence.
      * intros [|i] a G; [simpl in G; congruence|]. apply (proj1 IH eq_refl i a G).
Qed.
Lemma flo_lt s set p : find_last_of s set = Some p -> p < String.length s.
Proof.
  revert p. induction s as [|a s IH]; simpl; intros p H; [discriminate|].
  destruct (find_last_of s set); [injection H as <-; specialize (IH n eq_refl); lia|].
  destruct (in_chars a set); [injection H as <-; lia|discriminate].
Qed.

Lemma cli_total p name : exists c, cli_names p name = Ok c.
Proof.
  unfold cli_names. destruct (0 <? int_of (find_last_of p ".yaml"))%Z; [|eauto].
  destruct (find_last_of p "/") as [ip|] eqn:E.
  - apply flo_lt in E. unfold substr. change (Nat.ltb (String.length p) 0) with false. 
    replace (Nat.ltb (String.length p) (ip + 1)) with false by (symmetry; apply Nat.ltb_ge; lia).
    destruct (_ <? 0)%Z; destruct (_ <? 0)%Z; simpl; eauto.
  - unfold substr. change (Nat.ltb (String.length p) 0) with false. destruct (_ <? 0)%Z; simpl; eauto.
Qed.

Lemma no_slash_yaml : find_last_of ".yaml" "/" = None.
Proof. reflexivity. Qed.
Lemma substr_ok s pos n : pos + n <= String.length s -> substr s pos (Z.of_nat n) = Ok (substring pos n s).
Proof.
  intros H. unfold substr. replace (Nat.ltb (String.length s) pos) with false by (symmetry; apply Nat.ltb_ge; lia).
  replace (Z.of_nat n <? 0)%Z with false by (symmetry; apply Z.ltb_ge; lia). rewrite Nat2Z.id. reflexivity.
Qed.

Lemma cli_plain name over : (forall i, ~ char_at name i "/") ->
  cli_names (name ++ ".yaml") over = Ok (Accepted "./" (match over with Some n => n | None => name end)).
Proof.
  intros H. unfold cli_names. rewrite !flo_app. rewrite no_slash_yaml.
  replace (find_last_of name "/") with (@None nat).
  2:{ symmetry. apply flo_none. intros i a C. simpl. destruct (Ascii.eqb_spec a "/"); [subst; exfalso; eapply H; eauto|]. auto. }
  change (find_last_of ".yaml" ".yaml") with (Some 4). unfold int_of.
  replace (0 <? Z.of_nat (String.length name + 4))%Z with true by (symmetry; apply Z.ltb_lt; lia).
  replace (Z.of_nat (String.length name + 4) + 1 - 5)%Z with (Z.of_nat (String.length name)) by lia.
  rewrite substr_ok by (rewrite length_app; simpl; lia). simpl. rewrite substring_pre. reflexivity.
Qed.
Lemma cli_dir dir name over : (forall i, ~ char_at name i "/") ->
  cli_names (dir ++ "/" ++ name ++ ".yaml") over =
    Ok (Accepted (dir ++ "/") (match over with Some n => n | None => name end)).
Proof.
  intros H. unfold cli_names. rewrite !flo_app. rewrite no_slash_yaml.
  replace (find_last_of name "/") with (@None nat).
  2:{ symmetry. apply flo_none. intros i a C. simpl. destruct (Ascii.eqb_spec a "/"); [subst; exfalso; eapply H; eauto|]. auto. }
  change (find_last_of ".yaml" ".yaml") with (Some 4). change (find_last_of "/" "/") with (Some 0).
  change (String.length "/") with 1.
  unfold int_of. set (nd := String.length dir). set (nn := String.length name).
  replace (0 <? Z.of_nat (nd + (1 + (nn + 4))))%Z with true by (symmetry; apply Z.ltb_lt; lia).
  replace (Z.of_nat (nd + 0) + 1)%Z with (Z.of_nat (nd + 1)) by lia.
  replace (Z.of_nat (nd + (1 + (nn + 4))) - Z.of_nat (nd + 0) - 5)%Z with (Z.of_nat nn) by lia.
  replace (nd + 0 + 1) with (nd + 1) by lia.
  rewrite !substr_ok by (rewrite !length_app; simpl; fold nd nn; lia). cbn [bind].
  replace (dir ++ "/" ++ name ++ ".yaml") with ((dir ++ "/") ++ name ++ ".yaml") by apply app_assoc_s.
  rewrite (substring_pre' (dir ++ "/")) by (rewrite length_app; reflexivity).
  rewrite (substring_drop' (dir ++ "/")) by (rewrite length_app; reflexivity).
  rewrite substring_pre' by reflexivity. reflexivity.
Qed.

(* what is rejected: paths whose characters from the second on avoid '.', 'y', 'a', 'm', 'l' *)
Lemma cli_rejected p over : cli_names p over = Ok Rejected <->
  forall i a, char_at p (S i) a -> ~ In a ["."; "y"; "a"; "m"; "l"]%char.
Proof.
  assert (IC : forall a, in_chars a ".yaml" = true <-> In a ["."; "y"; "a"; "m"; "l"]%char).
  { intros a. simpl. rewrite !orb_true_iff. rewrite !Ascii.eqb_eq. intuition congruence. }
  assert (E : cli_names p over = Ok Rejected <-> (int_of (find_last_of p ".yaml") <= 0)%Z).
  { destruct (cli_total p over) as [c C]. unfold cli_names in *.
    destruct (Z.ltb_spec 0 (int_of (find_last_of p ".yaml"))) as [L|L].
    - split; [|lia]. intros Hr. exfalso. revert Hr. 
      destruct (match find_last_of p "/" with Some _ => _ | None => _ end) as [x| |]; simpl; discriminate.
    - split; auto. }
  rewrite E. destruct p as [|b p].
  - simpl. split; [intros _ i a H; discriminate H|lia].
  - cbn [find_last_of]. split.
    + intros H i a C I. assert (N : find_last_of p ".yaml" <> None).
      { intros F. apply flo_none with (i := i) (a := a) in F; [|exact C]. apply IC in I. congruence. }
      destruct (find_last_of p ".yaml"); [|congruence]. simpl in H. lia.
    + intros H. replace (find_last_of p ".yaml") with (@None nat).
      * destruct (in_chars b ".yaml"); simpl; lia.
      * symmetry. apply flo_none. intros i a C. destruct (in_chars a ".yaml") eqn:Q; auto.
        exfalso. apply (H i a C). apply IC. exact Q.
Qed.
