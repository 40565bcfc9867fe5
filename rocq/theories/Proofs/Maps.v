(* Lookups in association lists, lists of flags. *)
From Coq Require Import List Arith String Bool Lia ZArith Reals.
From Verif.Model Require Import Base Expr SX Robot.
From Verif.Proofs Require Import Calc.
Import ListNotations.
Open Scope nat_scope.

Section M.
  Context {V : Type}.
  Implicit Types (m : smap V) (v d : V).
  Lemma mfind_mset k v m : mfind k (mset k v m) = Some v.
  Proof.
    induction m as [|[k' v'] t IH]; simpl.
    - now rewrite String.eqb_refl.
    - destruct (String.eqb k k') eqn:E; simpl.
      + now rewrite String.eqb_refl.
      + destruct (String.ltb k k'); simpl; [now rewrite String.eqb_refl|]. now rewrite E.
  Qed.
  Lemma mfind_mset_ne k k' v m : k' <> k -> mfind k' (mset k v m) = mfind k' m.
  Proof.
    intros Hne. induction m as [|[k1 v1] t IH]; simpl.
    - destruct (String.eqb k' k) eqn:E; auto. apply String.eqb_eq in E; congruence.
    - destruct (String.eqb k k1) eqn:E; simpl.
      + apply String.eqb_eq in E; subst. destruct (String.eqb k' k1) eqn:E'; auto.
        apply String.eqb_eq in E'; congruence.
      + destruct (String.ltb k k1); simpl.
        * destruct (String.eqb k' k) eqn:E'; auto. apply String.eqb_eq in E'; congruence.
        * now rewrite IH.
  Qed.
  Lemma mget_mset d k v m : mget d k (mset k v m) = v.
  Proof. unfold mget. now rewrite mfind_mset. Qed.
  Lemma mget_mset_ne d k k' v m : k' <> k -> mget d k' (mset k v m) = mget d k' m.
  Proof. intros. unfold mget. now rewrite mfind_mset_ne. Qed.
  Lemma mcount_mset k v m : mcount k (mset k v m) = true.
  Proof. unfold mcount. now rewrite mfind_mset. Qed.
  Lemma mcount_mset_ne k k' v m : k' <> k -> mcount k' (mset k v m) = mcount k' m.
  Proof. intros. unfold mcount. now rewrite mfind_mset_ne. Qed.
  Lemma mtouch_id d k m : mcount k m = true -> mtouch d k m = m.
  Proof. unfold mtouch, minsert, mcount. destruct (mfind k m); congruence. Qed.
  Lemma mfind_minsert k v m : mfind k (minsert k v m) = match mfind k m with Some x => Some x | None => Some v end.
  Proof. unfold minsert. destruct (mfind k m) eqn:E; auto. apply mfind_mset. Qed.
  Lemma mfind_minsert_ne k k' v m : k' <> k -> mfind k' (minsert k v m) = mfind k' m.
  Proof. intros H. unfold minsert. destruct (mfind k m); auto. now apply mfind_mset_ne. Qed.
  Lemma mfind_some_count k m : mfind k m <> None <-> mcount k m = true.
  Proof. unfold mcount. destruct (mfind k m); split; congruence. Qed.
  Lemma mcount_fold_touch d k l m : mcount k m = true -> mcount k (fold_left (fun m a => mtouch d a m) l m) = true.
  Proof.
    revert m. induction l; simpl; intros m H; auto. apply IHl.
    unfold mtouch, mcount. destruct (string_dec k a) as [->|N].
    - rewrite mfind_minsert. destruct (mfind a m); auto.
    - rewrite mfind_minsert_ne by auto. auto.
  Qed.
  Lemma fold_touch_id d l m : (forall k, In k l -> mcount k m = true) ->
    fold_left (fun m a => mtouch d a m) l m = m.
  Proof.
    revert m. induction l; simpl; intros m H; auto. rewrite mtouch_id by auto. apply IHl; auto.
  Qed.
End M.

(* positions of the set flags *)
Definition fidx (fl : list Z) : list nat :=
  filter (fun i => flag_set (nth i fl 0%Z)) (seq 0 (List.length fl)).
Lemma in_fidx fl i : In i (fidx fl) <-> i < List.length fl /\ flag_set (nth i fl 0%Z) = true.
Proof. unfold fidx. rewrite filter_In, in_seq. split; intros [A B]; split; auto; lia. Qed.
Lemma NoDup_fidx fl : NoDup (fidx fl).
Proof. unfold fidx. apply NoDup_filter, seq_NoDup. Qed.

Lemma filter_map_S (p : nat -> bool) l : filter p (map S l) = map S (filter (fun i => p (S i)) l).
Proof. induction l; simpl; auto. destruct (p (S a)); simpl; now rewrite IHl. Qed.
Lemma fidx_cons z fl : fidx (z :: fl) = ((if flag_set z then [0] else []) ++ map S (fidx fl))%list.
Proof.
  unfold fidx. simpl. rewrite <- seq_shift, filter_map_S.
  destruct (flag_set z); reflexivity.
Qed.

Lemma select_symb_eq fl m k i :
  i + k <= List.length fl ->
  select_symb fl m i k = Ok (map (vat m) (filter (fun j => flag_set (nth j fl 0%Z)) (seq i k))).
Proof.
  revert i. induction k; intros i H; simpl; auto.
  destruct (nth_error fl i) eqn:E.
  - rewrite IHk by lia. simpl. rewrite (nth_error_nth _ _ 0%Z E). destruct (flag_set z); auto.
  - apply nth_error_None in E. lia.
Qed.

Lemma sym_mem_In s l : sym_mem s l = true <-> In s l.
Proof.
  induction l; simpl; [split; [discriminate|tauto]|].
  rewrite orb_true_iff, IHl, sym_eqb_eq. split; intros [H|H]; auto.
Qed.
Lemma nodup_syms_NoDup l : nodup_syms l = true <-> NoDup l.
Proof.
  induction l; simpl; [split; constructor|]. rewrite andb_true_iff, negb_true_iff, IHl.
  split.
  - intros [A B]. constructor; auto. rewrite <- sym_mem_In. congruence.
  - intros H. inversion H; subst. split; auto. destruct (sym_mem a l) eqn:E; auto.
    apply sym_mem_In in E. contradiction.
Qed.

Lemma flat_map_ext_in {A B} (f g : A -> list B) l : (forall a, In a l -> f a = g a) -> flat_map f l = flat_map g l.
Proof. induction l; simpl; intros H; auto. rewrite H, IHl; auto. Qed.
