(* Soundness of the symbolic derivative with respect to Coquelicot's is_derive. *)
From Coq Require Import Reals Lra Lia Arith List String Bool FunctionalExtensionality FinFun.
From Coquelicot Require Import Coquelicot.
From Verif.Spec Require Import Math.
From Verif.Model Require Import Expr SX.
From Verif.Proofs Require Import Sums.
Import ListNotations.
Open Scope R_scope.

Lemma sym_eqb_eq a b : sym_eqb a b = true <-> a = b.
Proof.
  unfold sym_eqb. destruct a as [a i], b as [b j]; simpl.
  rewrite andb_true_iff, String.eqb_eq, Nat.eqb_eq.
  split; [intros [-> ->]; auto | intros [= -> ->]; auto].
Qed.
Lemma sym_eqb_refl a : sym_eqb a a = true.
Proof. now apply sym_eqb_eq. Qed.
Lemma sym_eqb_neq a b : sym_eqb a b = false <-> a <> b.
Proof.
  rewrite <- sym_eqb_eq. destruct (sym_eqb a b); split; congruence.
Qed.
Lemma sym_eqb_sym a b : sym_eqb a b = sym_eqb b a.
Proof.
  destruct (sym_eqb a b) eqn:E.
  - apply sym_eqb_eq in E; subst. now rewrite sym_eqb_refl.
  - symmetry; apply sym_eqb_neq. apply sym_eqb_neq in E. congruence.
Qed.

Lemma eval_ext env1 env2 e :
  (forall s, occurs s e = true -> env1 s = env2 s) -> eval env1 e = eval env2 e.
Proof.
  induction e; simpl; intros H; auto;
    try (rewrite IHe1, IHe2; auto; intros s Hs; apply H; rewrite Hs; auto using orb_true_r);
    try (rewrite IHe; auto).
  apply H, sym_eqb_refl.
Qed.

(* some active symbol occurs in e *)
Definition inert (act : sym -> Prop) (e : expr) : Prop := forall s, act s -> occurs s e = false.

(* the active symbols never occur under a square root or in a denominator *)
Fixpoint poly (act : sym -> Prop) (e : expr) : Prop :=
  match e with
  | Cst _ | Var _ => True
  | Add a b | Sub a b | Mul a b => poly act a /\ poly act b
  | Div a b => poly act a /\ inert act b
  | Opp a | Sin a | Cos a => poly act a
  | Sqrt a => inert act a
  | Pow a _ => poly act a
  end.

(* directional derivative of e in the direction D *)
Fixpoint dir (env D : sym -> R) (e : expr) : R :=
  match e with
  | Cst _ => 0
  | Var s => D s
  | Add a b => dir env D a + dir env D b
  | Sub a b => dir env D a - dir env D b
  | Mul a b => dir env D a * eval env b + eval env a * dir env D b
  | Div a b => dir env D a / eval env b
  | Opp a => - dir env D a
  | Sin a => cos (eval env a) * dir env D a
  | Cos a => - (sin (eval env a) * dir env D a)
  | Sqrt _ => 0
  | Pow a n => INR n * eval env a ^ pred n * dir env D a
  end.

Lemma dir_zero env D e : (forall s, occurs s e = true -> D s = 0) -> dir env D e = 0.
Proof.
  induction e; simpl; intros H; auto;
    try (rewrite IHe1, IHe2 by (intros s Hs; apply H; rewrite Hs; auto using orb_true_r); lra);
    try (rewrite IHe by auto; lra).
  - apply H, sym_eqb_refl.
  - rewrite IHe1 by (intros s Hs; apply H; rewrite Hs; auto). unfold Rdiv; lra.
Qed.
Lemma dir_ext env D1 D2 e : (forall s, occurs s e = true -> D1 s = D2 s) -> dir env D1 e = dir env D2 e.
Proof.
  induction e; simpl; intros H; auto;
    try (rewrite IHe1, IHe2 by (intros s Hs; apply H; rewrite Hs; auto using orb_true_r); lra);
    try (rewrite IHe by auto; lra).
  - apply H, sym_eqb_refl.
  - rewrite IHe1 by (intros s Hs; apply H; rewrite Hs; auto). reflexivity.
Qed.
Lemma dir_plus env D1 D2 e : dir env (fun s => D1 s + D2 s) e = dir env D1 e + dir env D2 e.
Proof. induction e; simpl; try (rewrite ?IHe1, ?IHe2, ?IHe; unfold Rdiv; ring). Qed.
Lemma dir_scal env c D e : dir env (fun s => c * D s) e = c * dir env D e.
Proof. induction e; simpl; try (rewrite ?IHe1, ?IHe2, ?IHe; unfold Rdiv; ring). Qed.

Definition delta (v s : sym) : R := if sym_eqb v s then 1 else 0.

Lemma dir_delta_no env v e : occurs v e = false -> dir env (delta v) e = 0.
Proof.
  intros H. apply dir_zero. intros s Hs. unfold delta.
  destruct (sym_eqb v s) eqn:E; auto. apply sym_eqb_eq in E; subst. congruence.
Qed.

(* the symbolic partial derivative evaluates to the directional derivative along one symbol *)
Lemma eval_diff (act : sym -> Prop) env v e : act v -> poly act e -> eval env (diff v e) = dir env (delta v) e.
Proof.
  intros Hv. induction e; simpl; intros H; auto.
  - unfold delta. now destruct (sym_eqb v s).
  - destruct H as [H1 H2].
    destruct (occurs v e1) eqn:E1, (occurs v e2) eqn:E2; simpl;
      rewrite ?IHe1, ?IHe2, ?(dir_delta_no env v e1 E1), ?(dir_delta_no env v e2 E2) by auto; lra.
  - destruct H as [H1 H2].
    destruct (occurs v e1) eqn:E1, (occurs v e2) eqn:E2; simpl;
      rewrite ?IHe1, ?IHe2, ?(dir_delta_no env v e1 E1), ?(dir_delta_no env v e2 E2) by auto; lra.
  - destruct H as [H1 H2].
    destruct (occurs v e1) eqn:E1, (occurs v e2) eqn:E2; simpl;
      rewrite ?IHe1, ?IHe2, ?(dir_delta_no env v e1 E1), ?(dir_delta_no env v e2 E2) by auto; lra.
  - destruct H as [H1 H2]. rewrite (H2 v Hv).
    destruct (occurs v e1) eqn:E1; simpl.
    + now rewrite IHe1.
    + rewrite (dir_delta_no env v e1 E1). unfold Rdiv; lra.
  - destruct (occurs v e) eqn:E; simpl; [now rewrite IHe | rewrite (dir_delta_no env v e E); lra].
  - destruct (occurs v e) eqn:E; simpl; [now rewrite IHe | rewrite (dir_delta_no env v e E); lra].
  - destruct (occurs v e) eqn:E; simpl; [now rewrite IHe | rewrite (dir_delta_no env v e E); lra].
  - now rewrite (H v Hv).
  - destruct (occurs v e) eqn:E; simpl; [rewrite IHe by auto; lra | rewrite (dir_delta_no env v e E); lra].
Qed.

Lemma occurs_diff s v e : occurs s (diff v e) = true -> occurs s e = true.
Proof.
  induction e; simpl.
  - congruence.
  - destruct (sym_eqb v s0); simpl; congruence.
  - destruct (occurs v e1), (occurs v e2); simpl; rewrite ?orb_true_iff; intuition congruence.
  - destruct (occurs v e1), (occurs v e2); simpl; rewrite ?orb_true_iff; intuition congruence.
  - destruct (occurs v e1), (occurs v e2); simpl; rewrite ?orb_true_iff; intuition congruence.
  - destruct (occurs v e1), (occurs v e2); simpl; rewrite ?orb_true_iff; intuition congruence.
  - destruct (occurs v e); simpl; try congruence; auto.
  - destruct (occurs v e); simpl; rewrite ?orb_true_iff; intuition congruence.
  - destruct (occurs v e); simpl; rewrite ?orb_true_iff; intuition congruence.
  - destruct (occurs v e); simpl; rewrite ?orb_true_iff; intuition congruence.
  - destruct (occurs v e); simpl; rewrite ?orb_true_iff; intuition congruence.
Qed.
Lemma inert_diff (act : sym -> Prop) v e : inert act e -> inert act (diff v e).
Proof.
  intros H s Hs. destruct (occurs s (diff v e)) eqn:E; auto.
  apply occurs_diff in E. rewrite H in E; auto.
Qed.
Lemma poly_diff (act : sym -> Prop) v e : act v -> poly act e -> poly act (diff v e).
Proof.
  intros Hv. induction e; simpl; intros H; auto.
  - now destruct (sym_eqb v s).
  - destruct H, (occurs v e1), (occurs v e2); simpl; auto.
  - destruct H, (occurs v e1), (occurs v e2); simpl; auto.
  - destruct H, (occurs v e1), (occurs v e2); simpl; auto.
  - destruct H as [H1 H2]. rewrite (H2 v Hv). destruct (occurs v e1); simpl; auto.
  - destruct (occurs v e); simpl; auto.
  - destruct (occurs v e); simpl; auto.
  - destruct (occurs v e); simpl; auto.
  - now rewrite (H v Hv).
  - destruct (occurs v e); simpl; auto.
Qed.

(* chain rule: e evaluated along a path whose inactive symbols are frozen *)
Lemma path_derive (act : sym -> Prop) (E : R -> sym -> R) (D : sym -> R) t0 e :
  (forall s, act s -> is_derive (fun t => E t s) t0 (D s)) ->
  (forall s t, ~ act s -> E t s = E t0 s) ->
  (forall s, ~ act s -> D s = 0) ->
  (forall s, act s \/ ~ act s) ->
  poly act e ->
  is_derive (fun t => eval (E t) e) t0 (dir (E t0) D e).
Proof.
  intros HD Hf HD0 Hdec.
  assert (Hin : forall e, inert act e -> forall t, eval (E t) e = eval (E t0) e).
  { intros e' He' t. apply eval_ext. intros s Hs. destruct (Hdec s) as [Ha|Ha]; auto.
    rewrite He' in Hs; congruence. }
  induction e; simpl; intros Hp.
  - apply (is_derive_const r t0).
  - destruct (Hdec s) as [Ha|Ha]; auto.
    rewrite HD0 by auto.
    apply is_derive_ext with (fun _ => E t0 s); [intros t; symmetry; auto|].
    apply (is_derive_const (E t0 s) t0).
  - destruct Hp. apply (is_derive_plus (fun t => eval (E t) e1) (fun t => eval (E t) e2)); auto.
  - destruct Hp. apply (is_derive_minus (fun t => eval (E t) e1) (fun t => eval (E t) e2)); auto.
  - destruct Hp. apply (is_derive_mult (fun t => eval (E t) e1) (fun t => eval (E t) e2)); auto.
    intros; apply Rmult_comm.
  - destruct Hp as [H1 H2].
    apply is_derive_ext with (fun t => (/ eval (E t0) e2) * (eval (E t) e1)).
    { intros t. rewrite (Hin e2 H2 t). apply Rmult_comm. }
    unfold Rdiv. rewrite Rmult_comm.
    apply (is_derive_scal (fun t => eval (E t) e1) t0 (/ eval (E t0) e2)); auto.
  - apply (is_derive_opp (fun t => eval (E t) e)); auto.
  - rewrite Rmult_comm.
    apply (is_derive_comp sin (fun t => eval (E t) e)); auto. apply is_derive_sin.
  - replace (- (sin (eval (E t0) e) * dir (E t0) D e))
      with (dir (E t0) D e * (- sin (eval (E t0) e))) by ring.
    apply (is_derive_comp cos (fun t => eval (E t) e)); auto. apply is_derive_cos.
  - apply is_derive_ext with (fun _ => sqrt (eval (E t0) e)).
    { intros t. now rewrite (Hin e Hp t). }
    apply (is_derive_const (sqrt (eval (E t0) e)) t0).
  - replace (INR n * eval (E t0) e ^ pred n * dir (E t0) D e)
      with (INR n * dir (E t0) D e * eval (E t0) e ^ pred n) by ring.
    apply (is_derive_pow (fun t => eval (E t) e)); auto.
Qed.

(* sums of partial derivatives *)
Fixpoint lsum (l : list sym) (f : sym -> R) : R :=
  match l with [] => 0 | s :: t => f s + lsum t f end.

Lemma lsum_ext l f g : (forall s, In s l -> f s = g s) -> lsum l f = lsum l g.
Proof. induction l; simpl; intros H; auto. rewrite H, IHl; auto. Qed.

Definition on_list (l : list sym) (D : sym -> R) (s : sym) : R :=
  if in_dec (fun a b => match Bool.bool_dec (sym_eqb a b) true with
                        | left h => left (proj1 (sym_eqb_eq a b) h)
                        | right h => right (fun e => h (proj2 (sym_eqb_eq a b) e)) end) s l
  then D s else 0.

Lemma dir_list (act : sym -> Prop) env D e l :
  NoDup l -> (forall s, In s l -> act s) -> poly act e ->
  dir env (on_list l D) e = lsum l (fun s => eval env (diff s e) * D s).
Proof.
  intros Hnd Hl Hp. induction l as [|v l IH]; simpl.
  - apply dir_zero. intros s _. unfold on_list. destruct in_dec; auto. destruct i.
  - inversion Hnd; subst.
    rewrite <- IH by (auto; intros; apply Hl; now right).
    rewrite (eval_diff act) by (auto; apply Hl; now left).
    rewrite Rmult_comm, <- dir_scal, <- dir_plus. apply dir_ext. intros s _.
    unfold on_list, delta.
    destruct (in_dec _ s (v :: l)) as [Hi|Hi], (in_dec _ s l) as [Hj|Hj];
      destruct (sym_eqb v s) eqn:E; try lra.
    + apply sym_eqb_eq in E; subst; contradiction.
    + apply sym_eqb_eq in E; subst; lra.
    + destruct Hi; [|contradiction]. subst. rewrite sym_eqb_refl in E; discriminate.
    + exfalso; apply Hi; now right.
    + exfalso; apply Hi; now right.
    + apply sym_eqb_eq in E; subst. exfalso; apply Hi; now left.
Qed.

(* the symbols name_0 ... name_{n-1} *)
Definition block (name : string) (n : nat) : list sym := map (fun i => (name, i)) (seq 0 n).
Lemma in_block name n s : In s (block name n) <-> fst s = name /\ (snd s < n)%nat.
Proof.
  unfold block. rewrite in_map_iff. setoid_rewrite in_seq. destruct s as [a i]; simpl. split.
  - intros (k & [= <- <-] & ?); split; auto; lia.
  - intros [-> ?]. exists i; split; auto; lia.
Qed.
Lemma NoDup_block name n : NoDup (block name n).
Proof.
  unfold block. apply FinFun.Injective_map_NoDup; [|apply seq_NoDup]. intros a b H; now inversion H.
Qed.
Lemma lsum_app l1 l2 f : lsum (l1 ++ l2) f = lsum l1 f + lsum l2 f.
Proof. induction l1; simpl; [lra|]. rewrite IHl1; lra. Qed.
Lemma lsum_block name n f : lsum (block name n) f = rsum n (fun i => f (name, i)).
Proof.
  unfold block. induction n as [|n IH]; auto.
  rewrite seq_S, map_app, lsum_app, IH. simpl. lra.
Qed.

Definition upd (env : sym -> R) (v : sym) (x : R) (s : sym) : R := if sym_eqb v s then x else env s.
Lemma upd_same env v : upd env v (env v) = env.
Proof.
  apply functional_extensionality. intros s. unfold upd. destruct (sym_eqb v s) eqn:E; auto.
  apply sym_eqb_eq in E; now subst.
Qed.

(* the symbolic partial derivative is the derivative in that variable *)
Lemma diff_sound (act : sym -> Prop) env v e :
  act v -> poly act e ->
  is_derive (fun x => eval (upd env v x) e) (env v) (eval env (diff v e)).
Proof.
  intros Hv Hp.
  assert (Hp' : poly (fun s => s = v) e).
  { clear - Hv Hp. assert (Hi : forall e, inert act e -> inert (fun s => s = v) e).
    { intros e' H s ->. auto. }
    induction e; simpl in *; intuition. }
  rewrite (eval_diff (fun s => s = v)) by auto.
  rewrite <- (upd_same env v) at 2.
  apply path_derive with (act := fun s => s = v); auto.
  - intros s ->. unfold upd, delta. rewrite sym_eqb_refl. apply (is_derive_id (env v)).
  - intros s t H. unfold upd. destruct (sym_eqb v s) eqn:E; auto. apply sym_eqb_eq in E; congruence.
  - intros s H. unfold delta. destruct (sym_eqb v s) eqn:E; auto. apply sym_eqb_eq in E; congruence.
  - intros s. destruct (sym_eqb v s) eqn:E.
    + apply sym_eqb_eq in E; auto.
    + apply sym_eqb_neq in E; auto.
Qed.

(* expressions that agree when v varies have the same partial derivative *)
Lemma diff_unique (act : sym -> Prop) env v e (f : R -> R) l :
  act v -> poly act e ->
  (forall x, eval (upd env v x) e = f x) -> is_derive f (env v) l -> eval env (diff v e) = l.
Proof.
  intros Hv Hp He Hf.
  assert (H := diff_sound act env v e Hv Hp).
  apply is_derive_unique in H. apply is_derive_unique in Hf. rewrite <- H, <- Hf.
  apply Derive_ext; auto.
Qed.
