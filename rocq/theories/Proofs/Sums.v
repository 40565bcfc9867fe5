(* Finite sums of reals. *)
From Coq Require Import Reals Lra Lia Arith.
From Verif.Spec Require Import Math.
From Verif.Model Require Import Expr SX.
Open Scope R_scope.

Lemma rsum_ext n f g : (forall i, (i < n)%nat -> f i = g i) -> rsum n f = rsum n g.
Proof. induction n as [|n IH]; intros H; simpl; [easy|]. rewrite IH, H; auto. Qed.
Lemma rsum_0 n f : (forall i, (i < n)%nat -> f i = 0) -> rsum n f = 0.
Proof. induction n as [|n IH]; intros H; simpl; [easy|]. rewrite IH, H; auto. lra. Qed.
Lemma rsum_plus n f g : rsum n (fun i => f i + g i) = rsum n f + rsum n g.
Proof. induction n as [|n IH]; simpl; [lra|]. rewrite IH; lra. Qed.
Lemma rsum_minus n f g : rsum n (fun i => f i - g i) = rsum n f - rsum n g.
Proof. induction n as [|n IH]; simpl; [lra|]. rewrite IH; lra. Qed.
Lemma rsum_opp n f : rsum n (fun i => - f i) = - rsum n f.
Proof. induction n as [|n IH]; simpl; [lra|]. rewrite IH; lra. Qed.
Lemma rsum_scal n c f : rsum n (fun i => c * f i) = c * rsum n f.
Proof. induction n as [|n IH]; simpl; [lra|]. rewrite IH; lra. Qed.
Lemma rsum_scal_r n c f : rsum n (fun i => f i * c) = rsum n f * c.
Proof. induction n as [|n IH]; simpl; [lra|]. rewrite IH; lra. Qed.
Lemma rsum_const0 n : rsum n (fun _ => 0) = 0.
Proof. apply rsum_0; auto. Qed.
Lemma rsum_swap n m f : rsum n (fun i => rsum m (fun j => f i j)) = rsum m (fun j => rsum n (fun i => f i j)).
Proof.
  induction n as [|n IH]; simpl.
  - now rewrite rsum_const0.
  - rewrite IH, <- rsum_plus. reflexivity.
Qed.
Lemma rsum_split n m f : rsum (n + m) f = rsum n f + rsum m (fun i => f (n + i)%nat).
Proof.
  induction m as [|m IH].
  - rewrite Nat.add_0_r; simpl; lra.
  - rewrite Nat.add_succ_r; simpl. rewrite IH; lra.
Qed.
Lemma rsum_S_l n f : rsum (S n) f = f 0%nat + rsum n (fun i => f (S i)).
Proof. change (S n) with (1 + n)%nat. rewrite rsum_split; simpl. lra. Qed.
(* a sum with at most one non-zero term *)
Lemma rsum_single n k f : (k < n)%nat -> (forall i, (i < n)%nat -> i <> k -> f i = 0) -> rsum n f = f k.
Proof.
  intros Hk H.
  replace n with (k + S (n - k - 1))%nat by lia.
  rewrite rsum_split, rsum_S_l, Nat.add_0_r.
  rewrite !rsum_0; [lra| |]; intros i Hi; apply H; lia.
Qed.
Lemma rsum_trunc n k f : (k <= n)%nat -> (forall i, (k <= i < n)%nat -> f i = 0) -> rsum n f = rsum k f.
Proof.
  intros Hk H. replace n with (k + (n - k))%nat by lia.
  rewrite rsum_split, (rsum_0 (n - k)); [lra|]. intros; apply H; lia.
Qed.
Lemma rsum_delta n k f : (k < n)%nat ->
  rsum n (fun i => if Nat.eqb i k then f i else 0) = f k.
Proof.
  intros Hk. rewrite (rsum_single n k); auto.
  - now rewrite Nat.eqb_refl.
  - intros i _ Hi. apply Nat.eqb_neq in Hi. now rewrite Hi.
Qed.
Lemma rsum_le n f g : (forall i, (i < n)%nat -> f i <= g i) -> rsum n f <= rsum n g.
Proof. induction n as [|n IH]; intros H; simpl; [lra|]. apply Rplus_le_compat; auto. Qed.
Lemma rsum_nonneg n f : (forall i, (i < n)%nat -> 0 <= f i) -> 0 <= rsum n f.
Proof. induction n as [|n IH]; intros H; simpl; [lra|]. apply Rplus_le_le_0_compat; auto. Qed.
Lemma rsum_nonneg_0 n f :
  (forall i, (i < n)%nat -> 0 <= f i) -> rsum n f = 0 -> forall i, (i < n)%nat -> f i = 0.
Proof.
  induction n as [|n IH]; intros H Hs i Hi; [lia|]. simpl in Hs.
  assert (0 <= rsum n f) by (apply rsum_nonneg; auto).
  assert (0 <= f n) by auto.
  assert (rsum n f = 0) by lra. assert (f n = 0) by lra.
  destruct (Nat.eq_dec i n) as [->|]; auto. apply IH; auto; lia.
Qed.

Lemma eval_esum env n f : eval env (esum n f) = rsum n (fun k => eval env (f k)).
Proof. induction n as [|n IH]; simpl; [easy|]. now rewrite IH. Qed.
