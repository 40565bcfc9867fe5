(* With coefficients that push back, the spring and damper laws tell any two deflections apart. *)
From Coq Require Import Reals Lra Lia Arith List String.
From Verif.Model Require Import Base Robot Yaml Build.
From Verif.Spec Require Import Math Setup Kinematics Dynamics Api Sample Friction.
From Verif.Proofs Require Import Maps Shape Sample Sample1 Sums StateToy ReloadToy FrictionMain FrictionToy.
Import ListNotations.
Open Scope R_scope.

Lemma rsum_lt n f g k : (k < n)%nat -> (forall i, (i < n)%nat -> f i <= g i) -> f k < g k -> rsum n f < rsum n g.
Proof.
  induction n as [|n IH]; intros Hk H Hlt; [lia|]. simpl.
  destruct (Nat.eq_dec k n) as [->|N].
  - assert (rsum n f <= rsum n g) by (apply rsum_le; intros; apply H; lia). lra.
  - assert (rsum n f < rsum n g) by (apply IH; [lia | intros; apply H; lia | exact Hlt]). pose proof (H n ltac:(lia)). lra.
Qed.

Lemma fric_shape_lt o u v : u < v -> fric_shape o u < fric_shape o v.
Proof.
  unfold fric_shape. intros H.
  destruct (Rle_or_lt 0 u) as [P|P].
  - rewrite (Rabs_right u), (Rabs_right v) by lra. apply Rle_lt_trans with (v ^ o * u).
    + apply Rmult_le_compat_r; [lra|]. apply pow_incr. lra.
    + apply Rmult_lt_compat_l; [apply pow_lt; lra | exact H].
  - destruct (Rle_or_lt v 0) as [Q|Q].
    + rewrite (Rabs_left u), (Rabs_left1 v) by lra.
      assert (A : (- u) ^ o * (- v) < (- u) ^ o * (- u)) by (apply Rmult_lt_compat_l; [apply pow_lt; lra | lra]).
      assert (B : (- v) ^ o * (- v) <= (- u) ^ o * (- v)) by (apply Rmult_le_compat_r; [lra | apply pow_incr; lra]).
      lra.
    + assert (A : 0 < Rabs u ^ o) by (apply pow_lt, Rabs_pos_lt; lra).
      assert (B : 0 < Rabs v ^ o) by (apply pow_lt, Rabs_pos_lt; lra).
      pose proof (Rmult_lt_0_compat _ _ A (Ropp_0_gt_lt_contravar _ P)). pose proof (Rmult_lt_0_compat _ _ B Q). lra.
Qed.

Lemma odd_shape o v : v ^ (2 * o + 1) = fric_shape (2 * o) v.
Proof. unfold fric_shape. rewrite pow_add, pow_1, !pow_mult, <- Rsqr_pow2, (Rsqr_abs v), Rsqr_pow2. reflexivity. Qed.

(* the coefficients of element i push back: none negative, at least one positive *)
Lemma law_lt order c (s : nat -> R -> R) u v :
  (forall o, (o < order)%nat -> 0 <= c o) -> (exists o, (o < order)%nat /\ 0 < c o) ->
  (forall o, s o u < s o v) -> rsum order (fun o => c o * s o u) < rsum order (fun o => c o * s o v).
Proof.
  intros H (k & Hk & P) S. apply rsum_lt with k; [exact Hk| |].
  - intros i Hi. apply Rmult_le_compat_l; [exact (H i Hi) | left; apply S].
  - apply Rmult_lt_compat_l; [exact P | apply S].
Qed.

Lemma spring_inj order c i u v : pushes_back order c i -> spring_law order c i u = spring_law order c i v <-> u = v.
Proof.
  intros [H P]. split; [|intros ->; reflexivity]. intros E.
  assert (L : forall a b, a < b -> spring_law order c i a < spring_law order c i b).
  { intros a b L. unfold spring_law. apply (law_lt order (fun o => c (i * order + o)%nat) (fun o x => x ^ (2 * o + 1))); auto.
    intros o. rewrite !odd_shape. apply fric_shape_lt, L. }
  destruct (Rtotal_order u v) as [G|[G|G]]; [|exact G|]; pose proof (L _ _ G); lra.
Qed.

Lemma fric_inj order c i u v : pushes_back order c i -> fric_law order c i u = fric_law order c i v <-> u = v.
Proof.
  intros [H P]. split; [|intros ->; reflexivity]. intros E.
  assert (L : forall a b, a < b -> fric_law order c i a < fric_law order c i b).
  { intros a b L. unfold fric_law. apply (law_lt order (fun o => c (i * order + o)%nat) fric_shape); auto.
    intros o. apply fric_shape_lt, L. }
  destruct (Rtotal_order u v) as [G|[G|G]]; [|exact G|]; pose proof (L _ _ G); lra.
Qed.

Open Scope nat_scope.
Open Scope string_scope.

Lemma state_set r k v k' i : state (fst (set_arg r k v)) k' i = if String.eqb k k' then nth i v 0%R else state r k' i.
Proof.
  unfold state. destruct (String.eqb_spec k k') as [<-|N].
  - change (arg (fst (set_arg r k v)) k) with (get_arg (fst (set_arg r k v)) k). now rewrite get_set.
  - unfold arg. cbn [fst set_arg with_args args]. rewrite mget_mset_ne by congruence. reflexivity.
Qed.
Lemma param_set r0 r k v k' : k <> k' -> param r0 (fst (set_arg r k v)) k' = param r0 r k'.
Proof.
  intros N. unfold param. unfold arg at 2. cbn [fst set_arg with_args args]. rewrite mget_mset_ne by congruence. reflexivity.
Qed.

Definition bump (n i : nat) : list R := map (fun j => if Nat.eqb j i then 1%R else 0%R) (seq 0 n).
Lemma bump_nth n i j : j < n -> nth j (bump n i) 0%R = if Nat.eqb j i then 1%R else 0%R.
Proof.
  intros H. unfold bump. set (f := fun j => if Nat.eqb j i then 1%R else 0%R).
  rewrite nth_indep with (d' := f n) by (rewrite map_length, seq_length; exact H).
  rewrite map_nth, seq_nth by exact H. reflexivity.
Qed.
Lemma bump_at n i : i < n -> nth i (bump n i) 0%R = 1%R.
Proof. intros H. rewrite bump_nth, Nat.eqb_refl by exact H. reflexivity. Qed.
Lemma bump_off n i j : j <> i -> nth j (bump n i) 0%R = 0%R.
Proof.
  intros N. destruct (Nat.lt_ge_cases j n) as [H|H].
  - rewrite bump_nth by exact H. apply Nat.eqb_neq in N. rewrite N. reflexivity.
  - apply nth_overflow. unfold bump. rewrite map_length, seq_length. exact H.
Qed.
Lemma bump_len n i : List.length (bump n i) = n.
Proof. unfold bump. rewrite map_length, seq_length. reflexivity. Qed.

Section Exact.
  Context name cfg r0 r r' (Hs : session name cfg r0 r r') (He : ELASTIC r0 = true).
  Let n := numJoints r0.
  Let e := numElasticJoints r0.
  Context (Hn : e <= n).

  Lemma k_exact i : 0 < K_order r0 -> i < e -> pushes_back (K_order r0) (param r0 r' "par_K") i ->
    out r' "k" i 0 = spring_law (K_order r0) (param r0 r' "par_K") i (state r' "x" i - state r' "q" (sea_joint r0 i))%R
    <-> state r' "q" i = state r' "q" (sea_joint r0 i).
  Proof.
    intros Hk Hi P. destruct (k_closed _ _ _ _ _ Hs He Hk) as [_ V]. rewrite (V i Hi), (spring_inj _ _ _ _ _ P). split; lra.
  Qed.
  Lemma d_exact i : 0 < D_order r0 -> i < e -> pushes_back (D_order r0) (param r0 r' "par_D") i ->
    out r' "d" i 0 = fric_law (D_order r0) (param r0 r' "par_D") i (state r' "dx" i - state r' "dq" (sea_joint r0 i))%R
    <-> state r' "dq" i = state r' "dq" (sea_joint r0 i).
  Proof.
    intros Hk Hi P. destruct (fric_closed _ _ _ _ _ Hs) as (_ & W & _). destruct (W He Hk) as [_ V].
    rewrite (V i Hi), (fric_inj _ _ _ _ _ P). split; lra.
  Qed.
End Exact.

Section Always.
  Context name cfg r0 r r' (Hs : session name cfg r0 r r') (He : ELASTIC r0 = true).
  Let n := numJoints r0.
  Let e := numElasticJoints r0.
  Context (Hn : e <= n).
  Lemma len_q k : In k ["q"; "dq"] -> List.length (arg r' k) = n.
  Proof. intros H. apply (se_state _ _ _ _ _ Hs). simpl in H. decompose [or] H; try contradiction; subst; unfold state_sizes; simpl; auto. Qed.

  Lemma k_always i : 0 < K_order r0 -> i < e -> pushes_back (K_order r0) (param r0 r' "par_K") i ->
    (forall v, List.length v = n -> let x := fst (set_arg r' "q" v) in
      out x "k" i 0 = spring_law (K_order r0) (param r0 x "par_K") i (state x "x" i - state x "q" (sea_joint r0 i))%R)
    <-> sea_joint r0 i = i.
  Proof.
    intros Hk Hi P.
    assert (X : forall v, List.length v = n -> session name cfg r0 r (fst (set_arg r' "q" v))).
    { intros v Hv. apply session_set; [exact Hs|]. rewrite len_q; [exact Hv | simpl; auto]. }
    split.
    - intros H. specialize (H (bump n i) (bump_len n i)). cbv zeta in H.
      apply (k_exact _ _ _ _ _ (X _ (bump_len n i)) He i Hk Hi) in H; [|rewrite param_set by discriminate; exact P].
      rewrite !state_set in H. cbn [String.eqb Ascii.eqb Bool.eqb] in H. rewrite bump_at in H by lia.
      destruct (Nat.eq_dec (sea_joint r0 i) i) as [E|N]; [exact E|]. rewrite bump_off in H by exact N. lra.
    - intros E v Hv x. apply (k_exact _ _ _ _ _ (X v Hv) He i Hk Hi); [|rewrite E; reflexivity].
      unfold x. rewrite param_set by discriminate. exact P.
  Qed.
  Lemma d_always i : 0 < D_order r0 -> i < e -> pushes_back (D_order r0) (param r0 r' "par_D") i ->
    (forall v, List.length v = n -> let x := fst (set_arg r' "dq" v) in
      out x "d" i 0 = fric_law (D_order r0) (param r0 x "par_D") i (state x "dx" i - state x "dq" (sea_joint r0 i))%R)
    <-> sea_joint r0 i = i.
  Proof.
    intros Hk Hi P.
    assert (X : forall v, List.length v = n -> session name cfg r0 r (fst (set_arg r' "dq" v))).
    { intros v Hv. apply session_set; [exact Hs|]. rewrite len_q; [exact Hv | simpl; auto]. }
    split.
    - intros H. specialize (H (bump n i) (bump_len n i)). cbv zeta in H.
      apply (d_exact _ _ _ _ _ (X _ (bump_len n i)) He i Hk Hi) in H; [|rewrite param_set by discriminate; exact P].
      rewrite !state_set in H. cbn [String.eqb Ascii.eqb Bool.eqb] in H. rewrite bump_at in H by lia.
      destruct (Nat.eq_dec (sea_joint r0 i) i) as [E|N]; [exact E|]. rewrite bump_off in H by exact N. lra.
    - intros E v Hv x. apply (d_exact _ _ _ _ _ (X v Hv) He i Hk Hi); [|rewrite E; reflexivity].
      unfold x. rewrite param_set by discriminate. exact P.
  Qed.
End Always.

Lemma toy_exact h : exists r r', let r0 := toy0 h in session "toy" (toy_cfg h) r0 r r' /\ ELASTIC r0 = true /\
  0 < K_order r0 /\ 0 < D_order r0 /\ 0 < numElasticJoints r0 /\
  pushes_back (K_order r0) (param r0 r' "par_K") 0 /\ pushes_back (D_order r0) (param r0 r' "par_D") 0 /\
  sea_joint r0 0 = 2.
Proof.
  destruct (toy_built h) as [r Hr].
  destruct (toy_over h r [] Hr) as [S1 A1]; [lens|lens|].
  set (r1 := with_args r _) in S1, A1. clearbody r1.
  assert (P : forall k, In k ["par_K"; "par_D"] -> param (toy0 h) r1 k 0 = 1%R /\ param (toy0 h) r1 k 1 = 1%R).
  { intros k Hk. assert (Hin : In (k, 2) (keys (toy0 h))) by (simpl in Hk; decompose [or] Hk; try contradiction; subst; inkeys).
    unfold param. rewrite (A1 k 2 Hin). simpl in Hk. decompose [or] Hk; try contradiction; subst; vm_compute; split; reflexivity. }
  assert (Q : forall k, In k ["par_K"; "par_D"] -> pushes_back 2 (param (toy0 h) r1 k) 0).
  { intros k Hk. destruct (P k Hk) as [P0 P1]. split.
    - intros [|[|o]] Ho; [| |lia]; cbn [Nat.mul Nat.add]; rewrite ?P0, ?P1; lra.
    - exists 0. split; [lia|]. cbn [Nat.mul Nat.add]. rewrite P0. lra. }
  exists r, r1. cbv zeta. split; [exact S1|]. split; [reflexivity|].
  change (K_order (toy0 h)) with 2. change (D_order (toy0 h)) with 2.
  split; [lia|]. split; [lia|]. split; [vm_compute; lia|].
  split; [apply Q; simpl; auto|]. split; [apply Q; simpl; auto|]. vm_compute. reflexivity.
Qed.
