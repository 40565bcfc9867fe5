(* Element-wise relations between symbolic matrices that are preserved by every matrix operation.
   Used for sizes, absence of errors, closedness, smoothness and independence from selectivity. *)
From Coq Require Import Reals Lra Lia Arith List String Bool.
From Verif.Model Require Import Expr SX.
From Verif.Proofs Require Import Calc.
Import ListNotations.
Open Scope nat_scope.

Record congr (Q : expr -> expr -> Prop) : Prop := {
  q_cst : forall r, Q (Cst r) (Cst r);
  q_add : forall a b a' b', Q a a' -> Q b b' -> Q (Add a b) (Add a' b');
  q_sub : forall a b a' b', Q a a' -> Q b b' -> Q (Sub a b) (Sub a' b');
  q_mul : forall a b a' b', Q a a' -> Q b b' -> Q (Mul a b) (Mul a' b');
  q_opp : forall a a', Q a a' -> Q (Opp a) (Opp a');
  q_divc : forall a a' r, r <> 0%R -> Q a a' -> Q (Div a (Cst r)) (Div a' (Cst r))
}.

(* both matrices are free of errors, have r rows and c columns, and related elements *)
Record mrel (Q : expr -> expr -> Prop) (r c : nat) (m m' : sx) : Prop := {
  mr_r : rows m = r; mr_c : cols m = c; mr_ok : ok m = true;
  mr_r' : rows m' = r; mr_c' : cols m' = c; mr_ok' : ok m' = true;
  mr_el : forall i j, i < r -> j < c -> Q (el m i j) (el m' i j)
}.

Ltac mrok := repeat match goal with
  | H : mrel _ _ _ ?m ?m' |- _ =>
      let h := fresh in pose proof (mr_r _ _ _ _ _ H) as h; rewrite h in *; clear h
  end.

(* boolean side conditions *)
Ltac bsolve := lazymatch goal with |- _ = true => idtac end;
  rewrite ?andb_true_iff, ?Nat.eqb_eq, ?Nat.ltb_lt, ?Nat.leb_le, ?orb_true_iff; intuition (try lia; auto).
Ltac mr_unfold H :=
  destruct H as [?Hr ?Hc ?Ho ?Hr' ?Hc' ?Ho' ?He].

Section Congr.
  Variable Q : expr -> expr -> Prop.
  Hypothesis HQ : congr Q.

  Lemma q_esum n f f' : (forall k, k < n -> Q (f k) (f' k)) -> Q (esum n f) (esum n f').
  Proof.
    induction n; simpl; intros H; [apply (q_cst Q HQ)|]. apply (q_add Q HQ); auto.
  Qed.

  Lemma mr_zeros r c : mrel Q r c (zeros r c) (zeros r c).
  Proof. constructor; simpl; auto. intros; apply (q_cst Q HQ). Qed.
  Lemma mr_eye n : mrel Q n n (eye n) (eye n).
  Proof. constructor; simpl; auto. intros i j _ _. destruct (i =? j); apply (q_cst Q HQ). Qed.
  Lemma mr_scal e e' : Q e e' -> mrel Q 1 1 (scal e) (scal e').
  Proof. intros; constructor; simpl; auto. Qed.
  Lemma mr_vat n m m' i : mrel Q n 1 m m' -> i < n -> mrel Q 1 1 (vat m i) (vat m' i).
  Proof.
    intros H Hi. mr_unfold H. constructor; simpl; auto; try (rewrite ?Hr, ?Hc, ?Ho, ?Hr', ?Hc', ?Ho'; bsolve).
  Qed.
  Lemma mr_mat_at r c m m' i j : mrel Q r c m m' -> i < r -> j < c -> mrel Q 1 1 (mat_at m i j) (mat_at m' i j).
  Proof.
    intros H Hi Hj. mr_unfold H. constructor; simpl; auto; try (rewrite ?Hr, ?Hc, ?Ho, ?Hr', ?Hc', ?Ho'; bsolve).
  Qed.
  Lemma mr_sub r c m m' r0 r1 c0 c1 : mrel Q r c m m' -> r1 <= r -> c1 <= c ->
    mrel Q (r1 - r0) (c1 - c0) (sub m r0 r1 c0 c1) (sub m' r0 r1 c0 c1).
  Proof.
    intros H Hi Hj. mr_unfold H. constructor; simpl; auto; try (rewrite ?Hr, ?Hc, ?Ho, ?Hr', ?Hc', ?Ho'; bsolve).
    all: intros; apply He; lia.
  Qed.
  Lemma mr_vsub n m m' r0 r1 : mrel Q n 1 m m' -> r1 <= n ->
    mrel Q (r1 - r0) 1 (vsub m r0 r1) (vsub m' r0 r1).
  Proof.
    intros H Hi. mr_unfold H. constructor; simpl; auto; try (rewrite ?Hr, ?Hc, ?Ho, ?Hr', ?Hc', ?Ho'; bsolve).
    all: intros; apply He; lia.
  Qed.
  Lemma mr_set_at r c m m' i j e e' : mrel Q r c m m' -> mrel Q 1 1 e e' -> i < r -> j < c ->
    mrel Q r c (set_at m i j e) (set_at m' i j e').
  Proof.
    intros H G Hi Hj. mr_unfold H. mr_unfold G.
    constructor; simpl; auto; try (rewrite ?Hr, ?Hc, ?Ho, ?Hr', ?Hc', ?Ho', ?Ho0, ?Ho'0; bsolve).
    intros a b Ha Hb. destruct (andb _ _); auto. apply He0; lia.
  Qed.
  Lemma mr_set_block r c m m' r0 c0 rb cb b b' : mrel Q r c m m' -> mrel Q rb cb b b' ->
    r0 + rb <= r -> c0 + cb <= c -> mrel Q r c (set_block m r0 c0 b) (set_block m' r0 c0 b').
  Proof.
    intros H G Hi Hj. mr_unfold H. mr_unfold G.
    constructor; simpl; auto;
      try (rewrite ?Hr, ?Hc, ?Ho, ?Hr', ?Hc', ?Ho', ?Hr0, ?Hc0, ?Ho0, ?Hr'0, ?Hc'0, ?Ho'0; bsolve).
    intros a d Ha Hb. rewrite Hr0, Hc0, Hr'0, Hc'0.
    destruct (andb _ _) eqn:E; auto.
    rewrite !andb_true_iff, !Nat.leb_le, !Nat.ltb_lt in E. apply He0; lia.
  Qed.
  Lemma mr_madd r c a a' b b' : mrel Q r c a a' -> mrel Q r c b b' -> mrel Q r c (madd a b) (madd a' b').
  Proof.
    intros H G. mr_unfold H. mr_unfold G.
    constructor; simpl; auto; unfold same_dims;
      try (rewrite ?Hr, ?Hc, ?Ho, ?Hr', ?Hc', ?Ho', ?Hr0, ?Hc0, ?Ho0, ?Hr'0, ?Hc'0, ?Ho'0; bsolve).
    intros; apply (q_add Q HQ); auto.
  Qed.
  Lemma mr_msub r c a a' b b' : mrel Q r c a a' -> mrel Q r c b b' -> mrel Q r c (msub a b) (msub a' b').
  Proof.
    intros H G. mr_unfold H. mr_unfold G.
    constructor; simpl; auto; unfold same_dims;
      try (rewrite ?Hr, ?Hc, ?Ho, ?Hr', ?Hc', ?Ho', ?Hr0, ?Hc0, ?Ho0, ?Hr'0, ?Hc'0, ?Ho'0; bsolve).
    intros; apply (q_sub Q HQ); auto.
  Qed.
  Lemma mr_mneg r c a a' : mrel Q r c a a' -> mrel Q r c (mneg a) (mneg a').
  Proof. intros H. mr_unfold H. constructor; simpl; auto. intros; apply (q_opp Q HQ); auto. Qed.
  Lemma mr_scale r c s s' a a' : mrel Q 1 1 s s' -> mrel Q r c a a' -> mrel Q r c (scale s a) (scale s' a').
  Proof.
    intros G H. mr_unfold H. mr_unfold G.
    constructor; simpl; auto;
      try (rewrite ?Hr, ?Hc, ?Ho, ?Hr', ?Hc', ?Ho', ?Hr0, ?Hc0, ?Ho0, ?Hr'0, ?Hc'0, ?Ho'0; bsolve).
    intros; apply (q_mul Q HQ); auto. apply He0; lia.
  Qed.
  Lemma mr_scale_r r c s s' a a' : mrel Q 1 1 s s' -> mrel Q r c a a' -> mrel Q r c (scale_r a s) (scale_r a' s').
  Proof.
    intros G H. mr_unfold H. mr_unfold G.
    constructor; simpl; auto;
      try (rewrite ?Hr, ?Hc, ?Ho, ?Hr', ?Hc', ?Ho', ?Hr0, ?Hc0, ?Ho0, ?Hr'0, ?Hc'0, ?Ho'0; bsolve).
    intros; apply (q_mul Q HQ); auto. apply He0; lia.
  Qed.
  Lemma mr_mdivc r c a a' x : x <> 0%R -> mrel Q r c a a' -> mrel Q r c (mdivc a x) (mdivc a' x).
  Proof. intros Nx H. mr_unfold H. constructor; simpl; auto. intros; apply (q_divc Q HQ); auto. Qed.
  Lemma mr_mtimes r k c a a' b b' : mrel Q r k a a' -> mrel Q k c b b' -> mrel Q r c (mtimes a b) (mtimes a' b').
  Proof.
    intros H G. mr_unfold H. mr_unfold G.
    constructor; simpl; auto;
      try (rewrite ?Hr, ?Hc, ?Ho, ?Hr', ?Hc', ?Ho', ?Hr0, ?Hc0, ?Ho0, ?Hr'0, ?Hc'0, ?Ho'0; bsolve).
    intros i j Hi Hj. rewrite Hc, Hc'. apply q_esum. intros; apply (q_mul Q HQ); auto.
  Qed.
  Lemma mr_mT r c a a' : mrel Q r c a a' -> mrel Q c r (mT a) (mT a').
  Proof. intros H. mr_unfold H. constructor; simpl; auto. Qed.
  Lemma mr_vertcat2 r1 r2 c a a' b b' : mrel Q r1 c a a' -> mrel Q r2 c b b' ->
    mrel Q (r1 + r2) c (vertcat2 a b) (vertcat2 a' b').
  Proof.
    intros H G. mr_unfold H. mr_unfold G.
    constructor; simpl; auto;
      try (rewrite ?Hr, ?Hc, ?Ho, ?Hr', ?Hc', ?Ho', ?Hr0, ?Hc0, ?Ho0, ?Hr'0, ?Hc'0, ?Ho'0; bsolve).
    intros i j Hi Hj. rewrite Hr, Hr'. destruct (i <? r1) eqn:E.
    - apply He; auto. now apply Nat.ltb_lt.
    - apply Nat.ltb_ge in E. apply He0; lia.
  Qed.
  Lemma mr_horzcat2 r c1 c2 a a' b b' : mrel Q r c1 a a' -> mrel Q r c2 b b' ->
    mrel Q r (c1 + c2) (horzcat2 a b) (horzcat2 a' b').
  Proof.
    intros H G. mr_unfold H. mr_unfold G.
    constructor; simpl; auto;
      try (rewrite ?Hr, ?Hc, ?Ho, ?Hr', ?Hc', ?Ho', ?Hr0, ?Hc0, ?Ho0, ?Hr'0, ?Hc'0, ?Ho'0; bsolve).
    intros i j Hi Hj. rewrite Hc, Hc'. destruct (j <? c1) eqn:E.
    - apply He; auto. now apply Nat.ltb_lt.
    - apply Nat.ltb_ge in E. apply He0; lia.
  Qed.
  Lemma mr_reshape r c r1 c1 a a' : mrel Q r1 c1 a a' -> r * c = r1 * c1 -> mrel Q r c (reshape a r c) (reshape a' r c).
  Proof.
    intros H E. mr_unfold H.
    constructor; simpl; auto; try (rewrite ?Hr, ?Hc, ?Ho, ?Hr', ?Hc', ?Ho'; bsolve).
    intros i j Hi Hj. rewrite Hr, Hr'.
    assert (Hp : j * r + i < r1 * c1) by (rewrite <- E; nia).
    assert (r1 <> 0) by nia. apply He.
    - apply Nat.mod_upper_bound; auto.
    - apply Nat.div_lt_upper_bound; auto.
  Qed.
  Lemma mr_hat a a' : mrel Q 3 1 a a' -> mrel Q 3 3 (hat a) (hat a').
  Proof.
    intros H. mr_unfold H.
    constructor; simpl; auto; try (rewrite ?Hr, ?Hc, ?Ho, ?Hr', ?Hc', ?Ho'; bsolve).
    assert (forall i, i < 3 -> Q (el a i 0) (el a' i 0)) by (intros; apply He; lia).
    intros i j Hi Hj.
    destruct i as [|[|[|i]]]; try lia; destruct j as [|[|[|j]]]; try lia;
      first [apply (q_cst Q HQ) | apply (q_opp Q HQ); apply H; lia | apply H; lia].
  Qed.

  (* columns of symbols *)
  Record symvec (name : string) (n : nat) (x : sx) : Prop := {
    sv_r : rows x = n; sv_c : cols x = 1; sv_ok : ok x = true;
    sv_el : forall i, i < n -> el x i 0 = Var (name, i) }.
  Lemma symvec_sym_vec name n : symvec name n (sym_vec name n).
  Proof. constructor; simpl; auto. Qed.
  Lemma symvec_all name n x : symvec name n x -> all_syms x = true.
  Proof.
    intros [Hr Hc Ho He]. unfold all_syms. apply forallb_forall. intros i Hi. apply in_seq in Hi.
    rewrite Hr in Hi. rewrite He by lia. auto.
  Qed.
  Lemma symvec_vat name n x i : symvec name n x -> i < n -> el (vat x i) 0 0 = Var (name, i).
  Proof. intros [Hr Hc Ho He] Hi. simpl. auto. Qed.

  Variable st : sym -> Prop.
  Hypothesis Hd : forall v a a', st v -> Q a a' -> Q (diff v a) (diff v a').

  Lemma mr_jacobian r c n name e e' x x' :
    mrel Q r c e e' -> symvec name n x -> symvec name n x' -> (forall i, i < n -> st (name, i)) ->
    mrel Q (r * c) n (jacobian e x) (jacobian e' x').
  Proof.
    intros H [Gr Gc Go Ge] [Gr' Gc' Go' Ge'] Hst. mr_unfold H.
    constructor; simpl; auto;
      rewrite ?Hr, ?Hc, ?Ho, ?Hr', ?Hc', ?Ho', ?Gr, ?Gc, ?Go, ?Gr', ?Gc', ?Go'; auto.
    - rewrite (symvec_all name n); [auto|constructor; auto].
    - rewrite (symvec_all name n); [auto|constructor; auto].
    - intros i j Hi Hj. unfold diff_wrt. rewrite Ge, Ge' by auto. simpl.
      assert (r <> 0) by nia.
      apply Hd; auto. apply He.
      + apply Nat.mod_upper_bound; auto.
      + apply Nat.div_lt_upper_bound; auto.
  Qed.
  Lemma mr_jtimes r c n name e e' x x' v v' :
    mrel Q r c e e' -> symvec name n x -> symvec name n x' -> (forall i, i < n -> st (name, i)) ->
    mrel Q n 1 v v' -> mrel Q r c (jtimes e x v) (jtimes e' x' v').
  Proof.
    intros H [Gr Gc Go Ge] [Gr' Gc' Go' Ge'] Hst G. mr_unfold H. mr_unfold G.
    constructor; simpl; auto;
      rewrite ?Hr, ?Hc, ?Ho, ?Hr', ?Hc', ?Ho', ?Gr, ?Gc, ?Go, ?Gr', ?Gc', ?Go', ?Hr0, ?Hc0, ?Ho0, ?Hr'0, ?Hc'0, ?Ho'0, ?Nat.eqb_refl; auto.
    - rewrite (symvec_all name n); [auto|constructor; auto].
    - rewrite (symvec_all name n); [auto|constructor; auto].
    - intros i j Hi Hj. apply q_esum. intros k Hk. apply (q_mul Q HQ).
      + unfold diff_wrt. rewrite Ge, Ge' by auto. simpl. auto.
      + apply He0; lia.
  Qed.

  Hypothesis Hdiv : forall a b a' b', Q a a' -> Q b b' -> Q (Div a b) (Div a' b').
  Lemma q_esign k e e' : Q e e' -> Q (esign k e) (esign k e').
  Proof. intros H. unfold esign. destruct (Nat.even k); auto. apply (q_opp Q HQ); auto. Qed.
  Lemma skip_lt k i n : i < n -> k < S n -> skip k i < S n.
  Proof. unfold skip. destruct (i <? k) eqn:E; [apply Nat.ltb_lt in E|]; lia. Qed.
  Lemma q_edet n f f' : (forall i j, i < n -> j < n -> Q (f i j) (f' i j)) -> Q (edet n f) (edet n f').
  Proof.
    revert f f'. induction n; intros f f' H; [apply (q_cst Q HQ)|].
    cbn [edet]. apply q_esum. intros k Hk. apply q_esign. apply (q_mul Q HQ).
    - apply H; lia.
    - apply IHn. intros i j Hi Hj. unfold minor. apply H; apply skip_lt; lia.
  Qed.
  Lemma mr_inv n a a' : mrel Q n n a a' -> mrel Q n n (inv a) (inv a').
  Proof.
    intros H. mr_unfold H.
    constructor; simpl; auto; try (rewrite ?Hr, ?Hc, ?Ho, ?Hr', ?Hc', ?Ho', ?Nat.eqb_refl; auto).
    intros i j Hi Hj. rewrite ?Hr, ?Hr'. apply Hdiv.
    - apply q_esign, q_edet. intros p q Hp Hq. unfold minor. destruct n; [lia|]. simpl in Hp, Hq.
      apply He; apply skip_lt; lia.
    - apply q_edet. auto.
  Qed.
End Congr.
