(* Determinants by expansion along the first row, as in Model/SX.v: alternation, expansion along any
   row, the cofactor inverse, and positivity for positive definite matrices. *)
From Coq Require Import Reals Lra Lia Arith List Bool Psatz.
From Verif.Model Require Import Base Expr SX.
From Verif.Spec Require Import Math.
From Verif.Proofs Require Import Sums.
Open Scope R_scope.

Definition sg (k : nat) (x : R) : R := if Nat.even k then x else - x.
Definition rminor (f : rmat) (r c : nat) : rmat := fun i j => f (skip r i) (skip c j).
Fixpoint rdet (n : nat) (f : rmat) : R :=
  match n with
  | O => 1
  | S k => rsum (S k) (fun j => sg j (f 0%nat j * rdet k (rminor f 0 j)))
  end.

Lemma sg_mult k x : sg k x = sg k 1 * x.
Proof. unfold sg. destruct (Nat.even k); lra. Qed.
Lemma sg_S k x : sg (S k) x = - sg k x.
Proof. unfold sg. rewrite Nat.even_succ, <- Nat.negb_even. destruct (Nat.even k); simpl; lra. Qed.
Lemma sg_add a b x : sg (a + b) x = sg a (sg b x).
Proof. induction a as [|a IH]; [reflexivity|]. simpl plus. rewrite !sg_S, IH. reflexivity. Qed.
Lemma sg_lin k x y c : sg k (x + c * y) = sg k x + c * sg k y.
Proof. unfold sg. destruct (Nat.even k); lra. Qed.
Lemma sg_opp k x : sg k (- x) = - sg k x.
Proof. unfold sg. destruct (Nat.even k); lra. Qed.
Lemma sg_0 k : sg k 0 = 0.
Proof. unfold sg. destruct (Nat.even k); lra. Qed.
Lemma skip_lt k i n : (i < n)%nat -> (skip k i < S n)%nat.
Proof. unfold skip. destruct (Nat.ltb_spec i k); lia. Qed.
Lemma skip_ne k i : skip k i <> k.
Proof. unfold skip. destruct (Nat.ltb_spec i k); lia. Qed.
Lemma skip_0 i : skip 0 i = S i.
Proof. reflexivity. Qed.

Lemma rdet_ext n f g : (forall i j, (i < n)%nat -> (j < n)%nat -> f i j = g i j) -> rdet n f = rdet n g.
Proof.
  revert f g. induction n as [|n IH]; intros f g E; [reflexivity|]. cbn [rdet]. apply rsum_ext. intros j Hj.
  rewrite (E 0%nat j) by lia. rewrite (IH (rminor f 0 j) (rminor g 0 j)); [reflexivity|].
  intros a c Ha Hc. unfold rminor. apply E; apply skip_lt; auto.
Qed.

Lemma eval_esign env k e : eval env (esign k e) = sg k (eval env e).
Proof. unfold esign, sg. destruct (Nat.even k); reflexivity. Qed.
Lemma eval_edet env n f : eval env (edet n f) = rdet n (fun i j => eval env (f i j)).
Proof.
  revert f. induction n as [|n IH]; intros f; [reflexivity|]. cbn [edet rdet]. rewrite eval_esum.
  apply rsum_ext. intros j Hj. rewrite eval_esign. cbn [eval]. rewrite IH. reflexivity.
Qed.

Definition setrow (f : rmat) (r : nat) (u : rvec) : rmat := fun i j => if Nat.eqb i r then u j else f i j.

Lemma setrow_same f r u j : setrow f r u r j = u j.
Proof. unfold setrow. rewrite Nat.eqb_refl. reflexivity. Qed.
Lemma setrow_other f r u i j : i <> r -> setrow f r u i j = f i j.
Proof. intros Hn. unfold setrow. destruct (Nat.eqb_spec i r); [lia|reflexivity]. Qed.

(* rows enter linearly *)
Lemma rdet_lin n f r u v c : (r < n)%nat ->
  rdet n (setrow f r (fun j => u j + c * v j)) = rdet n (setrow f r u) + c * rdet n (setrow f r v).
Proof.
  revert f r u v. induction n as [|n IH]; intros f r u v Hr; [lia|]. cbn [rdet].
  rewrite <- rsum_scal, <- rsum_plus. apply rsum_ext. intros j Hj.
  destruct r as [|r].
  - rewrite !setrow_same.
    assert (E : forall w, rdet n (rminor (setrow f 0 w) 0 j) = rdet n (rminor f 0 j)) by reflexivity.
    rewrite !E. rewrite <- sg_lin. apply f_equal. ring.
  - rewrite !setrow_other by lia.
    assert (E : forall w, rdet n (rminor (setrow f (S r) w) 0 j)
                        = rdet n (setrow (rminor f 0 j) r (fun c => w (skip j c)))) by reflexivity.
    rewrite !E. rewrite (IH (rminor f 0 j) r (fun c => u (skip j c)) (fun c => v (skip j c))) by lia.
    rewrite <- sg_lin. apply f_equal. ring.
Qed.

Lemma setrow_self n f r : rdet n (setrow f r (f r)) = rdet n f.
Proof. apply rdet_ext. intros i j _ _. unfold setrow. destruct (Nat.eqb_spec i r); congruence. Qed.

(* sums over all indices but one *)
Lemma rsum_skip n j g : (j <= n)%nat -> rsum (S n) g = g j + rsum n (fun k => g (skip j k)).
Proof.
  revert j g. induction n as [|n IH]; intros j g Hj.
  - replace j with 0%nat by lia. simpl. lra.
  - destruct (Nat.eq_dec j (S n)) as [->|Hn].
    + cbn [rsum]. rewrite (rsum_ext n (fun k => g (skip (S n) k)) g).
      2:{ intros k Hk. unfold skip. destruct (Nat.ltb_spec k (S n)); [reflexivity|lia]. }
      unfold skip. destruct (Nat.ltb_spec n (S n)); [|lia]. lra.
    + change (rsum (S (S n)) g) with (rsum (S n) g + g (S n)).
      change (rsum (S n) (fun k => g (skip j k))) with (rsum n (fun k => g (skip j k)) + g (skip j n)).
      rewrite (IH j g) by lia.
      replace (skip j n) with (S n) by (unfold skip; destruct (Nat.ltb_spec n j); lia). lra.
Qed.

(* two first rows: antisymmetric weights *)
Definition unskip (j a : nat) : nat := if Nat.ltb a j then a else pred a.
Lemma unskip_skip j k : unskip j (skip j k) = k.
Proof.
  unfold skip. destruct (Nat.ltb_spec k j); unfold unskip.
  - destruct (Nat.ltb_spec k j); lia.
  - destruct (Nat.ltb_spec (S k) j); [lia|reflexivity].
Qed.
Lemma skip_skip a b c : a <> b -> skip a (skip (unskip a b) c) = skip b (skip (unskip b a) c).
Proof.
  intros Hn. unfold unskip.
  destruct (Nat.ltb_spec b a), (Nat.ltb_spec a b); try lia; unfold skip;
    repeat match goal with |- context[Nat.ltb ?x ?y] => destruct (Nat.ltb_spec x y); try lia end.
Qed.
Lemma sg_pair a b x : a <> b -> sg a (sg (unskip a b) x) = - sg b (sg (unskip b a) x).
Proof.
  intros Hn. unfold unskip. destruct (Nat.ltb_spec b a), (Nat.ltb_spec a b); try lia.
  - rewrite <- !sg_add. replace (b + pred a)%nat with (pred (a + b)) by lia.
    replace (a + b)%nat with (S (pred (a + b)))%nat at 1 by lia. rewrite sg_S. reflexivity.
  - rewrite <- !sg_add. replace (a + pred b)%nat with (pred (b + a)) by lia.
    replace (b + a)%nat with (S (pred (b + a)))%nat at 2 by lia. rewrite sg_S. lra.
Qed.

Lemma rsum_anti n (h : nat -> nat -> R) : (forall a b, h a b = - h b a) -> rsum n (fun a => rsum n (fun b => h a b)) = 0.
Proof.
  intros Ha. assert (E : rsum n (fun a => rsum n (fun b => h a b)) = - rsum n (fun a => rsum n (fun b => h a b))).
  { rewrite rsum_swap at 1. rewrite <- rsum_opp. apply rsum_ext. intros b Hb. rewrite <- rsum_opp.
    apply rsum_ext. intros a Hc. apply Ha. }
  lra.
Qed.

Lemma rdet_eq01 n f : (forall j, (j < S (S n))%nat -> f 0%nat j = f 1%nat j) -> rdet (S (S n)) f = 0.
Proof.
  intros E. set (m := S (S n)).
  set (g := fun a b => if Nat.eqb a b then 0 else
              sg a (sg (unskip a b) (f 0%nat a * f 0%nat b *
                rdet n (fun i c => f (S (S i)) (skip a (skip (unskip a b) c)))))).
  assert (X : rdet m f = rsum m (fun a => rsum m (fun b => g a b))).
  { change (rdet m f) with (rsum m (fun j => sg j (f 0%nat j * rdet (S n) (rminor f 0 j)))).
    apply rsum_ext. intros a Ha. unfold m. rewrite (rsum_skip (S n) a) by lia.
    unfold g at 1. rewrite Nat.eqb_refl. rewrite Rplus_0_l.
    cbn [rdet]. rewrite sg_mult, <- Rmult_assoc, <- rsum_scal. apply rsum_ext. intros k Hk.
    unfold g. destruct (Nat.eqb_spec a (skip a k)) as [Q|Q]; [destruct (skip_ne a k); auto|].
    rewrite unskip_skip.
    change (rminor f 0 a 0%nat k) with (f 1%nat (skip a k)).
    rewrite <- (E (skip a k)) by (apply skip_lt; auto).
    change (rminor (rminor f 0 a) 0 k) with (fun i c => f (S (S i)) (skip a (skip k c))).
    unfold sg. destruct (Nat.even a), (Nat.even k); ring. }
  rewrite X. apply rsum_anti. intros a b. unfold g.
  destruct (Nat.eqb_spec a b) as [->|Hn]; [rewrite Nat.eqb_refl; lra|].
  destruct (Nat.eqb_spec b a); [lia|].
  rewrite (sg_pair a b) by auto. f_equal. f_equal. f_equal.
  rewrite (Rmult_comm (f 0%nat a)). f_equal. apply rdet_ext. intros i c _ _. rewrite skip_skip by auto. reflexivity.
Qed.

Definition swap (f : rmat) (r s : nat) : rmat :=
  fun i j => if Nat.eqb i r then f s j else if Nat.eqb i s then f r j else f i j.

Definition alt (n : nat) : Prop := forall f r s, (r < s < n)%nat ->
  (forall j, (j < n)%nat -> f r j = f s j) -> rdet n f = 0.

Lemma setrow_lin_1 n f r u v : (r < n)%nat ->
  rdet n (setrow f r (fun j => u j + v j)) = rdet n (setrow f r u) + rdet n (setrow f r v).
Proof.
  intros Hr. rewrite <- (Rmult_1_l (rdet n (setrow f r v))), <- rdet_lin by auto.
  apply rdet_ext. intros i j _ _. unfold setrow. destruct (Nat.eqb i r); lra.
Qed.

Lemma alt_swap n : alt n -> forall f r s, (r < s < n)%nat -> rdet n (swap f r s) = - rdet n f.
Proof.
  intros A f r s Hrs.
  set (w := fun j => f r j + f s j).
  assert (Z : rdet n (setrow (setrow f r w) s w) = 0).
  { apply (A _ r s); auto. intros j _. rewrite setrow_same, setrow_other, setrow_same by lia. reflexivity. }
  unfold w at 2 in Z. rewrite setrow_lin_1 in Z by lia.
  assert (C : forall u v, rdet n (setrow (setrow f r u) s v) = rdet n (setrow (setrow f s v) r u)).
  { intros u v. apply rdet_ext. intros i j _ _. unfold setrow.
    destruct (Nat.eqb_spec i r), (Nat.eqb_spec i s); try reflexivity; lia. }
  rewrite !C in Z. unfold w in Z. rewrite !setrow_lin_1 in Z by lia.
  assert (Z1 : rdet n (setrow (setrow f s (f r)) r (f r)) = 0).
  { apply (A _ r s); auto. intros j _. rewrite setrow_same, setrow_other, setrow_same by lia. reflexivity. }
  assert (Z2 : rdet n (setrow (setrow f s (f s)) r (f s)) = 0).
  { apply (A _ r s); auto. intros j _. rewrite setrow_same, setrow_other, setrow_same by lia. reflexivity. }
  rewrite Z1, Z2 in Z.
  assert (E1 : rdet n (setrow (setrow f s (f r)) r (f s)) = rdet n (swap f r s)) by reflexivity.
  assert (E2 : rdet n (setrow (setrow f s (f s)) r (f r)) = rdet n f).
  { apply rdet_ext. intros i j _ _. unfold setrow. destruct (Nat.eqb_spec i r), (Nat.eqb_spec i s); congruence. }
  rewrite E1, E2 in Z. lra.
Qed.

Lemma rdet_alt n : alt n.
Proof.
  induction n as [|n IH]; intros f r s Hrs E; [lia|].
  destruct r as [|r].
  - destruct s as [|[|s]]; [lia| |].
    + destruct n as [|n]; [lia|]. apply rdet_eq01. auto.
    + assert (X : rdet (S n) (swap f 1 (S (S s))) = - rdet (S n) f).
      { cbn [rdet]. rewrite <- rsum_opp. apply rsum_ext. intros j Hj.
        change (swap f 1 (S (S s)) 0%nat j) with (f 0%nat j).
        rewrite (rdet_ext n (rminor (swap f 1 (S (S s))) 0 j) (swap (rminor f 0 j) 0 (S s))) by reflexivity.
        rewrite (alt_swap n IH) by lia. rewrite <- sg_opp. apply f_equal. ring. }
      destruct n as [|n]; [lia|].
      assert (Y : rdet (S (S n)) (swap f 1 (S (S s))) = 0).
      { apply rdet_eq01. intros j Hj. unfold swap. simpl. apply E. auto. }
      lra.
  - cbn [rdet]. apply rsum_0. intros j Hj.
    rewrite (IH (rminor f 0 j) r (pred s)); [rewrite Rmult_0_r; apply sg_0|lia|].
    intros c Hc. unfold rminor. replace (skip 0 (pred s)) with s by (rewrite skip_0; lia). apply (E (skip j c)). apply skip_lt; auto.
Qed.

(* expansion along any row *)
Lemma rdet_row n l f : (l <= n)%nat ->
  rdet (S n) f = rsum (S n) (fun k => f l k * sg (l + k) (rdet n (rminor f l k))).
Proof.
  revert f. induction l as [|l IH]; intros f Hl.
  - cbn [rdet]. apply rsum_ext. intros j Hj. simpl plus. unfold sg. destruct (Nat.even j); ring.
  - assert (S1 : rdet (S n) f = - rdet (S n) (swap f l (S l))).
    { rewrite (alt_swap (S n) (rdet_alt (S n))) by lia. lra. }
    rewrite S1, (IH (swap f l (S l))) by lia. rewrite <- rsum_opp. apply rsum_ext. intros k Hk.
    simpl plus. rewrite sg_S.
    replace (swap f l (S l) l k) with (f (S l) k) by (unfold swap; rewrite Nat.eqb_refl; reflexivity).
    rewrite (rdet_ext n (rminor (swap f l (S l)) l k) (rminor f (S l) k)); [ring|].
    intros i j _ _. unfold rminor, swap, skip.
    destruct (Nat.ltb_spec i l), (Nat.ltb_spec i (S l)); try lia.
    + destruct (Nat.eqb_spec i l), (Nat.eqb_spec i (S l)); try lia. reflexivity.
    + replace i with l by lia. destruct (Nat.eqb_spec (S l) l); [lia|].
      rewrite Nat.eqb_refl. reflexivity.
    + destruct (Nat.eqb_spec (S i) l), (Nat.eqb_spec (S i) (S l)); try lia. reflexivity.
Qed.

(* a row against the cofactors of another *)
Lemma rdet_cof n f i l : (i <= n)%nat -> (l <= n)%nat ->
  rsum (S n) (fun k => f i k * sg (k + l) (rdet n (rminor f l k))) = if Nat.eqb i l then rdet (S n) f else 0.
Proof.
  intros Hi Hl. destruct (Nat.eqb_spec i l) as [->|Hn].
  - rewrite (rdet_row n l) by auto. apply rsum_ext. intros k Hk. rewrite Nat.add_comm. reflexivity.
  - set (g := setrow f l (f i)).
    assert (E : rdet (S n) g = 0).
    { destruct (Nat.lt_ge_cases i l).
      - apply (rdet_alt (S n) g i l); [lia|]. intros j _. unfold g. rewrite setrow_same, setrow_other by lia. reflexivity.
      - apply (rdet_alt (S n) g l i); [lia|]. intros j _. unfold g. rewrite setrow_same, setrow_other by lia. reflexivity. }
    rewrite (rdet_row n l) in E by auto. rewrite <- E. apply rsum_ext. intros k Hk.
    unfold g at 1. rewrite setrow_same. rewrite Nat.add_comm. f_equal. f_equal.
    apply rdet_ext. intros a c _ _. unfold rminor, g. rewrite setrow_other; [reflexivity|apply skip_ne].
Qed.

(* the model's inverse *)
Lemma ev_inv env m n i l : rows m = S n -> rdet (S n) (ev env m) <> 0 -> (i < S n)%nat -> (l < S n)%nat ->
  rmul (S n) (ev env m) (ev env (inv m)) i l = rid i l.
Proof.
  intros Hr Hd Hi Hl. unfold rmul.
  rewrite (rsum_ext _ _ (fun k => ev env m i k * sg (k + l) (rdet n (rminor (ev env m) l k)) * / rdet (S n) (ev env m))).
  2:{ intros k Hk. unfold ev at 2. unfold inv. cbn [el]. cbn [eval]. rewrite Hr. rewrite eval_esign, !eval_edet.
      change (fun i0 j => eval env (el m i0 j)) with (ev env m).
      change (pred (S n)) with n.
      change (fun i0 j => eval env (minor (el m) l k i0 j)) with (rminor (ev env m) l k).
      unfold Rdiv. ring. }
  rewrite rsum_scal_r, rdet_cof by lia. unfold rid. destruct (Nat.eqb i l); [field; auto|ring].
Qed.

(* first column zero below *)
Lemma rdet_col0 n f : (1 <= n)%nat -> (forall i, (i < n)%nat -> f i 0%nat = 0) -> rdet n f = 0.
Proof.
  revert f. induction n as [|n IH]; intros f Hn E; [lia|]. cbn [rdet]. apply rsum_0. intros j Hj.
  destruct j as [|j]; [rewrite E by lia; rewrite Rmult_0_l; apply sg_0|].
  rewrite (IH (rminor f 0 (S j))); [rewrite Rmult_0_r; apply sg_0|lia|].
  intros i Hi. change (f (S i) 0%nat = 0). apply E. lia.
Qed.

(* subtracting multiples of the first row from the others keeps the determinant *)
Definition elim (f : rmat) (c : rvec) (m : nat) : rmat :=
  fun i j => if andb (Nat.leb 1 i) (Nat.ltb i m) then f i j - c i * f 0%nat j else f i j.
Lemma rdet_elim n f c m : (m <= n)%nat -> rdet n (elim f c m) = rdet n f.
Proof.
  induction m as [|m IH]; intros Hm.
  - apply rdet_ext. intros i j _ _. unfold elim. destruct (Nat.ltb_spec i 0); [lia|]. rewrite andb_false_r. reflexivity.
  - destruct m as [|m].
    + apply rdet_ext. intros i j _ _. unfold elim. destruct (Nat.leb_spec 1 i), (Nat.ltb_spec i 1); try lia; reflexivity.
    + rewrite <- IH by lia. set (g := elim f c (S m)).
      transitivity (rdet n (setrow g (S m) (fun j => g (S m) j + (- c (S m)) * f 0%nat j))).
      { apply rdet_ext. intros i j _ _. unfold setrow, g, elim.
        destruct (Nat.eqb_spec i (S m)) as [->|Hne].
        - destruct (Nat.leb_spec 1 (S m)), (Nat.ltb_spec (S m) (S (S m))), (Nat.ltb_spec (S m) (S m)); try lia; simpl; lra.
        - destruct (Nat.leb_spec 1 i), (Nat.ltb_spec i (S (S m))), (Nat.ltb_spec i (S m)); try lia; reflexivity. }
      rewrite (rdet_lin n g (S m) (g (S m)) (f 0%nat)) by lia. rewrite setrow_self.
      rewrite (rdet_alt n (setrow g (S m) (f 0%nat)) 0%nat (S m)); [lra|lia|].
      intros j _. rewrite setrow_same, setrow_other by lia. reflexivity.
Qed.

Definition pd (n : nat) (A : rmat) : Prop := forall z, (exists i, (i < n)%nat /\ z i <> 0) -> 0 < rquad n A z z.
Definition symm (n : nat) (A : rmat) : Prop := forall i j, (i < n)%nat -> (j < n)%nat -> A i j = A j i.

Definition schur (A : rmat) : rmat := fun i j => A (S i) (S j) - A (S i) 0%nat / A 0%nat 0%nat * A 0%nat (S j).

Lemma rdet_schur n A : A 0%nat 0%nat <> 0 -> rdet (S n) A = A 0%nat 0%nat * rdet n (schur A).
Proof.
  intros Ha. set (c := fun i => A i 0%nat / A 0%nat 0%nat).
  rewrite <- (rdet_elim (S n) A c (S n)) by lia. cbn [rdet]. rewrite rsum_S_l.
  rewrite (rsum_0 n).
  - unfold sg at 1. simpl Nat.even. cbv iota.
    change (elim A c (S n) 0%nat 0%nat) with (A 0%nat 0%nat).
    rewrite (rdet_ext n (rminor (elim A c (S n)) 0 0) (schur A)); [lra|].
    intros i j Hi Hj. unfold rminor, elim. change (skip 0 i) with (S i); change (skip 0 j) with (S j).
    destruct (Nat.leb_spec 1 (S i)), (Nat.ltb_spec (S i) (S n)); try lia. reflexivity.
  - intros j Hj. rewrite rdet_col0; [rewrite Rmult_0_r; apply sg_0|lia|].
    intros i Hi. unfold rminor, elim. change (skip 0 i) with (S i).
    destruct (Nat.leb_spec 1 (S i)), (Nat.ltb_spec (S i) (S n)); try lia. cbn [andb]. change (skip (S j) 0) with 0%nat. unfold c. field. auto.
Qed.

Lemma rquad_S n A z : rquad (S n) A z z =
  A 0%nat 0%nat * (z 0%nat * z 0%nat) + z 0%nat * rsum n (fun j => A 0%nat (S j) * z (S j))
  + z 0%nat * rsum n (fun i => A (S i) 0%nat * z (S i))
  + rquad n (fun i j => A (S i) (S j)) (fun i => z (S i)) (fun i => z (S i)).
Proof.
  unfold rquad, rdot, rmv. rewrite rsum_S_l, rsum_S_l.
  rewrite (rsum_ext n (fun i => z (S i) * rsum (S n) (fun k => A (S i) k * z k))
    (fun i => z 0%nat * (A (S i) 0%nat * z (S i)) + z (S i) * rsum n (fun k => A (S i) (S k) * z (S k)))).
  - rewrite rsum_plus, rsum_scal. ring.
  - intros i _. rewrite rsum_S_l. ring.
Qed.

Lemma pd_det n A : symm n A -> pd n A -> 0 < rdet n A.
Proof.
  revert A. induction n as [|n IH]; intros A HS HP; [simpl; lra|].
  assert (H0 : 0 < A 0%nat 0%nat).
  { assert (X := HP (fun i => if Nat.eqb i 0 then 1 else 0) (ex_intro _ 0%nat (conj (Nat.lt_0_succ n) R1_neq_R0))).
    rewrite rquad_S in X. cbn [Nat.eqb] in X.
    rewrite (rsum_0 n) in X by (intros; lra). rewrite (rsum_0 n) in X by (intros; lra).
    replace (rquad n _ _ _) with 0 in X; [lra|]. symmetry. unfold rquad, rdot. apply rsum_0. intros; lra. }
  rewrite rdet_schur by lra. apply Rmult_lt_0_compat; auto. apply IH.
  - intros i j Hi Hj. unfold schur. rewrite (HS (S i) (S j)), (HS (S i) 0%nat), (HS 0%nat (S j)) by lia. field. lra.
  - intros z (i & Hi & Hz).
    set (s := rsum n (fun j => A 0%nat (S j) * z j)).
    set (t := - s / A 0%nat 0%nat).
    assert (X := HP (fun k => match k with O => t | S k => z k end)
                    (ex_intro _ (S i) (conj (proj1 (Nat.succ_lt_mono _ _) Hi) Hz))).
    rewrite rquad_S in X. fold s in X.
    assert (E1 : rsum n (fun i => A (S i) 0%nat * z i) = s).
    { apply rsum_ext. intros k Hk. rewrite HS by lia. reflexivity. }
    rewrite E1 in X.
    assert (E2 : rquad n (schur A) z z = rquad n (fun i j => A (S i) (S j)) z z - s * s / A 0%nat 0%nat).
    { unfold rquad, rdot, rmv, schur.
      rewrite (rsum_ext n _ (fun i => z i * rsum n (fun k => A (S i) (S k) * z k) - (s / A 0%nat 0%nat) * (A (S i) 0%nat * z i))).
      - rewrite rsum_minus, rsum_scal, E1. field. lra.
      - intros a Ha.
        rewrite (rsum_ext n _ (fun k => A (S a) (S k) * z k - A (S a) 0%nat / A 0%nat 0%nat * (A 0%nat (S k) * z k))).
        + rewrite rsum_minus, rsum_scal. fold s. field. lra.
        + intros k Hk. ring. }
    rewrite E2. change (fun i0 => z i0) with z in X.
    replace (A 0%nat 0%nat * (t * t) + t * s + t * s) with (- (s * s / A 0%nat 0%nat)) in X by (unfold t; field; lra).
    lra.
Qed.
