(* Small errors in the arguments cause errors of the same order in the results, uniformly in the state. *)
From Coq Require Import Reals Lra Lia Arith List String Bool ZArith Psatz.
From Verif.Model Require Import Base Expr SX Robot Kinematics Dynamics Regressors Yaml Build.
From Verif.Spec Require Import Math Setup Kinematics Damped Api Bounds Rounding.
From Verif.Proofs Require Import Sums Calc Rel Lin3 Frames Pure PureRel Maps Names Shape Dims Sizes Deps BuildEq Load Init Final Closed Get KinThm Determinant Damped Turns Defined Bounds Api Rounding.
Import ListNotations.
Open Scope nat_scope.
Open Scope string_scope.

(* divisions by what stays away from zero, roots of squares *)
Fixpoint away (e : expr) : Prop :=
  match e with
  | Cst _ | Var _ => True
  | Add a b | Sub a b | Mul a b => away a /\ away b
  | Div a b => away a /\ away b /\ exists beta, (0 < beta)%R /\ forall env, (beta <= Rabs (eval env b))%R
  | Opp a | Sin a | Cos a | Pow a _ => away a
  | Sqrt a => match a with Pow c n => n = 2 /\ away c | _ => False end
  end.
Lemma tame_away' e : (tame e -> away e) /\ match e with Pow c _ => tame c -> away c | _ => True end.
Proof.
  induction e; cbn [tame away]; try tauto.
  - split; [|exact I]. intros (H & r & -> & Hr). split; [tauto|]. split; [exact I|]. exists (Rabs r). split; [now apply Rabs_pos_lt|]. intros env. cbn [eval]. lra.
  - split; [|exact I]. destruct e; auto. tauto.
Qed.
Lemma tame_away e : tame e -> away e.
Proof. apply tame_away'. Qed.

Section Lip.
Variables (S t : sym -> Prop) (L : R).
Hypothesis HL : (0 <= L)%R.
Definition lim (env : sym -> R) : Prop := forall s, S s -> ~ t s -> (Rabs (env s) <= L)%R.
Definition apart (d : R) (env env' : sym -> R) : Prop := forall s, S s -> (Rabs (env s - env' s) <= d)%R.
Definition LB (e : expr) : Prop := exists K B, (0 <= K)%R /\ (0 <= B)%R /\ (forall env, lim env -> (Rabs (eval env e) <= B)%R) /\
  forall env env' d, lim env -> lim env' -> (0 <= d)%R -> apart d env env' -> (Rabs (eval env e - eval env' e) <= K * d)%R.
Definition LA (e : expr) : Prop := exists K, (0 <= K)%R /\
  forall env env' d, lim env -> lim env' -> (0 <= d)%R -> apart d env env' -> (Rabs (eval env e - eval env' e) <= K * d)%R.
Lemma LB_LA e : LB e -> LA e.
Proof. intros (K & B & HK & _ & _ & H). exists K. auto. Qed.
Lemma LB_add a b : LB a -> LB b -> LB (Add a b).
Proof.
  intros (K & B & HK & HB & H & G) (K' & B' & HK' & HB' & H' & G'). exists (K + K')%R, (B + B')%R. split; [lra|]. split; [lra|]. cbn [eval]. split.
  - intros env E. eapply Rle_trans; [apply Rabs_triang|]. pose proof (H env E). pose proof (H' env E). lra.
  - intros env env' d E E' D A. pose proof (G _ _ _ E E' D A). pose proof (G' _ _ _ E E' D A).
    replace (eval env a + eval env b - (eval env' a + eval env' b))%R with ((eval env a - eval env' a) + (eval env b - eval env' b))%R by ring.
    eapply Rle_trans; [apply Rabs_triang|]. lra.
Qed.
Lemma LB_opp a : LB a -> LB (Opp a).
Proof.
  intros (K & B & HK & HB & H & G). exists K, B. split; [lra|]. split; [lra|]. cbn [eval]. split.
  - intros env E. rewrite Rabs_Ropp. auto.
  - intros env env' d E E' D A. replace (- eval env a - - eval env' a)%R with (- (eval env a - eval env' a))%R by ring. rewrite Rabs_Ropp. auto.
Qed.
Lemma LB_sub a b : LB a -> LB b -> LB (Sub a b).
Proof. intros A B. exact (LB_add a (Opp b) A (LB_opp b B)). Qed.
Lemma LB_mul a b : LB a -> LB b -> LB (Mul a b).
Proof.
  intros (K & B & HK & HB & H & G) (K' & B' & HK' & HB' & H' & G'). exists (K * B' + B * K')%R, (B * B')%R.
  split; [apply Rplus_le_le_0_compat; now apply Rmult_le_pos|]. split; [now apply Rmult_le_pos|]. cbn [eval]. split.
  - intros env E. rewrite Rabs_mult. apply Rmult_le_compat; auto using Rabs_pos.
  - intros env env' d E E' D A.
    eapply Rle_trans; [apply (mul_lip (eval env a) (eval env b) (eval env' a) (eval env' b) B B' (K * d) (K' * d)); auto|]. lra.
Qed.
Lemma LB_div a b beta : (0 < beta)%R -> (forall env, (beta <= Rabs (eval env b))%R) -> LB a -> LB b -> LB (Div a b).
Proof.
  intros Hb Lo (K & B & HK & HB & H & G) (K' & B' & HK' & HB' & H' & G').
  assert (I : (0 < / beta)%R) by now apply Rinv_0_lt_compat.
  assert (NZ : forall env, eval env b <> 0%R) by (intros env X; pose proof (Lo env) as Q; rewrite X, Rabs_R0 in Q; lra).
  assert (IB : forall env, (Rabs (/ eval env b) <= / beta)%R) by (intros env; rewrite Rabs_inv; apply Rinv_le_contravar; auto).
  exists (K * / beta + B * (/ beta * / beta * K'))%R, (B * / beta)%R.
  split; [apply Rplus_le_le_0_compat; repeat apply Rmult_le_pos; lra|]. split; [apply Rmult_le_pos; lra|]. cbn [eval]. unfold Rdiv. split.
  - intros env E. rewrite Rabs_mult. apply Rmult_le_compat; auto using Rabs_pos.
  - intros env env' d E E' D A.
    eapply Rle_trans; [apply (mul_lip (eval env a) (/ eval env b) (eval env' a) (/ eval env' b) B (/ beta) (K * d) (/ beta * / beta * (K' * d))); auto|lra].
    replace (/ eval env b - / eval env' b)%R with (/ eval env b * / eval env' b * (eval env' b - eval env b))%R by (field; auto).
    rewrite !Rabs_mult, Rabs_minus_sym. apply Rmult_le_compat; auto using Rabs_pos; [apply Rmult_le_pos; apply Rabs_pos|].
    apply Rmult_le_compat; auto using Rabs_pos.
Qed.
Lemma LB_sin a : LA a -> LB (Sin a).
Proof.
  intros (K & HK & G). exists K, 1%R. split; [lra|]. split; [lra|]. cbn [eval]. split; [intros env _; apply Rabs_le, SIN_bound|].
  intros env env' d E E' D A. eapply Rle_trans; [apply sin_lip|auto].
Qed.
Lemma LB_cos a : LA a -> LB (Cos a).
Proof.
  intros (K & HK & G). exists K, 1%R. split; [lra|]. split; [lra|]. cbn [eval]. split; [intros env _; apply Rabs_le, COS_bound|].
  intros env env' d E E' D A. eapply Rle_trans; [apply cos_lip|auto].
Qed.
Lemma LB_abs a : LB a -> LB (Sqrt (Pow a 2)).
Proof.
  intros (K & B & HK & HB & H & G). exists K, B. split; [lra|]. split; [lra|].
  assert (EV : forall env, eval env (Sqrt (Pow a 2)) = Rabs (eval env a)).
  { intros env. cbn [eval]. rewrite <- (sqrt_Rsqr_abs (eval env a)). f_equal. unfold Rsqr. ring. }
  split.
  - intros env E. rewrite EV, Rabs_Rabsolu. auto.
  - intros env env' d E E' D A. rewrite !EV. eapply Rle_trans; [apply Rabs_triang_inv2|auto].
Qed.
Lemma LB_pow a n : LB a -> LB (Pow a n).
Proof.
  intros (K & B & HK & HB & H & G). destruct (pow_lip B n HB) as (D & HD & P). exists (D * K)%R, (B ^ n)%R.
  split; [now apply Rmult_le_pos|]. split; [now apply pow_le|]. cbn [eval]. split.
  - intros env E. apply (P _ (eval env a)); auto.
  - intros env env' d E E' Dd A. eapply Rle_trans; [apply P; auto|]. rewrite Rmult_assoc. apply Rmult_le_compat_l; auto.
Qed.
Lemma LA_turn c s : S s -> LB c -> LA (Add c (Var s)).
Proof.
  intros Hs (K & B & HK & HB & H & G). exists (K + 1)%R. split; [lra|]. cbn [eval]. intros env env' d E E' D A.
  replace (eval env c + env s - (eval env' c + env' s))%R with ((eval env c - eval env' c) + (env s - env' s))%R by ring.
  eapply Rle_trans; [apply Rabs_triang|]. pose proof (G _ _ _ E E' D A). pose proof (A s Hs). lra.
Qed.
Lemma lip_all e : (away e -> safe t e -> within S e -> LB e) /\ (away e -> angle t e -> within S e -> LA e) /\
  match e with Pow c _ => away c -> safe t c -> within S c -> LB c | _ => True end.
Proof.
  assert (W : forall a c, (forall s, occurs s a || occurs s c = true -> S s) -> within S a /\ within S c).
  { intros a c H. split; intros s Hs; apply H; rewrite Hs; auto using orb_true_r. }
  assert (Z : forall x, (away x -> safe t x -> within S x -> LB x) -> angle t x = safe t x ->
    (away x -> safe t x -> within S x -> LB x) /\ (away x -> angle t x -> within S x -> LA x)).
  { intros x H E. split; [exact H|]. rewrite E. intros. apply LB_LA. auto. }
  induction e as [r|s|a (IHa & _) b (IHb & _)|a (IHa & _) b (IHb & _)|a (IHa & _) b (IHb & _)|a (IHa & _) b (IHb & _)|a (IHa & _)|a (_ & IHa & _)|a (_ & IHa & _)|a (IHa & _ & IHp)|a (IHa & _) n].
  - enough (H : LB (Cst r)) by (split; [auto|split; [intros; now apply LB_LA|exact I]]).
    exists 0%R, (Rabs r). split; [lra|]. split; [apply Rabs_pos|]. cbn [eval]. split; [intros; lra|]. intros. replace (r - r)%R with 0%R by ring. rewrite Rabs_R0. lra.
  - assert (H : away (Var s) -> safe t (Var s) -> within S (Var s) -> LB (Var s)).
    { intros _ N V. assert (Ss : S s) by (apply V; cbn [occurs]; apply sym_eqb_refl).
      exists 1%R, L. split; [lra|]. split; [exact HL|]. cbn [eval]. split; [intros env E; apply E; auto|]. intros env env' d _ _ _ A. rewrite Rmult_1_l. auto. }
    destruct (Z (Var s) H eq_refl). split; [assumption|]. split; [assumption|exact I].
  - assert (H : away (Add a b) -> safe t (Add a b) -> within S (Add a b) -> LB (Add a b)).
    { intros [A1 A2] [S1 S2] V. destruct (W _ _ V). apply LB_add; auto. }
    split; [exact H|]. split; [|exact I]. intros A G V. cbn [angle] in G.
    assert (D : (exists s, b = Var s) \/ safe t (Add a b)) by (destruct b; eauto).
    destruct D as [[s ->]|D]; [|apply LB_LA; auto]. destruct A as [A1 A2], (W a (Var s) V) as [V1 V2].
    apply LA_turn; [apply V2; cbn [occurs]; apply sym_eqb_refl|auto].
  - assert (H : away (Sub a b) -> safe t (Sub a b) -> within S (Sub a b) -> LB (Sub a b)).
    { intros [A1 A2] [S1 S2] V. destruct (W _ _ V). apply LB_sub; auto. }
    destruct (Z _ H eq_refl). split; [assumption|]. split; [assumption|exact I].
  - assert (H : away (Mul a b) -> safe t (Mul a b) -> within S (Mul a b) -> LB (Mul a b)).
    { intros [A1 A2] [S1 S2] V. destruct (W _ _ V). apply LB_mul; auto. }
    destruct (Z _ H eq_refl). split; [assumption|]. split; [assumption|exact I].
  - assert (H : away (Div a b) -> safe t (Div a b) -> within S (Div a b) -> LB (Div a b)).
    { intros (A1 & A2 & beta & P & Q) [S1 S2] V. destruct (W _ _ V). apply (LB_div a b beta); auto. }
    destruct (Z _ H eq_refl). split; [assumption|]. split; [assumption|exact I].
  - assert (H : away (Opp a) -> safe t (Opp a) -> within S (Opp a) -> LB (Opp a)).
    { intros A1 S1 V. apply LB_opp; auto. }
    destruct (Z _ H eq_refl). split; [assumption|]. split; [assumption|exact I].
  - assert (H : away (Sin a) -> safe t (Sin a) -> within S (Sin a) -> LB (Sin a)).
    { intros A1 S1 V. apply LB_sin. apply IHa; auto. }
    destruct (Z _ H eq_refl). split; [assumption|]. split; [assumption|exact I].
  - assert (H : away (Cos a) -> safe t (Cos a) -> within S (Cos a) -> LB (Cos a)).
    { intros A1 S1 V. apply LB_cos. apply IHa; auto. }
    destruct (Z _ H eq_refl). split; [assumption|]. split; [assumption|exact I].
  - assert (H : away (Sqrt a) -> safe t (Sqrt a) -> within S (Sqrt a) -> LB (Sqrt a)).
    { intros A1 S1 V. cbn [away] in A1. destruct a; try contradiction. destruct A1 as [-> A1]. apply LB_abs. apply IHp; auto. }
    destruct (Z _ H eq_refl). split; [assumption|]. split; [assumption|exact I].
  - assert (H : away (Pow a n) -> safe t (Pow a n) -> within S (Pow a n) -> LB (Pow a n)).
    { intros A1 S1 V. apply LB_pow; auto. }
    destruct (Z _ H eq_refl). split; [assumption|]. split; assumption.
Qed.
End Lip.

Section Fun.
  Variables (cv : cvals) (b : robot).
  Hypothesis Hb : base cv b.
  Lemma pinv_away i j : i < numJoints b -> j < 6 -> away (el (Jeepinvx b) i j).
  Proof.
    intros Hi Hj. destruct (Jee_PV _ kept_tame cv b Hb) as [JR JC _ _ _ _ JE]. destruct (damped_tame cv b Hb) as [DR DC _ _ _ _ DE].
    assert (ES : forall n f, (forall k, k < n -> away (f k)) -> away (esum n f)).
    { induction n; intros f Hf; [exact I|]. cbn [esum away]. split; auto. }
    unfold Jeepinvx. cbn [el mtimes mT cols]. rewrite JR. apply ES. intros k Hk. cbn [away]. split.
    - apply tame_away. apply (proj2 (JE k i Hk Hi)).
    - cbn [inv el away]. rewrite DR. split; [|split].
      + apply tame_away.
        assert (G : HV tame (esign (k + j) (edet (pred 6) (minor (el (damped b)) j k))) (esign (k + j) (edet (pred 6) (fun _ _ => Cst 0%R)))); [|exact G].
        apply (q_esign (HV tame) (congr_HV _ kept_tame)), (q_edet (HV tame) (congr_HV _ kept_tame)).
        intros p q Hp Hq. unfold minor. refine (proj2 (DE _ _ _ _)); apply skip_lt; simpl in Hp, Hq; lia.
      + apply tame_away, (det_tame cv b Hb).
      + exists (MU ^ 6)%R. split; [apply pow_lt, MU_pos|]. intros env. apply (det_away cv b Hb).
  Qed.
  Lemma val_away f : enabled b f -> forall i j, i < vrows b f -> j < vcols b f -> away (el (val b f) i j).
  Proof.
    intros He i j Hi Hj.
    assert (D : f = fJeepinv \/ f <> fJeepinv) by (destruct f; (left; reflexivity) || (right; discriminate)).
    destruct D as [->|D]; [now apply pinv_away|]. apply tame_away. exact (val_kept _ kept_tame cv b Hb f D He i j Hi Hj).
  Qed.
End Fun.
Lemma merge_apart d fl : (0 <= d)%R -> forall cfg u v, List.length u = List.length v -> (forall l, (Rabs (nth l u 0 - nth l v 0) <= d)%R) ->
  forall i, (Rabs (nth i (merge fl cfg u) 0 - nth i (merge fl cfg v) 0) <= d)%R.
Proof.
  intros Hd.
  assert (Z : forall x : R, (Rabs (x - x) <= d)%R) by (intros x; replace (x - x)%R with 0%R by ring; rewrite Rabs_R0; exact Hd).
  induction fl as [|z fl IH]; intros cfg u v L H i; [apply Z|]. destruct cfg as [|c cfg]; [apply Z|]. cbn [merge].
  destruct (flag_set z).
  - destruct u as [|x u], v as [|y v]; try discriminate L; [apply Z|]. injection L as L. destruct i as [|i]; [exact (H 0)|].
    apply (IH cfg u v L). intros l. exact (H (S l)).
  - destruct i as [|i]; [apply Z|]. apply (IH cfg u v L H).
Qed.
Section Pub.
  Variables (name : string) (cfg : ynode) (r0 r b : robot).
  Hypothesis B : built r0 b r.
  Let Hb : base (cvof r0) b := bt_base _ _ _ B.
  Lemma args_apart f r1 r2 d : enabled b f -> session name cfg r0 r r1 -> session name cfg r0 r r2 -> (0 <= d)%R ->
    (forall k l, In k (alist b f) -> (Rabs (nth l (arg r1 k) 0 - nth l (arg r2 k) 0) <= d)%R) -> apart (isym b f) d (renv r0 r1) (renv r0 r2).
  Proof.
    intros He H1 H2 Hd HA s Hsy. destruct (isym_key _ _ Hb f s He Hsy) as (k & m & len & Hk & Hl & Hm & Hf & ->).
    unfold renv. cbn [fst snd]. rewrite keyname_symname by (eapply keys_arg; exact Hl). unfold param.
    apply merge_apart; [exact Hd| |intros l; now apply HA].
    rewrite (keys_b _ _ _ (built_sess _ _ _ _ _ _ H1 B)) in Hl. unfold keys in Hl. apply in_app_iff in Hl. destruct Hl as [Hl|Hl].
    - now rewrite (se_state _ _ _ _ _ H1 k len Hl), (se_state _ _ _ _ _ H2 k len Hl).
    - now rewrite (se_par _ _ _ _ _ H1 k len Hl), (se_par _ _ _ _ _ H2 k len Hl).
  Qed.
  Lemma within_env f L r' : enabled b f -> session name cfg r0 r r' -> within_limits r' (alist b f) L ->
    forall s, isym b f s -> (Rabs (renv r0 r' s) <= L)%R.
  Proof.
    intros He Hs HW s Hi. pose proof (built_sess _ _ _ _ _ _ Hs B) as SS.
    destruct (isym_key _ _ Hb f s He Hi) as (k & m & len & Hk & Hl & Hm & Hf & ->).
    unfold renv. cbn [fst snd]. rewrite keyname_symname by (eapply keys_arg; exact Hl).
    unfold param. rewrite (flags_b _ _ _ SS) in Hf. destruct (merge_sym _ (arg r0 k) (arg r' k) m Hf) as [l ->]. now apply HW.
  Qed.
  (* t: the symbols about whose values nothing is known *)
  Theorem out_lip f (t : sym -> Prop) L i j : enabled b f -> i < vrows b f -> j < vcols b f -> safe t (el (val b f) i j) -> exists K, forall r1 r2 d,
    session name cfg r0 r r1 -> session name cfg r0 r r2 -> lim (isym b f) t L (renv r0 r1) -> lim (isym b f) t L (renv r0 r2) -> (0 <= d)%R ->
    (forall k l, In k (alist b f) -> (Rabs (nth l (arg r1 k) 0 - nth l (arg r2 k) 0) <= d)%R) ->
    (Rabs (out r1 (name_of f) i j - out r2 (name_of f) i j) <= K * d)%R.
  Proof.
    intros He Hi Hj HS.
    destruct (proj1 (lip_all (isym b f) t (Rmax 0 L) (Rmax_l 0 L) (el (val b f) i j)) (val_away _ b Hb f He i j Hi Hj) HS (val_closed _ _ Hb f He i j Hi Hj)) as (K & Bd & HK & _ & _ & G).
    exists K. intros r1 r2 d H1 H2 L1 L2 Hd HA.
    rewrite (proj2 (get_out _ _ _ (built_sess _ _ _ _ _ _ H1 B) f He) i j Hi Hj), (proj2 (get_out _ _ _ (built_sess _ _ _ _ _ _ H2 B) f He) i j Hi Hj).
    apply G; [| |exact Hd|now apply args_apart].
    - intros s A1 A2. eapply Rle_trans; [apply L1; auto|apply Rmax_r].
    - intros s A1 A2. eapply Rle_trans; [apply L2; auto|apply Rmax_r].
  Qed.
End Pub.
Lemma fin_factor {A} (P : A -> R -> Prop) (g : nat -> A -> R) n : (forall a d, P a d -> (0 <= d)%R) ->
  (forall i, i < n -> exists K, forall a d, P a d -> (Rabs (g i a) <= K * d)%R) ->
  exists K, (0 <= K)%R /\ forall i a d, i < n -> P a d -> (Rabs (g i a) <= K * d)%R.
Proof.
  intros HP. induction n as [|n IH]; intros H; [exists 0%R; split; [lra|intros; lia]|].
  destruct IH as (K & HK & G); [auto|]. destruct (H n) as [K1 H1]; [lia|]. exists (Rmax K K1).
  split; [eapply Rle_trans; [exact HK|apply Rmax_l]|]. intros i a d Hi Pa. pose proof (HP a d Pa) as Hd. destruct (Nat.eq_dec i n) as [->|N].
  - eapply Rle_trans; [apply H1; eauto|]. apply Rmult_le_compat_r; [exact Hd|apply Rmax_r].
  - eapply Rle_trans; [apply (G i a d); [lia|exact Pa]|]. apply Rmult_le_compat_r; [exact Hd|apply Rmax_l].
Qed.
Theorem sensitivity name cfg r0 r r1 fo L : session name cfg r0 r r1 -> In fo (get_functions r) ->
  exists K, forall r' r2 d, session name cfg r0 r r' -> session name cfg r0 r r2 -> differ r' r2 (fo_args fo) d ->
    (within_limits r' (fo_args fo) L /\ within_limits r2 (fo_args fo) L \/
     fo_name fo <> "k" /\ fo_name fo <> "reg_k" /\ limited r0 r' (fo_args fo) L /\ limited r0 r2 (fo_args fo) L) ->
    forall i j, i < fo_rows fo -> j < fo_cols fo -> (Rabs (out r' (fo_name fo) i j - out r2 (fo_name fo) i j) <= K * d)%R.
Proof.
  intros Hs H. destruct (session_built _ _ _ _ _ Hs) as (b & B). apply (fun_obj_iff _ _ _ B) in H. destruct H as (f & He & ->).
  cbn [fo_name fo_args fo_rows fo_cols].
  set (P := fun (p : robot * robot) (d : R) => session name cfg r0 r (fst p) /\ session name cfg r0 r (snd p) /\ differ (fst p) (snd p) (alist b f) d /\
    (within_limits (fst p) (alist b f) L /\ within_limits (snd p) (alist b f) L \/
     name_of f <> "k" /\ name_of f <> "reg_k" /\ limited r0 (fst p) (alist b f) L /\ limited r0 (snd p) (alist b f) L)).
  assert (E : forall i j, i < vrows b f -> j < vcols b f -> exists K, forall p d, P p d -> (Rabs (out (fst p) (name_of f) i j - out (snd p) (name_of f) i j) <= K * d)%R).
  { intros i j Hi Hj.
    assert (SF : safe (fun _ => False) (el (val b f) i j)) by (apply not_turning_safe; auto).
    destruct (out_lip name cfg r0 r b B f (fun _ => False) L i j He Hi Hj SF) as [K1 G1].
    assert (G2 : spring f = false -> exists K2, forall p d, P p d -> limited r0 (fst p) (alist b f) L -> limited r0 (snd p) (alist b f) L ->
      (Rabs (out (fst p) (name_of f) i j - out (snd p) (name_of f) i j) <= K2 * d)%R).
    { intros HS. destruct (out_lip name cfg r0 r b B f (turning b) L i j He Hi Hj (val_safe _ _ (bt_base _ _ _ B) f HS He i j Hi Hj)) as [K2 G2].
      exists K2. intros [x y] d (A1 & A2 & [A3 A4] & _) L1 L2. cbn [fst snd] in *. apply G2; auto.
      - intros s. apply (limited_env name cfg r0 r b B f (alist b f)); auto. intros k Hk. now right.
      - intros s. apply (limited_env name cfg r0 r b B f (alist b f)); auto. intros k Hk. now right. }
    assert (G3 : forall p d, P p d -> within_limits (fst p) (alist b f) L -> within_limits (snd p) (alist b f) L ->
      (Rabs (out (fst p) (name_of f) i j - out (snd p) (name_of f) i j) <= K1 * d)%R).
    { intros [x y] d (A1 & A2 & [A3 A4] & _) L1 L2. cbn [fst snd] in *. apply G1; auto.
      - intros s A _. apply (within_env name cfg r0 r b B f); auto.
      - intros s A _. apply (within_env name cfg r0 r b B f); auto. }
    destruct (spring f) eqn:HS.
    - exists K1. intros p d Hp. pose proof Hp as (_ & _ & _ & [[W1 W2]|(N1 & N2 & _)]); [now apply G3|].
      exfalso. destruct f; try discriminate HS; cbn [name_of] in *; auto.
    - destruct (G2 eq_refl) as [K2 G]. exists (Rmax K1 K2). intros p d Hp. pose proof Hp as (_ & _ & [Hd _] & Q). destruct Q as [[W1 W2]|(_ & _ & W1 & W2)].
      + eapply Rle_trans; [apply G3; eauto|]. apply Rmult_le_compat_r; [exact Hd|apply Rmax_l].
      + eapply Rle_trans; [apply G; eauto|]. apply Rmult_le_compat_r; [exact Hd|apply Rmax_r]. }
  destruct (fin_factor (fun (q : nat * (robot * robot)) d => fst q < vcols b f /\ P (snd q) d)
    (fun i q => (out (fst (snd q)) (name_of f) i (fst q) - out (snd (snd q)) (name_of f) i (fst q))%R) (vrows b f)) as (K & HK & G).
  - intros [j p] d (_ & _ & _ & [Hd _] & _). exact Hd.
  - intros i Hi. destruct (fin_factor P (fun j p => (out (fst p) (name_of f) i j - out (snd p) (name_of f) i j)%R) (vcols b f)) as (K & HK & G).
    + intros p d (_ & _ & [Hd _] & _). exact Hd.
    + intros j Hj. now apply E.
    + exists K. intros [j p] d [Hj Hp]. cbn [fst snd] in *. now apply G.
  - exists K. intros r' r2 d A1 A2 A3 A4 i j Hi Hj. apply (G i (j, (r', r2)) d Hi). cbn [fst snd]. split; [exact Hj|]. unfold P. cbn [fst snd]. auto.
Qed.
(* measured with errors and computed with roundings *)
Theorem noisy name cfg r0 r r1 fo i j L : session name cfg r0 r r1 -> In fo (get_functions r) -> i < fo_rows fo -> j < fo_cols fo ->
  exists K u0, (0 < u0)%R /\ forall r' r2 d, session name cfg r0 r r' -> session name cfg r0 r r2 -> differ r' r2 (fo_args fo) d ->
    within_limits r' (fo_args fo) L -> within_limits r2 (fo_args fo) L ->
    forall e env u v, entry_of r' fo i j e env -> (0 <= u <= u0)%R -> rounded u env e v ->
      (Rabs (v - out r2 (fo_name fo) i j) <= K * (d + u))%R.
Proof.
  intros Hs H Hi Hj. destruct (entry_error name cfg r0 r r1 fo i j L Hs H Hi Hj) as (K & u0 & U & _ & G).
  destruct (sensitivity name cfg r0 r r1 fo L Hs H) as [K' G'].
  exists (Rmax (Rabs K) (Rabs K')), u0. split; [lra|]. intros r' r2 d S1 S2 [Hd D] W1 W2 e env u v (cf & l & F & -> & Bl & ->) Hu V.
  destruct (G r' S1 W1) as (e' & env' & (cf' & l' & F' & -> & Bl' & ->) & X). rewrite F in F'. injection F' as <-. rewrite Bl in Bl'. injection Bl' as <-.
  destruct (X u Hu) as (_ & _ & Y). pose proof (Y v V) as E1.
  pose proof (G' r' r2 d S1 S2 (conj Hd D) (or_introl (conj W1 W2)) i j Hi Hj) as E2.
  replace (v - out r2 (fo_name fo) i j)%R with ((v - out r' (fo_name fo) i j) + (out r' (fo_name fo) i j - out r2 (fo_name fo) i j))%R by ring.
  eapply Rle_trans; [apply Rabs_triang|].
  assert (K * u <= Rmax (Rabs K) (Rabs K') * u)%R by (apply Rmult_le_compat_r; [lra|]; eapply Rle_trans; [apply Rle_abs|apply Rmax_l]).
  assert (K' * d <= Rmax (Rabs K) (Rabs K') * d)%R by (apply Rmult_le_compat_r; [lra|]; eapply Rle_trans; [apply Rle_abs|apply Rmax_r]).
  lra.
Qed.
