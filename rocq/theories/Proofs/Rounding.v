(* Rounding errors stay bounded: the numbers computed in floating point differ from the exact ones by at most a constant
   times the unit of rounding. *)
From Coq Require Import Reals Lra Lia Arith List String Bool ZArith Psatz.
From Verif.Model Require Import Base Expr SX Robot Kinematics Dynamics Regressors Yaml Build.
From Verif.Spec Require Import Math Setup Kinematics Damped Api Rounding.
From Verif.Proofs Require Import Sums Calc Rel Lin3 Frames Pure PureRel Maps Names Shape Dims Sizes Deps BuildEq Load Init Final Closed Get KinThm Determinant Damped Defined Api.
Import ListNotations.
Open Scope nat_scope.
Open Scope string_scope.

(* ---- real functions ---- *)
Lemma sin_le_self t : (0 <= t <= 1)%R -> (Rabs (sin t) <= t)%R.
Proof.
  intros [A B]. destruct (pre_sin_bound t 0) as [LO UP]; try lra.
  unfold sin_approx, sin_term in LO, UP. simpl in LO, UP. apply Rabs_le.
  assert (T2 : (0 <= t * t <= 1)%R) by (split; [apply Rle_0_sqr|nra]).
  assert (T3 : (0 <= t * (t * t) <= t)%R) by (split; nra).
  assert (T5 : (0 <= t * (t * t) * (t * t) <= t * (t * t))%R) by (split; nra).
  split; lra.
Qed.
Lemma sin_abs t : (Rabs (sin t) <= Rabs t)%R.
Proof.
  destruct (Rle_dec (Rabs t) 1) as [H|H].
  - destruct (Rle_dec 0 t) as [P|P].
    + rewrite (Rabs_pos_eq t) in H |- * by exact P. apply sin_le_self. lra.
    + assert (Q : (t < 0)%R) by lra. rewrite (Rabs_left t) in H |- * by exact Q. rewrite <- (Rabs_Ropp (sin t)), <- sin_neg. apply sin_le_self. lra.
  - assert (Rabs (sin t) <= 1)%R by (apply Rabs_le, SIN_bound). lra.
Qed.
Lemma sin_lip x y : (Rabs (sin x - sin y) <= Rabs (x - y))%R.
Proof.
  rewrite form4, !Rabs_mult. rewrite (Rabs_pos_eq 2) by lra.
  assert (C : (Rabs (cos ((x + y) / 2)) <= 1)%R) by (apply Rabs_le, COS_bound). pose proof (sin_abs ((x - y) / 2)) as S.
  assert (E : Rabs (x - y) = (2 * Rabs ((x - y) / 2))%R).
  { rewrite <- (Rabs_pos_eq 2) at 1 by lra. rewrite <- Rabs_mult. f_equal. field. }
  rewrite E. pose proof (Rabs_pos (sin ((x - y) / 2))). pose proof (Rabs_pos (cos ((x + y) / 2))). nra.
Qed.
Lemma cos_lip x y : (Rabs (cos x - cos y) <= Rabs (x - y))%R.
Proof.
  rewrite form2, !Rabs_mult. rewrite (Rabs_left (-2)) by lra.
  assert (C : (Rabs (sin ((x + y) / 2)) <= 1)%R) by (apply Rabs_le, SIN_bound). pose proof (sin_abs ((x - y) / 2)) as S.
  assert (E : Rabs (x - y) = (2 * Rabs ((x - y) / 2))%R).
  { rewrite <- (Rabs_pos_eq 2) at 1 by lra. rewrite <- Rabs_mult. f_equal. field. }
  rewrite E. pose proof (Rabs_pos (sin ((x - y) / 2))). pose proof (Rabs_pos (sin ((x + y) / 2))). nra.
Qed.
Lemma abs_le_add x y d : (Rabs (x - y) <= d)%R -> (Rabs x <= Rabs y + d)%R.
Proof. intros H. replace x with (y + (x - y))%R by ring. eapply Rle_trans; [apply Rabs_triang|]. lra. Qed.
Lemma mul_lip x y x0 y0 B C d e : (Rabs x0 <= B)%R -> (Rabs y <= C)%R -> (Rabs (x - x0) <= d)%R -> (Rabs (y - y0) <= e)%R ->
  (Rabs (x * y - x0 * y0) <= d * C + B * e)%R.
Proof.
  intros A1 A2 A3 A4. replace (x * y - x0 * y0)%R with ((x - x0) * y + x0 * (y - y0))%R by ring.
  eapply Rle_trans; [apply Rabs_triang|]. rewrite !Rabs_mult. apply Rplus_le_compat; apply Rmult_le_compat; auto using Rabs_pos.
Qed.
Lemma pow_lip B n : (0 <= B)%R -> exists D, (0 <= D)%R /\ forall x y, (Rabs x <= B)%R -> (Rabs y <= B)%R ->
  (Rabs (x ^ n) <= B ^ n)%R /\ (Rabs (x ^ n - y ^ n) <= D * Rabs (x - y))%R.
Proof.
  intros HB. induction n as [|n (D & HD & IH)].
  - exists 0%R. split; [lra|]. intros x y _ _. simpl. rewrite Rabs_R1. replace (1 - 1)%R with 0%R by ring. rewrite Rabs_R0. lra.
  - exists (B ^ n + B * D)%R. split; [pose proof (pow_le B n HB); nra|]. intros x y Hx Hy. destruct (IH x y Hx Hy) as [I1 I2]. cbn [pow]. split.
    + rewrite Rabs_mult. apply Rmult_le_compat; auto using Rabs_pos.
    + replace (x * x ^ n - y * y ^ n)%R with ((x - y) * x ^ n + y * (x ^ n - y ^ n))%R by ring.
      eapply Rle_trans; [apply Rabs_triang|]. rewrite !Rabs_mult.
      pose proof (Rmult_le_compat_l _ _ _ (Rabs_pos (x - y)) I1).
      pose proof (Rmult_le_compat _ _ _ _ (Rabs_pos y) (Rabs_pos _) Hy I2). lra.
Qed.
Lemma sqrt_near u x y : (0 <= u)%R -> (0 <= y)%R -> (Rabs (y - x ^ 2) <= u * Rabs (x ^ 2) + u ^ 2)%R ->
  (Rabs (sqrt y - Rabs x) <= u * Rabs x + 2 * u)%R.
Proof.
  intros Hu Hy H. rewrite <- RPow_abs in H. assert (E : (x ^ 2 = Rabs x ^ 2)%R) by (rewrite <- (pow2_abs x); reflexivity). rewrite E in H.
  set (t := Rabs x) in *. assert (Ht : (0 <= t)%R) by apply Rabs_pos.
  pose proof (Rle_trans _ _ _ (Rle_abs _) H) as H2. rewrite <- Rabs_Ropp in H. pose proof (Rle_trans _ _ _ (Rle_abs _) H) as H1. pose proof (sqrt_pos y) as S0. pose proof (sqrt_sqrt y Hy) as SS.
  assert (P : (0 <= u * t)%R) by now apply Rmult_le_pos. assert (P2 : (0 <= u * t * t)%R) by now apply Rmult_le_pos.
  apply Rabs_le. split.
  - destruct (Rle_dec (t - u * t - 2 * u) 0) as [N|N]; [lra|]. apply Rnot_le_lt in N.
    assert (G : (t - u * t - 2 * u <= sqrt y)%R); [|lra].
    rewrite <- (sqrt_square (t - u * t - 2 * u)) by lra. apply sqrt_le_1_alt.
    assert (F : ((u * t + 2 * u) * (u * t + 2 * u) <= t * (u * t + 2 * u))%R) by (apply Rmult_le_compat_r; lra).
    assert (G2 : (u * u <= 2 * (u * t))%R) by nra. nra.
  - assert (G : (sqrt y <= t + u * t + 2 * u)%R); [|lra].
    rewrite <- (sqrt_square (t + u * t + 2 * u)) by lra. apply sqrt_le_1_alt. nra.
Qed.

(* ---- formulas ---- *)
Lemma rounded_exact u env e : (0 <= u)%R -> rounded u env e (eval env e).
Proof.
  intros Hu.
  assert (C : forall x, close u x x). { intros x. unfold close. replace (x - x)%R with 0%R by ring. rewrite Rabs_R0. pose proof (Rabs_pos x). apply Rmult_le_pos; lra. }
  induction e; cbn [rounded eval]; eauto 10.
  - replace (r - r)%R with 0%R by ring. rewrite Rabs_R0. pose proof (Rabs_pos r). now apply Rmult_le_pos.
  - exists (eval env e). split; [exact IHe|]. split; [|auto]. replace (eval env e ^ n - eval env e ^ n)%R with 0%R by ring. rewrite Rabs_R0.
    pose proof (Rmult_le_pos u _ Hu (Rabs_pos (eval env e ^ n))). pose proof (pow_le u 2 Hu). lra.
Qed.

Section Err.
Variables (L u0 : R).
Hypothesis HL : (0 <= L)%R.
Hypothesis Hu0 : (0 < u0 <= / 2)%R.
(* bounded, computed without fault, and with an error of the order of u *)
Definition RB (e : expr) : Prop := exists K B, (0 <= K)%R /\ (0 <= B)%R /\ forall env, (forall s, (Rabs (env s) <= L)%R) ->
  (Rabs (eval env e) <= B)%R /\ forall u, (0 <= u <= u0)%R -> ~ fault u env e /\ forall v, rounded u env e v -> (Rabs (v - eval env e) <= K * u)%R.
Lemma close_err u x x0 v B K : (0 <= u <= u0)%R -> (0 <= K)%R -> close u x v -> (Rabs (x - x0) <= K * u)%R -> (Rabs x0 <= B)%R ->
  (Rabs (v - x0) <= (1 + B + 2 * K) * u)%R.
Proof.
  intros U HK C H H0. unfold close in C. pose proof (abs_le_add _ _ _ H) as X.
  replace (v - x0)%R with ((v - x) + (x - x0))%R by ring. eapply Rle_trans; [apply Rabs_triang|].
  assert (u * (1 + Rabs x) <= u * (1 + B + K))%R; [|lra]. apply Rmult_le_compat_l; [lra|]. nra.
Qed.
Lemma RB_cst r : RB (Cst r).
Proof.
  exists (Rabs r), (Rabs r). split; [apply Rabs_pos|]. split; [apply Rabs_pos|]. intros env _. cbn [eval fault rounded].
  split; [lra|]. intros u _. split; [auto|]. intros v H. lra.
Qed.
Lemma RB_var s : RB (Var s).
Proof.
  exists 0%R, L. split; [lra|]. split; [exact HL|]. intros env He. cbn [eval fault rounded]. split; [apply He|]. intros u _. split; [auto|].
  intros v ->. replace (env s - env s)%R with 0%R by ring. rewrite Rabs_R0. lra.
Qed.
Lemma RB_add a b : RB a -> RB b -> RB (Add a b).
Proof.
  intros (K & B & HK & HB & H) (K' & B' & HK' & HB' & H'). exists (1 + (B + B') + 2 * (K + K'))%R, (B + B')%R. split; [lra|]. split; [lra|].
  intros env He. destruct (H env He) as [E F], (H' env He) as [E' F'].
  assert (W : (Rabs (eval env a + eval env b) <= B + B')%R) by (eapply Rle_trans; [apply Rabs_triang|lra]).
  cbn [eval]. split; [exact W|].
  intros u U. destruct (F u U) as [N G], (F' u U) as [N' G']. cbn [fault rounded]. split; [tauto|].
  intros v (x & y & Hx & Hy & C). eapply close_err; [exact U| |exact C| |exact W]; [lra|].
  replace (x + y - (eval env a + eval env b))%R with ((x - eval env a) + (y - eval env b))%R by ring.
  eapply Rle_trans; [apply Rabs_triang|]. pose proof (G x Hx). pose proof (G' y Hy). lra.
Qed.
Lemma RB_sub a b : RB a -> RB b -> RB (Sub a b).
Proof.
  intros (K & B & HK & HB & H) (K' & B' & HK' & HB' & H'). exists (1 + (B + B') + 2 * (K + K'))%R, (B + B')%R. split; [lra|]. split; [lra|].
  intros env He. destruct (H env He) as [E F], (H' env He) as [E' F'].
  assert (W : (Rabs (eval env a - eval env b) <= B + B')%R) by (unfold Rminus; eapply Rle_trans; [apply Rabs_triang|]; rewrite Rabs_Ropp; lra).
  cbn [eval]. split; [exact W|].
  intros u U. destruct (F u U) as [N G], (F' u U) as [N' G']. cbn [fault rounded]. split; [tauto|].
  intros v (x & y & Hx & Hy & C). eapply close_err; [exact U| |exact C| |exact W]; [lra|].
  replace (x - y - (eval env a - eval env b))%R with ((x - eval env a) - (y - eval env b))%R by ring.
  unfold Rminus at 1. eapply Rle_trans; [apply Rabs_triang|]. rewrite Rabs_Ropp. pose proof (G x Hx). pose proof (G' y Hy). lra.
Qed.
Lemma RB_mul a b : RB a -> RB b -> RB (Mul a b).
Proof.
  intros (K & B & HK & HB & H) (K' & B' & HK' & HB' & H'). exists (1 + (B * B') + 2 * (K * (B' + K') + B * K'))%R, (B * B')%R.
  assert (Z : (0 <= K * (B' + K') + B * K')%R) by (apply Rplus_le_le_0_compat; apply Rmult_le_pos; lra).
  assert (Z' : (0 <= B * B')%R) by now apply Rmult_le_pos. split; [lra|]. split; [lra|].
  intros env He. destruct (H env He) as [E F], (H' env He) as [E' F'].
  assert (W : (Rabs (eval env a * eval env b) <= B * B')%R) by (rewrite Rabs_mult; apply Rmult_le_compat; auto using Rabs_pos).
  cbn [eval]. split; [exact W|].
  intros u U. destruct (F u U) as [N G], (F' u U) as [N' G']. cbn [fault rounded]. split; [tauto|].
  intros v (x & y & Hx & Hy & C). eapply close_err; [exact U| |exact C| |exact W]; [lra|].
  pose proof (G' y Hy) as Ey. pose proof (abs_le_add _ _ _ Ey) as Ay.
  eapply Rle_trans; [apply (mul_lip x y (eval env a) (eval env b) B (B' + K') (K * u) (K' * u)); auto; try nra|]. nra.
Qed.
Lemma RB_opp a : RB a -> RB (Opp a).
Proof.
  intros (K & B & HK & HB & H). exists (1 + B + 2 * K)%R, B. split; [lra|]. split; [lra|].
  intros env He. destruct (H env He) as [E F]. cbn [eval]. split; [rewrite Rabs_Ropp; exact E|].
  intros u U. destruct (F u U) as [N G]. cbn [fault rounded]. split; [exact N|].
  intros v (x & Hx & C). eapply close_err; [exact U|exact HK|exact C| |rewrite Rabs_Ropp; exact E].
  replace (- x - - eval env a)%R with (- (x - eval env a))%R by ring. rewrite Rabs_Ropp. auto.
Qed.
Lemma RB_sin a : RB a -> RB (Sin a).
Proof.
  intros (K & B & HK & HB & H). exists (1 + 1 + 2 * K)%R, 1%R. split; [lra|]. split; [lra|].
  intros env He. destruct (H env He) as [E F]. cbn [eval]. split; [apply Rabs_le, SIN_bound|].
  intros u U. destruct (F u U) as [N G]. cbn [fault rounded]. split; [exact N|].
  intros v (x & Hx & C). eapply close_err; [exact U|exact HK|exact C| |apply Rabs_le, SIN_bound].
  eapply Rle_trans; [apply sin_lip|auto].
Qed.
Lemma RB_cos a : RB a -> RB (Cos a).
Proof.
  intros (K & B & HK & HB & H). exists (1 + 1 + 2 * K)%R, 1%R. split; [lra|]. split; [lra|].
  intros env He. destruct (H env He) as [E F]. cbn [eval]. split; [apply Rabs_le, COS_bound|].
  intros u U. destruct (F u U) as [N G]. cbn [fault rounded]. split; [exact N|].
  intros v (x & Hx & C). eapply close_err; [exact U|exact HK|exact C| |apply Rabs_le, COS_bound].
  eapply Rle_trans; [apply cos_lip|auto].
Qed.
Lemma RB_pow a n : RB a -> RB (Pow a n).
Proof.
  intros (K & B & HK & HB & H). destruct (pow_lip (B + K) n ltac:(lra)) as (D & HD & P).
  exists ((B + K) ^ n + 1 + D * K)%R, ((B + K) ^ n)%R. pose proof (pow_le (B + K) n ltac:(lra)) as PB.
  split; [pose proof (Rmult_le_pos _ _ HD HK); lra|]. split; [exact PB|].
  intros env He. destruct (H env He) as [E F]. cbn [eval]. split; [apply (P _ 0%R); [lra|rewrite Rabs_R0; lra]|].
  intros u U. destruct (F u U) as [N G]. cbn [fault rounded]. split; [exact N|].
  intros v (x & Hx & C & _). pose proof (G x Hx) as Ex. pose proof (abs_le_add _ _ _ Ex) as Ax.
  destruct (P x (eval env a)) as [P1 P2]; [nra|lra|].
  replace (v - eval env a ^ n)%R with ((v - x ^ n) + (x ^ n - eval env a ^ n))%R by ring. eapply Rle_trans; [apply Rabs_triang|].
  assert (u * Rabs (x ^ n) <= u * (B + K) ^ n)%R by (apply Rmult_le_compat_l; lra).
  assert (u ^ 2 <= u)%R by nra.
  assert (D * Rabs (x - eval env a) <= D * (K * u))%R by (apply Rmult_le_compat_l; lra). lra.
Qed.
Lemma RB_abs a : RB a -> RB (Sqrt (Pow a 2)).
Proof.
  intros (K & B & HK & HB & H). exists (1 + B + 2 * (B + 2 * K + 2))%R, B. split; [lra|]. split; [lra|].
  intros env He. destruct (H env He) as [E F].
  assert (EV : sqrt (eval env a ^ 2) = Rabs (eval env a)) by (rewrite <- (sqrt_Rsqr_abs (eval env a)); f_equal; unfold Rsqr; ring).
  cbn [eval]. rewrite EV. split; [rewrite Rabs_Rabsolu; exact E|].
  intros u U. destruct (F u U) as [N G]. cbn [fault rounded]. split.
  - intros [X|(y & (x & _ & _ & Y) & Z)]; [auto|]. pose proof (Y (pow2_ge_0 x)). lra.
  - intros v (y & (x & Hx & C & Y) & V). eapply close_err; [exact U| |exact V| |rewrite Rabs_Rabsolu; exact E]; [lra|].
    pose proof (sqrt_near u x y (proj1 U) (Y (pow2_ge_0 x)) C) as S. pose proof (G x Hx) as Ex. pose proof (abs_le_add _ _ _ Ex) as Ax.
    replace (sqrt y - Rabs (eval env a))%R with ((sqrt y - Rabs x) + (Rabs x - Rabs (eval env a)))%R by ring.
    eapply Rle_trans; [apply Rabs_triang|]. pose proof (Rle_trans _ _ _ (Rabs_triang_inv2 x (eval env a)) Ex) as T.
    assert (u * Rabs x <= u * (B + K))%R by (apply Rmult_le_compat_l; [lra|]; nra). lra.
Qed.
(* denominators away from zero: beta below |b| and twice the error of b below beta *)
Lemma RB_div a b beta : (0 < beta)%R -> RB a ->
  (exists K B, (0 <= K)%R /\ (0 <= B)%R /\ (2 * (K * u0) <= beta)%R /\ forall env, (forall s, (Rabs (env s) <= L)%R) ->
    (beta <= Rabs (eval env b) <= B)%R /\ forall u, (0 <= u <= u0)%R -> ~ fault u env b /\ forall v, rounded u env b v -> (Rabs (v - eval env b) <= K * u)%R) ->
  RB (Div a b).
Proof.
  intros Hb (K & B & HK & HB & H) (K' & B' & HK' & HB' & HS & H').
  set (D := (K * (2 / beta) + B * (2 / (beta * beta) * K'))%R).
  assert (I : (0 < / beta)%R) by now apply Rinv_0_lt_compat.
  assert (HD : (0 <= D)%R).
  { unfold D. apply Rplus_le_le_0_compat; repeat apply Rmult_le_pos; try lra. apply Rlt_le, Rinv_0_lt_compat, Rmult_lt_0_compat; lra. }
  exists (1 + B * / beta + 2 * D)%R, (B * / beta)%R. assert (Z : (0 <= B * / beta)%R) by (apply Rmult_le_pos; lra). split; [lra|]. split; [exact Z|].
  intros env He. destruct (H env He) as [E F], (H' env He) as [E' F'].
  assert (V0 : eval env b <> 0%R) by (intros X; rewrite X, Rabs_R0 in E'; lra).
  assert (W : (Rabs (eval env a / eval env b) <= B * / beta)%R).
  { unfold Rdiv. rewrite Rabs_mult, Rabs_inv. apply Rmult_le_compat; auto using Rabs_pos.
    - apply Rlt_le, Rinv_0_lt_compat. lra.
    - apply Rinv_le_contravar; lra. }
  cbn [eval]. split; [exact W|].
  intros u U. destruct (F u U) as [N G], (F' u U) as [N' G'].
  assert (Y : forall y, rounded u env b y -> (beta / 2 <= Rabs y)%R).
  { intros y Hy. pose proof (G' y Hy) as A. rewrite Rabs_minus_sym in A. pose proof (abs_le_add _ _ _ A) as A'.
    assert (K' * u <= K' * u0)%R by (apply Rmult_le_compat_l; lra). lra. }
  cbn [fault rounded]. split.
  - intros [X|[X|X]]; auto. pose proof (Y _ X) as Q. rewrite Rabs_R0 in Q. lra.
  - intros v (x & y & Hx & Hy & C). eapply close_err; [exact U|exact HD|exact C| |exact W].
    pose proof (G x Hx) as Ex. pose proof (G' y Hy) as Ey. pose proof (Y y Hy) as Ny.
    assert (Y0 : y <> 0%R) by (intros X; rewrite X, Rabs_R0 in Ny; lra).
    unfold Rdiv at 1 2. eapply Rle_trans; [apply (mul_lip x (/ y) (eval env a) (/ eval env b) B (2 / beta) (K * u) (2 / (beta * beta) * (K' * u))); auto|].
    + rewrite Rabs_inv. replace (2 / beta)%R with (/ (beta / 2))%R by (field; lra). apply Rinv_le_contravar; lra.
    + replace (/ y - / eval env b)%R with (/ y * / eval env b * (eval env b - y))%R by (field; auto).
      rewrite !Rabs_mult, !Rabs_inv, Rabs_minus_sym.
      replace (2 / (beta * beta))%R with (/ (beta / 2) * / beta)%R by (field; lra).
      apply Rmult_le_compat; auto using Rabs_pos.
      * apply Rmult_le_pos; apply Rlt_le, Rinv_0_lt_compat; lra.
      * apply Rmult_le_compat; try (apply Rlt_le, Rinv_0_lt_compat; lra); apply Rinv_le_contravar; lra.
    + unfold D. lra.
Qed.
Lemma RB_divc a r : r <> 0%R -> RB a -> RB (Div a (Cst r)).
Proof.
  intros Hr H. pose proof (Rabs_pos_lt r Hr) as P. apply (RB_div a (Cst r) (Rabs r) P H). exists (Rabs r), (Rabs r).
  split; [lra|]. split; [lra|]. split; [nra|]. intros env He. cbn [eval fault rounded]. split; [lra|]. intros u U. split; [auto|]. intros v V. lra.
Qed.
(* divisions by constants that are not zero, roots of squares *)
Fixpoint tame (e : expr) : Prop :=
  match e with
  | Cst _ | Var _ => True
  | Add a b | Sub a b | Mul a b => tame a /\ tame b
  | Div a b => tame a /\ exists r, b = Cst r /\ r <> 0%R
  | Opp a | Sin a | Cos a | Pow a _ => tame a
  | Sqrt a => match a with Pow c n => n = 2 /\ tame c | _ => False end
  end.
Lemma tame_diff (act : sym -> Prop) v e : act v -> poly act e -> tame e -> tame (diff v e).
Proof.
  intros Hv. induction e; cbn [poly tame diff]; intros P H; auto.
  - destruct (sym_eqb v s); exact I.
  - destruct P, H. destruct (occurs v e1), (occurs v e2); simpl; auto.
  - destruct P, H. destruct (occurs v e1), (occurs v e2); simpl; auto.
  - destruct P, H. destruct (occurs v e1), (occurs v e2); simpl; auto.
  - destruct P as [P N], H as (H1 & r & -> & Hr). rewrite (N v Hv). destruct (occurs v e1); simpl; eauto.
  - destruct (occurs v e); simpl; auto.
  - destruct (occurs v e); simpl; auto.
  - destruct (occurs v e); simpl; auto.
  - rewrite (P v Hv). exact I.
  - destruct (occurs v e); simpl; auto.
Qed.
Lemma kept_tame : kept tame.
Proof.
  constructor; simpl; auto.
  - intros a r Hr H. eauto.
  - intros act v e Hv P H. now apply (tame_diff act).
Qed.
Lemma tame_RB' e : tame e -> RB e /\ match e with Pow c _ => RB c | _ => True end.
Proof.
  induction e; cbn [tame]; intros H; try (split; [|exact I]).
  - apply RB_cst.
  - apply RB_var.
  - destruct H as [H1 H2]. apply RB_add; [apply IHe1|apply IHe2]; auto.
  - destruct H as [H1 H2]. apply RB_sub; [apply IHe1|apply IHe2]; auto.
  - destruct H as [H1 H2]. apply RB_mul; [apply IHe1|apply IHe2]; auto.
  - destruct H as (H & r & -> & Hr). apply RB_divc; [exact Hr|]. apply IHe1; auto.
  - apply RB_opp, IHe, H.
  - apply RB_sin, IHe, H.
  - apply RB_cos, IHe, H.
  - destruct e; try contradiction. destruct H as [-> H]. apply RB_abs. exact (proj2 (IHe H)).
  - split; [apply RB_pow|]; apply IHe, H.
Qed.
Lemma tame_RB e : tame e -> RB e.
Proof. intros H. apply tame_RB'. exact H. Qed.
End Err.
Lemma RB_mono L u0 u1 e : (0 < u1 <= u0)%R -> RB L u0 e -> RB L u1 e.
Proof.
  intros U (K & B & HK & HB & H). exists K, B. split; [exact HK|]. split; [exact HB|]. intros env He. destruct (H env He) as [E F]. split; [exact E|].
  intros u Hu. apply F. lra.
Qed.

(* ---- the damped pseudo-inverse ---- *)
Lemma det_low n A mu : (0 < mu)%R -> symm n A -> (forall z, (mu * rsum n (fun i => z i ^ 2) <= rquad n A z z)%R) -> (mu ^ n <= rdet n A)%R.
Proof.
  intros Hmu. revert A. induction n as [|n IH]; intros A HS HP; [simpl; lra|].
  assert (H0 : (mu <= A O O)%R).
  { pose proof (HP (fun i => if Nat.eqb i 0 then 1%R else 0%R)) as X. rewrite rquad_S, rsum_S_l in X. cbn [Nat.eqb] in X.
    rewrite !(rsum_0 n) in X by (intros; simpl; lra).
    replace (rquad n _ _ _) with 0%R in X; [lra|]. symmetry. unfold rquad, rdot. apply rsum_0. intros; lra. }
  rewrite rdet_schur by lra. cbn [pow]. apply Rmult_le_compat; [lra|apply pow_le; lra|exact H0|]. apply IH.
  - intros i j Hi Hj. unfold schur. rewrite (HS (S i) (S j)), (HS (S i) 0), (HS 0 (S j)) by lia. field. lra.
  - intros z. set (s := rsum n (fun j => A O (S j) * z j)%R). set (t := (- s / A O O)%R).
    pose proof (HP (fun k => match k with O => t | S k => z k end)) as X. rewrite rquad_S, rsum_S_l in X. fold s in X.
    assert (E1 : rsum n (fun i => A (S i) O * z i)%R = s).
    { apply rsum_ext. intros k Hk. rewrite HS by lia. reflexivity. }
    rewrite E1 in X.
    assert (E2 : rquad n (schur A) z z = (rquad n (fun i j => A (S i) (S j)) z z - s * s / A O O)%R).
    { unfold rquad, rdot, rmv, schur.
      rewrite (rsum_ext n _ (fun i => z i * rsum n (fun k => A (S i) (S k) * z k) - (s / A O O) * (A (S i) O * z i))%R).
      - rewrite rsum_minus, rsum_scal, E1. field. lra.
      - intros a Ha.
        rewrite (rsum_ext n _ (fun k => A (S a) (S k) * z k - A (S a) O / A O O * (A O (S k) * z k))%R).
        + rewrite rsum_minus, rsum_scal. fold s. field. lra.
        + intros k Hk. ring. }
    rewrite E2. change (fun i0 => z i0) with z in X.
    replace (A O O * (t * t) + t * s + t * s)%R with (- (s * s / A O O))%R in X by (unfold t; field; lra).
    assert (0 <= mu * t ^ 2)%R by (apply Rmult_le_pos; [lra|apply pow2_ge_0]). lra.
Qed.
Lemma RB_esum L u0 n f : (0 <= L)%R -> (0 < u0 <= / 2)%R -> (forall k, k < n -> RB L u0 (f k)) -> RB L u0 (esum n f).
Proof.
  intros HL Hu H. refine (q_esum (fun a _ => RB L u0 a) _ n f (fun _ => Cst 0%R) H).
  constructor; intros.
  all: auto using RB_cst, RB_var, RB_add, RB_sub, RB_mul, RB_opp, RB_sin, RB_cos, RB_divc.
Qed.
Section Pinv.
  Variables (cv : cvals) (b : robot).
  Hypothesis Hb : base cv b.
  Notation TV := (HV tame).
  Lemma damped_tame : mrel (PV tame) 6 6 (damped b) (damped b).
  Proof.
    unfold damped. apply (mr_madd (PV tame) (congr_PV _ kept_tame)).
    - apply (mr_mtimes (PV tame) (congr_PV _ kept_tame) 6 (numJoints b) 6); [apply (Jee_PV _ kept_tame cv b Hb)|apply (mr_mT (PV tame)), (Jee_PV _ kept_tame cv b Hb)].
    - apply (mr_scale_r (PV tame) (congr_PV _ kept_tame)); [apply (mr_scal (PV tame)), (congr_PV _ kept_tame)|apply (mr_eye (PV tame) (congr_PV _ kept_tame))].
  Qed.
  Lemma det_tame : tame (edet 6 (el (damped b))).
  Proof.
    destruct damped_tame as [DR DC _ _ _ _ DE].
    assert (G : TV (edet 6 (el (damped b))) (edet 6 (fun _ _ => Cst 0%R))); [|exact G].
    apply (q_edet TV (congr_HV _ kept_tame)). intros p q Hp Hq. apply (proj2 (DE p q Hp Hq)).
  Qed.
  Lemma det_away env : (MU ^ 6 <= Rabs (eval env (edet 6 (el (damped b)))))%R.
  Proof.
    pose proof MU_pos as Hm. eapply Rle_trans; [|apply Rle_abs]. rewrite eval_edet.
    rewrite (rdet_ext 6 _ (damped_gram MU (numJoints b) (ev env (Jeex b)))) by (intros; apply (damped_eval cv b Hb)).
    apply det_low; [exact Hm|apply gram_symm|]. intros z. rewrite gram_quad.
    assert (0 <= rsum (numJoints b) (fun k => rsum 6 (fun a => ev env (Jeex b) a k * z a) ^ 2))%R by (apply rsum_nonneg; intros; apply pow2_ge_0). lra.
  Qed.
  Lemma pinv_RB L i j : (0 <= L)%R -> i < numJoints b -> j < 6 -> exists u0, (0 < u0 <= / 2)%R /\ RB L u0 (el (Jeepinvx b) i j).
  Proof.
    intros HL Hi Hj. destruct (Jee_PV _ kept_tame cv b Hb) as [JR JC _ _ _ _ JE]. destruct damped_tame as [DR DC _ _ _ _ DE].
    assert (HH : (0 < / 2 <= / 2)%R) by lra.
    destruct (tame_RB L (/ 2) HL HH _ det_tame) as (K & B & HK & HB & H).
    pose proof MU_pos as Hm. assert (P : (0 < MU ^ 6)%R) by now apply pow_lt.
    set (u1 := Rmin (/ 2) (MU ^ 6 / (2 * (K + 1)))).
    assert (U1 : (0 < u1 <= / 2)%R).
    { split; [|apply Rmin_l]. apply Rmin_glb_lt; [lra|]. apply Rdiv_lt_0_compat; lra. }
    exists u1. split; [exact U1|].
    unfold Jeepinvx. cbn [el mtimes mT cols]. rewrite JR.
    apply RB_esum; auto. intros k Hk. apply RB_mul; auto.
    - apply (tame_RB L u1 HL U1). apply (proj2 (JE k i Hk Hi)).
    - cbn [inv el]. rewrite DR. apply (RB_div L u1 U1 _ _ (MU ^ 6)%R P).
      + apply (tame_RB L u1 HL U1).
        assert (G : TV (esign (k + j) (edet (pred 6) (minor (el (damped b)) j k))) (esign (k + j) (edet (pred 6) (fun _ _ => Cst 0%R)))); [|exact G].
        apply (q_esign TV (congr_HV _ kept_tame)), (q_edet TV (congr_HV _ kept_tame)).
        intros p q Hp Hq. unfold minor. refine (proj2 (DE _ _ _ _)); apply skip_lt; simpl in Hp, Hq; lia.
      + exists K, B. split; [exact HK|]. split; [exact HB|]. split.
        * assert (Q : (u1 <= MU ^ 6 / (2 * (K + 1)))%R) by apply Rmin_r.
          apply Rle_trans with (2 * ((K + 1) * (MU ^ 6 / (2 * (K + 1)))))%R; [|right; field; lra].
          apply Rmult_le_compat_l; [lra|]. apply Rmult_le_compat; lra.
        * intros env He. destruct (H env He) as [E F]. split; [split; [apply det_away|exact E]|]. intros u Hu. apply F. lra.
  Qed.
End Pinv.

(* ---- the published functions ---- *)
Lemma env_of_le (l : list (sym * R)) L : (0 <= L)%R -> (forall s v, In (s, v) l -> (Rabs v <= L)%R) -> forall s, (Rabs (env_of l s) <= L)%R.
Proof.
  intros HL. induction l as [|[k v] l IH]; intros H s; cbn [env_of]; [rewrite Rabs_R0; exact HL|].
  destruct (sym_eqb s k); [apply (H k); left; reflexivity|]. apply IH. intros s' v' I. apply (H s'). right; exact I.
Qed.
Theorem entry_error name cfg r0 r r1 fo i j L : session name cfg r0 r r1 -> In fo (get_functions r) -> i < fo_rows fo -> j < fo_cols fo ->
  exists K u0, (0 < u0 <= / 2)%R /\ (fo_name fo <> "J_ee_pinv" -> u0 = (/ 2)%R) /\
    forall r', session name cfg r0 r r' -> within_limits r' (fo_args fo) L -> exists e env, entry_of r' fo i j e env /\
      forall u, (0 <= u <= u0)%R -> ~ fault u env e /\ rounded u env e (out r' (fo_name fo) i j) /\
        forall v, rounded u env e v -> (Rabs (v - out r' (fo_name fo) i j) <= K * u)%R.
Proof.
  intros Hs H. destruct (session_built _ _ _ _ _ Hs) as (b & B).
  apply (fun_obj_iff _ _ _ B) in H. destruct H as (f & He & ->). cbn [fo_name fo_args fo_rows fo_cols]. intros Hi Hj.
  set (L' := Rmax 0 L). assert (HL : (0 <= L')%R) by apply Rmax_l. assert (HH : (0 < / 2 <= / 2)%R) by lra.
  assert (HB : exists u0, (0 < u0 <= / 2)%R /\ (name_of f <> "J_ee_pinv" -> u0 = (/ 2)%R) /\ RB L' u0 (el (val b f) i j)).
  { assert (D : f = fJeepinv \/ f <> fJeepinv) by (destruct f; (left; reflexivity) || (right; discriminate)).
    destruct D as [->|D].
    - destruct (pinv_RB _ _ (bt_base _ _ _ B) L' i j HL Hi Hj) as (u0 & U & G). exists u0. split; [exact U|]. split; [|exact G]. cbn [name_of]. congruence.
    - exists (/ 2)%R. split; [exact HH|]. split; [auto|]. apply tame_RB; auto. exact (val_kept _ kept_tame _ b (bt_base _ _ _ B) f D He i j Hi Hj). }
  destruct HB as (u0 & U & E & K & Bd & HK & HBd & G). exists K, u0. split; [exact U|]. split; [exact E|].
  intros r' S HW. pose proof (built_sess _ _ _ _ _ _ S B) as SS. destruct (ss_fun _ _ _ SS f He) as [_ F].
  assert (AK : forall k, In k (alist b f) -> exists len, In (k, len) (keys b)) by (intros k Hk; apply (deps_keys b f k He), alist_deps, Hk).
  pose proof (bind_eq _ _ _ SS (alist b f) AK) as BE.
  set (l := flat_map (fun k => combine (isyms b k) (arg r' k)) (alist b f)) in *.
  exists (el (val b f) i j), (env_of l). split.
  { unfold entry_of. cbn [fo_name fo_args]. rewrite F. do 2 eexists. split; [reflexivity|]. cbn [f_out f_inputs]. rewrite BE. auto. }
  assert (O : out r' (name_of f) i j = eval (env_of l) (el (val b f) i j)).
  { unfold out, get. rewrite (proj1 (ss_fun _ _ _ SS f He)), F. unfold call. cbn [f_inputs f_out]. rewrite BE. reflexivity. }
  assert (EL : forall s, (Rabs (env_of l s) <= L')%R).
  { apply env_of_le; [exact HL|]. intros s v Hv. unfold l in Hv. apply in_flat_map in Hv. destruct Hv as (k & Hk & Hv).
    apply in_combine_r in Hv. apply (In_nth _ _ 0%R) in Hv. destruct Hv as (m & _ & <-). eapply Rle_trans; [apply HW; exact Hk|apply Rmax_r]. }
  destruct (G (env_of l) EL) as [_ Q]. rewrite O. intros u Hu. destruct (Q u Hu) as [N V]. split; [exact N|]. split; [|exact V].
  apply rounded_exact. lra.
Qed.
Lemma compute_rounded u rnd sn cs env e : arithmetic u rnd sn cs -> rounded u env e (compute rnd sn cs env e).
Proof.
  intros [U A S N C].
  assert (CL : forall x, close u x (rnd x)).
  { intros x. unfold close. eapply Rle_trans; [apply A|]. assert (u ^ 2 <= u)%R by nra. lra. }
  induction e; cbn [rounded compute].
  - replace (r - r)%R with 0%R by ring. rewrite Rabs_R0. pose proof (Rabs_pos r). apply Rmult_le_pos; lra.
  - reflexivity.
  - do 2 eexists. split; [exact IHe1|]. split; [exact IHe2|apply CL].
  - do 2 eexists. split; [exact IHe1|]. split; [exact IHe2|apply CL].
  - do 2 eexists. split; [exact IHe1|]. split; [exact IHe2|apply CL].
  - do 2 eexists. split; [exact IHe1|]. split; [exact IHe2|apply CL].
  - eexists. split; [exact IHe|apply CL].
  - eexists. split; [exact IHe|apply N].
  - eexists. split; [exact IHe|apply C].
  - eexists. split; [exact IHe|apply CL].
  - eexists. split; [exact IHe|]. split; [apply A|apply S].
Qed.
(* the same for the arithmetic of a machine *)
Theorem machine_error name cfg r0 r r1 fo i j L : session name cfg r0 r r1 -> In fo (get_functions r) -> i < fo_rows fo -> j < fo_cols fo ->
  exists K u0, (0 < u0 <= / 2)%R /\ (fo_name fo <> "J_ee_pinv" -> u0 = (/ 2)%R) /\
    forall r', session name cfg r0 r r' -> within_limits r' (fo_args fo) L ->
      forall e env, entry_of r' fo i j e env -> forall u rnd sn cs, arithmetic u rnd sn cs -> (u <= u0)%R ->
        (Rabs (compute rnd sn cs env e - out r' (fo_name fo) i j) <= K * u)%R.
Proof.
  intros Hs H Hi Hj. destruct (entry_error name cfg r0 r r1 fo i j L Hs H Hi Hj) as (K & u0 & U & E & G).
  exists K, u0. split; [exact U|]. split; [exact E|]. intros r' S HW e env (cf & l & F & -> & Bl & ->) u rnd sn cs A Hu.
  destruct (G r' S HW) as (e' & env' & (cf' & l' & F' & -> & Bl' & ->) & X).
  rewrite F in F'. injection F' as <-. rewrite Bl in Bl'. injection Bl' as <-.
  apply (X u); [pose proof (ar_unit _ _ _ _ A); lra|]. now apply compute_rounded.
Qed.
