(* IEEE double precision satisfies what is asked of the arithmetic. *)
From Coq Require Import Reals Lra Lia ZArith.
From Flocq Require Import Core Relative.
From Verif.Spec Require Import Rounding.
Open Scope R_scope.

(* 53 binary digits, exponents from -1074, to nearest even *)
Definition double : R -> R := round radix2 (FLT_exp (-1074) 53) ZnearestE.
Definition unit53 : R := / 2 ^ 53.
Lemma double_error x : Rabs (double x - x) <= unit53 * Rabs x + unit53 ^ 2.
Proof.
  destruct (error_N_FLT radix2 (-1074) 53 ltac:(lia) (fun z => negb (Z.even z)) x) as (eps & eta & E1 & E2 & _ & E).
  unfold double. rewrite E. replace (x * (1 + eps) + eta - x) with (x * eps + eta) by ring.
  assert (H : unit53 = bpow radix2 (-53)) by (unfold unit53; rewrite (pow_IZR 2 53); reflexivity).
  assert (B1 : / 2 * bpow radix2 (-53 + 1) = unit53) by (rewrite H; change (/ 2) with (bpow radix2 (-1)); rewrite <- bpow_plus; reflexivity).
  assert (B2 : / 2 * bpow radix2 (-1074) <= unit53 ^ 2).
  { rewrite H. replace (bpow radix2 (-53) ^ 2) with (bpow radix2 (-53) * bpow radix2 (-53)) by ring. rewrite <- bpow_plus.
    change (/ 2) with (bpow radix2 (-1)). rewrite <- bpow_plus. apply bpow_le. lia. }
  assert (E3 : Rabs eps <= unit53) by (rewrite <- B1; exact E1). clear E1. eapply Rle_trans; [apply Rabs_triang|]. rewrite Rabs_mult.
  pose proof (Rmult_le_compat_l (Rabs x) _ _ (Rabs_pos x) E3). lra.
Qed.
Lemma double_arithmetic : arithmetic unit53 double (fun x => double (sin x)) (fun x => double (cos x)).
Proof.
  assert (U : 0 < unit53 <= / 2).
  { unfold unit53. assert (H : 2 <= 2 ^ 53) by (rewrite <- (pow_1 2) at 1; apply Rle_pow; [lra|lia]).
    split; [apply Rinv_0_lt_compat; lra|apply Rinv_le_contravar; lra]. }
  assert (S : unit53 ^ 2 <= unit53) by (simpl; nra).
  constructor.
  - lra.
  - apply double_error.
  - intros x Hx. apply round_ge_generic; [apply FLT_exp_valid; reflexivity|apply valid_rnd_N|apply generic_format_0|exact Hx].
  - intros x. eapply Rle_trans; [apply double_error|]. lra.
  - intros x. eapply Rle_trans; [apply double_error|]. lra.
Qed.
