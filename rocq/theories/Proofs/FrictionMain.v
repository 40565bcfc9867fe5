(* Friction and elasticity at the level of sessions. *)
From Coq Require Import Reals Lra Lia Arith List String Bool ZArith.
From Verif.Model Require Import Base Expr SX Robot Yaml Build.
From Verif.Spec Require Import Math Setup Kinematics Api Friction.
From Verif.Proofs Require Import Sums Load Final Get Friction.
Import ListNotations.
Open Scope nat_scope.
Open Scope string_scope.

Lemma shape_odd o v : fric_shape o (- v) = (- fric_shape o v)%R.
Proof. unfold fric_shape. rewrite Rabs_Ropp. ring. Qed.
Lemma shape_power o v : (0 <= v * fric_shape o v)%R.
Proof. unfold fric_shape. assert (0 <= Rabs v ^ o)%R by apply pow_le, Rabs_pos. nra. Qed.
Lemma fric_odd order c i v : fric_law order c i (- v) = (- fric_law order c i v)%R.
Proof. unfold fric_law. rewrite <- rsum_opp. apply rsum_ext. intros o Ho. rewrite shape_odd. ring. Qed.
Lemma fric_power order c i v : (forall o, o < order -> (0 <= c (i * order + o)%nat)%R) -> (0 <= v * fric_law order c i v)%R.
Proof.
  intros Hc. unfold fric_law. rewrite <- rsum_scal. apply rsum_nonneg. intros o Ho.
  pose proof (shape_power o v). pose proof (Hc o Ho). nra.
Qed.
Section Main.
  Variables (name : string) (cfg : ynode) (r0 r r' : robot).
  Hypothesis Hs : session name cfg r0 r r'.
  Let n := numJoints r0.
  Let e := numElasticJoints r0.
  Ltac go L := destruct (session_sess _ _ _ _ _ Hs) as (b & S & _); exact (L r0 b r' S).

  Definition fric_closed_stmt : Prop :=
    (0 < Dl_order r0 -> answers r' "dl" n 1 /\ forall i, i < n ->
       out r' "dl" i 0 = fric_law (Dl_order r0) (param r0 r' "par_Dl") i (state r' "dq" i)) /\
    (ELASTIC r0 = true -> 0 < D_order r0 -> answers r' "d" e 1 /\ forall i, i < e ->
       out r' "d" i 0 = fric_law (D_order r0) (param r0 r' "par_D") i (state r' "dx" i - state r' "dq" i)%R) /\
    (ELASTIC r0 = true -> 0 < Dm_order r0 -> answers r' "dm" e 1 /\ forall i, i < e ->
       out r' "dm" i 0 = fric_law (Dm_order r0) (param r0 r' "par_Dm") i (state r' "dx" i)) .
  Lemma fric_closed : fric_closed_stmt.
  Proof. split; [go dl_out|split; [go d_out|go dm_out]]. Qed.

  Lemma power_dl : 0 < Dl_order r0 -> (forall j, j < n * Dl_order r0 -> (0 <= param r0 r' "par_Dl" j)%R) ->
    (0 <= rsum n (fun i => state r' "dq" i * out r' "dl" i 0%nat))%R.
  Proof.
    intros Hd Hp. destruct fric_closed as (A & _). destruct (A Hd) as [_ V]. apply rsum_nonneg. intros i Hi.
    rewrite V by auto. apply fric_power. intros o Ho. apply Hp. nia.
  Qed.
  Lemma power_d : ELASTIC r0 = true -> 0 < D_order r0 -> (forall j, j < e * D_order r0 -> (0 <= param r0 r' "par_D" j)%R) ->
    (0 <= rsum e (fun i => (state r' "dx" i - state r' "dq" i) * out r' "d" i 0%nat))%R.
  Proof.
    intros He Hd Hp. destruct fric_closed as (_ & A & _). destruct (A He Hd) as [_ V]. apply rsum_nonneg. intros i Hi.
    rewrite V by auto. apply fric_power. intros o Ho. apply Hp. nia.
  Qed.
  Lemma power_dm : ELASTIC r0 = true -> 0 < Dm_order r0 -> (forall j, j < e * Dm_order r0 -> (0 <= param r0 r' "par_Dm" j)%R) ->
    (0 <= rsum e (fun i => state r' "dx" i * out r' "dm" i 0%nat))%R.
  Proof.
    intros He Hd Hp. destruct fric_closed as (_ & _ & A). destruct (A He Hd) as [_ V]. apply rsum_nonneg. intros i Hi.
    rewrite V by auto. apply fric_power. intros o Ho. apply Hp. nia.
  Qed.

  (* C24 *)
  Lemma k_closed : ELASTIC r0 = true -> 0 < K_order r0 -> answers r' "k" e 1 /\ forall i, i < e ->
       out r' "k" i 0 = spring_law (K_order r0) (param r0 r' "par_K") i (state r' "x" i - state r' "q" i)%R.
  Proof. go k_out. Qed.

  (* C48 *)
  Lemma dl_sum : (forall o, o < Dl_order r0 -> answers r' ("Dl" ++ to_string (o + 1)) n n) /\
    forall i, 0 < Dl_order r0 -> i < n -> out r' "dl" i 0
      = rsum (Dl_order r0) (fun o => rmv n (out r' ("Dl" ++ to_string (o + 1))) (fun j => fric_shape o (state r' "dq" j)) i).
  Proof.
    destruct (session_sess _ _ _ _ _ Hs) as (b & S & _). split; [intros o Ho; apply (Dl_out _ _ _ S o Ho)|].
    intros i Hd Hi. rewrite (proj2 (dl_out _ _ _ S Hd) i Hi). apply rsum_ext. intros o Ho. unfold rmv.
    rewrite (rsum_single n i) by (auto; intros j Hj Nj; rewrite (proj2 (Dl_out _ _ _ S o Ho)) by auto;
      rewrite (proj2 (Nat.eqb_neq i j)) by auto; ring).
    rewrite (proj2 (Dl_out _ _ _ S o Ho)) by auto. now rewrite Nat.eqb_refl.
  Qed.
  Lemma d_sum : ELASTIC r0 = true -> (forall o, o < D_order r0 -> answers r' ("D" ++ to_string (o + 1)) e e) /\
    forall i, 0 < D_order r0 -> i < e -> out r' "d" i 0
      = rsum (D_order r0) (fun o => rmv e (out r' ("D" ++ to_string (o + 1))) (fun j => fric_shape o (state r' "dx" j - state r' "dq" j)) i).
  Proof.
    intros He. destruct (session_sess _ _ _ _ _ Hs) as (b & S & _). split; [intros o Ho; apply (D_out _ _ _ S o He Ho)|].
    intros i Hd Hi. rewrite (proj2 (d_out _ _ _ S He Hd) i Hi). apply rsum_ext. intros o Ho. unfold rmv.
    rewrite (rsum_single e i) by (auto; intros j Hj Nj; rewrite (proj2 (D_out _ _ _ S o He Ho)) by auto;
      rewrite (proj2 (Nat.eqb_neq i j)) by auto; ring).
    rewrite (proj2 (D_out _ _ _ S o He Ho)) by auto. now rewrite Nat.eqb_refl.
  Qed.
  Lemma dm_sum : ELASTIC r0 = true -> (forall o, o < Dm_order r0 -> answers r' ("Dm" ++ to_string (o + 1)) e e) /\
    forall i, 0 < Dm_order r0 -> i < e -> out r' "dm" i 0
      = rsum (Dm_order r0) (fun o => rmv e (out r' ("Dm" ++ to_string (o + 1))) (fun j => fric_shape o (state r' "dx" j)) i).
  Proof.
    intros He. destruct (session_sess _ _ _ _ _ Hs) as (b & S & _). split; [intros o Ho; apply (Dm_out _ _ _ S o He Ho)|].
    intros i Hd Hi. rewrite (proj2 (dm_out _ _ _ S He Hd) i Hi). apply rsum_ext. intros o Ho. unfold rmv.
    rewrite (rsum_single e i) by (auto; intros j Hj Nj; rewrite (proj2 (Dm_out _ _ _ S o He Ho)) by auto;
      rewrite (proj2 (Nat.eqb_neq i j)) by auto; ring).
    rewrite (proj2 (Dm_out _ _ _ S o He Ho)) by auto. now rewrite Nat.eqb_refl.
  Qed.
  Lemma k_sum : ELASTIC r0 = true -> (forall o, o < K_order r0 -> answers r' ("K" ++ to_string (2 * o + 1)) e e) /\
    forall i, 0 < K_order r0 -> i < e -> out r' "k" i 0
      = rsum (K_order r0) (fun o => rmv e (out r' ("K" ++ to_string (2 * o + 1))) (fun j => (state r' "x" j - state r' "q" j) ^ (2 * o + 1))%R i).
  Proof.
    intros He. destruct (session_sess _ _ _ _ _ Hs) as (b & S & _). split; [intros o Ho; apply (K_out _ _ _ S o He Ho)|].
    intros i Hd Hi. rewrite (proj2 (k_out _ _ _ S He Hd) i Hi). apply rsum_ext. intros o Ho. unfold rmv.
    rewrite (rsum_single e i) by (auto; intros j Hj Nj; rewrite (proj2 (K_out _ _ _ S o He Ho)) by auto;
      rewrite (proj2 (Nat.eqb_neq i j)) by auto; ring).
    rewrite (proj2 (K_out _ _ _ S o He Ho)) by auto. now rewrite Nat.eqb_refl.
  Qed.
End Main.

Lemma param_eq r0 r1 r2 k : arg r1 k = arg r2 k -> param r0 r1 k = param r0 r2 k.
Proof. intros E. unfold param. now rewrite E. Qed.

Section Pair.
  Variables (name : string) (cfg : ynode) (r0 r r1 r2 : robot).
  Hypothesis H1 : session name cfg r0 r r1.
  Hypothesis H2 : session name cfg r0 r r2.
  Let n := numJoints r0.
  Let e := numElasticJoints r0.

  Lemma odd_dl : 0 < Dl_order r0 -> arg r1 "par_Dl" = arg r2 "par_Dl" ->
    (forall i, i < n -> (state r2 "dq" i = - state r1 "dq" i)%R) -> forall i, i < n -> out r2 "dl" i 0 = (- out r1 "dl" i 0%nat)%R.
  Proof.
    intros Hd E Ho i Hi. destruct (fric_closed _ _ _ _ _ H1) as (A & _). destruct (fric_closed _ _ _ _ _ H2) as (B & _).
    rewrite (proj2 (A Hd)), (proj2 (B Hd)), (Ho i), fric_odd, (param_eq r0 r1 r2) by auto. reflexivity.
  Qed.
  Lemma odd_d : ELASTIC r0 = true -> 0 < D_order r0 -> arg r1 "par_D" = arg r2 "par_D" ->
    (forall i, i < e -> (state r2 "dx" i - state r2 "dq" i = - (state r1 "dx" i - state r1 "dq" i))%R) -> forall i, i < e -> out r2 "d" i 0 = (- out r1 "d" i 0%nat)%R.
  Proof.
    intros He Hd E Ho i Hi. destruct (fric_closed _ _ _ _ _ H1) as (_ & A & _). destruct (fric_closed _ _ _ _ _ H2) as (_ & B & _).
    rewrite (proj2 (A He Hd)), (proj2 (B He Hd)), (Ho i), fric_odd, (param_eq r0 r1 r2) by auto. reflexivity.
  Qed.
  Lemma odd_dm : ELASTIC r0 = true -> 0 < Dm_order r0 -> arg r1 "par_Dm" = arg r2 "par_Dm" ->
    (forall i, i < e -> (state r2 "dx" i = - state r1 "dx" i)%R) -> forall i, i < e -> out r2 "dm" i 0 = (- out r1 "dm" i 0%nat)%R.
  Proof.
    intros He Hd E Ho i Hi. destruct (fric_closed _ _ _ _ _ H1) as (_ & _ & A). destruct (fric_closed _ _ _ _ _ H2) as (_ & _ & B).
    rewrite (proj2 (A He Hd)), (proj2 (B He Hd)), (Ho i), fric_odd, (param_eq r0 r1 r2) by auto. reflexivity.
  Qed.
  (* C23 *)
  Hypothesis Same : forall k len, In (k, len) (state_sizes r0) -> arg r2 k = arg r1 k.
  Ltac go L := destruct (session_sess _ _ _ _ _ H1) as (b & S & B); pose proof (built_sess _ _ _ _ _ _ H2 B) as S2;
    exact (L r0 b r1 r2 S S2 Same).
  Lemma regr_dl i : 0 < Dl_order r0 -> i < n -> (forall j, j < symbolic r0 "par_Dl" -> state r2 "par_Dl" j = 0%R) ->
    out r1 "dl" i 0 = (rmv (symbolic r0 "par_Dl") (out r1 "reg_dl") (state r1 "par_Dl") i + out r2 "dl" i 0%nat)%R.
  Proof. revert i. go reg_dl_main. Qed.
  Lemma regr_k i : ELASTIC r0 = true -> 0 < K_order r0 -> i < e -> (forall j, j < symbolic r0 "par_K" -> state r2 "par_K" j = 0%R) ->
    out r1 "k" i 0 = (rmv (symbolic r0 "par_K") (out r1 "reg_k") (state r1 "par_K") i + out r2 "k" i 0%nat)%R.
  Proof. revert i. go reg_k_main. Qed.
  Lemma regr_d i : ELASTIC r0 = true -> 0 < D_order r0 -> i < e -> (forall j, j < symbolic r0 "par_D" -> state r2 "par_D" j = 0%R) ->
    out r1 "d" i 0 = (rmv (symbolic r0 "par_D") (out r1 "reg_d") (state r1 "par_D") i + out r2 "d" i 0%nat)%R.
  Proof. revert i. go reg_d_main. Qed.
  Lemma regr_dm i : ELASTIC r0 = true -> 0 < Dm_order r0 -> i < e -> (forall j, j < symbolic r0 "par_Dm" -> state r2 "par_Dm" j = 0%R) ->
    out r1 "dm" i 0 = (rmv (symbolic r0 "par_Dm") (out r1 "reg_dm") (state r1 "par_Dm") i + out r2 "dm" i 0%nat)%R.
  Proof. revert i. go reg_dm_main. Qed.
  Lemma regr_Mm i : ELASTIC r0 = true -> i < e -> (forall j, j < symbolic r0 "par_Mm" -> state r2 "par_Mm" j = 0%R) ->
    rmv e (out r1 "Mm") (state r1 "ddx") i
    = (rmv (symbolic r0 "par_Mm") (out r1 "reg_Mm") (state r1 "par_Mm") i + rmv e (out r2 "Mm") (state r2 "ddx") i)%R.
  Proof. revert i. go reg_Mm_main. Qed.
End Pair.
