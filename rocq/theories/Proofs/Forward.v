(* Forward dynamics: the equations of motion can be solved for the accelerations. *)
From Coq Require Import Reals Lra Lia Arith List String Bool ZArith.
From Coquelicot Require Import Coquelicot.
From Verif.Model Require Import Base Expr SX Robot Yaml Build.
From Verif.Spec Require Import Math Setup Kinematics Dynamics.
From Verif.Proofs Require Import Sums Pure Names Load Final Get Api Maps Determinant Dims Closed Lagrange DynMain State Files StateSess StateToy ReloadToy.
Import ListNotations.
Open Scope nat_scope.
Open Scope string_scope.

(* a system with a positive definite matrix has a solution *)
Lemma pd_solve n A (v : rvec) : symm n A -> pd n A -> exists x : rvec, forall i, i < n -> rmv n A x i = v i.
Proof.
  intros HS HP. pose proof (pd_det n A HS HP) as D. destruct n as [|n]; [exists v; lia|].
  exists (fun k => rsum (S n) (fun l => sg (k + l) (rdet n (rminor A l k)) / rdet (S n) A * v l)%R).
  intros i Hi. unfold rmv.
  rewrite (rsum_ext _ _ (fun k => rsum (S n) (fun l => (A i k * sg (k + l) (rdet n (rminor A l k))) * (v l / rdet (S n) A)))%R).
  2:{ intros k Hk. rewrite <- rsum_scal. apply rsum_ext. intros l Hl. field. lra. }
  rewrite rsum_swap.
  rewrite (rsum_ext _ _ (fun l => (if Nat.eqb i l then rdet (S n) A else 0) * (v l / rdet (S n) A))%R).
  2:{ intros l Hl. rewrite <- (rdet_cof n A i l) by lia. rewrite Rmult_comm, <- rsum_scal. apply rsum_ext. intros; ring. }
  rewrite (rsum_ext _ _ (fun l => if Nat.eqb l i then v l else 0)%R).
  2:{ intros l Hl. rewrite (Nat.eqb_sym l i). destruct (Nat.eqb_spec i l) as [->|N]; [field; lra|ring]. }
  apply (rsum_delta (S n) i v). exact Hi.
Qed.

Section Solve.
  Variables (name : string) (cfg : ynode) (r0 r r' : robot).
  Hypothesis HS : session name cfg r0 r r'.
  Let n := numJoints r0.
  Lemma ddq_size : In ("ddq", n) (state_sizes r0).
  Proof. unfold state_sizes. apply in_or_app. left. simpl. tauto. Qed.
  Lemma with_ddq v : List.length v = n -> session name cfg r0 r (fst (set_arg r' "ddq" v)).
  Proof. intros L. apply session_set; [exact HS|]. rewrite (se_state _ _ _ _ _ HS _ _ ddq_size). exact L. Qed.
  Lemma ddq_state v i : state (fst (set_arg r' "ddq" v)) "ddq" i = nth i v 0%R.
  Proof. unfold state. change (arg (fst (set_arg r' "ddq" v)) "ddq") with (get_arg (fst (set_arg r' "ddq" v)) "ddq"). now rewrite get_set. Qed.
  Lemma other_arg v k : k <> "ddq" -> arg (fst (set_arg r' "ddq" v)) k = arg r' k.
  Proof. intros N. unfold arg. cbn [fst set_arg with_args args]. now rewrite mget_mset_ne by congruence. Qed.
  (* M, C and G do not take the accelerations *)
  Lemma ddq_out v f i j : List.length v = n -> In f [fM; fC; fG] -> i < n -> j < vcols r0 f ->
    out (fst (set_arg r' "ddq" v)) (name_of f) i j = out r' (name_of f) i j.
  Proof.
    intros L Hf Hi Hj. destruct (session_built _ _ _ _ _ HS) as (b & B).
    pose proof (built_sess _ _ _ _ _ _ HS B) as S1. pose proof (built_sess _ _ _ _ _ _ (with_ddq v L) B) as S2.
    assert (Nb : numJoints b = n) by (rewrite (ss_b _ _ _ S1); reflexivity).
    apply (out_local r0 b _ _ S2 S1 f).
    - destruct Hf as [<-|[<-|[<-|[]]]]; exact I.
    - intros k Hk. apply other_arg. intros ->. unfold alist, al, obtain_symb_parameters, kinp, kingp in Hk.
      destruct Hf as [<-|[<-|[<-|[]]]]; apply in_app_iff in Hk; destruct Hk as [Hk|Hk];
        try (apply filter_In in Hk; destruct Hk as [Hk _]); cbn [In] in Hk;
        repeat match goal with H : _ \/ _ |- _ => destruct H as [H|H]; [discriminate H|] end; exact Hk.
    - destruct Hf as [<-|[<-|[<-|[]]]]; cbn [vrows]; rewrite Nb; exact Hi.
    - destruct Hf as [<-|[<-|[<-|[]]]]; cbn [vcols] in Hj |- *; rewrite ?Nb; exact Hj.
  Qed.
  Lemma ddq_torque v i : List.length v = n -> i < n -> torque r0 (fst (set_arg r' "ddq" v)) i =
    (rmv n (out r' "M") (fun j => nth j v 0) i + rmv n (out r' "C") (state r' "dq") i + out r' "G" i 0%nat)%R.
  Proof.
    intros L Hi. unfold torque. fold n. rewrite (ddq_out v fG i 0 L ltac:(simpl; auto) Hi ltac:(simpl; lia) : out _ "G" i 0 = out r' "G" i 0). f_equal. f_equal.
    - unfold rmv. apply rsum_ext. intros j Hj. rewrite (ddq_out v fM i j L ltac:(simpl; auto) Hi Hj : out _ "M" i j = out r' "M" i j). now rewrite ddq_state.
    - unfold rmv. apply rsum_ext. intros j Hj. rewrite (ddq_out v fC i j L ltac:(simpl; auto) Hi Hj : out _ "C" i j = out r' "C" i j).
      f_equal. unfold state. now rewrite other_arg by discriminate.
  Qed.
  Hypothesis HP : forall i, 1 <= i <= n -> (0 <= mass r0 r' i)%R /\ psd3 (inertia r0 r' i).
  Hypothesis HQ : forall i, 1 <= i <= n -> if prism r0 (i - 1) then (0 < mass r0 r' i)%R else pd3 (inertia r0 r' i).
  Lemma mass_pd : symm n (out r' "M") /\ pd n (out r' "M").
  Proof.
    destruct (session_built _ _ _ _ _ HS) as [b HB]. split.
    - intros i j Hi Hj. exact (M_symm name cfg r0 r b r' HS HB i j Hi Hj).
    - intros x Hx. exact (M_def name cfg r0 r b r' HS HB x HP HQ Hx).
  Qed.
  Theorem forward (tau : rvec) : exists v, List.length v = n /\ (forall i, i < n -> torque r0 (fst (set_arg r' "ddq" v)) i = tau i) /\
    forall u, List.length u = n -> (forall i, i < n -> torque r0 (fst (set_arg r' "ddq" u)) i = tau i) -> u = v.
  Proof.
    destruct mass_pd as [S P].
    destruct (pd_solve n _ (fun i => tau i - rmv n (out r' "C") (state r' "dq") i - out r' "G" i 0%nat)%R S P) as [x Hx].
    assert (L : List.length (map x (seq 0 n)) = n) by now rewrite map_length, seq_length.
    assert (NT : forall j, j < n -> nth j (map x (seq 0 n)) 0%R = x j).
    { intros j Hj. rewrite (nth_indep _ 0%R (x 0)) by lia. rewrite map_nth. now rewrite seq_nth. }
    exists (map x (seq 0 n)). split; [exact L|]. split.
    - intros i Hi. rewrite (ddq_torque _ i L Hi).
      replace (rmv n (out r' "M") (fun j => nth j (map x (seq 0 n)) 0%R) i) with (rmv n (out r' "M") x i).
      + rewrite (Hx i Hi). ring.
      + unfold rmv. apply rsum_ext. intros j Hj. now rewrite NT.
    - intros u Lu Hu. apply nth_ext with (d := 0%R) (d' := 0%R); [congruence|]. intros j Hj. rewrite Lu in Hj. rewrite NT by exact Hj.
      apply Rminus_diag_uniq. apply (pd_kernel n (out r' "M") (fun k => nth k u 0 - x k)%R P); [|exact Hj].
      intros i Hi. specialize (Hu i Hi). rewrite (ddq_torque u i Lu Hi) in Hu. specialize (Hx i Hi).
      assert (E : rmv n (out r' "M") (fun k => nth k u 0 - x k)%R i = (rmv n (out r' "M") (fun k => nth k u 0) i - rmv n (out r' "M") x i)%R).
      { unfold rmv. unfold Rminus. rewrite <- rsum_opp, <- rsum_plus. apply rsum_ext. intros; ring. }
      rewrite E. lra.
  Qed.
  (* what a force on the tool does to it *)
  Theorem pushed (f x : rvec) : (forall i, i < n -> rmv n (out r' "M") x i = rsum 6 (fun a => out r' "J_ee" a i * f a)%R) ->
    (0 <= rdot 6 f (rmv n (out r' "J_ee") x))%R /\
    ((exists i, i < n /\ rsum 6 (fun a => out r' "J_ee" a i * f a)%R <> 0%R) -> (0 < rdot 6 f (rmv n (out r' "J_ee") x))%R).
  Proof.
    intros E. destruct mass_pd as [S P].
    assert (Q : rdot 6 f (rmv n (out r' "J_ee") x) = rquad n (out r' "M") x x).
    { unfold rquad, rdot. rewrite (rsum_ext n _ (fun i => rsum 6 (fun a => x i * (out r' "J_ee" a i * f a)))%R).
      2:{ intros i Hi. rewrite (E i Hi). symmetry. apply rsum_scal. }
      rewrite rsum_swap. apply rsum_ext. intros a Ha. unfold rmv. rewrite <- rsum_scal. apply rsum_ext. intros; ring. }
    rewrite Q.
    assert (Z : (forall j, j < n -> x j = 0%R) -> forall i, i < n -> rmv n (out r' "M") x i = 0%R).
    { intros Hz i Hi. unfold rmv. apply rsum_0. intros j Hj. rewrite Hz by exact Hj. ring. }
    assert (D : (forall j, j < n -> x j = 0%R) \/ exists j, j < n /\ x j <> 0%R).
    { clear -n. induction n as [|m IH]; [left; lia|]. destruct IH as [A|(j & Hj & Hx)]; [|right; exists j; split; [lia|exact Hx]].
      destruct (Req_dec (x m) 0) as [Em|Nm]; [left|right; exists m; split; [lia|exact Nm]].
      intros j Hj. destruct (Nat.eq_dec j m) as [->|N]; [exact Em|apply A; lia]. }
    destruct D as [A|A].
    - split.
      + right. unfold rquad, rdot. symmetry. apply rsum_0. intros i Hi. rewrite A by exact Hi. ring.
      + intros (i & Hi & Ni). exfalso. apply Ni. rewrite <- E by exact Hi. now apply Z.
    - pose proof (P x A). split; [lra|auto].
  Qed.
End Solve.
