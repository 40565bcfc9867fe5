(* A body that is fixed to a link adds its own dynamics. *)
From Coq Require Import Reals Lra Lia Arith List String Bool ZArith.
From Verif.Model Require Import Base Expr SX Robot Yaml Build Bodies.
From Verif.Spec Require Import Math Setup Kinematics Dynamics Regressor Api Bodies Payload.
From Verif.Proofs Require Import Maps Sums Pure Names Shape Dims Load Final Get Api Bodies Lagrange DynMain RegMain ControlToy StateToy ReloadToy Forward.
Import ListNotations.
Open Scope nat_scope.
Open Scope string_scope.

Lemma same_moments c m : same_body c m -> b_mass c = b_mass m /\ (forall a, a < 3 -> moment c a = moment m a) /\
  (forall i j, i < 3 -> j < 3 -> inertia_origin c i j = inertia_origin m i j).
Proof.
  intros (A & B & C). split; [exact A|]. split.
  - intros a Ha. unfold moment. now rewrite A, B.
  - intros i j Hi Hj. unfold inertia_origin, rdot. rewrite A, C, (B i), (B j) by auto.
    rewrite (rsum_ext 3 _ (fun k => com m k * com m k)%R) by (intros k Hk; now rewrite B). reflexivity.
Qed.
Lemma link_moments r0 r' i : b_mass (link_body r0 r' i) = mass r0 r' i /\
  (forall a, a < 3 -> moment (link_body r0 r' i) a = (mass r0 r' i * com_of r0 r' i a)%R) /\
  (forall a c, a < 3 -> c < 3 -> inertia_origin (link_body r0 r' i) a c = origin_inertia r0 r' i a c).
Proof.
  split; [reflexivity|]. split.
  - intros a Ha. destruct a as [|[|[|a]]]; try lia; reflexivity.
  - intros a c Ha Hc. destruct a as [|[|[|a]]]; try lia; destruct c as [|[|[|c]]]; try lia; reflexivity.
Qed.
Lemma united_moments r0 r' s0 s' t0 t' i : united r0 r' s0 s' t0 t' -> 1 <= i <= numJoints r0 ->
  mass t0 t' i = (mass r0 r' i + mass s0 s' i)%R /\
  (forall a, a < 3 -> (mass t0 t' i * com_of t0 t' i a)%R = (mass r0 r' i * com_of r0 r' i a + mass s0 s' i * com_of s0 s' i a)%R) /\
  (forall a c, a < 3 -> c < 3 -> origin_inertia t0 t' i a c = (origin_inertia r0 r' i a c + origin_inertia s0 s' i a c)%R).
Proof.
  intros U Hi. specialize (U i Hi). cbv zeta in U.
  destruct (link_moments r0 r' i) as (A1 & A2 & A3). destruct (link_moments s0 s' i) as (B1 & B2 & B3). destruct (link_moments t0 t' i) as (C1 & C2 & C3).
  destruct U as [[N S]|[[Z1 Z2] S]]; apply same_moments in S; destruct S as (S1 & S2 & S3).
  - destruct (merge_ok (link_body r0 r' i) (link_body s0 s' i) (link_body r0 r' i) N) as (M1 & M2 & M3).
    rewrite <- A1, <- B1, <- C1. split; [now rewrite S1|]. split.
    + intros a Ha. rewrite A1, B1, C1, <- A2, <- B2, <- C2, S2, M2 by exact Ha. reflexivity.
    + intros a c Ha Hc. rewrite <- A3, <- B3, <- C3, S3, M3 by auto. reflexivity.
  - rewrite B1 in Z1. rewrite A1, C1 in S1. split; [rewrite S1, Z1; ring|]. split.
    + intros a Ha. rewrite <- A2, <- C2, S2, Z1 by exact Ha. ring.
    + intros a c Ha Hc. rewrite <- A3, <- B3, <- C3, S3 by auto. unfold inertia_origin at 3.
      rewrite B1, Z1, (Z2 a c Ha Hc). ring.
Qed.
Lemma united_own r0 r' s0 s' t0 t' : numJoints s0 = numJoints r0 -> numJoints t0 = numJoints r0 -> united r0 r' s0 s' t0 t' ->
  forall k, k < 10 * numJoints r0 -> own t0 t' k = (own r0 r' k + own s0 s' k)%R.
Proof.
  intros N1 N2 U k Hk. unfold own. assert (Hi : 1 <= S (k / 10) <= numJoints r0).
  { split; [lia|]. apply Nat.div_lt_upper_bound in Hk; lia. }
  destruct (united_moments r0 r' s0 s' t0 t' _ U Hi) as (A & B & C).
  destruct (k mod 10) as [|[|[|[|[|[|[|[|[|m]]]]]]]]]; [exact A|apply B; lia|apply B; lia|apply B; lia|apply C; lia..].
Qed.

Definition unit_vec (n j : nat) : list R := map (fun i => if Nat.eqb i j then 1%R else 0%R) (seq 0 n).
Lemma unit_length n j : List.length (unit_vec n j) = n.
Proof. unfold unit_vec. now rewrite map_length, seq_length. Qed.
Lemma unit_nth n j i : i < n -> nth i (unit_vec n j) 0%R = if Nat.eqb i j then 1%R else 0%R.
Proof.
  intros Hi. unfold unit_vec. set (g := fun i => if Nat.eqb i j then 1%R else 0%R).
  rewrite (nth_indep _ 0%R (g 0)) by (rewrite map_length, seq_length; exact Hi). rewrite (map_nth g), seq_nth by exact Hi. reflexivity.
Qed.
Lemma column n A x i j : (forall k, k < n -> x k = if Nat.eqb k j then 1%R else 0%R) -> j < n -> rmv n A x i = A i j.
Proof.
  intros E Hj. unfold rmv. rewrite (rsum_ext n _ (fun k => if Nat.eqb k j then A i k else 0)%R).
  - apply (rsum_delta n j (fun k => A i k)). exact Hj.
  - intros k Hk. rewrite E by exact Hk. destruct (Nat.eqb k j); ring.
Qed.

Section Set_.
  Variables (name : string) (cfg : ynode) (r0 r r' : robot) (key : string).
  Hypothesis HS : session name cfg r0 r r'.
  Hypothesis HK : In key ["ddq"; "dqr"; "ddqr"].
  Let n := numJoints r0.
  Lemma ref_size : In (key, n) (state_sizes r0).
  Proof. unfold state_sizes. apply in_or_app. left. destruct HK as [<-|[<-|[<-|[]]]]; simpl; tauto. Qed.
  Lemma with_ref v : List.length v = n -> session name cfg r0 r (fst (set_arg r' key v)).
  Proof. intros L. apply session_set; [exact HS|]. rewrite (se_state _ _ _ _ _ HS _ _ ref_size). exact L. Qed.
  Lemma ref_state v i : state (fst (set_arg r' key v)) key i = nth i v 0%R.
  Proof. unfold state. change (arg (fst (set_arg r' key v)) key) with (get_arg (fst (set_arg r' key v)) key). now rewrite get_set. Qed.
  Lemma ref_arg v k : k <> key -> arg (fst (set_arg r' key v)) k = arg r' k.
  Proof. intros N. unfold arg. cbn [fst set_arg with_args args]. now rewrite mget_mset_ne by congruence. Qed.
  Lemma ref_out v f i j : List.length v = n -> In f [fM; fC; fG] -> i < n -> j < vcols r0 f ->
    out (fst (set_arg r' key v)) (name_of f) i j = out r' (name_of f) i j.
  Proof.
    intros L Hf Hi Hj. destruct (session_built _ _ _ _ _ HS) as (b & B).
    pose proof (built_sess _ _ _ _ _ _ HS B) as S1. pose proof (built_sess _ _ _ _ _ _ (with_ref v L) B) as S2.
    assert (Nb : numJoints b = n) by (rewrite (ss_b _ _ _ S1); reflexivity).
    apply (out_local r0 b _ _ S2 S1 f).
    - destruct Hf as [<-|[<-|[<-|[]]]]; exact I.
    - intros k Hk. apply ref_arg. intros ->. unfold alist, al, obtain_symb_parameters, kinp, kingp in Hk.
      destruct HK as [<-|[<-|[<-|[]]]]; (destruct Hf as [<-|[<-|[<-|[]]]]; apply in_app_iff in Hk; destruct Hk as [Hk|Hk];
        try (apply filter_In in Hk; destruct Hk as [Hk _]); cbn [In] in Hk;
        repeat match goal with H : _ \/ _ |- _ => destruct H as [H|H]; [discriminate H|] end; exact Hk).
    - destruct Hf as [<-|[<-|[<-|[]]]]; cbn [vrows]; rewrite Nb; exact Hi.
    - destruct Hf as [<-|[<-|[<-|[]]]]; cbn [vcols] in Hj |- *; rewrite ?Nb; exact Hj.
  Qed.
End Set_.
Lemma other_param r0 r' key v k i : k <> key -> param r0 (fst (set_arg r' key v)) k i = param r0 r' k i.
Proof. intros N. unfold param. now rewrite ref_arg. Qed.
Lemma set_param name cfg r0 r r' key v i : session name cfg r0 r r' -> In key ["ddq"; "dqr"; "ddqr"] -> List.length v = numJoints r0 ->
  param r0 (fst (set_arg r' key v)) key i = nth i v 0%R.
Proof.
  intros S K L. pose proof (with_ref name cfg r0 r r' key S K v L) as S'. destruct (session_sess _ _ _ _ _ S') as (b & HB & _).
  rewrite (param_state r0 b _ HB key (numJoints r0)); [apply ref_state|].
  pose proof (ref_size r0 key K) as Z.
  unfold state_keys. rewrite (ss_b _ _ _ HB). exact Z.
Qed.

Section Three.
  Variables (n1 n2 n3 : string) (c1 c2 c3 : ynode) (r0 r r' s0 s s' t0 t t' : robot).
  Hypothesis H1 : session n1 c1 r0 r r'.
  Hypothesis H2 : session n2 c2 s0 s s'.
  Hypothesis H3 : session n3 c3 t0 t t'.
  Hypothesis X1 : exact_angles r0.
  Hypothesis X2 : exact_angles s0.
  Hypothesis X3 : exact_angles t0.
  Hypothesis B2 : same_but_bodies r0 r' s0 s'.
  Hypothesis B3 : same_but_bodies r0 r' t0 t'.
  Hypothesis U : united r0 r' s0 s' t0 t'.
  Let n := numJoints r0.
  Let N2 : numJoints s0 = n := sm_n _ _ (proj1 B2).
  Let N3 : numJoints t0 = n := sm_n _ _ (proj1 B3).

  Lemma reg_sum nm i : In nm ["Yr"; "reg_M"; "reg_C"; "reg_G"] -> i < n ->
    rmv (10 * n) (out t' nm) (own t0 t') i = (rmv (10 * n) (out r' nm) (own r0 r') i + rmv (10 * n) (out s' nm) (own s0 s') i)%R.
  Proof.
    intros Hn Hi. unfold rmv. rewrite <- rsum_plus. apply rsum_ext. intros k Hk.
    rewrite (united_own r0 r' s0 s' t0 t' N2 N3 U k Hk).
    rewrite <- (regressors_no_inertia n1 n2 c1 c2 r0 r r' s0 s s' H1 H2 (proj1 B2) X1 X2 (proj2 B2) nm Hn i k Hi Hk).
    rewrite <- (regressors_no_inertia n1 n3 c1 c3 r0 r r' t0 t t' H1 H3 (proj1 B3) X1 X3 (proj2 B3) nm Hn i k Hi Hk). ring.
  Qed.
  Lemma sums i : i < n ->
    (rmv n (out t' "M") (state t' "ddqr") i = rmv n (out r' "M") (state r' "ddqr") i + rmv n (out s' "M") (state s' "ddqr") i /\
     rmv n (out t' "C") (state t' "dqr") i = rmv n (out r' "C") (state r' "dqr") i + rmv n (out s' "C") (state s' "dqr") i /\
     out t' "G" i 0%nat = out r' "G" i 0%nat + out s' "G" i 0%nat)%R.
  Proof.
    intros Hi.
    destruct (reg_ids n1 c1 r0 r r' H1 (own r0 r') (own_describes r0 r') X1 i Hi) as (A1 & A2 & A3).
    destruct (reg_ids n2 c2 s0 s s' H2 (own s0 s') (own_describes s0 s') X2 i ltac:(rewrite N2; exact Hi)) as (A4 & A5 & A6).
    destruct (reg_ids n3 c3 t0 t t' H3 (own t0 t') (own_describes t0 t') X3 i ltac:(rewrite N3; exact Hi)) as (A7 & A8 & A9).
    rewrite N2 in A4, A5, A6. rewrite N3 in A7, A8, A9. fold n in A1, A2, A3.
    rewrite <- A1, <- A2, <- A3, <- A4, <- A5, <- A6, <- A7, <- A8, <- A9.
    split; [|split]; apply reg_sum; simpl; auto.
  Qed.
End Three.

Section Entries.
  Variables (n1 n2 n3 : string) (c1 c2 c3 : ynode) (r0 r r' s0 s s' t0 t t' : robot).
  Hypothesis H1 : session n1 c1 r0 r r'.
  Hypothesis H2 : session n2 c2 s0 s s'.
  Hypothesis H3 : session n3 c3 t0 t t'.
  Hypothesis X1 : exact_angles r0.
  Hypothesis X2 : exact_angles s0.
  Hypothesis X3 : exact_angles t0.
  Hypothesis B2 : same_but_bodies r0 r' s0 s'.
  Hypothesis B3 : same_but_bodies r0 r' t0 t'.
  Hypothesis U : united r0 r' s0 s' t0 t'.
  Let n := numJoints r0.
  Let N2 : numJoints s0 = n := sm_n _ _ (proj1 B2).
  Let N3 : numJoints t0 = n := sm_n _ _ (proj1 B3).
  Lemma same_set na ca a0 a a' key v : session na ca a0 a a' -> same_but_bodies r0 r' a0 a' -> In key ["ddq"; "dqr"; "ddqr"] -> List.length v = n ->
    same_but_bodies r0 (fst (set_arg r' key v)) a0 (fst (set_arg a' key v)).
  Proof.
    intros Ha [S E] K L. split; [exact S|]. intros k len Hk Nk i Hi. destruct (string_dec k key) as [->|N].
    - rewrite (set_param _ _ _ _ _ key v i H1 K L). symmetry. apply (set_param _ _ _ _ _ key v i Ha K). rewrite (sm_n _ _ S). exact L.
    - rewrite !other_param by exact N. now apply (E k len).
  Qed.
  Lemma united_set key v : key <> "par_DYN" -> united r0 (fst (set_arg r' key v)) s0 (fst (set_arg s' key v)) t0 (fst (set_arg t' key v)).
  Proof.
    intros N. assert (D : forall a0 a' i, link_body a0 (fst (set_arg a' key v)) i = link_body a0 a' i).
    { intros. unfold link_body, dyn. now rewrite !other_param by congruence. }
    intros i Hi. cbv zeta. rewrite !D. exact (U i Hi).
  Qed.
  Lemma entry key f i j : In (key, f) [("ddqr", fM); ("dqr", fC)] -> i < n -> j < n ->
    out t' (name_of f) i j = (out r' (name_of f) i j + out s' (name_of f) i j)%R.
  Proof.
    intros Hk Hi Hj. set (v := unit_vec n j). assert (L : List.length v = n) by apply unit_length.
    assert (K : In key ["ddq"; "dqr"; "ddqr"]) by (destruct Hk as [E|[E|[]]]; injection E as <- _; simpl; auto).
    assert (Hf : In f [fM; fC; fG]) by (destruct Hk as [E|[E|[]]]; injection E as _ <-; simpl; auto).
    assert (ND : key <> "par_DYN") by (destruct Hk as [E|[E|[]]]; injection E as <- _; discriminate).
    assert (L2 : List.length v = numJoints s0) by (rewrite N2; exact L). assert (L3 : List.length v = numJoints t0) by (rewrite N3; exact L).
    pose proof (with_ref _ _ _ _ _ key H1 K v L) as S1. pose proof (with_ref _ _ _ _ _ key H2 K v L2) as S2. pose proof (with_ref _ _ _ _ _ key H3 K v L3) as S3.
    pose proof (sums n1 n2 n3 c1 c2 c3 r0 r _ s0 s _ t0 t _ S1 S2 S3 X1 X2 X3 (same_set _ _ _ _ _ key v H2 B2 K L) (same_set _ _ _ _ _ key v H3 B3 K L) (united_set key v ND) i Hi) as (P1 & P2 & _).
    assert (Cl : forall a, forall A, rmv n A (state (fst (set_arg a key v)) key) i = A i j).
    { intros a A. apply column; [|exact Hj]. intros k Hk'. rewrite ref_state. now apply unit_nth. }
    assert (Vr : j < vcols r0 f) by (destruct Hk as [E|[E|[]]]; injection E as _ <-; exact Hj).
    assert (Vs : j < vcols s0 f) by (destruct Hk as [E|[E|[]]]; injection E as _ <-; cbn [vcols]; rewrite N2; exact Hj).
    assert (Vt : j < vcols t0 f) by (destruct Hk as [E|[E|[]]]; injection E as _ <-; cbn [vcols]; rewrite N3; exact Hj).
    rewrite <- (ref_out _ _ _ _ _ key H1 K v f i j L Hf Hi Vr).
    rewrite <- (ref_out _ _ _ _ _ key H2 K v f i j L2 Hf ltac:(rewrite N2; exact Hi) Vs).
    rewrite <- (ref_out _ _ _ _ _ key H3 K v f i j L3 Hf ltac:(rewrite N3; exact Hi) Vt).
    destruct Hk as [E|[E|[]]]; injection E as <- <-.
    - fold n in P1. rewrite !Cl in P1. exact P1.
    - fold n in P2. rewrite !Cl in P2. exact P2.
  Qed.
  Theorem added : (forall i j, i < n -> j < n -> out t' "M" i j = (out r' "M" i j + out s' "M" i j)%R) /\
    (forall i j, i < n -> j < n -> out t' "C" i j = (out r' "C" i j + out s' "C" i j)%R) /\
    (forall i, i < n -> out t' "G" i 0 = (out r' "G" i 0%nat + out s' "G" i 0%nat)%R) /\
    (forall i, i < n -> torque t0 t' i = (torque r0 r' i + torque s0 s' i)%R).
  Proof.
    assert (M : forall i j, i < n -> j < n -> out t' "M" i j = (out r' "M" i j + out s' "M" i j)%R).
    { intros i j Hi Hj. exact (entry "ddqr" fM i j ltac:(simpl; auto) Hi Hj). }
    assert (C : forall i j, i < n -> j < n -> out t' "C" i j = (out r' "C" i j + out s' "C" i j)%R).
    { intros i j Hi Hj. exact (entry "dqr" fC i j ltac:(simpl; auto) Hi Hj). }
    assert (G : forall i, i < n -> out t' "G" i 0%nat = (out r' "G" i 0%nat + out s' "G" i 0%nat)%R).
    { intros i Hi. exact (proj2 (proj2 (sums n1 n2 n3 c1 c2 c3 r0 r r' s0 s s' t0 t t' H1 H2 H3 X1 X2 X3 B2 B3 U i Hi))). }
    split; [exact M|]. split; [exact C|]. split; [exact G|].
    assert (St : forall na ca a0 a a', session na ca a0 a a' -> same_but_bodies r0 r' a0 a' -> forall k, In k ["dq"; "ddq"] -> forall i, i < n -> state a' k i = state r' k i).
    { intros na ca a0 a a' Ha [S E] k Hk i Hi. assert (Kn : In (k, n) (state_sizes r0)) by (unfold state_sizes; apply in_or_app; left; destruct Hk as [<-|[<-|[]]]; simpl; tauto).
      assert (Ka : In (k, numJoints a0) (state_sizes a0)) by (unfold state_sizes; apply in_or_app; left; destruct Hk as [<-|[<-|[]]]; simpl; tauto).
      assert (Nk : k <> "par_DYN") by (destruct Hk as [<-|[<-|[]]]; discriminate).
      specialize (E k n (in_or_app _ _ _ (or_introl Kn)) Nk i Hi).
      destruct (session_sess _ _ _ _ _ H1) as (b & S1 & _). destruct (session_sess _ _ _ _ _ Ha) as (b2 & S2 & _).
      rewrite (param_state r0 b _ S1 k n) in E by (unfold state_keys; rewrite (ss_b _ _ _ S1); exact Kn).
      rewrite (param_state a0 b2 _ S2 k (numJoints a0)) in E by (unfold state_keys; rewrite (ss_b _ _ _ S2); exact Ka). symmetry. exact E. }
    intros i Hi. unfold torque. rewrite N2, N3. fold n. rewrite (G i Hi).
    assert (R1 : rmv n (out t' "M") (state t' "ddq") i = (rmv n (out r' "M") (state r' "ddq") i + rmv n (out s' "M") (state s' "ddq") i)%R).
    { unfold rmv. rewrite <- rsum_plus. apply rsum_ext. intros j Hj. rewrite M by auto.
      rewrite (St _ _ _ _ _ H2 B2 "ddq" ltac:(simpl; auto) j Hj), (St _ _ _ _ _ H3 B3 "ddq" ltac:(simpl; auto) j Hj). ring. }
    assert (R2 : rmv n (out t' "C") (state t' "dq") i = (rmv n (out r' "C") (state r' "dq") i + rmv n (out s' "C") (state s' "dq") i)%R).
    { unfold rmv. rewrite <- rsum_plus. apply rsum_ext. intros j Hj. rewrite C by auto.
      rewrite (St _ _ _ _ _ H2 B2 "dq" ltac:(simpl; auto) j Hj), (St _ _ _ _ _ H3 B3 "dq" ltac:(simpl; auto) j Hj). ring. }
    rewrite R1, R2. ring.
  Qed.
End Entries.
