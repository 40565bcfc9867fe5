(* Loaded numbers and flags are those of the file. *)
From Coq Require Import Reals List Arith String Bool Lia ZArith.
From Verif.Model Require Import Base Expr SX Robot Kinematics Dynamics Regressors Yaml Inertia Build Template.
From Verif.Spec Require Import Setup State Config Template Values.
From Verif.Proofs Require Import Calc Rel Maps Pure Names Shape Load StateSess Parse TFacts TFiles TSync TLoad TAgree.
Import ListNotations.
Open Scope nat_scope.
Open Scope string_scope.

Lemma as_double_reads n x : as_double n = Some x <-> reads_as n x.
Proof. split; [destruct n; cbn; intros H; inversion H; constructor|intros []; reflexivity]. Qed.
Lemma as_vector_lists n v : as_vector as_double n = Some v <-> lists n v.
Proof.
  split.
  - destruct n; try discriminate. cbn. intros H. exists l. split; [reflexivity|]. revert v H.
    induction l as [|a l IH]; cbn [ymap]; intros v H; [injection H as <-; constructor|].
    destruct (as_double a) as [x|] eqn:Ea; cbn [ybind] in H; [|discriminate]. destruct (ymap as_double l) as [w|]; cbn [ybind] in H; [|discriminate].
    injection H as <-. constructor; [now apply as_double_reads|auto].
  - intros (l & -> & H). cbn. induction H as [|a x l v Ha Hl IH]; [reflexivity|]. cbn [ymap]. apply as_double_reads in Ha. rewrite Ha. cbn [ybind]. now rewrite IH.
Qed.
Lemma as_vector_flags n v : as_vector as_int n = Some v -> flag_list n v.
Proof.
  destruct n; try discriminate. cbn. unfold flag_list. intros H. f_equal. revert v H.
  induction l as [|a l IH]; cbn [ymap]; intros v H; [injection H as <-; reflexivity|].
  destruct a; cbn [as_int ybind] in H; try discriminate. destruct (ymap as_int l) as [w|]; cbn [ybind] in H; [|discriminate].
  injection H as <-. cbn [map]. now rewrite (IH w).
Qed.

Lemma upd_len p i v : List.length (Build.upd p i v) = List.length p.
Proof. unfold Build.upd. destruct (lset p i v) eqn:E; [|reflexivity]. revert i l E. induction p as [|a p IH]; intros [|i] l E; cbn in E; try discriminate;
  [injection E as <-; reflexivity|]. destruct (lset p i v) eqn:E'; [|discriminate]. injection E as <-. cbn. now rewrite (IH _ _ E'). Qed.
Lemma upd_ne : forall p i v j, i <> j -> nth_error (Build.upd p i v) j = nth_error p j.
Proof.
  unfold Build.upd. induction p as [|a p IH]; intros i v j N; [reflexivity|].
  destruct i; cbn [lset]; [destruct j; [lia|reflexivity]|]. destruct j.
  - destruct (lset p i v); reflexivity.
  - specialize (IH i v j). destruct (lset p i v); cbn [nth_error]; apply IH; lia.
Qed.
Lemma upd_eq : forall p i v, i < List.length p -> nth_error (Build.upd p i v) i = Some v.
Proof.
  unfold Build.upd. induction p as [|a p IH]; intros i v N; [cbn in N; lia|].
  destruct i; cbn [lset]; [reflexivity|]. cbn in N. specialize (IH i v). destruct (lset p i v); cbn [nth_error]; apply IH; lia.
Qed.
(* positions outside [a, b) are kept, and the length *)
Definition kept (a b : nat) (p p' : list R) : Prop :=
  List.length p' = List.length p /\ forall j, j < a \/ b <= j -> nth_error p' j = nth_error p j.
Lemma kept_refl a b p : kept a b p p. Proof. split; auto. Qed.
Lemma kept_trans a b p p1 p2 : kept a b p p1 -> kept a b p1 p2 -> kept a b p p2.
Proof. intros [A B] [C D]. split; [congruence|]. intros j Hj. rewrite D, B; auto. Qed.
Lemma kept_wide a b a' b' p p1 : kept a b p p1 -> a' <= a -> b <= b' -> kept a' b' p p1.
Proof. intros [A B] ? ?. split; auto. intros j Hj. apply B. lia. Qed.
Lemma kept_upd a b i p v : a <= i < b -> kept a b p (Build.upd p i v).
Proof. intros H. split; [apply upd_len|]. intros j Hj. apply upd_ne. lia. Qed.

Definition fin {S} (x : prog S) (s : S) : Prop := x = Go s \/ x = Caught s.
Lemma read_keys_kept nd : forall keys pos p p', fin (read_keys nd keys pos p) p' -> kept pos (pos + List.length keys) p p'.
Proof.
  induction keys as [|k keys IH]; cbn [read_keys]; intros pos p p' H; [destruct H as [H|H]; inversion H; apply kept_refl|].
  destruct (ybind _ _) as [x|]; [|destruct H as [H|H]; inversion H; apply kept_refl].
  apply IH in H. cbn [List.length]. eapply kept_trans; [apply (kept_upd _ _ pos p x); lia|]. eapply kept_wide; [exact H|lia|lia].
Qed.
Lemma yidx_number nd k m x : entry nd k = Some m -> reads_as m x -> ybind (yidx nd k) as_double = Some x.
Proof.
  intros E R. apply as_double_reads in R. destruct nd; try discriminate. cbn [entry] in E. cbn [yidx ybind]. unfold mget. now rewrite E.
Qed.
Lemma yidxc_number nd k m x : entry nd k = Some m -> reads_as m x -> ybind (yidx_c nd k) as_double = Some x.
Proof.
  intros E R. apply as_double_reads in R. destruct nd; try discriminate. cbn [entry] in E. cbn [yidx_c ybind]. unfold mget. now rewrite E.
Qed.
Lemma read_keys_go nd : forall keys pos p, (forall k, In k keys -> exists m x, entry nd k = Some m /\ reads_as m x) ->
  pos + List.length keys <= List.length p ->
  exists p', read_keys nd keys pos p = Go p' /\
  forall j key, nth_error keys j = Some key -> exists m x, entry nd key = Some m /\ reads_as m x /\ nth_error p' (pos + j) = Some x.
Proof.
  induction keys as [|k keys IH]; cbn [read_keys]; intros pos p H L; [exists p; split; auto; intros [|j] key; discriminate|].
  destruct (H k (or_introl eq_refl)) as (m & x & E & R). rewrite (yidx_number _ _ _ _ E R).
  cbn [List.length] in L.
  destruct (IH (S pos) (Build.upd p pos x)) as (p' & G & V); [intros; apply H; now right|rewrite upd_len; lia|].
  exists p'. split; [exact G|]. intros [|j] key Hj.
  - injection Hj as <-. exists m, x. repeat split; auto. rewrite Nat.add_0_r.
    assert (Kp : kept (S pos) (S pos + List.length keys) (Build.upd p pos x) p') by (apply (read_keys_kept nd); left; exact G).
    rewrite (proj2 Kp) by lia. apply upd_eq. lia.
  - destruct (V j key Hj) as (m' & x' & V1 & V2 & V3). exists m', x'. repeat split; auto. now rewrite Nat.add_succ_r.
Qed.
Lemma read_vec_kept v : forall o j base p p', fin (read_vec v o j base p) p' -> kept (base + j) (base + j + o) p p'.
Proof.
  induction o as [|o IH]; cbn [read_vec]; intros j base p p' H; [destruct H as [H|H]; inversion H; apply kept_refl|].
  destruct (nth_error v j) as [x|]; [|destruct H as [H|H]; discriminate].
  apply IH in H. eapply kept_trans; [apply (kept_upd _ _ (base + j) p x); lia|]. eapply kept_wide; [exact H|lia|lia].
Qed.
Lemma read_vec_val v : forall o j base p p', fin (read_vec v o j base p) p' -> base + j + o <= List.length p ->
  read_vec v o j base p = Go p' /\ forall c, c < o -> exists x, nth_error v (j + c) = Some x /\ nth_error p' (base + j + c) = Some x.
Proof.
  induction o as [|o IH]; cbn [read_vec]; intros j base p p' H L; [split; [destruct H as [H|H]; inversion H; reflexivity|lia]|].
  destruct (nth_error v j) as [x|] eqn:Ex; [|destruct H as [H|H]; discriminate].
  destruct (IH _ _ _ _ H) as [G V]; [rewrite upd_len; lia|]. split; [exact G|].
  intros [|c] Hc.
  - exists x. rewrite !Nat.add_0_r. split; [exact Ex|]. apply read_vec_kept in H. rewrite (proj2 H) by lia. apply upd_eq. lia.
  - destruct (V c) as (y & V1 & V2); [lia|]. exists y. split; [rewrite <- V1|rewrite <- V2]; f_equal; lia.
Qed.

(* ---- links ---- *)
Lemma entry2_sub nd k1 k2 m : entry2 nd k1 k2 = Some m -> exists sub, entry nd k1 = Some sub /\ entry sub k2 = Some m.
Proof. unfold entry2. destruct (entry nd k1) as [s|]; [eauto|discriminate]. Qed.
Lemma entry_yidxc nd k m : entry nd k = Some m -> yidx_c nd k = Some m.
Proof. destruct nd; try discriminate. cbn [entry yidx_c]. unfold mget. now intros ->. Qed.
Lemma entry_none_zombie l k : entry (YMap l) k = None -> yidx_c (YMap l) k = Some YZombie.
Proof. cbn [entry yidx_c]. unfold mget. now intros ->. Qed.


Lemma readable_parts nd : readable_link nd -> exists inertial fr, yidx_c nd "inertial" = Some inertial /\ entry nd "inertial" = Some inertial /\
  (forall k, In k link_keys -> exists m x, entry inertial k = Some m /\ reads_as m x) /\ yidx_c nd "friction" = Some fr /\
  (ydef fr = true -> exists v, ybind (yidx_c fr "Dl") (as_vector as_double) = Some v) /\
  forall n v, entry2 nd "friction" "Dl" = Some n -> lists n v -> ydef fr = true /\ ybind (yidx_c fr "Dl") (as_vector as_double) = Some v.
Proof.
  intros [Hi Hf]. destruct (Hi "mass" (or_introl eq_refl)) as (m & x & E & _). apply entry2_sub in E. destruct E as (inertial & E & _).
  assert (V : forall fr n v, entry nd "friction" = Some fr -> entry fr "Dl" = Some n -> lists n v ->
    ydef fr = true /\ ybind (yidx_c fr "Dl") (as_vector as_double) = Some v).
  { intros fr n v E1 E2 L. split; [destruct fr; try discriminate; reflexivity|]. apply entry_yidxc in E2. rewrite E2. cbn [ybind]. now apply as_vector_lists. }
  assert (W : forall n v, entry2 nd "friction" "Dl" = Some n -> lists n v -> exists fr, entry nd "friction" = Some fr /\ ydef fr = true /\
    ybind (yidx_c fr "Dl") (as_vector as_double) = Some v).
  { intros n v E2 L. apply entry2_sub in E2. destruct E2 as (fr & E1 & E2). exists fr. split; [exact E1|eauto]. }
  exists inertial, (match entry nd "friction" with Some fr => fr | None => YZombie end).
  split; [now apply entry_yidxc|]. split; [exact E|]. split.
  { intros k Hk. destruct (Hi k Hk) as (m' & x' & E' & R'). unfold entry2 in E'. rewrite E in E'. eauto. }
  split. { destruct (entry nd "friction") as [fr|] eqn:Ef; [now apply entry_yidxc|]. destruct nd; try discriminate. now apply entry_none_zombie. }
  split.
  - destruct Hf as [Hf|(n & v & Hn & Hv)].
    + rewrite Hf. discriminate.
    + destruct (W n v Hn Hv) as (fr & E1 & _ & E2). rewrite E1. eauto.
  - intros n v Hn Hv. destruct (W n v Hn Hv) as (fr & E1 & E2). rewrite E1. exact E2.
Qed.
Lemma link_step k nd l left i dlO s s' : ends (load_links ((k, nd) :: l) (S left) i dlO s) s' -> exists s1,
  kept (10 * i) (10 * S i) (p_DYN s) (p_DYN s1) /\ kept (dlO * i) (dlO * S i) (p_Dl s) (p_Dl s1) /\
  (s' = s1 \/ ends (load_links l left (S i) dlO s1) s') /\
  (readable_link nd -> 10 * S i <= List.length (p_DYN s) -> dlO * S i <= List.length (p_Dl s) ->
   load_links ((k, nd) :: l) (S left) i dlO s = load_links l left (S i) dlO s1 /\ ends (load_links l left (S i) dlO s1) s' /\
   (forall j key, nth_error link_keys j = Some key -> exists m x, entry2 nd "inertial" key = Some m /\ reads_as m x /\
      nth_error (p_DYN s1) (10 * i + j) = Some x) /\
   (forall n v, entry2 nd "friction" "Dl" = Some n -> lists n v ->
      forall j, j < dlO -> exists x, nth_error v j = Some x /\ nth_error (p_Dl s1) (dlO * i + j) = Some x)).
Proof.
  intros H. cbn [load_links] in H. unfold STD_PAR_LINK in H.
  destruct (yidx_c nd "inertial") as [inertial|] eqn:Ei.
  2:{ exists s. assert (s' = s) by (destruct H as [H|H]; inversion H; reflexivity). subst s'.
      split; [apply kept_refl|]. split; [apply kept_refl|]. split; [now left|]. intros Hr.
      destruct (readable_parts _ Hr) as (a & b & X & _). congruence. }
  apply gbind_ends in H. destruct H as [H|(s1 & H1 & H)].
  { destruct (read_keys inertial inertial_keys (10 * i) (p_DYN s)) as [p|p|] eqn:Ek; try discriminate. injection H as <-.
    exists (mkPars p (p_Dl s) (p_K s) (p_D s) (p_Dm s) (p_Mm s)). cbn [p_DYN p_Dl].
    split; [replace (10 * S i) with (10 * i + 10) by lia; apply (read_keys_kept inertial inertial_keys); right; exact Ek|].
    split; [apply kept_refl|]. split; [now left|]. intros Hr L _.
    destruct (readable_parts _ Hr) as (a & b & X & _ & X1 & _). replace a with inertial in X1 by congruence.
    destruct (read_keys_go inertial inertial_keys (10 * i) (p_DYN s)) as (p' & X2 & _); [exact X1|cbn; lia|]. congruence. }
  destruct (read_keys inertial inertial_keys (10 * i) (p_DYN s)) as [p|p|] eqn:Ek; try discriminate. injection H1 as <-.
  assert (Kp : kept (10 * i) (10 * S i) (p_DYN s) p)
    by (replace (10 * S i) with (10 * i + 10) by lia; apply (read_keys_kept inertial inertial_keys); left; exact Ek).
  assert (Vp : readable_link nd -> 10 * S i <= List.length (p_DYN s) -> forall j key, nth_error link_keys j = Some key ->
    exists m x, entry2 nd "inertial" key = Some m /\ reads_as m x /\ nth_error p (10 * i + j) = Some x).
  { intros Hr L j key Hj. destruct (readable_parts _ Hr) as (a & b & X & X0 & X1 & _). replace a with inertial in X0, X1 by congruence.
    destruct (read_keys_go inertial inertial_keys (10 * i) (p_DYN s)) as (p' & X2 & X3); [exact X1|cbn; lia|].
    replace p' with p in X3 by congruence. destruct (X3 j key Hj) as (m & x & Y1 & Y2 & Y3). exists m, x. unfold entry2. rewrite X0. auto. }
  set (s1 := mkPars p (p_Dl s) (p_K s) (p_D s) (p_Dm s) (p_Mm s)) in *.
  destruct (yidx_c nd "friction") as [fr|] eqn:Ef.
  2:{ exists s1. assert (s' = s1) by (destruct H as [H|H]; inversion H; reflexivity). subst s'.
      split; [exact Kp|]. split; [apply kept_refl|]. split; [now left|]. intros Hr.
      destruct (readable_parts _ Hr) as (a & b & _ & _ & _ & X & _). congruence. }
  assert (D : forall v p', fin (read_vec v dlO 0 (dlO * i) (p_Dl s)) p' -> kept (dlO * i) (dlO * S i) (p_Dl s) p').
  { intros v p' Hv. apply read_vec_kept in Hv. eapply kept_wide; [exact Hv|lia|lia]. }
  apply gbind_ends in H. destruct H as [H|(s2 & H2 & H)].
  - destruct (ydef fr) eqn:Yd; [|discriminate]. destruct (ybind (yidx_c fr "Dl") _) as [v|] eqn:Ev.
    + destruct (read_vec v dlO 0 (dlO * i) (p_Dl s1)) as [p'|p'|] eqn:Er; try discriminate. injection H as <-.
      exists (mkPars p p' (p_K s) (p_D s) (p_Dm s) (p_Mm s)). split; [exact Kp|]. cbn [p_Dl]. split; [apply (D v); right; exact Er|]. split; [now left|]. intros Hr L1 L2.
      destruct (read_vec_val v dlO 0 (dlO * i) (p_Dl s) p') as [G _]; [right; exact Er|lia|]. cbn [p_Dl s1] in Er. congruence.
    + injection H as <-. exists s1. split; [exact Kp|]. split; [apply kept_refl|]. split; [now left|]. intros Hr.
      destruct (readable_parts _ Hr) as (a & b & _ & _ & _ & X & X1 & _). replace b with fr in X1 by congruence.
      destruct (X1 Yd) as [v Hv]. congruence.
  - destruct (ydef fr) eqn:Yd.
    + destruct (ybind (yidx_c fr "Dl") _) as [v|] eqn:Ev; [|discriminate].
      destruct (read_vec v dlO 0 (dlO * i) (p_Dl s1)) as [p'|p'|] eqn:Er; try discriminate. injection H2 as <-.
      exists (mkPars p p' (p_K s) (p_D s) (p_Dm s) (p_Mm s)). split; [exact Kp|]. cbn [p_Dl]. split; [apply (D v); left; exact Er|]. split; [right; exact H|]. intros Hr L1 L2.
      split; [cbn [load_links]; unfold STD_PAR_LINK; rewrite Ei, Ek; cbn [lift_DYN gbind]; fold s1; rewrite Ef, Yd, Ev, Er; reflexivity|].
      split; [exact H|]. split; [exact (Vp Hr L1)|].
      intros n w Hn Hw j Hj. destruct (readable_parts _ Hr) as (a & b & _ & _ & _ & X & _ & X1). replace b with fr in X1 by congruence.
      destruct (X1 n w Hn Hw) as [_ Hw']. replace w with v by congruence.
      destruct (read_vec_val v dlO 0 (dlO * i) (p_Dl s) p') as [_ G]; [left; exact Er|lia|].
      destruct (G j Hj) as (x & G1 & G2). exists x. rewrite Nat.add_0_r in G2. auto.
    + injection H2 as <-. exists s1. split; [exact Kp|]. split; [apply kept_refl|]. split; [right; exact H|]. intros Hr L1 L2.
      split; [cbn [load_links]; unfold STD_PAR_LINK; rewrite Ei, Ek; cbn [lift_DYN gbind]; fold s1; rewrite Ef, Yd; reflexivity|].
      split; [exact H|]. split; [exact (Vp Hr L1)|].
      intros n w Hn Hw. destruct (readable_parts _ Hr) as (a & b & _ & _ & _ & X & _ & X1). replace b with fr in X1 by congruence.
      destruct (X1 n w Hn Hw). congruence.
Qed.
Lemma links_kept dlO : forall l left i s s', ends (load_links l left i dlO s) s' ->
  kept (10 * i) (10 * (i + List.length l)) (p_DYN s) (p_DYN s') /\ kept (dlO * i) (dlO * (i + List.length l)) (p_Dl s) (p_Dl s').
Proof.
  induction l as [|[k nd] l IH]; intros left i s s' H.
  - assert (s' = s) by (destruct left; destruct H as [H|H]; inversion H; reflexivity). subst. split; apply kept_refl.
  - destruct left as [|left].
    + assert (s' = s) by (cbn [load_links] in H; destruct (yidx_c nd "inertial"); destruct H as [H|H]; inversion H; reflexivity). subst. split; apply kept_refl.
    + destruct (link_step _ _ _ _ _ _ _ _ H) as (s1 & A & B & C & _). cbn [List.length].
      assert (W : kept (10 * S i) (10 * (S i + List.length l)) (p_DYN s1) (p_DYN s') /\
        kept (dlO * S i) (dlO * (S i + List.length l)) (p_Dl s1) (p_Dl s')) by (destruct C as [->|C]; [split; apply kept_refl|now apply IH in C]).
      destruct W as [W1 W2]. split.
      * eapply kept_trans; [eapply kept_wide; [exact A|lia|lia]|eapply kept_wide; [exact W1|lia|lia]].
      * eapply kept_trans; [eapply kept_wide; [exact B|nia|nia]|eapply kept_wide; [exact W2|nia|nia]].
Qed.
Lemma first_ones_tail P c x l : first_ones P (S c) (x :: l) -> first_ones P c l.
Proof. intros H i k nd Hi E. apply (H (S i) k nd); [lia|exact E]. Qed.
Lemma links_values dlO : forall i l left i0 s s', ends (load_links l left i0 dlO s) s' -> i < left ->
  10 * (i0 + left) <= List.length (p_DYN s) -> dlO * (i0 + left) <= List.length (p_Dl s) -> first_ones readable_link (S i) l ->
  forall k nd, nth_error l i = Some (k, nd) ->
   (forall j key, nth_error link_keys j = Some key -> exists m x, entry2 nd "inertial" key = Some m /\ reads_as m x /\
      nth_error (p_DYN s') (10 * (i0 + i) + j) = Some x) /\
   (forall n v, entry2 nd "friction" "Dl" = Some n -> lists n v ->
      forall j, j < dlO -> exists x, nth_error v j = Some x /\ nth_error (p_Dl s') (dlO * (i0 + i) + j) = Some x).
Proof.
  induction i as [|i IH]; intros l left i0 s s' H Hl L1 L2 F k nd E; (destruct l as [|[k0 nd0] l]; [discriminate|]);
    (destruct left as [|left]; [lia|]); destruct (link_step _ _ _ _ _ _ _ _ H) as (s1 & A & B & _ & D);
    (destruct D as (_ & D & V1 & V2); [apply (F 0 k0 nd0); [lia|reflexivity]|lia|nia|]).
  - cbn [nth_error] in E. injection E as <- <-. destruct (links_kept _ _ _ _ _ _ D) as [W1 W2]. rewrite Nat.add_0_r. split.
    + intros j key Hj. destruct (V1 j key Hj) as (m & x & Y1 & Y2 & Y3). exists m, x. split; [exact Y1|]. split; [exact Y2|].
      assert (j < 10) by (apply (nth_error_Some link_keys j); congruence). rewrite (proj2 W1) by lia. exact Y3.
    + intros n v Hn Hv j Hj. destruct (V2 n v Hn Hv j Hj) as (x & Y1 & Y2). exists x. split; [exact Y1|].
      rewrite (proj2 W2) by nia. exact Y2.
  - cbn [nth_error] in E. replace (i0 + S i) with (S i0 + i) by lia.
    apply (IH l left (S i0) s1 s' D) with (k := k); [lia| | |eapply first_ones_tail; exact F|exact E].
    + rewrite (proj1 A). lia.
    + rewrite (proj1 B). nia.
Qed.
Lemma links_go dlO : forall l left i0 s s', ends (load_links l left i0 dlO s) s' ->
  10 * (i0 + left) <= List.length (p_DYN s) -> dlO * (i0 + left) <= List.length (p_Dl s) -> first_ones readable_link left l ->
  (forall k nd, In (k, nd) l -> exists sub, yidx_c nd "inertial" = Some sub) ->
  load_links l left i0 dlO s = Go s'.
Proof.
  induction l as [|[k nd] l IH]; intros left i0 s s' H L1 L2 F Hs.
  - destruct left; destruct H as [H|H]; inversion H; reflexivity.
  - destruct left as [|left].
    + cbn [load_links] in *. destruct (Hs k nd (or_introl eq_refl)) as [sub Es]. rewrite Es in *. destruct H as [H|H]; inversion H; reflexivity.
    + destruct (link_step _ _ _ _ _ _ _ _ H) as (s1 & A & B & _ & D).
      destruct D as (Q & D & _); [apply (F 0 k nd); [lia|reflexivity]|lia|nia|].
      rewrite Q. apply IH; auto; [rewrite (proj1 A); lia|rewrite (proj1 B); nia|eapply first_ones_tail; exact F|intros; eapply Hs; right; eauto].
Qed.

(* ---- elastic joints ---- *)
Lemma load_order_kept nd key order i p p' : fin (load_order nd key order (order * i) p) p' -> kept (order * i) (order * S i) p p'.
Proof.
  unfold load_order. intros H. destruct (Nat.ltb 0 order); [|destruct H as [H|H]; inversion H; apply kept_refl].
  destruct (read_vector_key nd key) as [v|]; [|destruct H as [H|H]; inversion H; apply kept_refl].
  apply read_vec_kept in H. eapply kept_wide; [exact H|lia|lia].
Qed.
Lemma load_order_go nd key order i p p' : fin (load_order nd key order (order * i) p) p' -> order * S i <= List.length p ->
  (0 < order -> exists n v, entry nd key = Some n /\ lists n v) ->
  load_order nd key order (order * i) p = Go p' /\ forall n v, entry nd key = Some n -> lists n v ->
    forall j, j < order -> exists x, nth_error v j = Some x /\ nth_error p' (order * i + j) = Some x.
Proof.
  unfold load_order. intros H L Hr. destruct (Nat.ltb_spec 0 order) as [Ho|Ho].
  2:{ split; [destruct H as [H|H]; inversion H; reflexivity|lia]. }
  destruct (Hr Ho) as (n & v & E & Lv). unfold read_vector_key in *. apply entry_yidxc in E. rewrite E in *. cbn [ybind] in *.
  pose proof (proj2 (as_vector_lists _ _) Lv) as Ev. rewrite Ev in *.
  destruct (read_vec_val _ _ _ _ _ _ H) as [G V]; [lia|]. split; [exact G|].
  intros n' v' E' Lv' j Hj. apply entry_yidxc in E'. replace n' with n in Lv' by congruence.
  apply as_vector_lists in Lv'. replace v' with v by congruence. destruct (V j Hj) as (x & V1 & V2). exists x. rewrite Nat.add_0_r in V2. auto.
Qed.
Definition joint_values (r : robot) (nd : ynode) (i : nat) (s : pars) : Prop :=
  (forall key vec order n v, In (key, vec, order) [("K", p_K s, K_order r); ("D", p_D s, D_order r); ("Dm", p_Dm s, Dm_order r)] ->
     entry nd key = Some n -> lists n v -> forall j, j < order -> exists x, nth_error v j = Some x /\ nth_error vec (order * i + j) = Some x) /\
  exists m x, entry nd "Mm" = Some m /\ reads_as m x /\ nth_error (p_Mm s) i = Some x.
Record els_kept (r : robot) (a b : nat) (s s' : pars) : Prop := {
  ek_K : kept (K_order r * a) (K_order r * b) (p_K s) (p_K s');
  ek_D : kept (D_order r * a) (D_order r * b) (p_D s) (p_D s');
  ek_Dm : kept (Dm_order r * a) (Dm_order r * b) (p_Dm s) (p_Dm s');
  ek_Mm : kept a b (p_Mm s) (p_Mm s');
  ek_DYN : p_DYN s' = p_DYN s; ek_Dl : p_Dl s' = p_Dl s }.
Definition roomy (r : robot) (e : nat) (s : pars) : Prop :=
  K_order r * e <= List.length (p_K s) /\ D_order r * e <= List.length (p_D s) /\ Dm_order r * e <= List.length (p_Dm s) /\ e <= List.length (p_Mm s).
Lemma els_refl r a b s : els_kept r a b s s. Proof. constructor; auto using kept_refl. Qed.
Lemma els_trans r a b s s1 s2 : els_kept r a b s s1 -> els_kept r a b s1 s2 -> els_kept r a b s s2.
Proof. intros [] []. constructor; try congruence; eapply kept_trans; eauto. Qed.
Lemma els_wide r a b a' b' s s1 : els_kept r a b s s1 -> a' <= a -> b <= b' -> els_kept r a' b' s s1.
Proof. intros [] ? ?. constructor; auto; (eapply kept_wide; [eassumption|nia|nia]). Qed.
Lemma els_roomy r a b s s1 e : els_kept r a b s s1 -> roomy r e s -> roomy r e s1.
Proof. intros [[A _] [B _] [C _] [D _] _ _] (E & F & G & H). unfold roomy. rewrite A, B, C, D. auto. Qed.
Lemma readable_order r nd key order : readable_joint r nd -> In (key, order) [("K", K_order r); ("D", D_order r); ("Dm", Dm_order r)] ->
  0 < order -> exists n v, entry nd key = Some n /\ lists n v.
Proof. intros [H _] Hi Ho. eapply H; eauto. Qed.
Lemma joint_step r k nd l left i s s' :
  ends (load_elastic ((k, nd) :: l) (S left) i (K_order r) (D_order r) (Dm_order r) s) s' -> exists s1,
  els_kept r i (S i) s s1 /\ (s' = s1 \/ ends (load_elastic l left (S i) (K_order r) (D_order r) (Dm_order r) s1) s') /\
  (readable_joint r nd -> roomy r (S i) s ->
   ends (load_elastic l left (S i) (K_order r) (D_order r) (Dm_order r) s1) s' /\ joint_values r nd i s1).
Proof.
  cbn [load_elastic]. intros H.
  apply gbind_ends in H. destruct H as [H|(s1 & H1 & H)].
  { destruct (load_order nd "K" _ _ _) as [p|p|] eqn:E; try discriminate. injection H as <-.
    exists (mkPars (p_DYN s) (p_Dl s) p (p_D s) (p_Dm s) (p_Mm s)). split; [|split; [now left|]].
    - constructor; cbn; auto using kept_refl. apply (load_order_kept nd "K"). right; exact E.
    - intros Hr (L & _). destruct (load_order_go nd "K" (K_order r) i (p_K s) p) as [G _]; [right; exact E|exact L|now apply (readable_order r); simpl; auto|]. congruence. }
  destruct (load_order nd "K" _ _ _) as [pK|pK|] eqn:EK; try discriminate. injection H1 as <-. cbn [p_DYN p_Dl p_K p_D p_Dm p_Mm] in H.
  apply gbind_ends in H. destruct H as [H|(s1 & H1 & H)].
  { destruct (load_order nd "D" _ _ _) as [p|p|] eqn:E; try discriminate. injection H as <-.
    exists (mkPars (p_DYN s) (p_Dl s) pK p (p_Dm s) (p_Mm s)). split; [|split; [now left|]].
    - constructor; cbn; auto using kept_refl; [apply (load_order_kept nd "K"); left; exact EK|apply (load_order_kept nd "D"); right; exact E].
    - intros Hr (_ & L & _). destruct (load_order_go nd "D" (D_order r) i (p_D s) p) as [G _]; [right; exact E|exact L|now apply (readable_order r); simpl; auto|]. congruence. }
  destruct (load_order nd "D" _ _ _) as [pD|pD|] eqn:ED; try discriminate. injection H1 as <-. cbn [p_DYN p_Dl p_K p_D p_Dm p_Mm] in H.
  apply gbind_ends in H. destruct H as [H|(s1 & H1 & H)].
  { destruct (load_order nd "Dm" _ _ _) as [p|p|] eqn:E; try discriminate. injection H as <-.
    exists (mkPars (p_DYN s) (p_Dl s) pK pD p (p_Mm s)). split; [|split; [now left|]].
    - constructor; cbn; auto using kept_refl; [apply (load_order_kept nd "K"); left; exact EK|apply (load_order_kept nd "D"); left; exact ED|
        apply (load_order_kept nd "Dm"); right; exact E].
    - intros Hr (_ & _ & L & _). destruct (load_order_go nd "Dm" (Dm_order r) i (p_Dm s) p) as [G _]; [right; exact E|exact L|now apply (readable_order r); simpl; auto|]. congruence. }
  destruct (load_order nd "Dm" _ _ _) as [pM|pM|] eqn:EM; try discriminate. injection H1 as <-. cbn [p_DYN p_Dl p_K p_D p_Dm p_Mm] in H.
  assert (KK : kept (K_order r * i) (K_order r * S i) (p_K s) pK) by (apply (load_order_kept nd "K"); left; exact EK).
  assert (KD : kept (D_order r * i) (D_order r * S i) (p_D s) pD) by (apply (load_order_kept nd "D"); left; exact ED).
  assert (KM : kept (Dm_order r * i) (Dm_order r * S i) (p_Dm s) pM) by (apply (load_order_kept nd "Dm"); left; exact EM).
  destruct (ybind (yidx_c nd "Mm") as_double) as [x|] eqn:Ex.
  - exists (mkPars (p_DYN s) (p_Dl s) pK pD pM (Build.upd (p_Mm s) i x)). split; [|split; [now right|]].
    + constructor; cbn; auto. apply kept_upd. lia.
    + intros Hr (L1 & L2 & L3 & L4). split; [exact H|]. split.
      * intros key vec order n v Hi. cbn [p_K p_D p_Dm] in Hi.
        assert (RO : forall key order, In (key, order) [("K", K_order r); ("D", D_order r); ("Dm", Dm_order r)] -> 0 < order -> exists n v, entry nd key = Some n /\ lists n v)
          by (intros key' order' Hi' Ho'; eapply (proj1 Hr); eauto).
        cbn [In] in Hi. destruct Hi as [Q|[Q|[Q|[]]]]; injection Q as <- <- <-.
        -- apply (load_order_go nd "K" (K_order r) i (p_K s) pK); [left; exact EK|exact L1|apply RO; simpl; auto].
        -- apply (load_order_go nd "D" (D_order r) i (p_D s) pD); [left; exact ED|exact L2|apply RO; simpl; auto].
        -- apply (load_order_go nd "Dm" (Dm_order r) i (p_Dm s) pM); [left; exact EM|exact L3|apply RO; simpl; auto].
      * destruct (proj2 Hr) as (m & y & E1 & E2). exists m, y. split; [exact E1|]. split; [exact E2|].
        rewrite (yidxc_number _ _ _ _ E1 E2) in Ex. injection Ex as ->. cbn [p_Mm]. apply upd_eq. lia.
  - exists (mkPars (p_DYN s) (p_Dl s) pK pD pM (p_Mm s)). split; [|split; [left; destruct H as [H|H]; inversion H; reflexivity|]].
    + constructor; cbn; auto using kept_refl.
    + intros Hr _. destruct (proj2 Hr) as (m & y & E1 & E2). rewrite (yidxc_number _ _ _ _ E1 E2) in Ex. discriminate.
Qed.
Lemma joints_kept r : forall l left i s s', ends (load_elastic l left i (K_order r) (D_order r) (Dm_order r) s) s' ->
  els_kept r i (i + List.length l) s s'.
Proof.
  induction l as [|[k nd] l IH]; intros left i s s' H.
  - assert (s' = s) by (destruct left; destruct H as [H|H]; inversion H; reflexivity). subst. apply els_refl.
  - destruct left as [|left]; [assert (s' = s) by (destruct H as [H|H]; inversion H; reflexivity); subst; apply els_refl|].
    destruct (joint_step _ _ _ _ _ _ _ _ H) as (s1 & A & C & _). cbn [List.length].
    eapply els_trans; [eapply els_wide; [exact A|lia|lia]|]. destruct C as [->|C]; [apply els_refl|]. apply IH in C. eapply els_wide; [exact C|lia|lia].
Qed.
Lemma joint_values_kept r nd i s s' b : els_kept r (S i) b s s' -> joint_values r nd i s -> joint_values r nd i s'.
Proof.
  intros [A B C D _ _] [V (m & x & V1 & V2 & V3)]. split.
  - intros key vec order n v Hi Hn Hv j Hj. cbn [In] in Hi.
    destruct Hi as [Q|[Q|[Q|[]]]]; injection Q as <- <- <-;
      [specialize (V "K" (p_K s) (K_order r) n v ltac:(simpl; auto) Hn Hv j Hj); rewrite (proj2 A) by nia
      |specialize (V "D" (p_D s) (D_order r) n v ltac:(simpl; auto) Hn Hv j Hj); rewrite (proj2 B) by nia
      |specialize (V "Dm" (p_Dm s) (Dm_order r) n v ltac:(simpl; auto) Hn Hv j Hj); rewrite (proj2 C) by nia]; exact V.
  - exists m, x. split; [exact V1|]. split; [exact V2|]. rewrite (proj2 D) by lia. exact V3.
Qed.
Lemma joints_values r : forall i l left i0 s s', ends (load_elastic l left i0 (K_order r) (D_order r) (Dm_order r) s) s' -> i < left ->
  roomy r (i0 + left) s -> first_ones (readable_joint r) (S i) l -> forall k nd, nth_error l i = Some (k, nd) -> joint_values r nd (i0 + i) s'.
Proof.
  induction i as [|i IH]; intros l left i0 s s' H Hl L F k nd E; (destruct l as [|[k0 nd0] l]; [discriminate|]);
    (destruct left as [|left]; [lia|]); destruct (joint_step _ _ _ _ _ _ _ _ H) as (s1 & A & _ & D);
    (destruct D as (D & V); [apply (F 0 k0 nd0); [lia|reflexivity]|destruct L as (L1 & L2 & L3 & L4); unfold roomy; repeat split; nia|]).
  - cbn [nth_error] in E. injection E as <- <-. rewrite Nat.add_0_r. eapply joint_values_kept; [eapply joints_kept; exact D|exact V].
  - cbn [nth_error] in E. replace (i0 + S i) with (S i0 + i) by lia.
    apply (IH l left (S i0) s1 s' D) with (k := k); [lia| |eapply first_ones_tail; exact F|exact E].
    eapply els_roomy; [exact A|]. replace (S i0 + left) with (i0 + S left) by lia. exact L.
Qed.

(* ---- flags ---- *)
Lemma section_selects sec n fl : section_symb sec n = POk fl -> selects sec "symb" n fl.
Proof.
  unfold section_symb, selects. intros H. apply pbind_ok in H. destruct H as (a & E & H). apply ofy_inv in E. apply Parse.yidx_entry in E.
  destruct (entry sec "symb") as [m|]; subst a; cbn [ydef] in *; [|now injection H as <-].
  destruct (ydef m); [apply as_vector_flags; now apply ofy_inv|now injection H as <-].
Qed.
Lemma copy_at_spec acc off v acc' : copy_at acc off v = POk acc' -> List.length acc' = List.length acc /\
  (forall j z, nth_error v j = Some z -> nth_error acc' (off + j) = Some z) /\ (forall j, j < off -> nth_error acc' j = nth_error acc j).
Proof.
  unfold copy_at. destruct (Nat.leb_spec (off + List.length v) (List.length acc)) as [L|]; [|discriminate]. intros H. injection H as <-.
  assert (F : List.length (firstn off acc) = off) by (rewrite firstn_length; lia). split; [|split].
  - rewrite !app_length, skipn_length, F. lia.
  - intros j z Hj. assert (j < List.length v) by (apply nth_error_Some; congruence).
    rewrite nth_error_app2 by lia. rewrite F, nth_error_app1 by lia. rewrite <- Hj. f_equal. lia.
  - intros j Hj. rewrite nth_error_app1 by lia. rewrite <- (firstn_skipn off acc) at 2. now rewrite nth_error_app1 by lia.
Qed.
Lemma link_flags_kept key w : forall l i acc acc', link_flags key w l i acc = POk acc' -> forall j, j < i * w -> nth_error acc' j = nth_error acc j.
Proof.
  induction l as [|[k nd] l IH]; cbn [link_flags]; intros i acc acc' H j Hj; [injection H as <-; reflexivity|].
  apply pbind_ok in H. destruct H as (sub & _ & H). apply pbind_ok in H. destruct H as (s & _ & H). apply pbind_ok in H. destruct H as (v & _ & H).
  apply pbind_ok in H. destruct H as (acc1 & E & H). rewrite (IH _ _ _ H) by nia. now apply (copy_at_spec _ _ _ _ E).
Qed.
Lemma link_flags_spec key w : forall l i0 acc acc' i k nd, link_flags key w l i0 acc = POk acc' -> nth_error l i = Some (k, nd) ->
  exists sub fl, entry nd key = Some sub /\ selects sub "symb" w fl /\
  forall j z, j < w -> nth_error fl j = Some z -> nth_error acc' (w * (i0 + i) + j) = Some z.
Proof.
  induction l as [|[k0 nd0] l IH]; cbn [link_flags]; intros i0 acc acc' i k nd H E; [destruct i; discriminate|].
  apply pbind_ok in H. destruct H as (sub & E1 & H). apply pbind_ok in H. destruct H as (s & E2 & H). apply pbind_ok in H. destruct H as (v & E3 & H).
  apply pbind_ok in H. destruct H as (acc1 & E4 & H). destruct i as [|i]; cbn [nth_error] in E.
  - injection E as <- <-. exists sub, v. apply ofy_inv in E1. apply Parse.yidx_c_entry in E1.
    split; [destruct (entry nd0 key); subst sub; [reflexivity|discriminate]|]. split.
    + apply section_selects. unfold section_symb. rewrite E2. exact E3.
    + intros j z Hj Hz. rewrite Nat.add_0_r. rewrite (link_flags_kept _ _ _ _ _ _ H) by nia. rewrite Nat.mul_comm. now apply (copy_at_spec _ _ _ _ E4).
  - destruct (IH _ _ _ _ _ _ H E) as (sub' & fl & A & B & C). exists sub', fl. split; [exact A|]. split; [exact B|].
    intros j z Hj Hz. replace (i0 + S i) with (S i0 + i) by lia. now apply C.
Qed.
Lemma resize_nth v n j : j < n -> nth_error (resizeZ v n) j = Some (nth j v 0%Z).
Proof.
  intros H. unfold resizeZ. destruct (Nat.lt_ge_cases j (List.length v)) as [L|L].
  - rewrite nth_error_app1 by (rewrite firstn_length; lia). rewrite (nth_error_nth' _ 0%Z) by (rewrite firstn_length; lia). f_equal.
    rewrite <- (firstn_skipn n v) at 2. now rewrite app_nth1 by (rewrite firstn_length; lia).
  - rewrite nth_error_app2 by (rewrite firstn_length; lia). rewrite (nth_overflow v) by lia. rewrite firstn_length.
    rewrite (nth_error_nth' _ 0%Z) by (rewrite repeat_length; lia). now rewrite nth_repeat.
Qed.
Lemma symb_vector_spec nd key order v : symb_vector nd key order = POk v -> List.length v = order /\
  exists fl, selects nd key order fl /\ forall j, j < order -> nth_error v j = Some (nth j fl 0%Z).
Proof.
  unfold symb_vector, selects. intros H. apply pbind_ok in H. destruct H as (s & E & H). apply ofy_inv in E. apply Parse.yidx_c_entry in E.
  assert (Z0 : forall j, j < order -> nth_error (repeat 0%Z order) j = Some (nth j (repeat 0%Z order) 0%Z))
    by (intros j Hj; apply nth_error_nth'; now rewrite repeat_length).
  destruct (entry nd key) as [m|]; subst s.
  - destruct (ydef m).
    + apply pbind_ok in H. destruct H as (w & E & H). injection H as <-. apply ofy_inv in E.
      split; [unfold resizeZ; rewrite app_length, firstn_length, repeat_length; lia|]. exists w. split; [now apply as_vector_flags|].
      intros j Hj. now apply resize_nth.
    + injection H as <-. split; [apply repeat_length|]. exists (repeat 0%Z order). auto.
  - injection H as <-. split; [apply repeat_length|]. exists (repeat 0%Z order). auto.
Qed.
Lemma elastic_symb_spec kO dO dmO : forall l left sK sD sDm sM, elastic_symb l left kO dO dmO = POk (sK, sD, sDm, sM) ->
  forall i k nd, i < left -> nth_error l i = Some (k, nd) ->
  (forall key vec order, In (key, vec, order) [("K_symb", sK, kO); ("D_symb", sD, dO); ("Dm_symb", sDm, dmO)] ->
    exists fl, selects nd key order fl /\ forall j, j < order -> nth_error vec (order * i + j) = Some (nth j fl 0%Z)) /\
  exists z, nth_error sM i = Some z /\
    match entry nd "Mm_symb" with Some n => if ydef n then n = YInt z else z = 0%Z | None => z = 0%Z end.
Proof.
  induction l as [|[k0 nd0] l IH]; intros left sK sD sDm sM H i k nd Hi E; [destruct i; discriminate|].
  destruct left as [|left]; [lia|]. cbn [elastic_symb] in H.
  apply pbind_ok in H. destruct H as (ks & EK & H). apply pbind_ok in H. destruct H as (ds & ED & H). apply pbind_ok in H. destruct H as (dms & EM & H).
  apply pbind_ok in H. destruct H as (ms & Ems & H). apply pbind_ok in H. destruct H as (m & Em & H). apply pbind_ok in H. destruct H as ([[[rk rd] rdm] rm] & Er & H).
  injection H as <- <- <- <-.
  apply symb_vector_spec in EK, ED, EM. destruct EK as (LK & fK & SK & VK), ED as (LD & fD & SD & VD), EM as (LM & fM & SM & VM).
  destruct i as [|i]; cbn [nth_error] in E.
  - injection E as <- <-. split.
    + intros key vec order Hk. cbn [In] in Hk.
      destruct Hk as [Q|[Q|[Q|[]]]]; injection Q as <- <- <-; [exists fK; split; [exact SK|]|exists fD; split; [exact SD|]|exists fM; split; [exact SM|]];
        intros j Hj; rewrite Nat.mul_0_r, Nat.add_0_l; rewrite nth_error_app1 by lia; auto.
    + exists m. split; [reflexivity|]. apply ofy_inv in Ems. apply Parse.yidx_c_entry in Ems.
      destruct (entry nd0 "Mm_symb") as [n|]; subst ms; [|now injection Em as <-].
      destruct (ydef n); [|now injection Em as <-]. apply ofy_inv in Em. destruct n; try discriminate. now injection Em as <-.
  - destruct (IH _ _ _ _ _ Er i k nd ltac:(lia) E) as (A & z & B & C). split.
    + intros key vec order Hk. cbn [In] in Hk.
      destruct Hk as [Q|[Q|[Q|[]]]]; injection Q as <- <- <-;
       [destruct (A "K_symb" rk kO ltac:(simpl; auto)) as (fl & A1 & A2)|destruct (A "D_symb" rd dO ltac:(simpl; auto)) as (fl & A1 & A2)
       |destruct (A "Dm_symb" rdm dmO ltac:(simpl; auto)) as (fl & A1 & A2)]; exists fl; split; auto;
        intros j Hj; rewrite nth_error_app2 by nia; rewrite <- (A2 j Hj); f_equal; nia.
    + exists z. split; [exact B|exact C].
Qed.

Lemma links_other dlO : forall l left i s s', ends (load_links l left i dlO s) s' ->
  p_K s' = p_K s /\ p_D s' = p_D s /\ p_Dm s' = p_Dm s /\ p_Mm s' = p_Mm s.
Proof.
  induction l as [|[k nd] l IH]; intros left i s s' H; cbn [load_links] in H; [destruct left; destruct H as [H|H]; inversion H; auto|].
  destruct (yidx_c nd "inertial") as [inertial|]; [|destruct H as [H|H]; inversion H; auto].
  destruct left as [|left]; [destruct H as [H|H]; inversion H; auto|].
  apply gbind_ends in H. destruct H as [H|(s1 & H1 & H)]; [destruct (read_keys _ _ _ _); inversion H; auto|].
  assert (A : p_K s1 = p_K s /\ p_D s1 = p_D s /\ p_Dm s1 = p_Dm s /\ p_Mm s1 = p_Mm s) by (destruct (read_keys _ _ _ _); inversion H1; auto).
  destruct A as (<- & <- & <- & <-). clear H1. destruct (yidx_c nd "friction") as [fr|]; [|destruct H as [H|H]; inversion H; auto].
  apply gbind_ends in H.
  assert (B : forall s2, ends (if ydef fr then match ybind (yidx_c fr "Dl") (as_vector as_double) with None => Caught s1
      | Some v => lift_Dl s1 (read_vec v dlO 0 (dlO * i) (p_Dl s1)) end else Go s1) s2 ->
      p_K s2 = p_K s1 /\ p_D s2 = p_D s1 /\ p_Dm s2 = p_Dm s1 /\ p_Mm s2 = p_Mm s1).
  { intros s2 H2. destruct (ydef fr); [|destruct H2 as [H2|H2]; inversion H2; auto].
    destruct (ybind _ _); [|destruct H2 as [H2|H2]; inversion H2; auto]. destruct (read_vec _ _ _ _ _); destruct H2 as [H2|H2]; inversion H2; auto. }
  destruct H as [H|(s2 & H1 & H)]; [apply B; right; exact H|].
  destruct (B s2 (or_introl H1)) as (<- & <- & <- & <-). eapply IH; exact H.
Qed.

(* ---- the theorem ---- *)
Record flag_facts (cfg : ynode) (r : robot) : Prop := {
  ff_DYN : exists dyn n, yidx cfg "dynamics" = Some dyn /\ link_flags "inertial" 10 (ychildren dyn) 0 (repeat 0%Z n) = POk (flags r "par_DYN");
  ff_Dl : 0 < Dl_order r -> exists dyn n, yidx cfg "dynamics" = Some dyn /\
    link_flags "friction" (Dl_order r) (ychildren dyn) 0 (repeat 0%Z n) = POk (flags r "par_Dl");
  ff_el : ELASTIC r = true -> exists e js, yidx cfg "elastic" = Some e /\ yidx e "joints" = Some js /\
    elastic_symb (ychildren js) (numElasticJoints r) (K_order r) (D_order r) (Dm_order r) =
    POk (flags r "par_K", flags r "par_D", flags r "par_Dm", flags r "par_Mm")
}.
Lemma parse_flags name cfg r : parse_config name cfg = POk r -> flag_facts cfg r.
Proof.
  unfold parse_config. intros H. pinv H.
  match type of H with (let (_, _) := ?x in _) = _ => destruct x as [[[sK sD] sDm] sMm] eqn:Ex end.
  pinv H.
  match type of H with (if negb (Nat.eqb ?x ?y) then _ else _) = _ => destruct (Nat.eqb x y) eqn:Hjt end;
    cbn [negb] in H; [|discriminate].
  pinv H. injection H as <-.
  repeat match goal with E : ofy _ = POk _ |- _ => apply ofy_inv in E end.
  constructor; cbn [Dl_order ELASTIC numElasticJoints K_order D_order Dm_order].
  - do 2 eexists. split; [eassumption|]. eassumption.
  - intros Hd. match goal with E : (if Nat.ltb 0 ?x then _ else _) = POk ?y |- _ => rewrite (proj2 (Nat.ltb_lt 0 x) Hd) in E end.
    do 2 eexists. split; [eassumption|]. eassumption.
  - intros ->. match goal with E : _ = POk (_, _, _, _) |- _ => cbv iota in E; pinv E end.
    repeat match goal with E : ofy _ = POk _ |- _ => apply ofy_inv in E end.
    do 2 eexists. split; [eassumption|]. split; [eassumption|]. eassumption.
Qed.
Lemma robot_flags name cfg r0 : robot_from_file name cfg false = Ok r0 -> flag_facts cfg r0.
Proof.
  unfold robot_from_file. destruct (new_robot name cfg) as [r1| |] eqn:E; cbn [bind]; try discriminate.
  destruct (load_conf_par r1 cfg true) as [r2| |] eqn:E2; cbn [bind]; try discriminate.
  intros H; injection H as <-. rename r2 into r0.
  unfold new_robot in E. destruct (parse_config name cfg) as [rp| | |] eqn:Ep; try discriminate.
  pose proof (parse_flags _ _ _ Ep) as F. pose proof (parse_inv _ _ _ Ep) as PI.
  unfold initVarsFuns in E. rewrite (pa_jt _ _ PI), Nat.eqb_refl in E. cbn [negb] in E. injection E as E1.
  destruct (pa_symb _ _ PI) as (sG & sE & sW & sDH & sMm & sDm & sD & sK & sDl & sDYN & Hsy & _).
  pose proof (load_conf_argsonly _ _ _ _ E2) as AO.
  assert (G : forall k, In k ["par_DYN"; "par_Dl"; "par_K"; "par_D"; "par_Dm"; "par_Mm"] -> flags r0 k = flags rp k).
  { intros k Hk. rewrite AO, <- E1. unfold flags, mget. cbn [symb with_symb with_args with_model]. unfold ins_symb. rewrite mfind_ins.
    rewrite Hsy. simpl in Hk. decompose [or] Hk; try contradiction; subst k; reflexivity. }
  assert (O : forall {A} (f : robot -> A), (forall a b c, f (with_symb (with_args (with_model rp a) b) c) = f rp) -> (forall r a, f (with_args r a) = f r) -> f r0 = f rp).
  { intros A f Hf Ha. rewrite AO, Ha, <- E1. apply Hf. }
  destruct F as [F1 F2 F3]. constructor.
  - rewrite G by (simpl; auto). exact F1.
  - rewrite G by (simpl; auto). rewrite (O _ Dl_order) by reflexivity. exact F2.
  - rewrite !G by (simpl; auto 10). rewrite (O _ ELASTIC), (O _ numElasticJoints), (O _ K_order), (O _ D_order), (O _ Dm_order) by reflexivity. exact F3.
Qed.

Lemma entry_yidx nd k m : entry nd k = Some m -> yidx nd k = Some m.
Proof. destruct nd; try discriminate. cbn [entry yidx]. unfold mget. now intros ->. Qed.
Lemma yidx_get nd k m (A : Type) (v : A) (f : ynode -> yres A) : yidx nd k = Some m -> f m = Some v -> (f YUndef = None) -> entry nd k = Some m.
Proof. intros E F N. apply Parse.yidx_entry in E. destruct (entry nd k); subst m; [reflexivity|congruence]. Qed.
Lemma three_firstn v l : three v = POk l -> 3 <= List.length v /\ l = firstn 3 v.
Proof. unfold three, vec_at. destruct v as [|a [|b [|c v]]]; cbn; intros H; try discriminate. injection H as <-. split; [lia|reflexivity]. Qed.
Lemma entry2_sec' cfg sec k s n v : yidx cfg sec = Some s -> yidx s k = Some n -> as_vector as_double n = Some v -> entry2 cfg sec k = Some n.
Proof.
  intros E1 E2 E3. pose proof (yidx_get _ _ _ _ _ _ E2 E3 eq_refl) as E. unfold entry2. apply Parse.yidx_entry in E1.
  destruct (entry cfg sec); subst s; [exact E|discriminate].
Qed.

Theorem loaded_as_written name cfg r0 : robot_from_file name cfg false = Ok r0 -> as_written cfg r0.
Proof.
  intros H. destruct (robot_facts _ _ _ H) as ([Fk Ff Fg Fd] & s & Es & A1 & A2 & A3 & A4 & A5 & A6).
  destruct (robot_flags _ _ _ H) as [G1 G2 G3].
  assert (Z : List.length (p_DYN (zero_pars r0)) = 10 * numJoints r0 /\ List.length (p_Dl (zero_pars r0)) = Dl_order r0 * numJoints r0)
    by (split; apply repeat_length). destruct Z as [Z1 Z2].
  (* what the loader did with the links, and after them *)
  assert (T : forall dyn, entry cfg "dynamics" = Some dyn -> exists s1,
    ends (load_links (ychildren dyn) (numJoints r0) 0 (Dl_order r0) (zero_pars r0)) s1 /\ p_DYN s = p_DYN s1 /\ p_Dl s = p_Dl s1).
  { intros dyn E. unfold load_conf_tree in Es. rewrite (entry_yidx _ _ _ E) in Es. apply gbind_ends in Es.
    destruct Es as [Es|(s1 & Es1 & Es)]; [exists s; split; [right; exact Es|auto]|]. exists s1. split; [left; exact Es1|].
    destruct (ELASTIC r0); [|destruct Es as [Es|Es]; inversion Es; auto].
    destruct (yidx cfg "elastic") as [e|]; [|destruct Es as [Es|Es]; inversion Es; auto].
    destruct (ydef e); [|destruct Es as [Es|Es]; inversion Es; auto].
    destruct (yidx e "joints") as [js|]; [|destruct Es as [Es|Es]; inversion Es; auto].
    apply joints_kept in Es. destruct Es as [_ _ _ _ Q1 Q2]. auto. }
  constructor.
  - destruct Fk as (kin & dhN & dh & E1 & E2 & E3 & E4 & _). exists dhN. split; [eapply entry2_sec'; eauto|]. rewrite E4. now apply as_vector_lists.
  - intros sec par Hi. destruct (Ff sec par Hi) as (fr & tN & tr & yN & ypr & a & b & E1 & E2 & E3 & E4 & E5 & E6 & E7 & E8 & _).
    apply three_firstn in E6, E7. destruct E6 as [L1 ->], E7 as [L2 ->].
    exists tN, tr, yN, ypr. repeat split; auto; try (eapply entry2_sec'; eauto; fail); now apply as_vector_lists.
  - intros g E Y. destruct Fg as (g' & E1 & _ & E2). rewrite (entry_yidx _ _ _ E) in E1. injection E1 as <-.
    destruct (E2 Y) as (vN & v & E3 & E4 & E5). apply three_firstn in E5. destruct E5 as [L ->].
    exists vN, v. repeat split; auto; [eapply yidx_get; eauto|now apply as_vector_lists].
  - intros sec par sn Hi E Y. apply section_selects. cbn [In] in Hi. destruct Hi as [Q|[Q|[Q|[Q|[]]]]]; injection Q as <- <-.
    + destruct Fk as (kin & dhN & dh & E1 & E2 & E3 & E4 & E5). rewrite (entry_yidx _ _ _ E) in E1. injection E1 as <-. now rewrite E4.
    + destruct (Ff "Base_to_L0" "par_world2L0" ltac:(simpl; auto)) as (fr & tN & tr & yN & ypr & a & b & E1 & _ & _ & _ & _ & E6 & E7 & E8 & E9).
      rewrite (entry_yidx _ _ _ E) in E1. injection E1 as <-. rewrite E8, app_length, (three_len _ _ E6), (three_len _ _ E7). exact E9.
    + destruct (Ff "Ln_to_EE" "par_Ln2EE" ltac:(simpl; auto)) as (fr & tN & tr & yN & ypr & a & b & E1 & _ & _ & _ & _ & E6 & E7 & E8 & E9).
      rewrite (entry_yidx _ _ _ E) in E1. injection E1 as <-. rewrite E8, app_length, (three_len _ _ E6), (three_len _ _ E7). exact E9.
    + destruct Fg as (g' & E1 & E2 & E3). rewrite (entry_yidx _ _ _ E) in E1. injection E1 as <-.
      destruct (E3 Y) as (vN & v & _ & _ & E5). rewrite (three_len _ _ E5). exact E2.
  - intros dyn i k nd E Hn. destruct G1 as (d & n & E1 & E2). rewrite (entry_yidx _ _ _ E) in E1. injection E1 as <-.
    destruct (link_flags_spec _ _ _ _ _ _ _ _ _ E2 Hn) as (sub & fl & V1 & V2 & V3). eauto.
  - intros dyn i k nd Ho E Hn. destruct (G2 Ho) as (d & n & E1 & E2). rewrite (entry_yidx _ _ _ E) in E1. injection E1 as <-.
    destruct (link_flags_spec _ _ _ _ _ _ _ _ _ E2 Hn) as (sub & fl & V1 & V2 & V3). eauto.
  - intros dyn i k nd E Hi Hn F j key Hj. destruct (T dyn E) as (s1 & Hs & Q1 & _). rewrite A1, Q1.
    destruct (links_values (Dl_order r0) i _ _ _ _ _ Hs Hi) with (k := k) (nd := nd) as [V _]; auto; rewrite ?Z1, ?Z2; try lia.
  - intros dyn i k nd n v Ho E Hi Hn F Hd Hv j Hj. destruct (T dyn E) as (s1 & Hs & _ & Q2). rewrite (A2 Ho), Q2.
    destruct (links_values (Dl_order r0) i _ _ _ _ _ Hs Hi) with (k := k) (nd := nd) as [_ V]; auto; rewrite ?Z1, ?Z2; try lia.
    apply (V n v); auto.
  - intros js i k nd El E Hi Hn. destruct (G3 El) as (e & js' & E1 & E2 & E3). apply entry2_sub in E. destruct E as (e' & Ea & Eb).
    rewrite (entry_yidx _ _ _ Ea) in E1. injection E1 as <-. rewrite (entry_yidx _ _ _ Eb) in E2. injection E2 as <-.
    destruct (elastic_symb_spec _ _ _ _ _ _ _ _ _ E3 i k nd Hi Hn) as [V1 V2]. split; [|exact V2].
    intros key par order Hk. cbn [In] in Hk. destruct Hk as [Q|[Q|[Q|[]]]]; injection Q as <- <- <-;
      [apply (V1 "K_symb")|apply (V1 "D_symb")|apply (V1 "Dm_symb")]; simpl; auto.
  - intros dyn js i k nd El E F E2 Hi Hn F2. apply entry2_sub in E2. destruct E2 as (e & Ea & Eb).
    unfold load_conf_tree in Es. rewrite (entry_yidx _ _ _ E), El, (entry_yidx _ _ _ Ea), (entry_yidx _ _ _ Eb) in Es.
    assert (Y : ydef e = true) by (destruct e; try discriminate; reflexivity). rewrite Y in Es.
    apply gbind_ends in Es. destruct Es as [Es|(s1 & Es1 & Es)].
    { exfalso. rewrite (links_go (Dl_order r0) _ _ 0 _ s) in Es; [discriminate|right; exact Es|rewrite Z1; lia|rewrite Z2; lia|exact F|].
      destruct Fd as (dyn' & E' & Hs). rewrite (entry_yidx _ _ _ E) in E'. injection E' as <-. exact Hs. }
    assert (Rm : roomy r0 (numElasticJoints r0) s1).
    { assert (p_K s1 = p_K (zero_pars r0) /\ p_D s1 = p_D (zero_pars r0) /\ p_Dm s1 = p_Dm (zero_pars r0) /\ p_Mm s1 = p_Mm (zero_pars r0)) as (B1 & B2 & B3 & B4) by (apply (links_other (Dl_order r0) _ _ _ _ _ (or_introl Es1))).
      unfold roomy. rewrite B1, B2, B3, B4. cbn [zero_pars p_K p_D p_Dm p_Mm]. rewrite !repeat_length. repeat split; lia. }
    destruct (joints_values r0 i _ _ _ _ _ Es Hi Rm F2 k nd Hn) as [V1 V2]. cbn [Nat.add] in *. split.
    + intros key par order n v Hk Hn' Hv j Hj. cbn [In] in Hk.
      destruct Hk as [Q|[Q|[Q|[]]]]; injection Q as <- <- <-; rewrite ?A3, ?A4, ?A5 by lia;
        [apply (V1 "K" _ _ n v)|apply (V1 "D" _ _ n v)|apply (V1 "Dm" _ _ n v)]; simpl; auto.
    + rewrite (A6 El). exact V2.
  - intros dyn p E Hp Hn. destruct (T dyn E) as (s1 & Hs & Q1 & _). rewrite A1, Q1.
    destruct (links_kept _ _ _ _ _ _ Hs) as [[L V] _]. rewrite V by lia. cbn [zero_pars p_DYN]. unfold STD_PAR_LINK.
    rewrite (nth_error_nth' _ 0%R) by (rewrite repeat_length; lia). now rewrite nth_repeat.
Qed.
