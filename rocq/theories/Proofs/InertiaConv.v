(* The two descriptions of the inertia of the links are converted into each other. *)
From Coq Require Import Reals List String Arith ZArith Bool Lia Lra.
From Verif.Model Require Import Base Expr SX Robot Yaml Inertia Build.
From Verif.Spec Require Import Math Setup State.
From Verif.Proofs Require Import Maps Load State.
Import ListNotations.
Open Scope nat_scope.
Open Scope string_scope.

Lemma skipn_skipn' {A} (l : list A) a b : skipn a (skipn b l) = skipn (b + a) l.
Proof. revert l; induction b; simpl; intros l; auto. destruct l; [now rewrite !skipn_nil|apply IHb]. Qed.
Lemma nth_skipn' {A} (l : list A) a i d : nth i (skipn a l) d = nth (a + i) l d.
Proof. revert l; induction a; simpl; intros l; auto. destruct l; [destruct i; reflexivity|apply IHa]. Qed.
Lemma nth_firstn' {A} (l : list A) a i d : i < a -> nth i (firstn a l) d = nth i l d.
Proof.
  revert l i; induction a; simpl; intros l i H; [lia|]. destruct l; auto. destruct i; simpl; auto. apply IHa; lia.
Qed.
Section L.
  Variable f : list R -> list R.
  Hypothesis f10 : forall p, List.length (f p) = 10.
  Lemma map_links_len n p : List.length (map_links n f p) = 10 * n.
  Proof. revert p. induction n; cbn [map_links]; intros p; auto. rewrite app_length, f10, IHn. lia. Qed.
  Lemma map_links_nth n : forall p i c, i < n -> c < 10 ->
    link_of (map_links n f p) i c = nth c (f (firstn 10 (skipn (10 * i) p))) 0%R.
  Proof.
    induction n; intros p i c Hi Hc; [lia|]. cbn [map_links]. unfold link_of. destruct i.
    - rewrite Nat.mul_0_r, Nat.add_0_l. rewrite app_nth1 by (rewrite f10; lia). reflexivity.
    - rewrite app_nth2 by (rewrite f10; lia). rewrite f10.
      replace (10 * S i + c - 10) with (10 * i + c) by lia. fold (link_of (map_links n f (skipn 10 p)) i c).
      rewrite IHn by lia. rewrite skipn_skipn'. do 4 f_equal. lia.
  Qed.
End L.
Lemma chunk p i c : c < 10 -> nth c (firstn 10 (skipn (10 * i) p)) 0%R = link_of p i c.
Proof. intros H. rewrite nth_firstn' by auto. rewrite nth_skipn'. reflexivity. Qed.

Lemma reg10 p : List.length (reg_of_dyn p) = 10. Proof. reflexivity. Qed.
Lemma dyn10 p : List.length (dyn_of_reg p) = 10. Proof. reflexivity. Qed.
Ltac lt3 a := destruct a as [|[|[|a]]]; [| | |lia].
Lemma reg_same (p : list R) : same_link (fun c => nth c p 0%R) (fun c => nth c (reg_of_dyn p) 0%R).
Proof.
  unfold same_link, reg_of_dyn, p_at. split; [reflexivity|]. split.
  - intros a Ha. lt3 a; reflexivity.
  - intros a b Ha Hb. lt3 a; lt3 b; cbn -[nth]; unfold hTh, sum3, hatR, rdot, rsum; cbn; ring.
Qed.
Lemma dyn_same (p : list R) : nth 0 p 0%R <> 0%R ->
  same_link (fun c => nth c (dyn_of_reg p) 0%R) (fun c => nth c p 0%R).
Proof.
  intros Hm. unfold same_link, dyn_of_reg, p_at. split; [reflexivity|]. split.
  - intros a Ha. lt3 a; cbn; field; auto.
  - intros a b Ha Hb. lt3 a; lt3 b; cbn -[nth]; unfold hTh, sum3, hatR, rdot, rsum; cbn; field; auto.
Qed.
Lemma same_link_ext d d' g g' : (forall c, c < 10 -> d c = d' c) -> (forall c, c < 10 -> g c = g' c) ->
  same_link d g -> same_link d' g'.
Proof.
  unfold same_link. intros Hd Hg (A & B & C). split; [|split].
  - rewrite <- Hd, <- Hg by lia. exact A.
  - intros a Ha. rewrite <- !Hd, <- Hg by lia. auto.
  - intros a b Ha Hb. specialize (C a b Ha Hb). unfold rdot, rsum, tensor in *. cbn in *.
    rewrite !Hd in C by lia. lt3 a; lt3 b; cbn in *; rewrite ?Hd, ?Hg in C by lia; exact C.
Qed.
Lemma reg_links n p : List.length p = 10 * n -> same_links n p (map_links n reg_of_dyn p).
Proof.
  intros Hl i Hi. eapply same_link_ext; [| |apply (reg_same (firstn 10 (skipn (10 * i) p)))].
  - intros c Hc. apply chunk; auto.
  - intros c Hc. symmetry. apply map_links_nth; auto.
Qed.
Lemma dyn_links n p : List.length p = 10 * n -> massive n p -> same_links n (map_links n dyn_of_reg p) p.
Proof.
  intros Hl Hm i Hi. eapply same_link_ext; [| |apply (dyn_same (firstn 10 (skipn (10 * i) p)))].
  - intros c Hc. symmetry. apply map_links_nth; auto.
  - intros c Hc. apply chunk; auto.
  - rewrite chunk by lia. apply Hm; auto.
Qed.

(* each description determines the other *)
Lemma same_reg_unique d g g' : same_link d g -> same_link d g' -> forall c, c < 10 -> g c = g' c.
Proof.
  intros (A & B & C) (A' & B' & C') c Hc.
  assert (E : forall a b, a < 3 -> b < 3 -> tensor g a b = tensor g' a b).
  { intros a b Ha Hb. rewrite C, C' by auto. reflexivity. }
  destruct c as [|[|[|[|[|[|[|[|[|[|c]]]]]]]]]]; [congruence| | | | | | | | | |lia].
  - exact (eq_trans (B 0 ltac:(lia)) (eq_sym (B' 0 ltac:(lia)))).
  - exact (eq_trans (B 1 ltac:(lia)) (eq_sym (B' 1 ltac:(lia)))).
  - exact (eq_trans (B 2 ltac:(lia)) (eq_sym (B' 2 ltac:(lia)))).
  - exact (E 0 0 ltac:(lia) ltac:(lia)).
  - exact (E 0 1 ltac:(lia) ltac:(lia)).
  - exact (E 0 2 ltac:(lia) ltac:(lia)).
  - exact (E 1 1 ltac:(lia) ltac:(lia)).
  - exact (E 1 2 ltac:(lia) ltac:(lia)).
  - exact (E 2 2 ltac:(lia) ltac:(lia)).
Qed.
Lemma same_dyn_unique d d' g : g 0 <> 0%R -> same_link d g -> same_link d' g -> forall c, c < 10 -> d c = d' c.
Proof.
  intros Hm (A & B & C) (A' & B' & C') c Hc.
  assert (E0 : d 0 = d' 0) by congruence.
  assert (Ec : forall a, a < 3 -> d (1 + a) = d' (1 + a)).
  { intros a Ha. apply (Rmult_eq_reg_l (d 0)); [|congruence]. rewrite <- B by auto. rewrite E0. apply B'; auto. }
  assert (E : forall a b, a < 3 -> b < 3 -> tensor d a b = tensor d' a b).
  { intros a b Ha Hb. pose proof (C a b Ha Hb) as H. pose proof (C' a b Ha Hb) as H'.
    assert (Hr : rdot 3 (fun a => d (1 + a)) (fun a => d (1 + a)) = rdot 3 (fun a => d' (1 + a)) (fun a => d' (1 + a))).
    { unfold rdot, rsum. cbn [map seq fold_right]. rewrite !Ec by lia. reflexivity. }
    rewrite H in H'. rewrite Hr, E0, !Ec in H' by auto. lra. }
  destruct c as [|[|[|[|[|[|[|[|[|[|c]]]]]]]]]]; [auto| | | | | | | | | |lia].
  - apply (Ec 0); lia.
  - apply (Ec 1); lia.
  - apply (Ec 2); lia.
  - exact (E 0 0 ltac:(lia) ltac:(lia)).
  - exact (E 0 1 ltac:(lia) ltac:(lia)).
  - exact (E 0 2 ltac:(lia) ltac:(lia)).
  - exact (E 1 1 ltac:(lia) ltac:(lia)).
  - exact (E 1 2 ltac:(lia) ltac:(lia)).
  - exact (E 2 2 ltac:(lia) ltac:(lia)).
Qed.
Lemma links_ext n (p p' : list R) : List.length p = 10 * n -> List.length p' = 10 * n ->
  (forall i c, i < n -> c < 10 -> link_of p i c = link_of p' i c) -> p = p'.
Proof.
  intros H H' E. apply nth_ext with (d := 0%R) (d' := 0%R); [congruence|]. intros k Hk.
  rewrite (Nat.div_mod k 10) by lia. apply E.
  - apply Nat.div_lt_upper_bound; lia.
  - apply Nat.mod_upper_bound; lia.
Qed.

(* ---- on the robot ---- *)
Lemma all_some_map l : all_some (map Some l) = Some l.
Proof. induction l; simpl; auto. now rewrite IHl. Qed.
Lemma get_par_full n a : List.length a = n -> get_par_sized n a = Ok (map Some a).
Proof. intros H. unfold get_par_sized. rewrite H, Nat.leb_refl, Nat.sub_diag. cbn [repeat]. now rewrite app_nil_r. Qed.

Theorem to_REG r : List.length (get_arg r "par_DYN") = 10 * numJoints r ->
  List.length (get_arg r "par_REG") = 10 * numJoints r ->
  exists r1, update_inertial_REG r = Ok r1 /\ changes_only "par_REG" r r1 /\
    get_arg r1 "par_REG" = map_links (numJoints r) reg_of_dyn (get_arg r "par_DYN") /\ in_sync r1.
Proof.
  intros HD HG. unfold update_inertial_REG, get_par_DYN, STD_PAR_LINK. rewrite get_par_full by exact HD.
  cbn [bind]. rewrite all_some_map. unfold set_par_REG, STD_PAR_LINK.
  destruct (set_sized_ok "par_REG" (10 * numJoints r) r (map_links (numJoints r) reg_of_dyn (arg r "par_DYN"))) as (r1 & -> & E & C).
  - exact HG.
  - apply map_links_len. exact reg10.
  - cbn [bind]. exists r1. split; [reflexivity|]. split; [exact C|]. split; [exact E|].
    destruct C as [C1 C2]. unfold in_sync. assert (En : numJoints r1 = numJoints r) by (rewrite C1; reflexivity).
    rewrite En, E, (C2 "par_DYN") by discriminate. split; [exact HD|]. split; [apply map_links_len, reg10|].
    apply reg_links. exact HD.
Qed.
Theorem to_DYN r : List.length (get_arg r "par_DYN") = 10 * numJoints r ->
  List.length (get_arg r "par_REG") = 10 * numJoints r -> massive (numJoints r) (get_arg r "par_REG") ->
  exists r1, update_inertial_DYN r = Ok r1 /\ changes_only "par_DYN" r r1 /\
    get_arg r1 "par_DYN" = map_links (numJoints r) dyn_of_reg (get_arg r "par_REG") /\ in_sync r1.
Proof.
  intros HD HG HM. unfold update_inertial_DYN, get_par_REG, STD_PAR_LINK. rewrite get_par_full by exact HG.
  cbn [bind]. rewrite all_some_map. unfold set_par_DYN, STD_PAR_LINK.
  destruct (set_sized_ok "par_DYN" (10 * numJoints r) r (map_links (numJoints r) dyn_of_reg (arg r "par_REG"))) as (r1 & -> & E & C).
  - exact HD.
  - apply map_links_len. exact dyn10.
  - cbn [bind]. exists r1. split; [reflexivity|]. split; [exact C|]. split; [exact E|].
    destruct C as [C1 C2]. unfold in_sync. assert (En : numJoints r1 = numJoints r) by (rewrite C1; reflexivity).
    rewrite En, E, (C2 "par_REG") by discriminate. split; [apply map_links_len, dyn10|]. split; [exact HG|].
    apply dyn_links; auto.
Qed.
(* in_sync robots with the same dynamic (regressor) description have the same regressor (dynamic) one *)
Lemma sync_mass r i : in_sync r -> i < numJoints r -> link_of (get_arg r "par_REG") i 0 = link_of (get_arg r "par_DYN") i 0.
Proof. intros (_ & _ & H) Hi. apply (H i Hi). Qed.
Theorem round_trip_DYN r : List.length (get_arg r "par_DYN") = 10 * numJoints r ->
  List.length (get_arg r "par_REG") = 10 * numJoints r -> massive (numJoints r) (get_arg r "par_DYN") ->
  exists r1 r2, update_inertial_REG r = Ok r1 /\ update_inertial_DYN r1 = Ok r2 /\
    get_arg r2 "par_DYN" = get_arg r "par_DYN" /\ changes_only "par_REG" r r2 /\ in_sync r2.
Proof.
  intros HD HG HM. destruct (to_REG r HD HG) as (r1 & E1 & C1 & V1 & S1).
  pose proof S1 as (L1 & L2 & L3). destruct C1 as [C1 C1'].
  assert (En : numJoints r1 = numJoints r) by (rewrite C1; reflexivity).
  destruct (to_DYN r1 L1 L2) as (r2 & E2 & C2 & V2 & S2).
  { intros i Hi. rewrite sync_mass by auto. rewrite C1' by discriminate. apply HM. now rewrite <- En. }
  destruct C2 as [C2 C2']. assert (En2 : numJoints r2 = numJoints r1) by (rewrite C2; reflexivity).
  assert (ED : get_arg r2 "par_DYN" = get_arg r "par_DYN").
  { apply (links_ext (numJoints r)).
    - destruct S2 as (X & _). now rewrite X, En2, En.
    - exact HD.
    - intros i c Hi Hc. rewrite <- (C1' "par_DYN") by discriminate.
      destruct S2 as (_ & _ & S2). rewrite En2, En, (C2' "par_REG") in S2 by discriminate. rewrite En in L3.
      refine (same_dyn_unique _ _ _ _ (S2 i Hi) (L3 i Hi) c Hc).
      rewrite sync_mass by (auto; lia). rewrite C1' by discriminate. apply HM; auto. }
  exists r1, r2. split; [exact E1|]. split; [exact E2|]. split; [exact ED|]. split; [|exact S2].
  split; [rewrite C2, C1; reflexivity|]. intros k Hk. destruct (string_dec k "par_DYN") as [->|N]; [exact ED|].
  rewrite C2' by auto. apply C1'; auto.
Qed.
Theorem round_trip_REG r : List.length (get_arg r "par_DYN") = 10 * numJoints r ->
  List.length (get_arg r "par_REG") = 10 * numJoints r -> massive (numJoints r) (get_arg r "par_REG") ->
  exists r1 r2, update_inertial_DYN r = Ok r1 /\ update_inertial_REG r1 = Ok r2 /\
    get_arg r2 "par_REG" = get_arg r "par_REG" /\ changes_only "par_DYN" r r2 /\ in_sync r2.
Proof.
  intros HD HG HM. destruct (to_DYN r HD HG HM) as (r1 & E1 & C1 & V1 & S1).
  pose proof S1 as (L1 & L2 & L3). destruct C1 as [C1 C1'].
  assert (En : numJoints r1 = numJoints r) by (rewrite C1; reflexivity).
  destruct (to_REG r1 L1 L2) as (r2 & E2 & C2 & V2 & S2).
  destruct C2 as [C2 C2']. assert (En2 : numJoints r2 = numJoints r1) by (rewrite C2; reflexivity).
  assert (ED : get_arg r2 "par_REG" = get_arg r "par_REG").
  { apply (links_ext (numJoints r)).
    - destruct S2 as (_ & X & _). now rewrite X, En2, En.
    - exact HG.
    - intros i c Hi Hc. rewrite <- (C1' "par_REG") by discriminate.
      destruct S2 as (_ & _ & S2). rewrite En2, En, (C2' "par_DYN") in S2 by discriminate. rewrite En in L3.
      exact (same_reg_unique _ _ _ (S2 i Hi) (L3 i Hi) c Hc). }
  exists r1, r2. split; [exact E1|]. split; [exact E2|]. split; [exact ED|]. split; [|exact S2].
  split; [rewrite C2, C1; reflexivity|]. intros k Hk. destruct (string_dec k "par_REG") as [->|N]; [exact ED|].
  rewrite C2' by auto. apply C1'; auto.
Qed.
