From Coq Require Import Reals String List Arith Bool Lia Lra.
From Verif.Model Require Import Base Inertia Bodies FrameOffset.
From Verif.Spec Require Import FrameOffset.
Import ListNotations.
Open Scope R_scope.

Lemma new_frame_iff ypr tr g f : new_frame ypr tr g = Ok f <->
  (List.length ypr = 3 /\ List.length tr = 3 /\ List.length g = 3)%nat /\ f = mkFrame ypr tr g.
Proof.
  unfold new_frame. destruct (Nat.eqb_spec (List.length ypr) 3), (Nat.eqb_spec (List.length tr) 3), (Nat.eqb_spec (List.length g) 3);
    cbn [andb]; split; intros H; try discriminate; try (injection H as <-; auto); destruct H as [(A & B & C) D]; congruence.
Qed.
Lemma new_frame2_iff ypr tr f : new_frame2 ypr tr = Ok f <-> (List.length ypr = 3 /\ List.length tr = 3)%nat /\ f = mkFrame ypr tr [0; 0; 0].
Proof.
  unfold new_frame2. destruct (Nat.eqb_spec (List.length ypr) 3), (Nat.eqb_spec (List.length tr) 3);
    cbn [andb]; split; intros H; try discriminate; try (injection H as <-; auto); destruct H as [(A & B) D]; congruence.
Qed.
Lemma new_frame_not_ub ypr tr g m : new_frame ypr tr g <> UB m /\ new_frame2 ypr tr <> UB m.
Proof. unfold new_frame, new_frame2. split; destruct (_ && _)%bool; discriminate. Qed.
Definition part_of (p : part) (f : frame) : list R := match p with Angles => f_ypr f | Translation => f_tr f | Gravity => f_g f end.
Lemma run_given h : forall f p, part_of p (fo_run h f) = given p h (part_of p f).
Proof.
  unfold fo_run. induction h as [|[p' v] h IH]; intros f p; [reflexivity|]. cbn [fold_left given]. rewrite IH. f_equal.
  destruct p', p; reflexivity.
Qed.
Lemma given_len p h : forall v0, (forall q v, In (q, v) h -> List.length v = 3%nat) -> List.length v0 = 3%nat -> List.length (given p h v0) = 3%nat.
Proof.
  induction h as [|[q v] h IH]; intros v0 H L; [exact L|]. cbn [given]. apply IH; [intros; eapply H; right; eauto|].
  destruct (part_eqb p q); [eapply H; left; reflexivity|exact L].
Qed.
Lemma read3_len v : List.length v = 3%nat -> read3 v = Ok v.
Proof. destruct v as [|a [|b [|c [|d v]]]]; try discriminate. reflexivity. Qed.

Lemma getters_last ypr tr g h : (List.length ypr = 3 /\ List.length tr = 3 /\ List.length g = 3)%nat ->
  (forall p v, In (p, v) h -> List.length v = 3%nat) ->
  let f := fo_run h (mkFrame ypr tr g) in
  fo_get_ypr f = given Angles h ypr /\ fo_get_translation f = Ok (given Translation h tr) /\ fo_get_gravity f = Ok (given Gravity h g) /\
  exists R T, fo_get_rotation f = Ok R /\ fo_get_transform f = Ok T /\
    (forall i j, (i < 3)%nat -> (j < 3)%nat -> T i j = R i j) /\
    (forall i, (i < 3)%nat -> T i 3%nat = nth i (given Translation h tr) 0) /\
    (forall j, (j < 3)%nat -> T 3%nat j = 0) /\ T 3%nat 3%nat = 1.
Proof.
  intros (L1 & L2 & L3) Hh f. subst f.
  pose proof (run_given h (mkFrame ypr tr g)) as G.
  pose proof (G Angles) as GA. pose proof (G Translation) as GT. pose proof (G Gravity) as GG. cbn [part_of] in GA, GT, GG. cbn [f_ypr f_tr f_g] in GA, GT, GG.
  assert (LA := given_len Angles h ypr Hh L1). assert (LT := given_len Translation h tr Hh L2). assert (LG := given_len Gravity h g Hh L3).
  unfold fo_get_ypr, fo_get_translation, fo_get_gravity, fo_get_rotation, fo_get_transform. rewrite GA, GT, GG, !read3_len by assumption.
  split; [reflexivity|]. split; [reflexivity|]. split; [reflexivity|].
  eexists. eexists. split; [reflexivity|]. split; [reflexivity|]. unfold get_transform, get_rotation. split; [|split; [|split]].
  - intros i j Hi Hj. apply Nat.ltb_lt in Hi, Hj. rewrite Hi, Hj. reflexivity.
  - intros i Hi. pose proof Hi as Hi'. apply Nat.ltb_lt in Hi. rewrite Hi. cbn [Nat.ltb Nat.leb andb Nat.eqb]. unfold p_at. rewrite GT. reflexivity.
  - intros j Hj. destruct j as [|[|[|j]]]; try lia; reflexivity.
  - reflexivity.
Qed.
Lemma hat_cross u v : List.length u = 3%nat -> exists H, fo_hat u = Ok H /\
  (forall i, (i < 3)%nat -> sum3 (fun k => H i k * nth k v 0) = nth i (cross u v) 0) /\ (forall i j, (i < 3)%nat -> (j < 3)%nat -> H j i = - H i j).
Proof.
  intros L. exists (hat u). unfold fo_hat. rewrite read3_len by assumption. split; [reflexivity|]. unfold hat, hatR, cross, sum3, p_at. split.
  - intros i Hi. destruct i as [|[|[|i]]]; try lia; cbn [nth]; ring.
  - intros i j Hi Hj. destruct i as [|[|[|i]]], j as [|[|[|j]]]; try lia; ring.
Qed.
Lemma short_vector : exists f v m, new_frame2 [0; 0; 0] [0; 0; 0] = Ok f /\ fo_get_translation (fo_set_translation v f) = UB m /\
  fo_get_transform (fo_set_translation v f) = UB m.
Proof. exists (mkFrame [0; 0; 0] [0; 0; 0] [0; 0; 0]), [1; 2]. eexists. split; [reflexivity|]. split; reflexivity. Qed.
