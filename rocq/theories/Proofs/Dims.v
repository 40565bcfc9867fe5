(* Every published matrix is computed without a dimension error and has the expected size. *)
From Coq Require Import Reals List Arith String Bool Lia ZArith.
From Verif.Model Require Import Base Expr SX Robot Kinematics Dynamics Regressors.
From Verif.Proofs Require Import Calc Rel Maps Pure PureRel Names Shape.
Import ListNotations.
Open Scope nat_scope.
Open Scope string_scope.

Definition TT (_ _ : expr) : Prop := True.
Lemma congr_TT : congr TT.
Proof. constructor; intros; exact I. Qed.

(* which functions are published *)
Definition enabled (b : robot) (f : fn) : Prop :=
  let n := numJoints b in
  match f with
  | fT i => 1 <= i <= n
  | fT0 i => i <= n + 1
  | fJ i => 1 <= i <= n + 1
  | fJcm i => 1 <= i <= n
  | fdl => 0 < Dl_order b
  | fDl i => 1 <= i <= Dl_order b
  | fk => ELASTIC b = true /\ 0 < K_order b
  | fK i => ELASTIC b = true /\ exists o, o < K_order b /\ i = 2 * o + 1
  | fd => ELASTIC b = true /\ 0 < D_order b
  | fD i => ELASTIC b = true /\ 1 <= i <= D_order b
  | fdm => ELASTIC b = true /\ 0 < Dm_order b
  | fDm i => ELASTIC b = true /\ 1 <= i <= Dm_order b
  | fMm => ELASTIC b = true
  | frdl => 0 < Dl_order b /\ sel b "par_Dl" <> []
  | frk => ELASTIC b = true /\ sel b "par_K" <> []
  | frd => ELASTIC b = true /\ sel b "par_D" <> []
  | frdm => ELASTIC b = true /\ sel b "par_Dm" <> []
  | frMm => ELASTIC b = true /\ sel b "par_Mm" <> []
  | frJdq | frJTw => rows (kin_par b) <> 0
  | _ => True
  end.

Lemma enabled_proper b f : enabled b f -> proper f.
Proof. destruct f; simpl; auto. lia. Qed.

(* sizes *)
Definition vrows (b : robot) (f : fn) : nat :=
  let n := numJoints b in let e := numElasticJoints b in
  match f with
  | fT _ | fT0 _ | fTb | fTee => 4
  | fJ _ | fJee | fJeed | fJeedd | fJcm _ | frJdq => 6
  | fJeepinv => n
  | fk | fK _ | fd | fD _ | fdm | fDm _ | fMm | frk | frd | frdm | frMm => e
  | _ => n
  end.
Definition vcols (b : robot) (f : fn) : nat :=
  let n := numJoints b in let e := numElasticJoints b in
  match f with
  | fT _ | fT0 _ | fTb | fTee => 4
  | fJ _ | fJee | fJeed | fJeedd | fJcm _ => n
  | fJeepinv => 6
  | fM | fC | fCstd | fMd | fMdd | fCd | fCdd => n
  | fG | fGd | fGdd | fdl | fk | fd | fdm => 1
  | fYr | fRM | fRC | fRG => 10 * n
  | fDl _ => n
  | fK _ | fD _ | fDm _ | fMm => e
  | frdl => List.length (sel b "par_Dl")
  | frk => List.length (sel b "par_K")
  | frd => List.length (sel b "par_D")
  | frdm => List.length (sel b "par_Dm")
  | frMm => List.length (sel b "par_Mm")
  | frJdq | frJTw => rows (kin_par b)
  end.

Section Dims.
  Variables (cv : cvals) (b : robot).
  Hypothesis Hb : base cv b.
  Let n := numJoints b.
  Let e := numElasticJoints b.

  Lemma In_state k len : In (k, len) (state_keys b) -> In (k, len) (keys b).
  Proof. intros. unfold keys. apply in_or_app; auto. Qed.
  Lemma In_par k len : In (k, len) (par_keys b) -> In (k, len) (keys b).
  Proof. intros. unfold keys. apply in_or_app; auto. Qed.
  Lemma mr_key k len : In (k, len) (keys b) -> mrel TT len 1 (mdl b k) (mdl b k).
  Proof. intros H. destruct (bs_shape _ _ Hb k len H). constructor; auto. intros; exact I. Qed.
  Lemma state_sym k len : In (k, len) (state_keys b) -> symname k = k -> symvec k len (mdl b k).
  Proof.
    intros H Hs. pose proof (bs_shape _ _ Hb k len (In_state _ _ H)) as P.
    destruct P. constructor; auto. 
    intros i Hi. rewrite ps_el by auto.
    rewrite (bs_state _ _ Hb k len H) by (apply nth_In; lia). now rewrite Hs.
  Qed.
End Dims.

(* names on which a function may depend *)
Definition deps (b : robot) (f : fn) : list string :=
  match f with
  | fT _ => ["q"; "par_DHtable"]
  | fT0 i => if Nat.eqb i 0 then ["par_world2L0"]
             else if Nat.eqb i (numJoints b + 1) then "q" :: kinE else "q" :: kinD
  | fTb => ["par_world2L0"]
  | fTee => "q" :: kinE
  | fJ i => if Nat.leb i (numJoints b) then "q" :: kinD else "q" :: kinE
  | fJee | fJeepinv => "q" :: kinE
  | fJeed => "q" :: "dq" :: kinE
  | fJeedd => "q" :: "dq" :: "ddq" :: kinE
  | fJcm _ | fM => "q" :: kinp
  | fC | fCstd | fMd => "q" :: "dq" :: kinp
  | fG => "q" :: kingp
  | fMdd | fCd => "q" :: "dq" :: "ddq" :: kinp
  | fCdd => "q" :: "dq" :: "ddq" :: "d3q" :: kinp
  | fGd => "q" :: "dq" :: kingp
  | fGdd => "q" :: "dq" :: "ddq" :: kingp
  | fYr => "q" :: "dq" :: "dqr" :: "ddqr" :: kingr
  | fRM => "q" :: "ddqr" :: kinD
  | fRC => "q" :: "dq" :: "dqr" :: kinD
  | fRG => "q" :: kingr
  | fdl => ["dq"; "par_Dl"] | fDl _ => ["par_Dl"]
  | fk => ["q"; "x"; "par_K"] | fK _ => ["par_K"]
  | fd => ["dq"; "dx"; "par_D"] | fD _ => ["par_D"]
  | fdm => ["dx"; "par_Dm"] | fDm _ => ["par_Dm"]
  | fMm => ["par_Mm"]
  | frdl => ["dq"] | frk => ["q"; "x"] | frd => ["dq"; "dx"] | frdm => ["dx"] | frMm => ["ddx"]
  | frJdq => "q" :: "dq" :: kinE
  | frJTw => "q" :: "w" :: kinE
  end.

Definition core (f : fn) : bool :=
  match f with
  | fdl | fDl _ | fk | fK _ | fd | fD _ | fdm | fDm _ | fMm
  | frdl | frk | frd | frdm | frMm | frJdq | frJTw => false
  | _ => true
  end.

Section Core.
  Variable Q : expr -> expr -> Prop.
  Hypothesis HQ : congr Q.
  Variables (cv cv' : cvals) (b b' : robot).
  Hypothesis Hb : base cv b.
  Hypothesis Hb' : base cv' b'.
  Hypothesis Hn' : numJoints b' = numJoints b.
  Hypothesis Hjt : jointsType b = jointsType b'.
  Let n := numJoints b.
  Variable ds : list string.
  Hypothesis HK : forall k len, In k ds -> k <> "q" -> In (k, len) (keys b) -> mrel Q len 1 (mdl b k) (mdl b' k).
  Hypothesis HKq : In "q" ds -> mrel (fun _ _ => True) n 1 (mdl b "q") (mdl b' "q").
  Hypothesis HKp : In "q" ds -> forall i, i < n -> is_P (jtype b i) = true -> Q (el (mdl b "q") i 0) (el (mdl b' "q") i 0).
  Hypothesis Hta : In "par_DHtable" ds ->
    forall i, i < n -> trig_rel Q (el (mdl b "par_DHtable") (i * 4 + 1) 0) (el (mdl b' "par_DHtable") (i * 4 + 1) 0).
  Hypothesis Htt : In "par_DHtable" ds -> In "q" ds ->
    forall i, i < n -> trig_rel Q (sc (thx b i)) (sc (thx b' i)).
  Hypothesis HtW : In "par_world2L0" ds ->
    forall i, 3 <= i < 6 -> trig_rel Q (el (mdl b "par_world2L0") i 0) (el (mdl b' "par_world2L0") i 0).
  Hypothesis HtE : In "par_Ln2EE" ds ->
    forall i, 3 <= i < 6 -> trig_rel Q (el (mdl b "par_Ln2EE") i 0) (el (mdl b' "par_Ln2EE") i 0).
  Variable st : sym -> Prop.
  Hypothesis Hd : forall v a a', st v -> Q a a' -> Q (diff v a) (diff v a').
  Hypothesis Hst : forall i nm, In nm ["q"; "dq"; "ddq"] -> st (nm, i).

  Lemma Svec k len : In (k, len) (state_keys b) -> symname k = k -> symvec k len (mdl b k).
  Proof. apply (state_sym cv); auto. Qed.
  Lemma Svec' k : In (k, n) (state_keys b) -> In (k, n) (state_keys b') -> symname k = k -> symvec k n (mdl b' k).
  Proof. intros _. apply (state_sym cv'); auto. Qed.

  Ltac key := simpl; tauto.
  Ltac side :=
    first [ exact Hd | exact Hst | assumption | reflexivity | exact HQ
          | solve [ apply HK; [simpl; tauto | discriminate | apply in_or_app; simpl; tauto ] ]
          | solve [ apply HKq; key ] | solve [ apply HKp; key ]
          | solve [ apply Svec; [simpl; tauto | reflexivity] ]
          | solve [ apply Svec'; [simpl; tauto | unfold state_keys; rewrite Hn'; simpl; tauto | reflexivity] ]
          | solve [ apply Hta; key ] | solve [ apply Htt; key ] | solve [ apply HtW; key ] | solve [ apply HtE; key ]
          | idtac ].

  Lemma core_mrel_q f : core f = true -> enabled b f -> ds = deps b f ->
    (f = fJeepinv -> forall a b a' b', Q a a' -> Q b b' -> Q (Div a b) (Div a' b')) ->
    mrel Q (vrows b f) (vcols b f) (val b f) (val b' f).
  Proof.
    intros Hc He Hds Hdiv. pose proof (bs_n _ _ Hb) as Hn1. fold n in Hn1.
    destruct f; try discriminate Hc; cbn [enabled vrows vcols val] in *; fold n; fold n in He; cbn [deps] in Hds; fold n in Hds.
    - subst ds. eapply (mr_Tlx Q); side. lia.
    - rewrite Hn'. fold n. destruct (Nat.eqb_spec i (n + 1)) as [->|Hi].
      + replace (Nat.eqb (n + 1) 0) with false in Hds by (symmetry; apply Nat.eqb_neq; lia). subst ds.
        eapply (mr_Teex Q); side.
      + destruct (Nat.eqb_spec i 0) as [->|Hi0].
        * subst ds. cbn [T0x]. apply (mr_get_transform Q HQ b b' n eq_refl Hn'); side.
        * subst ds. eapply (mr_T0x Q); side. lia.
    - subst ds. cbn [T0x]. apply (mr_get_transform Q HQ b b' n eq_refl Hn'); side.
    - subst ds. eapply (mr_Teex Q); side.
    - destruct (Nat.leb_spec i n).
      + subst ds. eapply (mr_Jx Q); side. lia.
      + subst ds. replace (i - 1) with n by lia.
        assert (HJ : mrel Q 6 n (Jeex b) (Jeex b')) by (eapply (mr_Jeex Q); side).
        unfold Jeex in HJ. rewrite Hn' in HJ. exact HJ.
    - subst ds. eapply (mr_Jeex Q); side.
    - subst ds. eapply (mr_Jeedotx Q); side.
    - subst ds. eapply (mr_Jeeddotx Q); side.
    - subst ds. eapply (mr_Jeepinvx Q); side. apply Hdiv; auto.
    - subst ds. eapply (mr_Jcmx Q); side. lia.
    - subst ds. eapply (mr_Mx Q); side.
    - subst ds. eapply (mr_Cx Q); side.
    - subst ds. eapply (mr_Cstdx Q); side.
    - subst ds. eapply (mr_Gx Q); side.
    - subst ds. eapply (mr_Mdotx Q); side.
    - subst ds. eapply (mr_Mddotx Q); side.
    - subst ds. eapply (mr_Cdotx Q); side.
    - subst ds. eapply (mr_Cddotx Q); side.
    - subst ds. eapply (mr_Gdotx Q); side.
    - subst ds. eapply (mr_Gddotx Q); side.
    - subst ds. eapply (mr_Yrx Q); side.
    - subst ds. eapply (mr_regMx Q); side.
    - subst ds. eapply (mr_regCx Q); side.
    - subst ds. eapply (mr_regGx Q); side.
  Qed.
End Core.
Lemma core_mrel Q (HQ : congr Q) cv cv' b b' (Hb : base cv b) (Hb' : base cv' b') (Hn' : numJoints b' = numJoints b)
  (Hjt : jointsType b = jointsType b') ds
  (HK : forall k len, In k ds -> In (k, len) (keys b) -> mrel Q len 1 (mdl b k) (mdl b' k)) :
  (In "par_DHtable" ds -> forall i, i < numJoints b ->
     trig_rel Q (el (mdl b "par_DHtable") (i * 4 + 1) 0) (el (mdl b' "par_DHtable") (i * 4 + 1) 0)) ->
  (In "par_DHtable" ds -> In "q" ds -> forall i, i < numJoints b -> trig_rel Q (sc (thx b i)) (sc (thx b' i))) ->
  (In "par_world2L0" ds -> forall i, 3 <= i < 6 -> trig_rel Q (el (mdl b "par_world2L0") i 0) (el (mdl b' "par_world2L0") i 0)) ->
  (In "par_Ln2EE" ds -> forall i, 3 <= i < 6 -> trig_rel Q (el (mdl b "par_Ln2EE") i 0) (el (mdl b' "par_Ln2EE") i 0)) ->
  forall st : sym -> Prop, (forall v a a', st v -> Q a a' -> Q (diff v a) (diff v a')) ->
  (forall i nm, In nm ["q"; "dq"; "ddq"] -> st (nm, i)) ->
  forall f, core f = true -> enabled b f -> ds = deps b f ->
    (f = fJeepinv -> forall a b a' b', Q a a' -> Q b b' -> Q (Div a b) (Div a' b')) ->
    mrel Q (vrows b f) (vcols b f) (val b f) (val b' f).
Proof.
  intros A1 A2 A3 A4 st B1 B2 f C1 C2 C3 C4.
  assert (Kq : In "q" ds -> mrel Q (numJoints b) 1 (mdl b "q") (mdl b' "q")).
  { intros H. apply HK; [exact H|]. apply in_or_app; simpl; tauto. }
  apply (core_mrel_q Q HQ cv cv' b b' Hb Hb' Hn' Hjt ds) with (st := st); auto.
  - intros H. destruct (Kq H) as [R1 R2 R3 R4 R5 R6 _]. constructor; auto.
  - intros H i Hi _. apply (mr_el _ _ _ _ _ (Kq H)); auto.
Qed.
