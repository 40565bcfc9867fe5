(* Kinematic chains of frames over the reals: velocities, Jacobians. Independent of the model. *)
From Coq Require Import Reals Lra Lia Arith.
From Coquelicot Require Import Coquelicot.
From Verif.Proofs Require Import Lin3.
Open Scope R_scope.

(* local data of the joints: rotation about x (lA), rotation about z (lZ), offsets a and d *)
Record chain := mkChain {
  cR0 : mtx; cp0 : vec;
  cA : nat -> mtx; cZ : nat -> mtx; ca : nat -> R; cd : nat -> R }.

Definition lpos (c : chain) (i : nat) : vec := vadd (mv (cA c i) (V3 0 0 (cd c i))) (V3 (ca c i) 0 0).
Fixpoint FR (c : chain) (i : nat) : mtx :=
  match i with O => cR0 c | S k => mm (FR c k) (mm (cA c k) (cZ c k)) end.
Fixpoint FP (c : chain) (i : nat) : vec :=
  match i with O => cp0 c | S k => vadd (mv (FR c k) (lpos c k)) (FP c k) end.

(* rotation axis (or direction) of joint j, as a world vector *)
Definition axis (c : chain) (j : nat) : vec := mv (FR c (S j)) ez.

Definition rot_chain (c : chain) (n : nat) : Prop :=
  is_rot (cR0 c) /\ (forall i, (i < n)%nat -> is_rot (cA c i)) /\ (forall i, (i < n)%nat -> is_rot (cZ c i)).
Lemma FR_rot c n i : rot_chain c n -> (i <= n)%nat -> is_rot (FR c i).
Proof.
  intros (H0 & HA & HZ). induction i as [|i IH]; intros Hi; simpl; auto.
  apply is_rot_mm; [apply IH; lia|]. apply is_rot_mm; [apply HA | apply HZ]; lia.
Qed.

(* contribution of joint j to the angular velocity and to the velocity of a point P moving with a
   link that comes after joint j *)
Definition wcol (prism : nat -> bool) (c : chain) (j : nat) : vec := if prism j then vzero else axis c j.
Definition vcol (prism : nat -> bool) (c : chain) (P : vec) (j : nat) : vec :=
  if prism j then axis c j else cross (axis c j) (vsub3 P (FP c (S j))).

Section Motion.
  Variable prism : nat -> bool.
  Variable n : nat.
  Variable c : R -> chain.          (* the chain along a motion *)
  Variable qd : nat -> R.           (* joint rates at t *)
  Variable t : R.

  Definition omega (i : nat) : vec := vsum i (fun j => vsc (qd j) (wcol prism (c t) j)).
  Definition vel (P : vec) (i : nat) : vec := vsum i (fun j => vsc (qd j) (vcol prism (c t) P j)).

  (* how the local data move *)
  Definition moves : Prop :=
    (forall s, cR0 (c s) = cR0 (c t)) /\ (forall s, cp0 (c s) = cp0 (c t)) /\
    (forall s i, (i < n)%nat -> cA (c s) i = cA (c t) i) /\
    (forall s i, (i < n)%nat -> ca (c s) i = ca (c t) i) /\
    (forall i, (i < n)%nat -> is_dM (fun s => cZ (c s) i) t
                 (if prism i then mzero else msc (qd i) (mm (cZ (c t) i) (hat3 ez)))) /\
    (forall i, (i < n)%nat -> is_derive (fun s => cd (c s) i) t (if prism i then qd i else 0)) /\
    (forall i, (i < n)%nat -> mv (cZ (c t) i) ez = ez).

  Hypothesis Hm : moves.
  Hypothesis Hr : rot_chain (c t) n.

  Lemma dFR i : (i <= n)%nat -> is_dM (fun s => FR (c s) i) t (mm (hat3 (omega i)) (FR (c t) i)).
  Proof.
    destruct Hm as (H1 & H2 & H3 & H4 & H5 & H6 & H7).
    induction i as [|i IH]; intros Hi.
    - simpl. apply is_dM_ext with (fun _ => cR0 (c t)); [intros; symmetry; auto|].
      apply is_dM_eq with mzero; [apply is_dM_cst|]. unfold omega; simpl. r3.
    - cbn [FR].
      assert (HAZ : is_dM (fun s => mm (cA (c s) i) (cZ (c s) i)) t
                (mm (cA (c t) i) (if prism i then mzero else msc (qd i) (mm (cZ (c t) i) (hat3 ez))))).
      { apply is_dM_ext with (fun s => mm (cA (c t) i) (cZ (c s) i)).
        { intros s. rewrite (H3 s i) by lia; auto. }
        eapply is_dM_eq; [apply is_dM_mm; [apply is_dM_cst | apply H5; lia]|].
        now rewrite mm_0_l, madd_0_l. }
      eapply is_dM_eq; [apply is_dM_mm; [apply IH; lia | apply HAZ]|].
      unfold omega; cbn [vsum]. fold (omega i).
      rewrite hat_add, mm_madd_l, hat_sc, mm_assoc. f_equal.
      unfold wcol. destruct (prism i).
      + now rewrite hat_0, !mm_0_r, msc_0, mm_0_l.
      + rewrite mm_msc_l, !mm_msc_r. f_equal.
        unfold axis. assert (Hrr := FR_rot (c t) n (S i) Hr Hi).
        destruct Hrr as (_ & _ & _ & Hh). cbn [FR] in Hh |- *. rewrite Hh, !mm_assoc. reflexivity.
  Qed.

  (* velocity of the origin of frame i *)
  Lemma vel_shift P Q i :
    vel Q i = vadd (vel P i) (cross (omega i) (vsub3 Q P)).
  Proof.
    unfold vel, omega. rewrite cross_vsum_l, <- vsum_vadd. apply vsum_ext. intros j _.
    unfold vcol, wcol. destruct (prism j); r3.
  Qed.

  Lemma dFP i : (i <= n)%nat -> is_dV (fun s => FP (c s) i) t (vel (FP (c t) i) i).
  Proof.
    destruct Hm as (H1 & H2 & H3 & H4 & H5 & H6 & H7).
    induction i as [|i IH]; intros Hi.
    - simpl. apply is_dV_ext with (fun _ => cp0 (c t)); [intros; symmetry; auto|].
      apply is_dV_cst.
    - cbn [FP].
      assert (Hl : is_dV (fun s => lpos (c s) i) t
               (if prism i then vsc (qd i) (mv (cA (c t) i) ez) else vzero)).
      { unfold lpos. specialize (H6 i ltac:(lia)).
        apply is_dV_ext with (fun s => vadd (mv (cA (c t) i) (V3 0 0 (cd (c s) i))) (V3 (ca (c t) i) 0 0)).
        { intros s. rewrite (H3 s i), (H4 s i) by lia; auto. }
        eapply is_dV_eq.
        { apply is_dV_add; [apply is_dV_mv; [apply is_dM_cst|] | apply is_dV_cst].
          instantiate (1 := V3 0 0 (if prism i then qd i else 0)).
          unfold is_dV; cbn [vx vy vz]. split; [apply is_derive_cst|split; [apply is_derive_cst|auto]]. }
        destruct (prism i); r3. }
      eapply is_dV_eq.
      { apply is_dV_add; [apply is_dV_mv; [apply dFR; lia | apply Hl] | apply IH; lia]. }
      change (vel (vadd (mv (FR (c t) i) (lpos (c t) i)) (FP (c t) i)) (S i))
        with (vadd (vel (FP (c t) (S i)) i) (vsc (qd i) (vcol prism (c t) (FP (c t) (S i)) i))).
      rewrite (vel_shift (FP (c t) i) (FP (c t) (S i)) i).
      rewrite mv_mm, hat_mv.
      assert (Hz : mv (FR (c t) i) (mv (cA (c t) i) ez) = axis (c t) i).
      { unfold axis; cbn [FR]. rewrite !mv_mm, H7 by lia. reflexivity. }
      unfold vcol. cbn [FP].
      destruct (prism i).
      + rewrite mv_vsc, Hz.
        generalize (mv (FR (c t) i) (lpos (c t) i)) (FP (c t) i) (omega i) (vel (FP (c t) i) i) (axis (c t) i) (qd i).
        clear. intros. r3.
      + rewrite mv_vzero.
        generalize (mv (FR (c t) i) (lpos (c t) i)) (FP (c t) i) (omega i) (vel (FP (c t) i) i) (axis (c t) i) (qd i).
        clear. r3.
  Qed.

  (* a point fixed in frame i *)
  Lemma dpoint i x : (i <= n)%nat ->
    is_dV (fun s => vadd (FP (c s) i) (mv (FR (c s) i) x)) t
          (vel (vadd (FP (c t) i) (mv (FR (c t) i) x)) i).
  Proof.
    intros Hi. eapply is_dV_eq.
    { apply is_dV_add; [apply dFP; auto|apply is_dV_mv; [apply dFR; auto|apply is_dV_cst]]. }
    rewrite (vel_shift (FP (c t) i) (vadd (FP (c t) i) (mv (FR (c t) i) x)) i).
    rewrite mv_vzero, vadd_0_r, mv_mm, hat_mv.
    generalize (vel (FP (c t) i) i) (FP (c t) i) (mv (FR (c t) i) x) (omega i). clear. r3.
  Qed.
End Motion.
