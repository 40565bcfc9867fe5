(* 3-vectors and 3x3 matrices of reals, and their derivatives along a real parameter. *)
From Coq Require Import Reals Lra Lia Arith.
From Coquelicot Require Import Coquelicot.
Open Scope R_scope.

Record vec := V3 { vx : R; vy : R; vz : R }.
Record mtx := M3 { m00 : R; m01 : R; m02 : R; m10 : R; m11 : R; m12 : R; m20 : R; m21 : R; m22 : R }.

Definition vadd (u v : vec) := V3 (vx u + vx v) (vy u + vy v) (vz u + vz v).
Definition vsub3 (u v : vec) := V3 (vx u - vx v) (vy u - vy v) (vz u - vz v).
Definition vsc (c : R) (v : vec) := V3 (c * vx v) (c * vy v) (c * vz v).
Definition vopp (v : vec) := V3 (- vx v) (- vy v) (- vz v).
Definition vzero := V3 0 0 0.
Definition dot (u v : vec) := vx u * vx v + vy u * vy v + vz u * vz v.
Definition cross (u v : vec) :=
  V3 (vy u * vz v - vz u * vy v) (vz u * vx v - vx u * vz v) (vx u * vy v - vy u * vx v).
Definition mv (A : mtx) (v : vec) :=
  V3 (m00 A * vx v + m01 A * vy v + m02 A * vz v)
     (m10 A * vx v + m11 A * vy v + m12 A * vz v)
     (m20 A * vx v + m21 A * vy v + m22 A * vz v).
Definition mm (A B : mtx) :=
  M3 (m00 A * m00 B + m01 A * m10 B + m02 A * m20 B) (m00 A * m01 B + m01 A * m11 B + m02 A * m21 B)
     (m00 A * m02 B + m01 A * m12 B + m02 A * m22 B)
     (m10 A * m00 B + m11 A * m10 B + m12 A * m20 B) (m10 A * m01 B + m11 A * m11 B + m12 A * m21 B)
     (m10 A * m02 B + m11 A * m12 B + m12 A * m22 B)
     (m20 A * m00 B + m21 A * m10 B + m22 A * m20 B) (m20 A * m01 B + m21 A * m11 B + m22 A * m21 B)
     (m20 A * m02 B + m21 A * m12 B + m22 A * m22 B).
Definition madd3 (A B : mtx) :=
  M3 (m00 A + m00 B) (m01 A + m01 B) (m02 A + m02 B) (m10 A + m10 B) (m11 A + m11 B) (m12 A + m12 B)
     (m20 A + m20 B) (m21 A + m21 B) (m22 A + m22 B).
Definition msc (c : R) (A : mtx) :=
  M3 (c * m00 A) (c * m01 A) (c * m02 A) (c * m10 A) (c * m11 A) (c * m12 A)
     (c * m20 A) (c * m21 A) (c * m22 A).
Definition mt (A : mtx) := M3 (m00 A) (m10 A) (m20 A) (m01 A) (m11 A) (m21 A) (m02 A) (m12 A) (m22 A).
Definition mzero := M3 0 0 0 0 0 0 0 0 0.
Definition mI := M3 1 0 0 0 1 0 0 0 1.
Definition hat3 (v : vec) := M3 0 (- vz v) (vy v) (vz v) 0 (- vx v) (- vy v) (vx v) 0.
Definition det3 (A : mtx) :=
  m00 A * (m11 A * m22 A - m12 A * m21 A) - m01 A * (m10 A * m22 A - m12 A * m20 A)
  + m02 A * (m10 A * m21 A - m11 A * m20 A).
Definition ez := V3 0 0 1.
Definition ex := V3 1 0 0.

Lemma M3_eq a b c d e f g h i a' b' c' d' e' f' g' h' i' :
  a = a' -> b = b' -> c = c' -> d = d' -> e = e' -> f = f' -> g = g' -> h = h' -> i = i' ->
  M3 a b c d e f g h i = M3 a' b' c' d' e' f' g' h' i'.
Proof. intros; subst; auto. Qed.
Lemma V3_eq a b c a' b' c' : a = a' -> b = b' -> c = c' -> V3 a b c = V3 a' b' c'.
Proof. intros; subst; auto. Qed.
Ltac d3 := repeat match goal with v : vec |- _ => destruct v | A : mtx |- _ => destruct A end.
Ltac r3 := intros; d3; unfold vadd, vsub3, vsc, vopp, vzero, dot, cross, mv, mm, madd3, msc, mt, mzero, mI, hat3, det3, ez, ex;
  cbn [vx vy vz m00 m01 m02 m10 m11 m12 m20 m21 m22]; first [apply M3_eq; ring | apply V3_eq; ring | ring].

Lemma mm_assoc A B C : mm (mm A B) C = mm A (mm B C). Proof. r3. Qed.
Lemma mv_mm A B v : mv (mm A B) v = mv A (mv B v). Proof. r3. Qed.
Lemma mm_I_l A : mm mI A = A. Proof. r3. Qed.
Lemma mm_I_r A : mm A mI = A. Proof. r3. Qed.
Lemma mv_I v : mv mI v = v. Proof. r3. Qed.
Lemma mm_madd_l A B C : mm (madd3 A B) C = madd3 (mm A C) (mm B C). Proof. r3. Qed.
Lemma mm_madd_r A B C : mm C (madd3 A B) = madd3 (mm C A) (mm C B). Proof. r3. Qed.
Lemma mm_msc_r c A B : mm A (msc c B) = msc c (mm A B). Proof. r3. Qed.
Lemma mm_msc_l c A B : mm (msc c A) B = msc c (mm A B). Proof. r3. Qed.
Lemma mm_0_r A : mm A mzero = mzero. Proof. r3. Qed.
Lemma mm_0_l A : mm mzero A = mzero. Proof. r3. Qed.
Lemma madd_0_r A : madd3 A mzero = A. Proof. r3. Qed.
Lemma madd_0_l A : madd3 mzero A = A. Proof. r3. Qed.
Lemma hat_0 : hat3 vzero = mzero. Proof. r3. Qed.
Lemma msc_0 c : msc c mzero = mzero. Proof. r3. Qed.
Lemma hat_add u v : hat3 (vadd u v) = madd3 (hat3 u) (hat3 v). Proof. r3. Qed.
Lemma hat_sc c v : hat3 (vsc c v) = msc c (hat3 v). Proof. r3. Qed.
Lemma hat_mv u v : mv (hat3 u) v = cross u v. Proof. r3. Qed.
Lemma mv_vadd A u v : mv A (vadd u v) = vadd (mv A u) (mv A v). Proof. r3. Qed.
Lemma mv_vsc A c v : mv A (vsc c v) = vsc c (mv A v). Proof. r3. Qed.
Lemma mv_vzero A : mv A vzero = vzero. Proof. r3. Qed.
Lemma vadd_0_r v : vadd v vzero = v. Proof. r3. Qed.
Lemma vadd_0_l v : vadd vzero v = v. Proof. r3. Qed.
Lemma vadd_comm u v : vadd u v = vadd v u. Proof. r3. Qed.
Lemma vadd_assoc u v w : vadd u (vadd v w) = vadd (vadd u v) w. Proof. r3. Qed.
Lemma mt_mm A B : mt (mm A B) = mm (mt B) (mt A). Proof. r3. Qed.
Lemma mt_mt A : mt (mt A) = A. Proof. r3. Qed.
Lemma mt_I : mt mI = mI. Proof. r3. Qed.
Lemma det_mm A B : det3 (mm A B) = det3 A * det3 B. Proof. r3. Qed.
Lemma cross_add_l u v w : cross (vadd u v) w = vadd (cross u w) (cross v w). Proof. r3. Qed.
Lemma cross_add_r u v w : cross u (vadd v w) = vadd (cross u v) (cross u w). Proof. r3. Qed.
Lemma cross_sc_l c u v : cross (vsc c u) v = vsc c (cross u v). Proof. r3. Qed.
Lemma cross_0_l v : cross vzero v = vzero. Proof. r3. Qed.
Lemma cross_self v : cross v v = vzero. Proof. r3. Qed.
Lemma dot_mv A u v : dot u (mv A v) = dot (mv (mt A) u) v. Proof. r3. Qed.
Lemma dot_comm u v : dot u v = dot v u. Proof. r3. Qed.

Lemma v3_eq u v : vx u = vx v -> vy u = vy v -> vz u = vz v -> u = v.
Proof. destruct u, v; simpl; intros; subst; auto. Qed.

Lemma dot_self_nonneg v : 0 <= dot v v.
Proof. destruct v; unfold dot; simpl. nra. Qed.
Lemma dot_self_0 v : dot v v = 0 -> v = vzero.
Proof. destruct v as [a b c]; unfold dot; simpl; intros H. apply v3_eq; simpl; nra. Qed.

(* rotations *)
Definition is_rot (A : mtx) : Prop :=
  mm (mt A) A = mI /\ mm A (mt A) = mI /\ det3 A = 1 /\ forall c, mm (hat3 (mv A c)) A = mm A (hat3 c).
Lemma is_rot_mm A B : is_rot A -> is_rot B -> is_rot (mm A B).
Proof.
  intros (H1 & H2 & H3 & H4) (G1 & G2 & G3 & G4). unfold is_rot; split; [|split; [|split]].
  - rewrite mt_mm, mm_assoc, <- (mm_assoc (mt A)), H1, mm_I_l; auto.
  - rewrite mt_mm, mm_assoc, <- (mm_assoc B), G2, mm_I_l; auto.
  - rewrite det_mm, H3, G3; ring.
  - intros c. rewrite mv_mm, <- mm_assoc, H4, mm_assoc, G4, mm_assoc; auto.
Qed.
Definition Rx3 (c s : R) := M3 1 0 0 0 c (- s) 0 s c.
Definition Ry3 (c s : R) := M3 c 0 s 0 1 0 (- s) 0 c.
Definition Rz3 (c s : R) := M3 c (- s) 0 s c 0 0 0 1.
Lemma is_rot_x c s : c * c + s * s = 1 -> is_rot (Rx3 c s).
Proof.
  intros H. assert (H' : c * c = 1 - s * s) by lra. unfold is_rot; split; [|split; [|split]]; intros; d3;
  unfold Rx3, Ry3, Rz3, mt, mm, mI, det3, hat3, mv; cbn [vx vy vz m00 m01 m02 m10 m11 m12 m20 m21 m22];
  try apply M3_eq; ring [H'].
Qed.
Lemma is_rot_y c s : c * c + s * s = 1 -> is_rot (Ry3 c s).
Proof.
  intros H. assert (H' : c * c = 1 - s * s) by lra. unfold is_rot; split; [|split; [|split]]; intros; d3;
  unfold Rx3, Ry3, Rz3, mt, mm, mI, det3, hat3, mv; cbn [vx vy vz m00 m01 m02 m10 m11 m12 m20 m21 m22];
  try apply M3_eq; ring [H'].
Qed.
Lemma is_rot_z c s : c * c + s * s = 1 -> is_rot (Rz3 c s).
Proof.
  intros H. assert (H' : c * c = 1 - s * s) by lra. unfold is_rot; split; [|split; [|split]]; intros; d3;
  unfold Rx3, Ry3, Rz3, mt, mm, mI, det3, hat3, mv; cbn [vx vy vz m00 m01 m02 m10 m11 m12 m20 m21 m22];
  try apply M3_eq; ring [H'].
Qed.
Lemma is_rot_I : is_rot mI.
Proof. unfold is_rot; split; [|split; [|split]]; r3. Qed.
Lemma rot_hat A c : is_rot A -> hat3 (mv A c) = mm (mm A (hat3 c)) (mt A).
Proof.
  intros (_ & H2 & _ & H4). rewrite <- H4, mm_assoc, H2, mm_I_r; auto.
Qed.
Lemma rot_cross A u v : is_rot A -> cross (mv A u) (mv A v) = mv A (cross u v).
Proof.
  intros (_ & _ & _ & H4). rewrite <- !hat_mv, <- mv_mm, H4, mv_mm; auto.
Qed.
Lemma rot_dot A u v : is_rot A -> dot (mv A u) (mv A v) = dot u v.
Proof.
  intros (H1 & _). rewrite dot_mv, <- mv_mm, H1, mv_I; auto.
Qed.
Lemma rot_inv A v : is_rot A -> mv (mt A) (mv A v) = v.
Proof. intros (H1 & _). rewrite <- mv_mm, H1, mv_I; auto. Qed.
Lemma rot_inv2 A v : is_rot A -> mv A (mv (mt A) v) = v.
Proof. intros (_ & H1 & _). rewrite <- mv_mm, H1, mv_I; auto. Qed.

(* derivatives *)
Definition is_dV (f : R -> vec) (t : R) (l : vec) : Prop :=
  is_derive (fun s => vx (f s)) t (vx l) /\ is_derive (fun s => vy (f s)) t (vy l) /\
  is_derive (fun s => vz (f s)) t (vz l).
Definition is_dM (f : R -> mtx) (t : R) (l : mtx) : Prop :=
  (is_derive (fun s => m00 (f s)) t (m00 l) /\ is_derive (fun s => m01 (f s)) t (m01 l) /\
   is_derive (fun s => m02 (f s)) t (m02 l)) /\
  (is_derive (fun s => m10 (f s)) t (m10 l) /\ is_derive (fun s => m11 (f s)) t (m11 l) /\
   is_derive (fun s => m12 (f s)) t (m12 l)) /\
  (is_derive (fun s => m20 (f s)) t (m20 l) /\ is_derive (fun s => m21 (f s)) t (m21 l) /\
   is_derive (fun s => m22 (f s)) t (m22 l)).

Lemma is_derive_add (f g : R -> R) (t f' g' : R) :
  is_derive f t f' -> is_derive g t g' -> is_derive (fun s => f s + g s) t (f' + g').
Proof. intros; apply (is_derive_plus f g); auto. Qed.
Lemma is_derive_sub (f g : R -> R) (t f' g' : R) :
  is_derive f t f' -> is_derive g t g' -> is_derive (fun s => f s - g s) t (f' - g').
Proof. intros; apply (is_derive_minus f g); auto. Qed.
Lemma is_derive_mul (f g : R -> R) (t f' g' : R) :
  is_derive f t f' -> is_derive g t g' -> is_derive (fun s => f s * g s) t (f' * g t + f t * g').
Proof. intros; apply (is_derive_mult f g); auto. intros; apply Rmult_comm. Qed.
Lemma is_derive_neg (f : R -> R) (t f' : R) : is_derive f t f' -> is_derive (fun s => - f s) t (- f').
Proof. intros; apply (is_derive_opp f); auto. Qed.
Lemma is_derive_eq (f : R -> R) (t l l' : R) : is_derive f t l -> l = l' -> is_derive f t l'.
Proof. intros H <-; auto. Qed.
Lemma is_derive_cst (c t : R) : is_derive (fun _ => c) t 0.
Proof. apply (is_derive_const c t). Qed.

Ltac dstep := lazymatch goal with
  | |- is_derive (fun _ => _ + _) _ _ => apply is_derive_add
  | |- is_derive (fun _ => _ - _) _ _ => apply is_derive_sub
  | |- is_derive (fun _ => _ * _) _ _ => apply is_derive_mul
  | |- is_derive (fun _ => - _) _ _ => apply is_derive_neg
  | |- is_derive (fun _ => ?c) _ _ => apply is_derive_cst
  | H : is_derive ?f ?t _ |- is_derive ?f ?t _ => apply H end.
Ltac dtac := eapply is_derive_eq; [ solve [repeat dstep] | cbv beta ].
Ltac dsplit := repeat match goal with
  | H : is_dV _ _ _ |- _ => destruct H as (?H & ?H & ?H)
  | H : is_dM _ _ _ |- _ => destruct H as ((?H & ?H & ?H) & (?H & ?H & ?H) & (?H & ?H & ?H)) end.

Ltac dS := lazymatch goal with
  | |- _ /\ _ => split; dS
  | |- is_dV _ _ _ => unfold is_dV; dS
  | |- is_dM _ _ _ => unfold is_dM; dS
  | |- _ => idtac end.
Lemma is_dM_mm f g t f' g' : is_dM f t f' -> is_dM g t g' ->
  is_dM (fun s => mm (f s) (g s)) t (madd3 (mm f' (g t)) (mm (f t) g')).
Proof.
  intros. dsplit. unfold is_dM, mm, madd3; cbn [m00 m01 m02 m10 m11 m12 m20 m21 m22].
  dS; (dtac; ring).
Qed.
Lemma is_dV_mv f g t f' g' : is_dM f t f' -> is_dV g t g' ->
  is_dV (fun s => mv (f s) (g s)) t (vadd (mv f' (g t)) (mv (f t) g')).
Proof.
  intros. dsplit. unfold is_dV, mv, vadd; cbn [vx vy vz].
  dS; (dtac; ring).
Qed.
Lemma is_dV_add f g t f' g' : is_dV f t f' -> is_dV g t g' ->
  is_dV (fun s => vadd (f s) (g s)) t (vadd f' g').
Proof.
  intros. dsplit. unfold is_dV, vadd; cbn [vx vy vz]. dS; (dtac; ring).
Qed.
Lemma is_dV_cst c t : is_dV (fun _ => c) t vzero.
Proof. dS; apply is_derive_cst. Qed.
Lemma is_dM_cst c t : is_dM (fun _ => c) t mzero.
Proof. dS; apply is_derive_cst. Qed.
Lemma is_dV_eq f t l l' : is_dV f t l -> l = l' -> is_dV f t l'.
Proof. intros H <-; auto. Qed.
Lemma is_dM_eq f t l l' : is_dM f t l -> l = l' -> is_dM f t l'.
Proof. intros H <-; auto. Qed.
Lemma is_dV_ext f g t l : (forall s, f s = g s) -> is_dV f t l -> is_dV g t l.
Proof.
  intros E (H1 & H2 & H3). dS; eapply is_derive_ext; eauto; intros s; simpl; now rewrite E.
Qed.
Lemma is_dM_ext f g t l : (forall s, f s = g s) -> is_dM f t l -> is_dM g t l.
Proof.
  intros E. unfold is_dM. intros ((? & ? & ?) & (? & ? & ?) & (? & ? & ?)).
  dS; eapply is_derive_ext; eauto; intros s; simpl; now rewrite E.
Qed.

(* sums of vectors *)
Fixpoint vsum (n : nat) (f : nat -> vec) : vec :=
  match n with O => vzero | S k => vadd (vsum k f) (f k) end.
Lemma vsum_ext n f g : (forall i, (i < n)%nat -> f i = g i) -> vsum n f = vsum n g.
Proof. induction n; intros H; simpl; auto. rewrite IHn, H; auto. Qed.
Lemma cross_vsum_l n f v : cross (vsum n f) v = vsum n (fun i => cross (f i) v).
Proof. induction n; simpl; [apply cross_0_l|]. now rewrite cross_add_l, IHn. Qed.
Lemma vsum_vadd n f g : vsum n (fun i => vadd (f i) (g i)) = vadd (vsum n f) (vsum n g).
Proof.
  induction n; simpl; [now rewrite vadd_0_r|]. rewrite IHn.
  rewrite !vadd_assoc. f_equal. rewrite <- !vadd_assoc. f_equal. apply vadd_comm.
Qed.
Lemma vsum_0 n f : (forall i, (i < n)%nat -> f i = vzero) -> vsum n f = vzero.
Proof. induction n; intros H; simpl; auto. rewrite IHn, H; auto. apply vadd_0_r. Qed.
Lemma mv_vsum A n f : mv A (vsum n f) = vsum n (fun i => mv A (f i)).
Proof. induction n; simpl; [apply mv_vzero|]. now rewrite mv_vadd, IHn. Qed.
