(* Interleavings of threads that use the generated class. *)
From Coq Require Import Reals String List Bool Arith Lia.
From Verif.Model Require Import Base SX Robot Template Threads.
From Verif.Spec Require Import Math Kinematics Api Threads.
Import ListNotations.
Open Scope nat_scope.
Open Scope list_scope.

Section Threads.
Variables (r : robot) (which : nat -> nat) (progs : nat -> list item) (objs : nat -> tobj).
Hypothesis sizes : forall t f m, Api.published r f -> t_get r t f = Ok m -> m_rows m = fst (out_size r f) /\ m_cols m = snd (out_size r f).
Hypothesis asks : forall k f, In (Ask f) (progs k) -> Api.published r f.
Hypothesis disc : disciplined which progs.

Definition sz (f : string) : nat := fst (out_size r f) * snd (out_size r f).
Definition entry (m : mat) (i : nat) : R := m_val m (i mod m_rows m) (i / m_rows m).

(* what the thread has yet to get, and what its buffers hold *)
Definition rest (g : memory) (k : nat) (l : list (string * mat)) : Prop :=
  let t := threads g k in let x := objects g (which k) in
  match here t with
  | Dead => l = []
  | Between => l = alone r x (todo t)
  | Compute f i => Api.published r f /\ l = alone r x (Ask f :: todo t) /\ i <= sz f /\
      forall m, t_get r x f = Ok m -> forall n, n < i -> buffers g k f n = entry m n
  | Store f i => Api.published r f /\ l = alone r x (Ask f :: todo t) /\ i < sz f /\
      forall m, t_get r x f = Ok m -> works g k f = entry m i /\ forall n, n < i -> buffers g k f n = entry m n
  | Load f l' => Api.published r f /\ List.length l' <= sz f /\ exists m, t_get r x f = Ok m /\ l = (f, m) :: alone r x (todo t) /\
      (forall n, n < sz f -> buffers g k f n = entry m n) /\ (forall n, n < List.length l' -> nth n l' 0%R = entry m n)
  end.
Definition inv (g : memory) : Prop := forall k,
  incl (todo (threads g k)) (progs k) /\
  exists done l, alone r (objs (which k)) (progs k) = done ++ l /\ Forall2 same_answer (got (threads g k)) done /\ rest g k l.

Lemma set_same {A} k (v : A) f : set k v f k = v.
Proof. unfold set. now rewrite Nat.eqb_refl. Qed.
Lemma set_other {A} k j (v : A) f : j <> k -> set k v f j = f j.
Proof. unfold set. intros H. now rewrite (proj2 (Nat.eqb_neq j k) H). Qed.
Lemma work_same k f x w : set_work k f x w k f = x.
Proof. unfold set_work. now rewrite Nat.eqb_refl, String.eqb_refl. Qed.
Lemma work_other k j f x w h : j <> k -> set_work k f x w j h = w j h.
Proof. unfold set_work. intros H. now rewrite (proj2 (Nat.eqb_neq j k) H). Qed.
Lemma buf_same k f i x b : set_buffer k f i x b k f i = x.
Proof. unfold set_buffer. now rewrite Nat.eqb_refl, String.eqb_refl, Nat.eqb_refl. Qed.
Lemma buf_next k f i x b n : n <> i -> set_buffer k f i x b k f n = b k f n.
Proof. unfold set_buffer. intros H. now rewrite (proj2 (Nat.eqb_neq n i) H), andb_false_r. Qed.
Lemma buf_other k j f i x b h n : j <> k -> set_buffer k f i x b j h n = b j h n.
Proof. unfold set_buffer. intros H. now rewrite (proj2 (Nat.eqb_neq j k) H). Qed.

(* a step of another thread *)
Lemma rest_same g g' k l : threads g' k = threads g k -> objects g' (which k) = objects g (which k) ->
  (forall f n, buffers g' k f n = buffers g k f n) -> (forall f, works g' k f = works g k f) -> rest g k l -> rest g' k l.
Proof.
  intros T O B W. unfold rest. rewrite T, O. destruct (here (threads g k)) as [|f i|f i|f l'|]; auto.
  - intros (P & E & I & H). repeat (split; [assumption|]). intros m Hm n Hn. rewrite B. now apply H.
  - intros (P & E & I & H). repeat (split; [assumption|]). intros m Hm. destruct (H m Hm) as [H1 H2]. split; [now rewrite W|].
    intros n Hn. rewrite B. now apply H2.
  - intros (P & I & m & Hm & E & H1 & H2). split; [assumption|]. split; [assumption|]. exists m. repeat (split; [assumption|]). split; [|assumption].
    intros n Hn. rewrite B. now apply H1.
Qed.

Lemma mapped_entry f m l : Api.published r f -> (exists t, t_get r t f = Ok m) -> (forall n, n < sz f -> nth n l 0%R = entry m n) ->
  same_answer (f, mapped (fst (out_size r f)) (snd (out_size r f)) l) (f, m).
Proof.
  intros P [t Ht] H. destruct (sizes t f m P Ht) as [R C]. unfold same_answer, mapped. cbn [fst snd m_rows m_cols m_val].
  rewrite R, C. repeat (split; [reflexivity|]). intros i j Hi Hj. rewrite H.
  - unfold entry. rewrite R. f_equal.
    + rewrite Nat.add_comm, Nat.mod_add by lia. now apply Nat.mod_small.
    + rewrite Nat.div_add_l by lia. rewrite (Nat.div_small i) by lia. lia.
  - unfold sz. nia.
Qed.

Ltac others := cbn [threads objects buffers works]; try (rewrite set_other by congruence); try reflexivity.
Lemma step_inv g k : inv g -> inv (step r which k g).
Proof.
  intros H j. destruct (Nat.eq_dec j k) as [->|N].
  - destruct (H k) as (I & done & l & E & F & Rs). unfold step, owner. unfold rest in Rs.
    destruct (here (threads g k)) as [|f i|f i|f l'|] eqn:Hh.
    + destruct (todo (threads g k)) as [|[f|c] q] eqn:Ht.
      * split; [now rewrite Ht|]. exists done, l. repeat (split; [assumption|]). unfold rest. rewrite Hh, Ht. exact Rs.
      * cbn [threads]. rewrite set_same. cbn [todo got here]. split; [intros y Hy; apply I; now right|].
        exists done, l. repeat (split; [assumption|]). unfold rest. cbn [threads objects]. rewrite set_same. cbn [here todo].
        split; [apply (asks k), I; now left|]. split; [exact Rs|]. split; [lia|]. intros; lia.
      * cbn [alone] in Rs. destruct (c (objects g (which k))) as [x'|m|m] eqn:Ec; cbn [threads]; rewrite set_same; cbn [todo got here].
        -- split; [intros y Hy; apply I; now right|]. exists done, l. repeat (split; [assumption|]).
           unfold rest. cbn [threads objects]. rewrite !set_same. cbn [here todo]. exact Rs.
        -- split; [exact I|]. exists done, l. repeat (split; [assumption|]). unfold rest. cbn [threads]. now rewrite set_same.
        -- split; [exact I|]. exists done, l. repeat (split; [assumption|]). unfold rest. cbn [threads]. now rewrite set_same.
    + destruct Rs as (P & El & Hi & Hb). cbn [alone] in El.
      destruct (t_get r (objects g (which k)) f) as [m|m|m] eqn:Em.
      * destruct (sizes _ _ _ P Em) as [R C]. destruct (Nat.ltb_spec i (m_rows m * m_cols m)) as [Hl|Hl].
        -- cbn [threads]. rewrite set_same. cbn [todo got here]. split; [exact I|]. exists done, l. repeat (split; [assumption|]).
           unfold rest. cbn [threads objects works buffers]. rewrite set_same. cbn [here todo]. split; [exact P|]. cbn [alone]. rewrite Em.
           split; [exact El|]. split; [unfold sz; now rewrite <- R, <- C|]. intros m' [= <-]. rewrite work_same. split; [reflexivity|]. now apply Hb.
        -- cbn [threads]. rewrite set_same. cbn [todo got here]. split; [exact I|]. exists done, l. repeat (split; [assumption|]).
           unfold rest. cbn [threads objects works buffers]. rewrite set_same. cbn [here todo List.length]. split; [exact P|]. split; [lia|].
           exists m. split; [exact Em|]. split; [exact El|]. split; [|intros; lia]. intros n Hn. apply (Hb m eq_refl).
           unfold sz in Hn. rewrite <- R, <- C in Hn. lia.
      * cbn [threads]. rewrite set_same. cbn [todo got here]. split; [exact I|]. exists done, l. repeat (split; [assumption|]).
        unfold rest. cbn [threads]. now rewrite set_same.
      * cbn [threads]. rewrite set_same. cbn [todo got here]. split; [exact I|]. exists done, l. repeat (split; [assumption|]).
        unfold rest. cbn [threads]. now rewrite set_same.
    + destruct Rs as (P & El & Hi & Hb). fold (sz f). rewrite (proj2 (Nat.ltb_lt _ _) Hi).
      cbn [threads]. rewrite set_same. cbn [todo got here]. split; [exact I|]. exists done, l. repeat (split; [assumption|]).
      unfold rest. cbn [threads objects works buffers]. rewrite set_same. cbn [here todo]. split; [exact P|]. split; [exact El|]. split; [lia|].
      intros m Hm n Hn. destruct (Hb m Hm) as [Hw Hb']. destruct (Nat.eq_dec n i) as [->|Ne]; [now rewrite buf_same|].
      rewrite buf_next by exact Ne. apply Hb'. lia.
    + destruct Rs as (P & Hi & m & Em & El & Hb & Hl). destruct (Nat.ltb_spec (List.length l') (fst (out_size r f) * snd (out_size r f))) as [Hn|Hn].
      * cbn [threads]. rewrite set_same. cbn [todo got here]. split; [exact I|]. exists done, l. repeat (split; [assumption|]).
        unfold rest. cbn [threads objects works buffers]. rewrite set_same. cbn [here todo]. split; [exact P|]. rewrite app_length. cbn [List.length].
        split; [unfold sz; lia|]. exists m. repeat (split; [assumption|]). intros n H'. destruct (Nat.eq_dec n (List.length l')) as [->|Ne].
        -- rewrite app_nth2, Nat.sub_diag by lia. cbn [nth]. now apply Hb.
        -- rewrite app_nth1 by lia. apply Hl. lia.
      * cbn [threads]. rewrite set_same. cbn [todo got here]. split; [exact I|]. exists (done ++ [(f, m)]), (alone r (objects g (which k)) (todo (threads g k))).
        split; [now rewrite <- app_assoc, E, El|]. split.
        -- apply Forall2_app; [exact F|]. constructor; [|constructor]. apply mapped_entry; [exact P|now exists (objects g (which k))|].
           intros n H'. apply Hl. unfold sz in H'. lia.
        -- unfold rest. cbn [threads objects]. rewrite set_same. reflexivity.
    + split; [exact I|]. exists done, l. repeat (split; [assumption|]). unfold rest. rewrite Hh. exact Rs.
  - assert (T : threads (step r which k g) j = threads g j).
    { unfold step. destruct (here (threads g k)) as [|f i|f i|f l'|]; try reflexivity.
      - destruct (todo (threads g k)) as [|[f|c] q]; [reflexivity|now others|]. destruct (c (objects g (which k))); now others.
      - destruct (t_get r (objects g (which k)) f) as [m|m|m]; [|now others|now others]. destruct (Nat.ltb i (m_rows m * m_cols m)); now others.
      - destruct (Nat.ltb i _); now others.
      - destruct (Nat.ltb (List.length l') _); now others. }
    assert (B : forall f n, buffers (step r which k g) j f n = buffers g j f n).
    { intros f0 n. unfold step, owner. destruct (here (threads g k)) as [|f i|f i|f l'|]; try reflexivity.
      - destruct (todo (threads g k)) as [|[f|c] q]; [reflexivity|reflexivity|]. destruct (c (objects g (which k))); reflexivity.
      - destruct (t_get r (objects g (which k)) f) as [m|m|m]; [|reflexivity|reflexivity]. destruct (Nat.ltb i (m_rows m * m_cols m)); reflexivity.
      - destruct (Nat.ltb i _); cbn [buffers]; [now apply buf_other|reflexivity].
      - destruct (Nat.ltb (List.length l') _); reflexivity. }
    assert (W : forall f, works (step r which k g) j f = works g j f).
    { intros f0. unfold step, owner. destruct (here (threads g k)) as [|f i|f i|f l'|]; try reflexivity.
      - destruct (todo (threads g k)) as [|[f|c] q]; [reflexivity|reflexivity|]. destruct (c (objects g (which k))); reflexivity.
      - destruct (t_get r (objects g (which k)) f) as [m|m|m]; [|reflexivity|reflexivity]. destruct (Nat.ltb i (m_rows m * m_cols m)); cbn [works]; [now apply work_other|reflexivity].
      - destruct (Nat.ltb i _); reflexivity.
      - destruct (Nat.ltb (List.length l') _); reflexivity. }
    assert (O : objects (step r which k g) (which j) = objects g (which j)).
    { unfold step. destruct (here (threads g k)) as [|f i|f i|f l'|]; try reflexivity.
      - destruct (todo (threads g k)) as [|[f|c] q] eqn:Ht; [reflexivity|reflexivity|]. destruct (c (objects g (which k))) as [x'|m|m]; try reflexivity.
        cbn [objects]. apply set_other. intros Ew. apply (disc k j (not_eq_sym N) (eq_sym Ew) c). destruct (H k) as (I & _). apply I. rewrite Ht. now left.
      - destruct (t_get r (objects g (which k)) f) as [m|m|m]; [|reflexivity|reflexivity]. destruct (Nat.ltb i (m_rows m * m_cols m)); reflexivity.
      - destruct (Nat.ltb i _); reflexivity.
      - destruct (Nat.ltb (List.length l') _); reflexivity. }
    destruct (H j) as (I & done & l & E & F & Rs). rewrite T. split; [exact I|]. exists done, l. repeat (split; [assumption|]).
    now apply (rest_same g).
Qed.
Lemma start_inv g : starting progs objs g -> inv g.
Proof.
  intros [O T] k. rewrite T. cbn [todo got]. split; [apply incl_refl|]. exists [], (alone r (objs (which k)) (progs k)).
  split; [reflexivity|]. split; [constructor|]. unfold rest. now rewrite T, O.
Qed.
Lemma run_inv s g : inv g -> inv (run_schedule r which s g).
Proof. revert g. induction s as [|k s IH]; intros g H; [exact H|]. apply IH, step_inv, H. Qed.

(* progress *)
Fixpoint weight (l : list item) : nat := match l with [] => 0 | Ask f :: l => 3 * sz f + 3 + weight l | Do _ :: l => 1 + weight l end.
Definition left_ (t : thread) : nat :=
  match here t with
  | Dead => 0
  | Between => weight (todo t)
  | Compute f i => weight (todo t) + (2 * (sz f - i) + sz f + 2)
  | Store f i => weight (todo t) + (2 * (sz f - i) + sz f + 1)
  | Load f l => weight (todo t) + (sz f - List.length l + 1)
  end.
Lemma step_left g k : inv g -> left_ (threads (step r which k g) k) <= left_ (threads g k) - 1.
Proof.
  intros H. destruct (H k) as (I & done & l & E & F & Rs). unfold rest in Rs. unfold step. unfold left_ at 2.
  destruct (here (threads g k)) as [|f i|f i|f l'|] eqn:Hh.
  - destruct (todo (threads g k)) as [|[f|c] q] eqn:Ht.
    + unfold left_. rewrite Hh, Ht. cbn [weight]. lia.
    + cbn [threads]. rewrite set_same. unfold left_. cbn [here todo weight]. lia.
    + destruct (c (objects g (which k))); cbn [threads]; rewrite set_same; unfold left_; cbn [here todo weight]; lia.
  - destruct Rs as (P & El & Hi & Hb). destruct (t_get r (objects g (which k)) f) as [m|m|m] eqn:Em.
    + destruct (sizes _ _ _ P Em) as [R C]. assert (Es : m_rows m * m_cols m = sz f) by (unfold sz; now rewrite R, C). rewrite Es.
      destruct (Nat.ltb_spec i (sz f)); cbn [threads]; rewrite set_same; unfold left_; cbn [here todo List.length]; lia.
    + cbn [threads]; rewrite set_same; unfold left_; cbn [here]; lia.
    + cbn [threads]; rewrite set_same; unfold left_; cbn [here]; lia.
  - fold (sz f). destruct (Nat.ltb_spec i (sz f)); cbn [threads]; rewrite set_same; unfold left_; cbn [here todo]; lia.
  - fold (sz f). destruct (Nat.ltb_spec (List.length l') (sz f)); cbn [threads]; rewrite set_same; unfold left_; cbn [here todo]; [rewrite app_length; cbn [List.length]; lia|lia].
  - unfold left_. rewrite Hh. lia.
Qed.
Lemma step_left_other g k j : j <> k -> threads (step r which k g) j = threads g j.
Proof.
  intros N. unfold step. destruct (here (threads g k)) as [|f i|f i|f l'|]; try reflexivity.
  - destruct (todo (threads g k)) as [|[f|c] q]; [reflexivity|now others|]. destruct (c (objects g (which k))); now others.
  - destruct (t_get r (objects g (which k)) f) as [m|m|m]; [|now others|now others]. destruct (Nat.ltb i (m_rows m * m_cols m)); now others.
  - destruct (Nat.ltb i _); now others.
  - destruct (Nat.ltb (List.length l') _); now others.
Qed.
Lemma run_left s k : forall g, inv g -> left_ (threads (run_schedule r which s g) k) <= left_ (threads g k) - count_occ Nat.eq_dec s k.
Proof.
  induction s as [|j s IH]; intros g H; cbn [run_schedule fold_left count_occ]; [lia|].
  pose proof (IH (step r which j g) (step_inv _ _ H)) as Q. unfold run_schedule in Q. destruct (Nat.eq_dec j k) as [->|N].
  - pose proof (step_left g k H). lia.
  - rewrite (step_left_other g j k) in Q by congruence. exact Q.
Qed.
Lemma none_left g k l : left_ (threads g k) = 0 -> rest g k l -> l = [].
Proof.
  unfold left_, rest. destruct (here (threads g k)); try lia; auto.
  destruct (todo (threads g k)) as [|[f|c] q]; cbn [weight]; try lia. auto.
Qed.

Theorem interleaved g s k : starting progs objs g ->
  exists a b, alone r (objs (which k)) (progs k) = a ++ b /\ Forall2 same_answer (got (threads (run_schedule r which s g) k)) a.
Proof. intros H. destruct (run_inv s g (start_inv g H) k) as (_ & a & b & E & F & _). now exists a, b. Qed.
Theorem completed g k : starting progs objs g -> exists n, forall s, n <= count_occ Nat.eq_dec s k ->
  Forall2 same_answer (got (threads (run_schedule r which s g) k)) (alone r (objs (which k)) (progs k)).
Proof.
  intros H. exists (left_ (threads g k)). intros s Hn. pose proof (run_left s k g (start_inv g H)) as Q.
  destruct (run_inv s g (start_inv g H) k) as (_ & a & b & E & F & Rs). assert (b = []) as -> by (apply (none_left (run_schedule r which s g) k); [lia|exact Rs]). now rewrite E, app_nil_r.
Qed.
End Threads.
