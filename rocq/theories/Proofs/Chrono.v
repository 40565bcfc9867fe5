(* The timing programs. *)
From Coq Require Import Reals List String Arith ZArith Bool Lia.
From Verif.Model Require Import Base Expr SX Robot Yaml Inertia Build Template Chrono.
From Verif.Spec Require Import Math Setup Kinematics Dynamics Regressor Api State Template Config Safe Clients Chrono.
From Verif.Proofs Require Import Maps Pure Names Shape Load Final Get Sample Api State StateSess MainFiles TSetters TFiles TSync TFacts TLoad TGet TSafe Clients.
Import ListNotations.
Open Scope nat_scope.
Open Scope string_scope.

Lemma to_int_id d : (0 <= d <= second)%Z -> to_int d = d.
Proof. unfold to_int, second. intros H. rewrite Z.mod_small; lia. Qed.

(* ---- one row of calls ---- *)
Section ROW.
  Variables (keep : Z -> Z -> Z) (P : Z -> Prop) (clock : nat -> Z).
  Hypothesis Pdec : forall d, P d \/ ~ P d.
  Hypothesis keep_yes : forall m d, (m <= second)%Z -> P d -> (0 <= d)%Z -> keep m d = Z.min m d.
  Hypothesis keep_no : forall m d, ~ P d -> keep m d = m.
  Hypothesis St : steady clock.

  Lemma took_pos i j : (0 <= took clock i j)%Z.
  Proof. unfold took. pose proof (St (i + 2 * j)) as H. replace (i + 2 * j + 1) with (S (i + 2 * j)) by lia. lia. Qed.
  Lemma row call x : call = Ok x -> forall n i m, (0 <= m <= second)%Z ->
    exists m', repeat_call keep clock call n i m = Ok (i + 2 * n, m') /\ (0 <= m' <= m)%Z /\
    (forall j, j < n -> P (took clock i j) -> (m' <= took clock i j)%Z) /\
    (m' = m \/ exists j, j < n /\ P (took clock i j) /\ m' = took clock i j).
  Proof.
    intros ->. induction n as [|n IH]; intros i m Hm; cbn [repeat_call].
    - exists m. rewrite Nat.add_0_r. split; [reflexivity|]. split; [lia|]. split; [intros; lia|now left].
    - cbn [bind]. set (d := (clock (i + 1)%nat - clock i)%Z).
      assert (Ed : took clock i 0 = d) by (unfold took, d; now rewrite Nat.mul_0_r, Nat.add_0_r).
      pose proof (took_pos i 0) as Dp. rewrite Ed in Dp.
      assert (Es : forall j, took clock (i + 2) j = took clock i (S j)).
      { intros j. unfold took. replace (i + 2 + 2 * j) with (i + 2 * S j) by lia. reflexivity. }
      destruct (Pdec d) as [Pd|Nd].
      + rewrite (keep_yes m d) by (auto; lia).
        destruct (IH (i + 2) (Z.min m d) ltac:(lia)) as (m' & E & B & L & W). exists m'. split; [rewrite E; do 2 f_equal; lia|]. split; [lia|]. split.
        * intros [|j] Hj Pj; [rewrite Ed; lia|]. rewrite <- Es in *. apply L; [lia|exact Pj].
        * destruct W as [->|(j & Hj & Pj & ->)].
          -- destruct (Z.min_spec m d) as [[_ ->]|[_ ->]]; [now left|]. right. exists 0. rewrite Ed. split; [lia|auto].
          -- right. exists (S j). rewrite <- Es. split; [lia|auto].
      + rewrite (keep_no m d Nd). destruct (IH (i + 2) m Hm) as (m' & E & B & L & W). exists m'. split; [rewrite E; do 2 f_equal; lia|]. split; [lia|]. split.
        * intros [|j] Hj Pj; [rewrite Ed in Pj; contradiction|]. rewrite <- Es in *. apply L; [lia|exact Pj].
        * destruct W as [->|(j & Hj & Pj & ->)]; [now left|]. right. exists (S j). rewrite <- Es. split; [lia|auto].
  Qed.
  Lemma row_small call x n i : call = Ok x -> exists m, repeat_call keep clock call n i MAX_DUR = Ok (i + 2 * n, m) /\
    ((exists j, j < n /\ P (took clock i j) /\ (took clock i j <= second)%Z) -> smallest P n (took clock i) m) /\
    ((forall j, j < n -> P (took clock i j) -> (second <= took clock i j)%Z) -> m = second).
  Proof.
    intros Hc. destruct (row call x Hc n i MAX_DUR ltac:(unfold MAX_DUR, second; lia)) as (m & E & B & L & W). change MAX_DUR with second in B, W.
    exists m. split; [exact E|]. split.
    - intros (j & Hj & Pj & Lj). destruct W as [->|(j' & Hj' & Pj' & ->)].
      + pose proof (L j Hj Pj) as Q. assert (Ej : second = took clock i j) by lia. split; [exists j; auto|]. split; [now rewrite Ej|exact L].
      + split; [exists j'; auto|]. split; [exact Pj'|exact L].
    - intros H. destruct W as [->|(j' & Hj' & Pj' & ->)]; [reflexivity|]. pose proof (H j' Hj' Pj'). lia.
  Qed.
  Lemma blocks_gen call n l : (forall lbl nm, In (lbl, nm) l -> exists x, call nm = Ok x) -> forall i,
    exists out, timed_blocks keep clock call n i l = Ok (i + 2 * n * List.length l, out) /\ map fst out = map fst l /\
    forall k lbl m, nth_error out k = Some (lbl, m) -> let d := took clock (i + 2 * n * k) in
    ((exists j, j < n /\ P (d j) /\ (d j <= second)%Z) -> smallest P n d m) /\
    ((forall j, j < n -> P (d j) -> (second <= d j)%Z) -> m = second).
  Proof.
    induction l as [|[lbl nm] l IH]; intros Hl i; cbn [timed_blocks].
    - exists []. split; [do 2 f_equal; cbn; lia|]. split; [reflexivity|]. intros [|k] ? ? E; discriminate.
    - destruct (Hl lbl nm (or_introl eq_refl)) as [x Hx]. destruct (row_small (call nm) x n i Hx) as (m & E & R). rewrite E. cbn [bind].
      destruct (IH (fun a b H => Hl a b (or_intror H)) (i + 2 * n)) as (out & E2 & F & G). rewrite E2. cbn [bind].
      exists ((lbl, m) :: out). split; [do 2 f_equal; cbn [List.length]; lia|]. split; [cbn [map fst]; now rewrite F|].
      intros [|k] lbl' m' Hk.
      + injection Hk as <- <-. rewrite Nat.mul_0_r, Nat.add_0_r. exact R.
      + cbn [nth_error] in Hk. specialize (G k lbl' m' Hk). replace (i + 2 * n * S k) with (i + 2 * n + 2 * n * k) by lia. exact G.
  Qed.
  Lemma blocks_ok call n i : (forall lbl nm, In (lbl, nm) timed -> exists x, call nm = Ok x) ->
    exists out, timed_blocks keep clock call n i timed = Ok (i + 14 * n, out) /\ reports P n clock i out.
  Proof.
    intros H. destruct (blocks_gen call n timed H i) as (out & E & F & G). exists out. split; [rewrite E; do 2 f_equal; cbn [timed List.length]; lia|].
    split; [exact F|exact G].
  Qed.
End ROW.

Lemma fastest_blocks clock call n i : steady clock -> (forall lbl nm, In (lbl, nm) timed -> exists x, call nm = Ok x) ->
  exists out, timed_blocks keep_fastest clock call n i timed = Ok (i + 14 * n, out) /\ reports (fun _ => True) n clock i out.
Proof.
  intros St H. apply blocks_ok; auto.
  - intros m d Hm _ Hd. unfold keep_fastest. destruct (Z.ltb_spec d m); [rewrite to_int_id by lia|]; lia.
  - intros m d Hn. now destruct Hn.
Qed.
Lemma positive_blocks clock call n i : steady clock -> (forall lbl nm, In (lbl, nm) timed -> exists x, call nm = Ok x) ->
  exists out, timed_blocks keep_positive clock call n i timed = Ok (i + 14 * n, out) /\ reports (fun d => (0 < d)%Z) n clock i out.
Proof.
  intros St H. apply blocks_ok; auto.
  - intros d. lia.
  - intros m d Hm Pd Hd. unfold keep_positive. rewrite (proj2 (Z.ltb_lt 0 d) Pd), andb_true_r. destruct (Z.ltb_spec d m); [rewrite to_int_id by lia|]; lia.
  - intros m d Hn. unfold keep_positive. rewrite (proj2 (Z.ltb_ge 0 d)) by lia. now rewrite andb_false_r.
Qed.

(* ---- thunder_test_chrono.cpp ---- *)
Theorem chrono_state_ok name cfg r0 r q dq dqr ddqr : session name cfg r0 r r ->
  (forall v, In v [q; dq; dqr; ddqr] -> List.length v = numJoints r0) ->
  exists r', chrono_state q dq dqr ddqr r = Ok r' /\ session name cfg r0 r r'.
Proof.
  intros S Hn.
  assert (SL : forall r' k, session name cfg r0 r r' -> In k ["q"; "dq"; "dqr"; "ddqr"] -> List.length (arg r' k) = numJoints r0).
  { intros r' k H Hk. apply (se_state _ _ _ _ _ H). unfold state_sizes. rewrite in_app_iff. left. cbn in *. intuition (subst; auto). }
  assert (N : forall r', session name cfg r0 r r' -> numJoints r' = numJoints r0) by (intros r' H; apply (session_nums _ _ _ _ _ H)).
  unfold chrono_state.
  unfold set_q. rewrite (N r S).
  destruct (session_step _ _ _ _ r "q" _ q S (SL r "q" S ltac:(cbn; auto)) (Hn q ltac:(cbn; auto))) as (r1 & -> & S1 & _). cbn [bind].
  unfold set_dq. rewrite (N r1 S1).
  destruct (session_step _ _ _ _ r1 "dq" _ dq S1 (SL r1 "dq" S1 ltac:(cbn; auto)) (Hn dq ltac:(cbn; auto))) as (r2 & -> & S2 & _). cbn [bind].
  unfold set_dqr. rewrite (N r2 S2).
  destruct (session_step _ _ _ _ r2 "dqr" _ dqr S2 (SL r2 "dqr" S2 ltac:(cbn; auto)) (Hn dqr ltac:(cbn; auto))) as (r3 & -> & S3 & _). cbn [bind].
  unfold set_ddqr. rewrite (N r3 S3).
  destruct (session_step _ _ _ _ r3 "ddqr" _ ddqr S3 (SL r3 "ddqr" S3 ltac:(cbn; auto)) (Hn ddqr ltac:(cbn; auto))) as (r4 & -> & S4 & _). cbn [bind].
  exists r4. auto.
Qed.
Lemma chrono_one_ok clock n vec i name cfg r0 r : session name cfg r0 r r -> steady clock -> (forall k, List.length (vec k) = k) ->
  exists created l, chrono_one clock n vec i name cfg = Ok (i + (4 + 14 * n), ("robot created in", created) :: l) /\ reports (fun _ => True) n clock (i + 4) l.
Proof.
  intros S St Hv. destruct (session_nums _ _ _ _ _ S) as (N1 & _). unfold chrono_one. rewrite (se_build _ _ _ _ _ S). cbn [bind].
  assert (E : exists x, get_par_DYN r = Ok x).
  { unfold get_par_DYN, get_par_sized, STD_PAR_LINK. rewrite N1, (sess_DYN _ _ _ _ _ S).
    assert (P : In ("par_DYN", 10 * numJoints r0) (par_sizes r0)) by (unfold par_sizes; cbv zeta; apply in_app_iff; left; cbn [In]; tauto).
    assert (L : symbolic r0 "par_DYN" <= 10 * numJoints r0).
    { destruct (wf_sizes _ (se_wf _ _ _ _ _ S) _ _ P) as [W _]. unfold symbolic. rewrite <- W. apply selected_le. }
    apply Nat.leb_le in L. rewrite L. eauto. }
  destruct E as [x ->]. cbn [bind]. cbv zeta. rewrite N1.
  destruct (chrono_state_ok name cfg r0 r (vec (numJoints r0)) (vec (numJoints r0)) (vec (numJoints r0)) (vec (numJoints r0)) S) as (s & -> & S').
  { intros v Hi. cbn [In] in Hi. decompose [or] Hi; try contradiction; subst v; apply Hv. }
  cbn [bind]. destruct (fastest_blocks clock (get s) n (i + 4) St) as (l & E & R). { intros lbl nm _. apply (get_total _ _ _ _ _ S'). }
  rewrite E. cbn [bind]. eexists _, l. split; [do 2 f_equal; lia|exact R].
Qed.
Theorem chrono_main_ok clock n vec files : steady clock -> (forall k, List.length (vec k) = k) ->
  (forall name cfg, In (name, cfg) files -> exists r0 r, session name cfg r0 r r) ->
  forall i, exists log, chrono_main clock n vec i files = Ok log /\ map fst log = map fst files /\
  forall k name l, nth_error log k = Some (name, l) ->
  exists created times, l = ("robot created in", created) :: times /\ reports (fun _ => True) n clock (i + (4 + 14 * n) * k + 4) times.
Proof.
  intros St Hv. induction files as [|[name cfg] files IH]; intros Hf i; cbn [chrono_main].
  - exists []. split; [reflexivity|]. split; [reflexivity|]. intros [|k] ? ? E; discriminate.
  - destruct (Hf name cfg (or_introl eq_refl)) as (r0 & r & Se). destruct (chrono_one_ok clock n vec i name cfg r0 r Se St Hv) as (c & l & -> & R). cbn [bind].
    destruct (IH (fun a b H => Hf a b (or_intror H)) (i + (4 + 14 * n))) as (log & -> & F & G). cbn [bind].
    eexists. split; [reflexivity|]. split; [cbn [map fst]; now rewrite F|]. intros [|k] nm l' Hk.
    + injection Hk as <- <-. exists c, l. split; [reflexivity|]. rewrite Nat.mul_0_r, Nat.add_0_r. exact R.
    + cbn [nth_error] in Hk. destruct (G k nm l' Hk) as (c' & l2 & E2 & R2). exists c', l2. split; [exact E2|].
      replace (i + (4 + 14 * n) * S k + 4) with (i + (4 + 14 * n) + (4 + 14 * n) * k + 4) by lia. exact R2.
Qed.

(* ---- thunder_robot_test_chrono.cpp ---- *)
Theorem generated_chrono_ok junk clock n vec name cfg r0 r : session name cfg r0 r r -> complete_links inertial_keys (numJoints r0) cfg ->
  steady clock -> exists l, generated_chrono junk clock n vec r (Some cfg) = Ok l /\ reports (fun d => (0 < d)%Z) n clock 2 l.
Proof.
  intros S Hc St.
  destruct (load_conf_agrees junk name cfg r0 true (se_load _ _ _ _ _ S) (se_wf _ _ _ _ _ S) Hc) as (t & E & _).
  rewrite <- (new_class_eq _ _ _ _ _ S) in E. unfold generated_chrono. rewrite E. cbn [bind]. cbv zeta.
  set (v := vec (t_n t)). clearbody v.
  assert (D : t_do_all junk [CLoadConf (Some cfg) true; CArgs v v v v] (new_class r) = Ok (t_setArguments v v v v t)) by (cbn [t_do_all t_do]; rewrite E; reflexivity).
  assert (G := fun H => safe_history junk name cfg r0 r r _ _ S H D). 
  assert (M : forall c, In c [CLoadConf (Some cfg) true; CArgs v v v v] -> matching (numJoints r0) cfg c).
  { intros c [<-|[<-|[]]]; (split; [exact I|]); [|exact I]. exact (own_file name cfg r0 (se_load _ _ _ _ _ S) (se_wf _ _ _ _ _ S)). }
  specialize (G M). clear M D. set (t1 := t_setArguments v v v v t) in *. clearbody t1.
  destruct (positive_blocks clock (t_timed r t1) n 2 St) as (l & -> & R).
  { assert (K : forall nm rr cc, In (nm, (rr, cc)) (catalogue r0) -> exists m, t_get r t1 nm = Ok m /\ m_cols m = cc).
    { intros nm rr cc Hi. apply (proj1 (catalogue_published _ _ _ _ _ S)) in Hi. destruct Hi as (fo & Hf & <- & Hr). destruct (G fo Hf) as (m & E1 & _ & E3). exists m.
      split; [exact E1|]. rewrite E3. apply Hr. }
    assert (A : forall nm rr cc, In (nm, (rr, cc)) (catalogue r0) -> nm <> "G" -> exists x, t_timed r t1 nm = Ok x).
    { intros nm rr cc Hi Ng. destruct (K _ _ _ Hi) as (m & Em & _). exists m. unfold t_timed. rewrite Em. cbn [bind].
      destruct (String.eqb_spec nm "G"); [contradiction|reflexivity]. }
    destruct (cat_dyn r0) as (KM & KC & KG & KY). cbv zeta in *.
    assert (KX : In ("T_0_ee", (4, 4)) (catalogue r0) /\ In ("J_ee", (6, numJoints r0)) (catalogue r0) /\ In ("C_std", (numJoints r0, numJoints r0)) (catalogue r0)).
    { unfold catalogue. cbv zeta. rewrite !in_app_iff. cbn [In]. tauto. }
    destruct KX as (KT & KJ & KS).
    intros lbl nm Hi. cbn [timed In] in Hi. decompose [or] Hi; try contradiction;
      match goal with Q : (_, _) = (_, _) |- _ => injection Q as <- <- end.
    - apply (A _ _ _ KT). discriminate.
    - apply (A _ _ _ KJ). discriminate.
    - apply (A _ _ _ KM). discriminate.
    - apply (A _ _ _ KC). discriminate.
    - apply (A _ _ _ KS). discriminate.
    - destruct (K _ _ _ KG) as (m & Em & Ec). exists m. unfold t_timed. rewrite Em. cbn [bind]. rewrite Ec. reflexivity.
    - apply (A _ _ _ KY). discriminate. }
  cbn [bind]. exists l. auto.
Qed.

(* ---- a report means that the functions were called and answered ---- *)
Lemma row_called keep clock call n i m x : repeat_call keep clock call n i m = Ok x -> 0 < n -> exists y, call = Ok y.
Proof. destruct n; [lia|]. cbn [repeat_call]. destruct call as [y| |]; cbn [bind]; try discriminate. eauto. Qed.
Lemma blocks_called keep clock call n l : forall i x, timed_blocks keep clock call n i l = Ok x -> 0 < n ->
  forall lbl nm, In (lbl, nm) l -> exists y, call nm = Ok y.
Proof.
  induction l as [|[lb nm'] l IH]; intros i x E Hn lbl nm Hi; [destruct Hi|]. cbn [timed_blocks] in E.
  destruct (repeat_call keep clock (call nm') n i MAX_DUR) as [[j m]| |] eqn:R; cbn [bind] in E; try discriminate.
  destruct (timed_blocks keep clock call n j l) as [[k rest]| |] eqn:B; cbn [bind] in E; try discriminate.
  destruct Hi as [Hi|Hi]; [injection Hi as <- <-; eapply row_called; eauto|]. eapply IH; eauto.
Qed.
Lemma chrono_called clock n vec i name cfg x : chrono_one clock n vec i name cfg = Ok x -> 0 < n ->
  exists r s, robot_from_file name cfg true = Ok r /\ chrono_state (vec (numJoints r)) (vec (numJoints r)) (vec (numJoints r)) (vec (numJoints r)) r = Ok s /\
  forall nm, In nm (map snd timed) -> exists y, get s nm = Ok y.
Proof.
  unfold chrono_one. intros E Hn.
  destruct (robot_from_file name cfg true) as [r| |]; cbn [bind] in E; try discriminate.
  destruct (get_par_DYN r) as [d| |]; cbn [bind] in E; try discriminate.
  destruct (chrono_state _ _ _ _ r) as [s| |] eqn:S; cbn [bind] in E; try discriminate.
  destruct (timed_blocks _ _ _ _ _ timed) as [[j l]| |] eqn:B; cbn [bind] in E; try discriminate.
  exists r, s. split; [reflexivity|]. split; [exact S|]. intros nm H. apply in_map_iff in H. destruct H as ([lbl nm'] & <- & H).
  eapply blocks_called; eauto.
Qed.
Lemma generated_called junk clock n vec r conf l : generated_chrono junk clock n vec r conf = Ok l -> 0 < n ->
  exists t, t_load_conf junk (new_class r) conf true = Ok t /\
  forall nm, In nm (map snd timed) -> exists y, t_get r (t_setArguments (vec (t_n t)) (vec (t_n t)) (vec (t_n t)) (vec (t_n t)) t) nm = Ok y.
Proof.
  unfold generated_chrono. intros E Hn.
  destruct (t_load_conf junk (new_class r) conf true) as [t| |]; cbn [bind] in E; try discriminate.
  destruct (timed_blocks _ _ _ _ _ timed) as [[j x]| |] eqn:B; cbn [bind] in E; try discriminate.
  exists t. split; [reflexivity|]. intros nm H. apply in_map_iff in H. destruct H as ([lbl nm'] & <- & H).
  destruct (blocks_called _ _ _ _ _ _ _ B Hn _ _ H) as [y Hy]. cbn [snd]. unfold t_timed in Hy.
  destruct (t_get r _ nm') as [m| |]; cbn [bind] in Hy; try discriminate. eauto.
Qed.

Lemma main_called clock n vec files : forall i log, chrono_main clock n vec i files = Ok log -> 0 < n -> forall name cfg, In (name, cfg) files ->
  exists r s1 c1 s2 c2 s3 c3 s c4, robot_from_file name cfg true = Ok r /\ let v := vec (numJoints r) in
  set_q r v = Ok (s1, c1) /\ set_dq s1 v = Ok (s2, c2) /\ set_dqr s2 v = Ok (s3, c3) /\ set_ddqr s3 v = Ok (s, c4) /\
  forall nm, In nm ["T_0_ee"; "J_ee"; "M"; "C"; "C_std"; "G"; "Yr"] -> exists y, get s nm = Ok y.
Proof.
  induction files as [|[nm c] files IH]; intros i log E Hn name cfg Hi; [destruct Hi|]. cbn [chrono_main] in E.
  destruct (chrono_one clock n vec i nm c) as [[j l]| |] eqn:O; cbn [bind] in E; try discriminate.
  destruct (chrono_main clock n vec j files) as [rest| |] eqn:M; cbn [bind] in E; try discriminate.
  destruct Hi as [Hi|Hi]; [|eapply IH; eauto]. injection Hi as -> ->.
  destruct (chrono_called _ _ _ _ _ _ _ O Hn) as (r & s & L & C & G). unfold chrono_state in C.
  destruct (set_q r _) as [[s1 c1]| |] eqn:E1; cbn [bind] in C; try discriminate.
  destruct (set_dq s1 _) as [[s2 c2]| |] eqn:E2; cbn [bind] in C; try discriminate.
  destruct (set_dqr s2 _) as [[s3 c3]| |] eqn:E3; cbn [bind] in C; try discriminate.
  destruct (set_ddqr s3 _) as [[s4 c4]| |] eqn:E4; cbn [bind] in C; try discriminate.
  injection C as ->. exists r, s1, c1, s2, c2, s3, c3, s, c4. cbv zeta. rewrite E1, E2, E3, E4. repeat (split; [first [exact L | reflexivity]|]). exact G.
Qed.
