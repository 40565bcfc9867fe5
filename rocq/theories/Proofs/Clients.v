(* The shipped test programs. *)
From Coq Require Import Reals List String Arith ZArith Bool Lia Lra.
From Verif.Model Require Import Base Expr SX Robot Yaml Inertia Build Template Clients.
From Verif.Spec Require Import Math Setup Kinematics Dynamics Regressor Api State Template Config Clients.
From Verif.Proofs Require Import Maps Pure Names Shape Load Final Get Sample Api State StateSess RegMain MainFiles HeaderToy InertiaConv TSetters TFiles TSync TFacts TLoad TGet.
Import ListNotations.
Open Scope nat_scope.
Open Scope string_scope.

(* ---- matrices ---- *)
Lemma fold_rsum f n : forall a, fold_left (fun s k => (s + f k)%R) (seq 0 n) a = (a + rsum n f)%R.
Proof. induction n; intros a; [simpl; lra|]. rewrite seq_S, fold_left_app, IHn. simpl. lra. Qed.
Lemma mmul_col A v : m_cols A = List.length v ->
  exists B, mmul A (column v) = Ok B /\ m_rows B = m_rows A /\ m_cols B = 1 /\ forall i, m_val B i 0 = rmv (List.length v) (m_val A) (fun k => nth k v 0%R) i.
Proof.
  intros E. unfold mmul. cbn [column m_rows m_cols m_val]. rewrite E, Nat.eqb_refl. eexists. split; [reflexivity|]. cbn [m_rows m_cols m_val].
  split; [reflexivity|]. split; [reflexivity|]. intros i. rewrite (fold_rsum (fun k => m_val A i k * nth k v 0)%R). unfold rmv. lra.
Qed.
Lemma mzip_ok f A B r c : m_rows A = r -> m_rows B = r -> m_cols A = c -> m_cols B = c ->
  mzip f A B = Ok (mkMat r c (fun i j => f (m_val A i j) (m_val B i j))).
Proof. intros E1 E2 E3 E4. unfold mzip. rewrite E1, E2, E3, E4, !Nat.eqb_refl. reflexivity. Qed.
Lemma tau_error_ok M C G Yr n p ddqr dqr reg :
  m_rows M = n -> m_cols M = n -> m_rows C = n -> m_cols C = n -> m_rows G = n -> m_cols G = 1 -> m_rows Yr = n -> m_cols Yr = p ->
  List.length ddqr = n -> List.length dqr = n -> List.length reg = p ->
  exists e, tau_error M C G Yr ddqr dqr reg = Ok e /\ m_rows e = n /\ m_cols e = 1 /\ forall i,
    m_val e i 0 = (rmv n (m_val M) (fun k => nth k ddqr 0) i + rmv n (m_val C) (fun k => nth k dqr 0) i + m_val G i 0
      - rmv p (m_val Yr) (fun k => nth k reg 0) i)%R.
Proof.
  intros M1 M2 C1 C2 G1 G2 Y1 Y2 L1 L2 L3. unfold tau_error.
  destruct (mmul_col M ddqr ltac:(congruence)) as (a & -> & A1 & A2 & A3). cbn [bind].
  destruct (mmul_col C dqr ltac:(congruence)) as (b & -> & B1 & B2 & B3). cbn [bind].
  unfold madd. rewrite (mzip_ok Rplus a b n 1) by congruence. cbn [bind].
  rewrite (mzip_ok Rplus _ G n 1) by (auto; reflexivity). cbn [bind].
  destruct (mmul_col Yr reg ltac:(congruence)) as (y & -> & Y3 & Y4 & Y5). cbn [bind].
  unfold msub. rewrite (mzip_ok Rminus _ y n 1) by (auto; try reflexivity; congruence).
  eexists. split; [reflexivity|]. cbn [m_rows m_cols m_val]. split; [reflexivity|]. split; [reflexivity|].
  intros i. rewrite A3, B3, Y5, L1, L2, L3. reflexivity.
Qed.

(* ---- vectors of which some elements may be indeterminate ---- *)
Lemma all_some_map l : all_some (map Some l) = Some l.
Proof. induction l as [|a l IH]; [reflexivity|]. simpl. now rewrite IH. Qed.
Lemma all_some_hole l k : all_some (map Some l ++ repeat None (S k)) = None.
Proof. induction l as [|a l IH]; [reflexivity|]. cbn [map app all_some]. now rewrite IH. Qed.
Lemma read_full n (a : list R) : List.length a = n -> (p <- get_par_sized n a ; read_all p) = Ok a.
Proof.
  intros <-. unfold get_par_sized. rewrite Nat.leb_refl, Nat.sub_diag. cbn [bind repeat]. rewrite app_nil_r. unfold read_all. now rewrite all_some_map.
Qed.

(* ---- the robot's side ---- *)
Section Sess.
  Variables (name : string) (cfg : ynode) (r0 r r' : robot).
  Hypothesis Hs : session name cfg r0 r r'.
  Lemma get_total nm : exists m, get r' nm = Ok m.
  Proof.
    destruct (in_dec string_dec nm (map fst (catalogue r0))) as [I|I].
    - apply in_map_iff in I. destruct I as ([k [rr cc]] & <- & I). destruct (catalogue_answers _ _ _ _ _ Hs _ _ _ I) as (m & E & _). eauto.
    - eexists. apply (unpublished _ _ _ _ _ Hs). intros Hp. apply I. unfold published in Hp. apply in_map_iff in Hp. destruct Hp as (fo & <- & Hf).
      apply in_map_iff. exists (fo_name fo, (fo_rows fo, fo_cols fo)). split; [reflexivity|]. apply (catalogue_published _ _ _ _ _ Hs). eauto.
  Qed.
  Lemma show_total l : exists s, show r' l = Ok s /\ map fst s = map fst l /\
    forall i lbl nm, nth_error l i = Some (lbl, nm) -> exists m, get r' nm = Ok m /\ nth_error s i = Some (lbl, m).
  Proof.
    induction l as [|[lbl nm] l (s & E & F & H)].
    - exists []. split; [reflexivity|]. split; [reflexivity|]. intros [|i]; discriminate.
    - destruct (get_total nm) as [m G]. exists ((lbl, m) :: s). cbn [show]. rewrite G. cbn [bind]. rewrite E. cbn [bind]. split; [reflexivity|].
      split; [cbn; now rewrite F|]. intros [|i] lb n0 Hn; [|apply H; exact Hn]. cbn in Hn. injection Hn as <- <-. exists m. auto.
  Qed.
  Lemma sess_cols nm rr cc : In (nm, (rr, cc)) (catalogue r0) -> exists m, get r' nm = Ok m /\ m_rows m = rr /\ m_cols m = cc /\ m_val m = out r' nm.
  Proof.
    intros I. destruct (catalogue_answers _ _ _ _ _ Hs _ _ _ I) as (m & E & A & B). exists m. repeat (split; [assumption|]).
    unfold out. now rewrite E.
  Qed.
  Lemma sess_DYN : List.length (arg r "par_DYN") = symbolic r0 "par_DYN".
  Proof.
    pose proof (fresh_session _ _ _ _ (se_load _ _ _ _ _ Hs) (se_wf _ _ _ _ _ Hs) (se_build _ _ _ _ _ Hs)) as F.
    apply (se_par _ _ _ _ _ F "par_DYN" (10 * numJoints r0)). unfold par_sizes. rewrite !in_app_iff. simpl; tauto.
  Qed.
End Sess.
Lemma cat_dyn r0 : let n := numJoints r0 in
  In ("M", (n, n)) (catalogue r0) /\ In ("C", (n, n)) (catalogue r0) /\ In ("G", (n, 1)) (catalogue r0) /\ In ("Yr", (n, 10 * n)) (catalogue r0).
Proof. cbv zeta. unfold catalogue. cbv zeta. rewrite !in_app_iff. cbn [In]. repeat split; tauto. Qed.

(* the description of the links does not depend on the state *)
Lemma describes_at r0 r r' th : arg r' "par_DYN" = arg r "par_DYN" -> describes r0 r th -> describes r0 r' th.
Proof.
  intros E. unfold describes, origin_inertia, inertia, com_of, mass, dyn, param. now rewrite E.
Qed.
Lemma describes_links name cfg r0 r r' G : session name cfg r0 r r' -> arg r' "par_DYN" = arg r "par_DYN" ->
  same_links (numJoints r0) (arg r0 "par_DYN") G -> describes r0 r' (fun i => nth i G 0%R).
Proof.
  intros H E S.
  pose proof (fresh_session _ _ _ _ (se_load _ _ _ _ _ H) (se_wf _ _ _ _ _ H) (se_build _ _ _ _ _ H)) as F.
  apply (describes_at r0 r r'); [exact E|]. destruct (loaded_sync _ _ _ (se_load _ _ _ _ _ H)) as (_ & _ & S0).
  pose proof (built_describes _ _ _ _ _ F) as B. rewrite (built_REG _ _ _ _ _ H) in B.
  intros i Hi. specialize (B i Hi). cbv zeta in *.
  destruct (S (i - 1) ltac:(lia)) as (A1 & A2 & A3). destruct (S0 (i - 1) ltac:(lia)) as (B1 & B2 & B3). unfold link_of in *. unfold get_arg in *.
  assert (T : forall a b, a < 3 -> b < 3 -> tensor (fun c => nth (10 * (i - 1) + c) G 0%R) a b = tensor (fun c => nth (10 * (i - 1) + c) (arg r0 "par_REG") 0%R) a b)
    by (intros a b Ha Hb; rewrite A3, B3 by auto; reflexivity).
  destruct B as (C1 & C2 & C4 & C5 & C6 & C7 & C8 & C9).
  split; [rewrite A1, <- B1; exact C1|]. split; [intros a Ha; rewrite (A2 a Ha), <- (B2 a Ha); apply C2; exact Ha|].
  rewrite <- C4, <- C5, <- C6, <- C7, <- C8, <- C9.
  exact (conj (T 0 0 ltac:(lia) ltac:(lia)) (conj (T 0 1 ltac:(lia) ltac:(lia)) (conj (T 0 2 ltac:(lia) ltac:(lia)) (conj (T 1 1 ltac:(lia) ltac:(lia)) (conj (T 1 2 ltac:(lia) ltac:(lia)) (T 2 2 ltac:(lia) ltac:(lia))))))).
Qed.

(* ---- without an elastic model there are no motor variables ---- *)
Definition motor_key (k : string) : Prop := In k ["x"; "dx"; "ddx"; "ddxr"].
Lemma new_robot_rigid name cfg r k : new_robot name cfg = Ok r -> ELASTIC r = false -> motor_key k ->
  ~ In k (map fst (symb r)) /\ arg r k = [].
Proof.
  unfold new_robot. destruct (parse_config name cfg) as [r1| | |] eqn:E; try discriminate.
  apply parse_inv in E. destruct E. unfold initVarsFuns. rewrite pa_jt, Nat.eqb_refl. cbn [negb].
  intros H; inversion H; subst r; clear H. cbn [ELASTIC with_symb with_args with_model]. intros EL Hk. split.
  - destruct pa_symb as (sG & sE & sW & sDH & sMm & sDm & sD & sK & sDl & sDYN & Hs & _).
    cbn [symb with_symb]. unfold ins_symb. intros Hi. apply In_ins in Hi. rewrite map_map in Hi. unfold os in Hi; cbn [fst] in Hi.
    rewrite Hs in Hi. unfold init_vars_list, init_ela_vars in Hi. rewrite EL in Hi.
    unfold motor_key in Hk. cbn [In] in Hk. decompose [or] Hk; try contradiction; subst k;
    vm_compute in Hi; decompose [or] Hi; clear Hi; try contradiction; discriminate.
  - destruct pa_args as (g & w & e & dh & Ha & _).
    unfold arg, mget. cbn [args with_symb with_args with_model numJoints]. unfold ins_args. rewrite mfind_ins.
    rewrite Ha. unfold zs. rewrite (mfind_map (fun _ => repeat 0%R)).
    unfold init_vars_list, init_ela_vars, init_pars. rewrite EL.
    unfold motor_key in Hk. cbn [In] in Hk.
    destruct (Nat.ltb 0 (Dl_order r1)); decompose [or] Hk; try contradiction; subst k; reflexivity.
Qed.
Lemma set_pars_motor r s k : motor_key k -> arg (set_pars r s) k = arg r k.
Proof.
  intros Hk. unfold set_pars, arg. cbn [args with_args].
  unfold motor_key in Hk. cbn [In] in Hk. decompose [or] Hk; try contradiction; subst k;
  repeat match goal with |- context [if ?b then mset _ _ _ else _] => destruct b end;
  repeat (rewrite mget_mset_ne by discriminate); reflexivity.
Qed.
Lemma file_rigid name cfg r0 k : robot_from_file name cfg false = Ok r0 -> ELASTIC r0 = false -> motor_key k ->
  ~ In k (map fst (symb r0)) /\ arg r0 k = [].
Proof.
  unfold robot_from_file. destruct (new_robot name cfg) as [r1| |] eqn:E; cbn [bind]; try discriminate.
  destruct (load_conf_par r1 cfg true) as [r2| |] eqn:E2; cbn [bind]; try discriminate.
  intros H EL Hk. inversion H; subst r2. clear H.
  pose proof (load_conf_argsonly _ _ _ _ E2) as Q. unfold argsonly in Q.
  assert (EL1 : ELASTIC r1 = false) by (rewrite Q in EL; exact EL).
  destruct (new_robot_rigid _ _ _ k E EL1 Hk) as [A B]. split; [rewrite Q; exact A|]. rewrite <- B.
  unfold load_conf_par in E2.
  assert (G : forall s, StateSess.ends (load_conf_tree r1 cfg) s -> update_inertial_REG (set_pars r1 s) = Ok r0 -> arg r0 k = arg r1 k).
  { intros s Hs Hu. destruct (to_REG (set_pars r1 s)) as (r3 & E3 & [_ C] & _ & _).
    - rewrite set_pars_DYN. exact (load_tree_len _ _ _ Hs).
    - rewrite set_pars_REG. exact (new_robot_REG _ _ _ E).
    - assert (r3 = r0) by congruence. subst r3. change (get_arg r0 k = arg r1 k). rewrite C; [apply set_pars_motor; exact Hk|].
      intros ->. unfold motor_key in Hk. cbn in Hk. decompose [or] Hk; try contradiction; discriminate. }
  destruct (load_conf_tree r1 cfg) as [s|s|] eqn:ET; [| |discriminate]; apply (G s); unfold StateSess.ends; auto.
Qed.
Lemma built_rigid name cfg r0 r r' k : session name cfg r0 r r' -> ELASTIC r0 = false -> motor_key k -> arg r k = [].
Proof.
  intros H EL Hk. destruct (session_built _ _ _ _ _ H) as [b B].
  destruct (file_rigid _ _ _ k (se_load _ _ _ _ _ H) EL Hk) as [N A].
  destruct (bt_other _ _ _ B k N) as [[_ E]|X]; [congruence|].
  exfalso. apply X. unfold motor_key in Hk. unfold arg_keys. cbn [In] in *. tauto.
Qed.

(* ---- the setters, in a row ---- *)
Lemma session_step name cfg r0 r r' k n v : session name cfg r0 r r' -> List.length (arg r' k) = n -> List.length v = n ->
  exists r1, set_sized k n r' v = Ok (r1, 1) /\ session name cfg r0 r r1 /\ arg r1 k = v /\ forall k', k' <> k -> arg r1 k' = arg r' k'.
Proof.
  intros H E V. destruct (set_sized_ok k n r' v E V) as (r1 & E1 & E2 & A & C). exists r1. split; [exact E1|].
  assert (X : forall k', List.length (arg r1 k') = List.length (arg r' k')).
  { intros k'. destruct (string_dec k' k) as [->|N]; [change (arg r1 k) with (get_arg r1 k); rewrite E2; congruence|]. f_equal. apply C, N. }
  split; [|split; [exact E2|exact C]].
  destruct H as [L W B Ar St P]. constructor; auto.
  - rewrite A at 1. rewrite Ar at 1. reflexivity.
  - intros k' len Hk. rewrite X. auto.
  - intros k' len Hk. rewrite X. eauto.
Qed.
Lemma session_nums name cfg r0 r r' : session name cfg r0 r r' -> numJoints r' = numJoints r0 /\ numElasticJoints r' = numElasticJoints r0 /\
  ELASTIC r' = ELASTIC r0 /\ Dl_order r' = Dl_order r0.
Proof.
  intros H. destruct (session_rest _ _ _ _ _ H) as (_ & A & B & C & _ & _ & _ & _ & D & _). rewrite (se_args _ _ _ _ _ H).
  cbn [numJoints numElasticJoints ELASTIC Dl_order with_args]. auto.
Qed.
Lemma motor_len name cfg r0 r r' k : session name cfg r0 r r' -> has_motors r0 -> In k ["x"; "dx"; "ddx"] -> arg r' k = arg r k ->
  List.length (arg r' k) = numElasticJoints r0.
Proof.
  intros H [E|E] Hk Ea.
  - apply (se_state _ _ _ _ _ H). unfold state_sizes. rewrite E, in_app_iff. right. cbn in *. intuition (subst; auto).
  - destruct (ELASTIC r0) eqn:EL.
    + apply (se_state _ _ _ _ _ H). unfold state_sizes. rewrite EL, in_app_iff. right. cbn in *. intuition (subst; auto).
    + rewrite Ea, (built_rigid _ _ _ _ _ k H EL); [now rewrite E|]. unfold motor_key. cbn in *. tauto.
Qed.
Theorem test_state_ok name cfg r0 r q dq dqr ddqr x dx ddx : session name cfg r0 r r -> has_motors r0 ->
  (forall v, In v [q; dq; dqr; ddqr] -> List.length v = numJoints r0) -> (forall v, In v [x; dx; ddx] -> List.length v = numElasticJoints r0) ->
  exists r', test_state q dq dqr ddqr x dx ddx r = Ok r' /\ session name cfg r0 r r' /\
    map (arg r') test_keys = [q; dq; dqr; ddqr; x; dx; ddx] /\ forall k, ~ In k test_keys -> arg r' k = arg r k.
Proof.
  intros S HM Hn He.
  assert (SL : forall r' k, session name cfg r0 r r' -> In k ["q"; "dq"; "dqr"; "ddqr"] -> List.length (arg r' k) = numJoints r0).
  { intros r' k H Hk. apply (se_state _ _ _ _ _ H). unfold state_sizes. rewrite in_app_iff. left. cbn in *. intuition (subst; auto). }
  assert (N : forall r', session name cfg r0 r r' -> numJoints r' = numJoints r0 /\ numElasticJoints r' = numElasticJoints r0)
    by (intros r' H; destruct (session_nums _ _ _ _ _ H) as (A & B & _); auto).
  unfold test_state.
  destruct (N r S) as [N1 N2]. unfold set_q. rewrite N1.
  destruct (session_step _ _ _ _ r "q" _ q S (SL r "q" S ltac:(cbn; auto)) (Hn q ltac:(cbn; auto))) as (r1 & -> & S1 & V1 & O1). cbn [bind].
  destruct (N r1 S1) as [N3 N4]. unfold set_dq. rewrite N3.
  destruct (session_step _ _ _ _ r1 "dq" _ dq S1 (SL r1 "dq" S1 ltac:(cbn; auto)) (Hn dq ltac:(cbn; auto))) as (r2 & -> & S2 & V2 & O2). cbn [bind].
  destruct (N r2 S2) as [N5 N6]. unfold set_dqr. rewrite N5.
  destruct (session_step _ _ _ _ r2 "dqr" _ dqr S2 (SL r2 "dqr" S2 ltac:(cbn; auto)) (Hn dqr ltac:(cbn; auto))) as (r3 & -> & S3 & V3 & O3). cbn [bind].
  destruct (N r3 S3) as [N7 N8]. unfold set_ddqr. rewrite N7.
  destruct (session_step _ _ _ _ r3 "ddqr" _ ddqr S3 (SL r3 "ddqr" S3 ltac:(cbn; auto)) (Hn ddqr ltac:(cbn; auto))) as (r4 & -> & S4 & V4 & O4). cbn [bind].
  destruct (N r4 S4) as [N9 N10]. unfold set_x. rewrite N10.
  assert (X1 : arg r4 "x" = arg r "x") by (rewrite O4, O3, O2, O1 by discriminate; reflexivity).
  destruct (session_step _ _ _ _ r4 "x" _ x S4 (motor_len _ _ _ _ _ "x" S4 HM ltac:(cbn; auto) X1) (He x ltac:(cbn; auto))) as (r5 & -> & S5 & V5 & O5). cbn [bind].
  destruct (N r5 S5) as [N11 N12]. unfold set_dx. rewrite N12.
  assert (X2 : arg r5 "dx" = arg r "dx") by (rewrite O5, O4, O3, O2, O1 by discriminate; reflexivity).
  destruct (session_step _ _ _ _ r5 "dx" _ dx S5 (motor_len _ _ _ _ _ "dx" S5 HM ltac:(cbn; auto) X2) (He dx ltac:(cbn; auto))) as (r6 & -> & S6 & V6 & O6). cbn [bind].
  destruct (N r6 S6) as [N13 N14]. unfold set_ddx. rewrite N14.
  assert (X3 : arg r6 "ddx" = arg r "ddx") by (rewrite O6, O5, O4, O3, O2, O1 by discriminate; reflexivity).
  destruct (session_step _ _ _ _ r6 "ddx" _ ddx S6 (motor_len _ _ _ _ _ "ddx" S6 HM ltac:(cbn; auto) X3) (He ddx ltac:(cbn; auto))) as (r7 & -> & S7 & V7 & O7). cbn [bind].
  exists r7. split; [reflexivity|]. split; [exact S7|]. split.
  - cbn [map test_keys]. rewrite V7.
    rewrite (O7 "dx"), V6 by discriminate. rewrite (O7 "x"), (O6 "x"), V5 by discriminate.
    rewrite (O7 "ddqr"), (O6 "ddqr"), (O5 "ddqr"), V4 by discriminate.
    rewrite (O7 "dqr"), (O6 "dqr"), (O5 "dqr"), (O4 "dqr"), V3 by discriminate.
    rewrite (O7 "dq"), (O6 "dq"), (O5 "dq"), (O4 "dq"), (O3 "dq"), V2 by discriminate.
    rewrite (O7 "q"), (O6 "q"), (O5 "q"), (O4 "q"), (O3 "q"), (O2 "q"), V1 by discriminate. reflexivity.
  - intros k Hk. cbn [test_keys In] in Hk.
    rewrite O7, O6, O5, O4, O3, O2, O1 by (intros ->; tauto). reflexivity.
Qed.

(* ---- thunder_test.cpp ---- *)
Theorem robot_test_ok name cfg r0 r q dq dqr ddqr x dx ddx : session name cfg r0 r r -> exact_angles r0 ->
  symbolic r0 "par_DYN" = 10 * numJoints r0 -> has_motors r0 ->
  (forall v, In v [q; dq; dqr; ddqr] -> List.length v = numJoints r0) -> (forall v, In v [x; dx; ddx] -> List.length v = numElasticJoints r0) ->
  exists r' first shown err, session name cfg r0 r r' /\
    map (arg r') test_keys = [q; dq; dqr; ddqr; x; dx; ddx] /\ (forall k, ~ In k test_keys -> arg r' k = arg r k) /\
    robot_test name cfg q dq dqr ddqr x dx ddx = Ok (first ++ shown ++ [("err_dyn_reg", err)])%list /\
    map fst first = ["par_DHtable"; "par_DYN"; "par_REG"; "par_Dl"; "par_K"; "par_D"; "par_Dm"; "par_Mm"] /\
    (exists m, nth_error first 0 = Some ("par_DHtable", m) /\ m_rows m = 1 /\ m_cols m = 1 /\ m_val m 0 0 = 0%R) /\
    (forall k m, In (k, m) first -> k <> "par_DHtable" -> m = mtranspose (column (arg r k))) /\
    map fst shown = map fst (test_prints r0) /\
    (forall i lbl nm, nth_error (test_prints r0) i = Some (lbl, nm) -> exists m, get r' nm = Ok m /\ nth_error shown i = Some (lbl, m)) /\
    zero_vector (numJoints r0) err.
Proof.
  intros S HX HD HM Hn He.
  destruct (test_state_ok _ _ _ _ q dq dqr ddqr x dx ddx S HM Hn He) as (r' & ET & S' & EV & EO).
  destruct (session_nums _ _ _ _ _ S) as (N1 & _). destruct (session_nums _ _ _ _ _ S') as (_ & _ & N3 & N4).
  destruct (show_total _ _ _ _ _ S' (test_prints r0)) as (shown & ES & FS & HS).
  destruct (cat_dyn r0) as (KM & KC & KG & KY). cbv zeta in *.
  destruct (sess_cols _ _ _ _ _ S' _ _ _ KM) as (M & EM & M1 & M2 & M3).
  destruct (sess_cols _ _ _ _ _ S' _ _ _ KC) as (C & EC & C1 & C2 & C3).
  destruct (sess_cols _ _ _ _ _ S' _ _ _ KG) as (G & EG & G1 & G2 & G3).
  destruct (sess_cols _ _ _ _ _ S' _ _ _ KY) as (Yr & EY & Y1 & Y2 & Y3).
  destruct (get_total _ _ _ _ _ S' "reg_M") as [m1 E1]. destruct (get_total _ _ _ _ _ S' "reg_C") as [m2 E2]. destruct (get_total _ _ _ _ _ S' "reg_G") as [m3 E3].
  assert (LD : List.length (arg r "par_DYN") = 10 * numJoints r0) by (rewrite (sess_DYN _ _ _ _ _ S); exact HD).
  assert (LR : List.length (arg r "par_REG") = 10 * numJoints r0) by (pose proof (sess_REG _ _ _ _ _ S) as Q; unfold get_arg in Q; rewrite Q; congruence).
  destruct (tau_error_ok M C G Yr (numJoints r0) (10 * numJoints r0) ddqr dqr (arg r "par_REG")) as (e & Ee & e1 & e2 & e3); auto using in_eq, in_cons.
  assert (EH : get r "par_DHtable" = Ok (mkMat 1 1 (fun _ _ => 0%R))).
  { apply (unpublished _ _ _ _ _ S). intros Hp. destruct (session_built _ _ _ _ _ S) as [b B].
    apply (proj1 (published_iff _ _ _ B _)) in Hp. destruct Hp as (f & _ & Q). symmetry in Q. revert Q. apply name_not_arg. unfold arg_keys. cbn [In]. tauto. }
  exists r'. eexists. exists shown, e. split; [exact S'|]. split; [exact EV|]. split; [exact EO|]. split.
  { unfold robot_test. rewrite (se_build _ _ _ _ _ S). cbn [bind].
    unfold get_par_REG, get_par_DYN, get_par_sized, STD_PAR_LINK. rewrite N1, LR, LD, Nat.leb_refl, Nat.sub_diag. cbn [bind repeat]. rewrite !app_nil_r.
    rewrite EH. cbn [bind]. unfold read_all. rewrite !all_some_map. cbn [bind]. cbv zeta. rewrite ET. cbn [bind].
    replace (test_block1 ++ test_friction r' ++ test_elastic r')%list with (test_prints r0) by (unfold test_prints, test_friction, test_elastic, test_block1; now rewrite N3, N4).
    rewrite ES. cbn [bind]. rewrite EM. cbn [bind]. rewrite EC. cbn [bind]. rewrite EG. cbn [bind]. rewrite EY. cbn [bind].
    rewrite E1. cbn [bind]. rewrite E2. cbn [bind]. rewrite E3. cbn [bind]. rewrite Ee. cbn [bind].
    rewrite app_assoc. reflexivity. }
  split; [reflexivity|]. split; [eexists; split; [reflexivity|]; cbn; auto|]. split.
  { intros k m Hk Nk. cbn [app map In] in Hk. unfold get_arg in Hk. decompose [or] Hk; try contradiction; match goal with E : (_, _) = (_, _) |- _ => injection E as <- <- end; try reflexivity. now destruct Nk. }
  split; [exact FS|]. split; [exact HS|]. split; [exact e1|]. split; [exact e2|].
  intros i Hi. rewrite e3, M3, C3, G3, Y3.
  assert (D : describes r0 r' (fun i => nth i (arg r "par_REG") 0%R)).
  { apply (describes_at r0 r r'); [apply EO; cbn; intuition discriminate|]. exact (built_describes _ _ _ _ _ S). }
  pose proof (Yr_id name cfg r0 r r' S' _ D HX i Hi) as Q. rewrite Q.
  cbn [map test_keys] in EV. injection EV as _ _ V3 V4 _ _ _. unfold state. rewrite V3, V4. lra.
Qed.
(* with a numeric inertial parameter the program prints numbers nobody wrote *)
Theorem robot_test_numeric name cfg r0 r q dq dqr ddqr x dx ddx : session name cfg r0 r r -> symbolic r0 "par_DYN" < 10 * numJoints r0 ->
  robot_test name cfg q dq dqr ddqr x dx ddx = UB "indeterminate value".
Proof.
  intros S HD. destruct (session_nums _ _ _ _ _ S) as (N1 & _).
  assert (LD : List.length (arg r "par_DYN") = symbolic r0 "par_DYN") by apply (sess_DYN _ _ _ _ _ S).
  assert (LR : List.length (arg r "par_REG") = 10 * numJoints r0) by (pose proof (sess_REG _ _ _ _ _ S) as Q; unfold get_arg in Q; rewrite Q; congruence).
  unfold robot_test. rewrite (se_build _ _ _ _ _ S). cbn [bind].
  unfold get_par_REG, get_par_DYN, get_par_sized, STD_PAR_LINK. rewrite N1, LR, Nat.leb_refl, Nat.sub_diag. cbn [bind repeat]. rewrite app_nil_r.
  assert (L : Nat.leb (List.length (arg r "par_DYN")) (10 * numJoints r0) = true) by (apply Nat.leb_le; lia). rewrite L. cbn [bind].
  destruct (get_total _ _ _ _ _ S "par_DHtable") as [m ->]. cbn [bind].
  destruct (10 * numJoints r0 - List.length (arg r "par_DYN")) eqn:Z; [lia|]. unfold read_all. rewrite all_some_hole. reflexivity.
Qed.
(* series elastic joints without an elastic model: the motor setters raise *)
Theorem motor_set_raises name cfg r0 r v : session name cfg r0 r r -> ELASTIC r0 = false -> List.length v = numElasticJoints r0 -> 0 < List.length v ->
  set_x r v = Throw "casadi: index out of range" /\ set_dx r v = Throw "casadi: index out of range" /\
  set_ddx r v = Throw "casadi: index out of range" /\ set_ddxr r v = Throw "casadi: index out of range".
Proof.
  intros S EL L P. destruct (session_nums _ _ _ _ _ S) as (_ & N & _).
  assert (K : forall k, motor_key k -> set_sized k (numElasticJoints r) r v = Throw "casadi: index out of range").
  { intros k Hk. unfold set_sized. rewrite N, L, Nat.eqb_refl, touch_arg, (built_rigid _ _ _ _ _ k S EL Hk).
    rewrite assign_short; [reflexivity|cbn; lia|cbn; lia]. }
  unfold set_x, set_dx, set_ddx, set_ddxr. rewrite !K by (unfold motor_key; cbn; tauto). auto.
Qed.

(* ---- thunder_robot_test.cpp ---- *)
Lemma member_tput k v t k' : member (tput k v t) k' = if String.eqb k k' then v else member t k'.
Proof.
  unfold member, tput, with_val. cbn [t_val]. destruct (String.eqb_spec k k') as [->|N]; [apply mget_mset|apply mget_mset_ne; congruence].
Qed.
Lemma args_run q dq dqr ddqr t : (forall v, In v [q; dq; dqr; ddqr] -> List.length v = t_n t) ->
  t_setArguments q dq dqr ddqr t =
  t_run [(mkTS "q" t_n t_set_q, q); (mkTS "dq" t_n t_set_dq, dq); (mkTS "dqr" t_n t_set_dqr, dqr); (mkTS "ddqr" t_n t_set_ddqr, ddqr)] t.
Proof.
  intros H. unfold t_setArguments, t_run. cbn [fold_left fst snd ts_call].
  unfold t_set_q, t_set_dq, t_set_dqr, t_set_ddqr, tstore, tput, with_val. cbn [t_n].
  rewrite !H by (cbn; tauto). rewrite !Nat.eqb_refl. cbn [andb t_n]. rewrite ?Nat.eqb_refl. cbn [t_n]. rewrite ?Nat.eqb_refl. reflexivity.
Qed.
Theorem generated_test_ok junk name cfg r0 r q dq dqr ddqr : session name cfg r0 r r -> exact_angles r0 ->
  complete_links inertial_keys (numJoints r0) cfg ->
  (forall k len, In (k, len) (par_sizes r0) -> ~ In k compacted -> uniform (flags r0 k)) ->
  (forall v, In v [q; dq; dqr; ddqr] -> List.length v = numJoints r0) ->
  exists r' log, session name cfg r0 r r' /\ map (arg r') ["q"; "dq"; "dqr"; "ddqr"] = [q; dq; dqr; ddqr] /\
    (forall k len, In (k, len) (par_sizes r0) -> arg r' k = arg r k) /\
    generated_test junk r (Some cfg) q dq dqr ddqr = Ok log /\
    (forall lbl nm, In (lbl, nm) generated_prints ->
       exists m, In (lbl, m) log /\ get r' nm = Ok m) /\
    In ("par_DYN", mtranspose (column (arg r0 "par_DYN"))) log /\
    exists e, In ("diff tau_cmd", e) log /\ zero_vector (numJoints r0) e.
Proof.
  intros S HX Hc Hu Hn.
  destruct (load_conf_agrees junk name cfg r0 true (se_load _ _ _ _ _ S) (se_wf _ _ _ _ _ S) Hc) as (t & E & Hs & Hk & Hp & Hq).
  pose proof E as E'. rewrite <- (new_class_eq _ _ _ _ _ S) in E'.
  assert (Y : t_sync t).
  { apply (history_sync junk r0 [CLoadConf (Some cfg) true]); [|cbn [t_do_all t_do]; rewrite E; reflexivity].
    intros c [<-|[]]. split; [reflexivity|]. intros c Ec. injection Ec as <-. exact Hc. }
  destruct (same_class_ne _ _ Hk) as [T1 T2]. cbn [new_class t_n t_e] in T1, T2.
  assert (Hn' : forall v, In v [q; dq; dqr; ddqr] -> List.length v = t_n t) by (rewrite T1; exact Hn).
  set (h := [(mkTS "q" t_n t_set_q, q); (mkTS "dq" t_n t_set_dq, dq); (mkTS "dqr" t_n t_set_dqr, dqr); (mkTS "ddqr" t_n t_set_ddqr, ddqr)]).
  assert (Hh : forall c, In c h -> In (fst c) tsetters) by (intros c Hi; cbn in Hi; decompose [or] Hi; try contradiction; subst c; cbn; tauto).
  destruct (run_kept h Hh (new_class r0) t (conj Hs Hk)) as [K1 K2].
  set (t1 := t_setArguments q dq dqr ddqr t). assert (Et : t1 = t_run h t) by (apply args_run; exact Hn'). rewrite <- Et in K1, K2.
  assert (M1 : forall k, member t1 k = if String.eqb "ddqr" k then ddqr else if String.eqb "dqr" k then dqr else if String.eqb "dq" k then dq else if String.eqb "q" k then q else member t k).
  { intros k. unfold t1, t_setArguments. rewrite !Hn' by (cbn; tauto). rewrite Nat.eqb_refl. cbn [andb]. now rewrite !member_tput. }
  assert (Lt : forall k len, In (k, len) (state_sizes r0) -> List.length (member t1 k) = len).
  { intros k len Hi. apply K1.
    - destruct K2 as [Q1 Q2]. cbn [new_class t_n t_e t_K t_D t_Dl t_Dm t_name t_ela] in Q1, Q2. injection Q1 as _ -> -> _. injection Q2 as -> -> -> ->.
      unfold state_sizes in Hi. apply in_app_iff in Hi. unfold member_sizes. destruct Hi as [Hi|Hi]; [cbn [In] in *; tauto|].
      destruct (ELASTIC r0); [|destruct Hi]. cbn [In] in *. tauto.
    - intros Hcm. cbn [compacted In] in Hcm.
      exfalso. clear - Hi Hcm. unfold state_sizes in Hi. destruct (ELASTIC r0); cbn [app In] in Hi;
      decompose [or] Hcm; try contradiction; subst k; decompose [or] Hi; try contradiction; discriminate. }
  set (A := fun k => if is_state r0 k then member t1 k else arg r k).
  destruct (session_any name cfg r0 r A (se_load _ _ _ _ _ S) (se_wf _ _ _ _ _ S) (se_build _ _ _ _ _ S)) as [S' HA].
  { intros k len Hi. unfold A. rewrite (state_is _ _ _ Hi). auto. }
  { intros k len Hi. unfold A. rewrite (par_not_state _ _ _ Hi). exact (se_par _ _ _ _ _ S k len Hi). }
  set (r' := with_args r (argmap r0 A)) in *. clearbody r'.
  assert (AS : forall k len, In (k, len) (state_sizes r0) -> arg r' k = member t1 k).
  { intros k len Hi. rewrite (HA k len) by (unfold keys; apply in_app_iff; left; exact Hi). unfold A. now rewrite (state_is _ _ _ Hi). }
  assert (AP : forall k len, In (k, len) (par_sizes r0) -> arg r' k = arg r k).
  { intros k len Hi. rewrite (HA k len) by (unfold keys; apply in_app_iff; right; exact Hi). unfold A. now rewrite (par_not_state _ _ _ Hi). }
  assert (MP : forall k len, In (k, len) (par_sizes r0) -> member t1 k = member t k).
  { intros k len Hi. rewrite M1. pose proof (par_not_state _ _ _ Hi) as P.
    assert (NK : forall k0, In k0 ["q"; "dq"; "dqr"; "ddqr"] -> String.eqb k0 k = false).
    { intros k0 Hk0. destruct (String.eqb_spec k0 k) as [->|]; [|reflexivity]. exfalso. assert (is_state r0 k = true); [|congruence].
      apply (state_is r0 k (numJoints r0)). unfold state_sizes. apply in_app_iff. left. cbn [In] in *. intuition (subst; auto). }
    now rewrite !NK by (cbn; tauto). }
  assert (GT : forall nm, Api.published r nm -> t_get r t1 nm = get r' nm).
  { apply (getter_reads name cfg r0 r r' t1 S'); auto; [rewrite (new_class_eq _ _ _ _ _ S); exact K2|].
    intros k len Hl. rewrite (AP k len Hl), (MP k len Hl).
    destruct (session_sess _ _ _ _ _ S) as (b & _ & Bt).
    rewrite (bt_arg _ _ _ Bt k len) by (unfold keys; apply in_app_iff; right; exact Hl).
    destruct (in_dec string_dec k compacted) as [C|C]; [symmetry; apply Hp; exact C|].
    rewrite (Hq k len Hl C). symmetry. destruct (wf_sizes _ (se_wf _ _ _ _ _ S) k len Hl). apply uniform_pick; [eapply Hu; eauto|congruence]. }
  assert (GC : forall nm rr cc, In (nm, (rr, cc)) (catalogue r0) -> exists m, t_get r t1 nm = Ok m /\ get r' nm = Ok m /\ m_rows m = rr /\ m_cols m = cc /\ m_val m = out r' nm).
  { intros nm rr cc Hi. destruct (sess_cols _ _ _ _ _ S' _ _ _ Hi) as (m & E1 & E2 & E3 & E4). exists m. rewrite GT; [auto|].
    apply (proj1 (catalogue_published _ _ _ _ _ S)) in Hi. destruct Hi as (fo & Hf & <- & _). unfold published. apply in_map. exact Hf. }
  destruct (cat_dyn r0) as (KM & KC & KG & KY). cbv zeta in *.
  assert (KT : In ("T_0_ee", (4, 4)) (catalogue r0) /\ In ("J_ee", (6, numJoints r0)) (catalogue r0)).
  { unfold catalogue. cbv zeta. rewrite !in_app_iff. cbn [In]. tauto. }
  destruct KT as [KT KJ].
  destruct (GC _ _ _ KT) as (T & ET & ET' & _). destruct (GC _ _ _ KJ) as (J & EJ & EJ' & _).
  destruct (GC _ _ _ KM) as (M & EM & EM' & M2 & M3 & M4). destruct (GC _ _ _ KC) as (C & EC & EC' & C2 & C3 & C4).
  destruct (GC _ _ _ KG) as (G & EG & EG' & G2 & G3 & G4). destruct (GC _ _ _ KY) as (Yr & EY & EY' & Y2 & Y3 & Y4).
  assert (PD : In ("par_DYN", 10 * numJoints r0) (par_sizes r0)) by (unfold par_sizes; rewrite !in_app_iff; cbn [In]; tauto).
  assert (MD : member t1 "par_DYN" = arg r0 "par_DYN").
  { rewrite (MP _ _ PD). apply (Hq _ _ PD). cbn. intuition discriminate. }
  assert (MR : member t1 "par_REG" = member t "par_REG") by (rewrite M1; reflexivity).
  assert (LR : List.length (member t1 "par_REG") = 10 * numJoints r0).
  { apply K1; [|cbn; intuition discriminate]. destruct K2 as [Q1 Q2]. cbn [new_class t_n t_e t_K t_D t_Dl t_Dm t_name t_ela] in Q1, Q2. injection Q1 as _ -> -> _.
    unfold member_sizes, STD_PAR_LINK. cbn [In]. tauto. }
  destruct (tau_error_ok M C G Yr (numJoints r0) (10 * numJoints r0) ddqr dqr (member t1 "par_REG")) as (e & Ee & e1 & e2 & e3); auto using in_eq, in_cons.
  assert (V : map (arg r') ["q"; "dq"; "dqr"; "ddqr"] = [q; dq; dqr; ddqr]).
  { cbn [map]. rewrite !(AS _ (numJoints r0)) by (unfold state_sizes; apply in_app_iff; left; cbn [In]; tauto). rewrite !M1. reflexivity. }
  exists r'. eexists. split; [exact S'|]. split; [exact V|]. split; [exact AP|]. split.
  { unfold generated_test. rewrite E'. cbn [bind]. cbv zeta. fold t1. rewrite ET. cbn [bind]. rewrite EJ. cbn [bind]. rewrite EM. cbn [bind]. rewrite EC. cbn [bind].
    rewrite EG. cbn [bind]. rewrite EY. cbn [bind]. rewrite Ee. cbn [bind]. rewrite G3, e2. cbn [Nat.eqb andb]. reflexivity. }
  split; [|split].
  - intros lbl nm Hi. cbn [generated_prints In] in Hi. decompose [or] Hi; try contradiction; match goal with Q : (_, _) = (_, _) |- _ => injection Q as <- <- end;
    eexists; (split; [|eassumption]); cbn [In]; tauto.
  - rewrite MD. left. reflexivity.
  - exists e. split; [cbn [In]; tauto|]. split; [exact e1|]. split; [exact e2|].
    intros i Hi. rewrite e3, M4, C4, G4, Y4.
    assert (D : describes r0 r' (fun i => nth i (member t1 "par_REG") 0%R)).
    { apply (describes_links name cfg r0 r r'); [exact S'|exact (AP _ _ PD)|]. unfold t_sync in Y. rewrite T1 in Y. rewrite MR.
      rewrite <- (Hq _ _ PD); [exact Y|]. cbn. intuition discriminate. }
    pose proof (Yr_id name cfg r0 r r' S' _ D HX i Hi) as Q. rewrite Q.
    cbn [map] in V. injection V as _ _ V3 V4. unfold state. rewrite V3, V4. lra.
Qed.
