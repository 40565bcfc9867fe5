(* User functions in the generated class, and the shipped example. *)
From Coq Require Import Reals List String Ascii Arith ZArith Bool Lia Lra.
From Verif.Model Require Import Base Expr SX Robot Kinematics Dynamics Regressors Yaml Inertia Build UserDefined Template.
From Verif.Spec Require Import Math Setup Api State UserDefined Template.
From Verif.Proofs Require Import Calc Rel Maps SortedMaps Pure Names Shape Dims Sizes Deps BuildEq BuildReg Load Init Final Closed Get Api State AddFun StateSess UserStage UserDefined TAgree TGet.
Import ListNotations.
Open Scope nat_scope.
Open Scope string_scope.

(* ---- the generated class ---- *)
Section C.
  Variables (name : string) (cfg : ynode) (r0 r r' s : robot).
  Hypothesis Hs : session name cfg r0 r r'.
  Hypothesis Hh : handed name cfg s.
  Variables (l : list user_fun) (user : robot -> res robot).
  Hypothesis Hw : well_formed_users r0 s r' l.
  Hypothesis Hu : user s = add_all l s.

  (* what the functions of the robot with user functions look like *)
  Lemma ext_inputs ru : robot_from_file_with user name cfg = Ok ru -> exists b, sess r0 b r' /\ s = pubs b (L_all b) /\
    base (cvof r0) b /\ b = with_args (with_model r0 (model b)) (args b) /\ numJoints ru = numJoints r0 /\
    (forall u, In u l -> mfind (u_name u) (fun_args ru) = Some (u_args u) /\ mfind (u_name u) (casadi_fun ru) = Some (entry_for b u)).
  Proof.
    intros Er. destruct (handed_b _ _ _ _ _ _ Hs Hh) as (b & Es & Hb & Eb & Ab & Hss & Bu & Bf). exists b.
    split; [exact Hss|]. split; [exact Es|]. split; [exact Hb|]. split; [exact Eb|].
    rewrite (with_file _ _ _ _ (se_load _ _ _ _ _ Hs)) in Er. unfold compute_with in Er. rewrite Bf in Er. cbn [bind] in Er. rewrite Hu in Er.
    destruct (add_all l s) as [t| |] eqn:Et; cbn [bind] in Er; try discriminate.
    pose proof (update_keeps _ _ Er) as K. rewrite K. cbn [fun_args casadi_fun with_args with_model].
    pose proof (ss_load _ _ _ Hss) as L.
    destruct (ext_added r0 r' s l Hw b Es Hb Eb L) as (_ & _ & _ & t1 & E1 & St & Ad). rewrite Et in E1. inversion E1; subst t1.
    split.
    { cbn [numJoints with_args with_model]. pose proof (f_equal numJoints (sg_eq _ _ _ St)) as N. cbn [numJoints with_funs with_symb with_model] in N.
      etransitivity; [exact N|]. etransitivity; [exact (sr_n _ _ (pubs_rest b (L_all b)))|]. rewrite Eb. reflexivity. }
    intros u Hul. destruct (ad_new _ _ _ _ Ad u Hul) as (A & B & _). auto.
  Qed.
  Theorem extension_class ru t : robot_from_file_with user name cfg = Ok ru -> sized t -> same_class (new_class r) t ->
    (forall k len, In (k, len) (state_sizes r0) -> arg r' k = member t k) ->
    (forall k len, In (k, len) (par_sizes r0) -> arg r' k = firstn (selected (flags r0 k)) (member t k)) ->
    forall u, In u l -> (forall k, In k (u_args u) -> vector_of r0 k) ->
    t_get ru t (u_name u) = get (with_args ru (args r')) (u_name u).
  Proof.
    intros Er Hz Hc H1 H2 u Hul Hv. destruct (ext_inputs ru Er) as (b & Hss & Es & Hb & Eb & _ & F).
    destruct (F u Hul) as [F1 F2]. unfold t_get, get. cbn [fun_args casadi_fun with_args]. unfold mget. rewrite F1, F2. cbn [f_inputs entry_for].
    replace (map (arg (with_args ru (args r'))) (u_args u)) with (map (arg r') (u_args u)) by reflexivity.
    assert (Hr : reads r0 r' t) by (exact (class_reads _ _ _ _ _ t Hs Hz Hc H1 H2)).
    assert (E : forall al, (forall k, In k al -> exists len, In (k, len) (keys r0)) -> read_inputs (ins (pubs b (L_all b)) al) al t = Ok (map (arg r') al)).
    { induction al as [|k al IH]; intros Hk; [reflexivity|]. cbn [ins map read_inputs]. fold (ins (pubs b (L_all b)) al).
      destruct (Hk k (or_introl eq_refl)) as [len Hl]. pose proof (s_shape r0 b Hb Eb k len Hl) as P.
      assert (R : rows (vertcat_list (sel (pubs b (L_all b)) k)) = selected (flags r0 k)).
      { cbn [rows vertcat_list]. rewrite (sel_fidx _ _ k len P), map_length, (s_flags r0 b Eb). apply fidx_selected. }
      rewrite R. destruct (Hr k len Hl) as (v & E1 & E2 & E3). rewrite E1, (proj2 (Nat.leb_le _ _) E2).
      rewrite IH by (intros; apply Hk; right; auto). cbn [bind]. now rewrite <- E3. }
    rewrite E; [reflexivity|]. intros k Hk. destruct (Hv k Hk) as [len X]. exists len. exact X.
  Qed.
End C.

(* ---- the example ---- *)
Lemma init_out r0 b k : init_symb_parameters r0 = Ok b -> ~ In k (map fst (symb r0)) -> mfind k (model b) = mfind k (model r0).
Proof.
  unfold init_symb_parameters. generalize (map fst (symb r0)). intros l. revert r0. induction l as [|a l IH]; intros r0 H N; cbn [loop_list] in H.
  - inversion H; reflexivity.
  - unfold subs_symb_par in H at 1. destruct (subs_loop _ _ _ _) as [m| |]; cbn [bind] in H; try discriminate. simpl in N.
    destruct (existsb (Z.eqb 0) (flags r0 a)); cbn [bind] in H.
    + rewrite (IH _ H) by tauto. cbn [model with_args with_model]. apply mfind_mset_ne. intros ->; tauto.
    + apply (IH _ H). tauto.
Qed.
Lemma q0_not_name f : name_of f <> "q0".
Proof. destruct f; cbn; try discriminate. Qed.
Lemma pubs_other b L k : (forall f, name_of f <> k) -> mfind k (model (pubs b L)) = mfind k (model b).
Proof.
  intros H. induction L as [|f L IH] using rev_ind; auto. rewrite pubs_app. cbn [publish1 model with_funs with_model].
  rewrite mfind_mset_ne by (intros E; apply (H f); congruence). exact IH.
Qed.
Lemma handed_q0 name cfg r0 s : robot_from_file name cfg false = Ok r0 -> well_formed r0 -> handed name cfg s ->
  mcount "q0" (model s) = false /\ mcount "q0" (symb s) = false /\ mcount "q0_dist" (symb s) = false /\ numJoints s = numJoints r0 /\
  mdl s "q" = sym_vec "q" (numJoints r0).
Proof.
  intros Lo W (r1 & E1 & E2). rewrite Lo in E1. inversion E1; subst r1. pose proof (file_loaded _ _ _ Lo) as L.
  destruct (init_base r0 L W) as (b & E & Hb & Hr & Ha).
  unfold before_user in E2. rewrite E in E2. cbn [bind] in E2.
  pose proof (all_eq (cvof r0) b Hb) as AE. rewrite AE in E2. inversion E2; subst s.
  assert (SY : symb (pubs b (L_all b)) = symb r0) by (rewrite (sr_symb _ _ (pubs_rest b (L_all b))), Hr; reflexivity).
  assert (NO : forall k, ~ In k arg_keys -> mcount k (symb r0) = false).
  { intros k Hk. unfold mcount. destruct (mfind k (symb r0)) eqn:F; auto. exfalso. apply Hk, (ld_ska _ L). apply mfind_keys. congruence. }
  assert (NM : forall k, ~ In k arg_keys -> mcount k (model r0) = false).
  { intros k Hk. unfold mcount. destruct (mfind k (model r0)) eqn:F; auto. exfalso. apply Hk, (ld_mk _ L). apply mfind_keys. congruence. }
  assert (N0 : ~ In "q0" arg_keys) by (simpl; intuition discriminate).
  assert (N1 : ~ In "q0_dist" arg_keys) by (simpl; intuition discriminate).
  rewrite SY. split; [|split; [apply NO; auto|split; [apply NO; auto|split]]].
  - unfold mcount. rewrite pubs_other by exact q0_not_name. rewrite (init_out _ _ _ E).
    + specialize (NM "q0" N0). unfold mcount in NM. exact NM.
    + intros X. apply N0, (ld_ska _ L). exact X.
  - rewrite (sr_n _ _ (pubs_rest b (L_all b))), Hr. reflexivity.
  - rewrite pubs_mdl_arg by (simpl; auto).
    (* the state vectors are never replaced by numbers *)
    assert (Kq : In ("q", numJoints r0) (state_keys r0)) by (unfold state_keys; apply in_app_iff; left; simpl; auto).
    assert (G : mfind "q" (model b) = mfind "q" (model r0)).
    { assert (Fq : existsb (Z.eqb 0) (flags r0 "q") = false).
      { unfold flags, mget. rewrite (ld_state _ L _ _ Kq). clear. induction (numJoints r0); auto. }
      revert E Fq. clear. unfold init_symb_parameters. generalize (map fst (symb r0)). intros l. revert r0.
      induction l as [|a l IH]; intros r0 H Fq; cbn [loop_list] in H.
      - inversion H; reflexivity.
      - unfold subs_symb_par in H at 1. destruct (subs_loop _ _ _ _) as [m| |]; cbn [bind] in H; try discriminate.
        destruct (existsb (Z.eqb 0) (flags r0 a)) eqn:Ea; cbn [bind] in H; [|apply IH; auto].
        rewrite (IH _ H Fq). cbn [model with_args with_model]. apply mfind_mset_ne. intros <-. congruence. }
    unfold mdl, mget. rewrite G. rewrite (ld_model _ L "q" (numJoints r0)); [reflexivity|]. unfold keys. apply in_app_iff. auto.
Qed.

Lemma read_q0_eq v : forall k i q0, i + k <= List.length v -> i + k <= rows q0 -> cols q0 = 1 -> ok q0 = true ->
  exists q1, read_q0 k i v q0 = Ok q1 /\ rows q1 = rows q0 /\ cols q1 = 1 /\ ok q1 = true /\
    forall j, el q1 j 0 = if Nat.leb i j && Nat.ltb j (i + k) then Cst (nth j v 0%R) else el q0 j 0.
Proof.
  induction k as [|k IH]; intros i q0 H R C O.
  - exists q0. split; [reflexivity|]. split; [auto|]. split; [auto|]. split; [auto|]. intros j. rewrite Nat.add_0_r.
    destruct (Nat.leb_spec i j), (Nat.ltb_spec j i); auto; lia.
  - cbn [read_q0]. destruct (nth_error v i) as [x|] eqn:E; [|apply nth_error_None in E; lia].
    destruct (IH (S i) (set_at q0 i 0 (scal (Cst x)))) as (q1 & E1 & R1 & C1 & O1 & V1); try (cbn [rows cols set_at]; lia || auto).
    { cbn [ok set_at scal rows cols]. rewrite O, C. assert (i < rows q0) by lia. apply Nat.ltb_lt in H0. rewrite H0. reflexivity. }
    exists q1. split; [exact E1|]. split; [exact R1|]. split; [exact C1|]. split; [exact O1|]. intros j. rewrite V1.
    cbn [el set_at sc scal]. rewrite (nth_error_nth _ _ 0%R E) || idtac.
    destruct (Nat.eqb_spec j i) as [->|N].
    + rewrite Nat.leb_refl. replace (Nat.leb (S i) i) with false by (symmetry; apply Nat.leb_gt; lia).
      replace (Nat.ltb i (i + S k)) with true by (symmetry; apply Nat.ltb_lt; lia). cbn. now rewrite (nth_error_nth _ _ 0%R E).
    + replace (S i + k) with (i + S k) by lia.
      destruct (Nat.leb_spec (S i) j), (Nat.leb_spec i j); cbn; auto; try lia.
Qed.
Lemma read_q0_short v k : forall i q0, i <= List.length v < i + k -> read_q0 k i v q0 = UB "q0_vect out of range".
Proof.
  induction k as [|k IH]; intros i q0 H; [lia|]. cbn [read_q0]. destruct (nth_error v i) as [x|] eqn:E; auto. apply IH.
  assert (i < List.length v) by (apply nth_error_Some; congruence). lia.
Qed.

Section E.
  Variables (name : string) (cfg : ynode) (r0 r r' : robot).
  Hypothesis Hs : session name cfg r0 r r'.
  Variables (nd : ynode) (v : list R).
  Hypothesis Hy : yidx cfg "q0" = Some nd.
  Hypothesis Hv : as_vector as_double nd = Some v.

  Lemma example_handed : exists s, handed name cfg s /\ before_user r0 = Ok s.
  Proof.
    destruct Hs as [Lo W Bu A St P]. destruct (before_eq r0 (file_loaded _ _ _ Lo) W) as (b & E & _). eexists. split; [exists r0; eauto|exact E].
  Qed.
  Lemma vec_def : ydef nd = true.
  Proof. unfold as_vector in Hv. destruct nd; try discriminate. reflexivity. Qed.
  Lemma with_before user s : before_user r0 = Ok s -> robot_from_file_with user name cfg = (r1 <- user s ; update_symb_parameters r1).
  Proof. intros E. rewrite (with_file _ _ _ _ (se_load _ _ _ _ _ Hs)). unfold compute_with. now rewrite E. Qed.

  Lemma example_user s : handed name cfg s -> numJoints r0 <= List.length v -> get_arg r' "q0" = [] ->
    exists e, userDefined_example cfg s = add_all [mkUser "q0_dist" e ["q"; "q0"]] s /\
      well_formed_users r0 s r' [mkUser "q0_dist" e ["q"; "q0"]] /\ rows e = 1 /\ cols e = 1 /\
      forall rho, eval rho (el e 0 0) = distance (numJoints r0) (fun i => eval rho (el (mdl s "q") i 0)) (fun i => nth i v 0%R).
  Proof.
    intros Hh Hn Ha. destruct (handed_q0 _ _ _ _ (se_load _ _ _ _ _ Hs) (se_wf _ _ _ _ _ Hs) Hh) as (Q1 & Q2 & Q3 & Q4 & Q5).
    destruct (read_q0_eq v (numJoints r0) 0 (zeros (numJoints r0) 1)) as (q1 & E1 & R1 & C1 & O1 & V1); try (cbn; lia || reflexivity).
    cbn [rows zeros] in R1.
    exists (norm_2 (msub (mdl s "q") q1)). split; [|split; [|split; [reflexivity|split; [reflexivity|]]]].
    - unfold userDefined_example, compute_example_fun. rewrite Hy, vec_def, Hv, Q4, E1. cbn [bind].
      change (obtain_symb_parameters s ["q"; "q0"] []) with ["q"; "q0"].
      unfold add_all. cbn [loop_list u_name u_expr u_args]. unfold addf.
      destruct (add_function s "q0_dist" _ ["q"; "q0"] true) as [[t c]| |]; reflexivity.
    - constructor.
      + cbn. repeat constructor; auto.
      + intros u [<-|[]]. cbn [u_name u_expr u_args map]. split; [apply identifier_check; reflexivity|].
        split; [exact Q3|]. split.
        { cbn [ok norm_2 msub cols rows]. rewrite Q5, O1. unfold same_dims. cbn [ok sym_vec rows cols]. rewrite R1, C1, Nat.eqb_refl. reflexivity. }
        split; [repeat constructor; simpl; intuition discriminate|]. split.
        * intros k [<-|[<-|[]]]; (split; [simpl; intuition discriminate|]).
          { left. exists (numJoints r0). apply in_app_iff. left. unfold state_sizes. cbv zeta. apply in_app_iff. left. simpl; auto. }
          { right. split; [exact Q1|]. split; [exact Q2|exact Ha]. }
        * intros i j _ _ x Hx. cbn [norm_2 el occurs] in Hx.
          destruct (Friction.occurs_esum _ _ _ Hx) as (i' & Hi & Hx'). cbn [msub el rows occurs] in *. rewrite Q5 in *. cbn [rows sym_vec] in Hi.
          assert (Z : occurs x (el q1 i' 0) = false). { rewrite V1. destruct (_ && _); reflexivity. }
          rewrite Z in Hx'. exists "q", i'. split; [left; reflexivity|]. rewrite Q5. split; [exact Hi|].
          cbn [el sym_vec] in *. cbn [occurs] in Hx'. rewrite ?Bool.orb_false_r, ?Bool.orb_diag in Hx'.
          f_equal. apply sym_eqb_eq in Hx'. congruence.
    - intros rho. unfold distance. cbn [norm_2 el eval msub rows]. rewrite Q5. cbn [rows sym_vec]. f_equal. rewrite Sums.eval_esum. apply Sums.rsum_ext.
      intros i Hi. cbn [eval]. rewrite V1. replace (Nat.leb 0 i && Nat.ltb i (0 + numJoints r0)) with true by (symmetry; apply Nat.ltb_lt; lia).
      reflexivity.
  Qed.

  (* the distance, on the Robot object *)
  Theorem example_distance : numJoints r0 <= List.length v -> get_arg r' "q0" = [] ->
    exists ru, robot_from_file_with (userDefined_example cfg) name cfg = Ok ru /\
      (forall nm, published ru nm <-> nm = "q0_dist" \/ published r nm) /\
      (forall nm, nm <> "q0_dist" -> get (with_args ru (args r')) nm = get r' nm) /\
      exists m, get (with_args ru (args r')) "q0_dist" = Ok m /\ m_rows m = 1 /\ m_cols m = 1 /\
        m_val m 0 0 = distance (numJoints r0) (state r' "q") (fun i => nth i v 0%R).
  Proof.
    intros Hn Ha. destruct example_handed as (s & Hh & Hb). destruct (example_user s Hh Hn Ha) as (e & E1 & E2 & E3 & E4 & E5).
    destruct (extension _ _ _ _ _ _ Hs Hh _ _ E2 E1) as (ru & F1 & F2 & F3 & F4 & rho & F5 & F6). exists ru.
    split; [exact F1|]. split; [intros nm; rewrite F3; simpl; intuition|].
    split; [intros nm N; apply F4; simpl; intuition|].
    destruct (F6 _ (or_introl eq_refl)) as (_ & m & G1 & G2 & G3 & G4). cbn [u_name u_expr] in *. exists m. rewrite E3, E4 in *.
    split; [exact G1|]. split; [exact G2|]. split; [exact G3|]. rewrite G4 by lia. rewrite E5. unfold distance. f_equal.
    apply Sums.rsum_ext. intros i Hi.
    assert (Q : In ("q", numJoints r0) (state_sizes r0)). { unfold state_sizes. cbv zeta. apply in_app_iff. left. simpl; auto. }
    rewrite (cu_vec _ _ _ _ F5 "q" (numJoints r0) i) by (auto; apply in_app_iff; auto).
    pose proof (file_loaded _ _ _ (se_load _ _ _ _ _ Hs)) as L.
    assert (P : param r0 r' "q" i = state r' "q" i).
    { destruct (session_sess _ _ _ _ _ Hs) as (b & SS & _). eapply Get.param_state; [exact SS|]. unfold state_keys. simpl; auto. }
    now rewrite P.
  Qed.
  (* a list that is too short is read past its end *)
  Theorem example_short : List.length v < numJoints r0 ->
    robot_from_file_with (userDefined_example cfg) name cfg = UB "q0_vect out of range".
  Proof.
    intros Hn. destruct example_handed as (s & Hh & Hb). rewrite (with_before _ _ Hb).
    destruct (handed_q0 _ _ _ _ (se_load _ _ _ _ _ Hs) (se_wf _ _ _ _ _ Hs) Hh) as (_ & _ & _ & Q4 & _).
    unfold userDefined_example, compute_example_fun. rewrite Hy, vec_def, Hv, Q4, read_q0_short by lia. reflexivity.
  Qed.
  (* the class generated for the robot has no member q0, which its getter reads *)
  Theorem example_class ru : numJoints r0 <= List.length v -> get_arg r' "q0" = [] ->
    robot_from_file_with (userDefined_example cfg) name cfg = Ok ru ->
    t_get ru (new_class ru) "q0_dist" = Throw "does not compile: no such member".
  Proof.
    intros Hn Ha Er. destruct example_handed as (s & Hh & Hb). destruct (example_user s Hh Hn Ha) as (e & E1 & E2 & E3 & E4 & E5).
    destruct (ext_inputs _ _ _ _ _ _ Hs Hh _ _ E2 E1 ru Er) as (b & Hss & Es & Bb & Eb & En & F).
    destruct (F _ (or_introl eq_refl)) as [F1 F2]. cbn [u_name u_args] in *. unfold t_get, mget. rewrite F1, F2.
    cbn [f_inputs entry_for u_args ins map read_inputs].
    assert (Q : In ("q", numJoints r0) (keys r0)). { unfold keys, state_keys. apply in_app_iff. left. simpl; auto. }
    pose proof (s_shape r0 b Bb Eb "q" _ Q) as P.
    assert (R : rows (vertcat_list (sel (pubs b (L_all b)) "q")) = numJoints r0).
    { cbn [rows vertcat_list]. rewrite (sel_fidx _ _ "q" _ P), map_length, (s_flags r0 b Eb). rewrite fidx_selected.
      rewrite (state_flags r0 "q" (numJoints r0) (ss_load _ _ _ Hss)); auto. unfold keys in Q. unfold state_keys; simpl; auto. }
    rewrite R. change (mfind "q" (t_val (new_class ru))) with (Some (repeat 0%R (numJoints ru))).
    cbv iota beta. rewrite repeat_length, En, Nat.leb_refl. reflexivity.
  Qed.
End E.

(* without an entry q0 nothing is added *)
Theorem example_absent name cfg : yidx cfg "q0" = Some YUndef ->
  robot_from_file_with (userDefined_example cfg) name cfg = robot_from_file name cfg true.
Proof.
  intros H. rewrite <- shipped_user. unfold robot_from_file_with, compute_with, userDefined_example, compute_example_fun. rewrite H. reflexivity.
Qed.
