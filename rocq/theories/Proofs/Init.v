(* Substitution of the parameters that are not symbolic. *)
From Coq Require Import Reals List Arith String Bool Lia ZArith.
From Verif.Model Require Import Base Expr SX Robot Kinematics Dynamics Regressors Yaml Inertia Build.
From Verif.Spec Require Import Setup.
From Verif.Proofs Require Import Calc Rel Maps Pure Names Shape Load.
Import ListNotations.
Open Scope nat_scope.
Open Scope string_scope.

(* ---- substitution of the parameters that are not symbolic ---- *)
Lemma subs_loop_spec fl i m a :
  (forall j, j < List.length fl -> flag_set (nth j fl 0%Z) = false ->
     i + j < List.length a /\ i + j < rows m) ->
  exists m', subs_loop fl i m a = Ok m' /\ rows m' = rows m /\ cols m' = cols m /\
    (ok m' = ok m \/ cols m = 0) /\
    forall j, el m' j 0 = if Nat.leb i j && Nat.ltb j (i + List.length fl) && negb (flag_set (nth (j - i) fl 0%Z))
                          then Cst (nth j a 0%R) else el m j 0.
Proof.
  revert i m. induction fl as [|z fl IH]; intros i m H.
  - exists m. simpl. repeat split; auto. intros j.
    destruct (Nat.leb i j) eqn:A, (Nat.ltb j (i + 0)) eqn:B; simpl; auto.
    apply Nat.leb_le in A. apply Nat.ltb_lt in B. lia.
  - cbn [subs_loop].
    assert (Hj : forall j k, Nat.leb i j && Nat.ltb j (i + List.length (z :: fl)) && negb (flag_set (nth (j - i) (z :: fl) 0%Z)) = k ->
               (j = i /\ k = negb (flag_set z)) \/
               (j <> i /\ Nat.leb (S i) j && Nat.ltb j (S i + List.length fl) && negb (flag_set (nth (j - S i) fl 0%Z)) = k)).
    { intros j k <-. destruct (Nat.eq_dec j i) as [->|N].
      - left. split; auto. rewrite Nat.sub_diag. simpl nth. rewrite (proj2 (Nat.leb_le i i)) by lia.
        rewrite (proj2 (Nat.ltb_lt _ _)) by (simpl; lia). reflexivity.
      - right. split; auto. destruct (Nat.leb i j) eqn:A.
        + apply Nat.leb_le in A. rewrite (proj2 (Nat.leb_le (S i) j)) by lia.
          replace (j - i) with (S (j - S i)) by lia. cbn [nth List.length]. now rewrite <- plus_n_Sm.
        + apply Nat.leb_gt in A. rewrite (proj2 (Nat.leb_gt (S i) j)) by lia. reflexivity. }
    destruct (Z.eqb z 0) eqn:Ez.
    + assert (Hz : flag_set z = false) by (unfold flag_set; now rewrite Ez).
      destruct (H 0) as [Ha Hr]; [simpl; lia|simpl; auto|]. rewrite Nat.add_0_r in Ha, Hr.
      destruct (nth_error a i) eqn:En; [|apply nth_error_None in En; lia].
      rewrite (proj2 (Nat.ltb_lt _ _) Hr).
      destruct (IH (S i) (set_at m i 0 (scal (Cst r))) ) as (m' & E & R & C & O & L).
      { intros j Hj1 Hj2. destruct (H (S j)) as [X Y]; [simpl; lia|simpl; auto|]. simpl. lia. }
      exists m'. split; [exact E|]. split; [rewrite R; reflexivity|]. split; [rewrite C; reflexivity|].
      split.
      * destruct O as [O|O]; [|right; exact O]. destruct (cols m) eqn:Ec; auto. left. rewrite O. simpl.
        rewrite Ec. rewrite (proj2 (Nat.ltb_lt i (rows m)) Hr). simpl. now rewrite !andb_true_r.
      * intros j. rewrite L. specialize (Hj j _ eq_refl). destruct Hj as [[-> Hk]|[N Hk]].
        -- rewrite Hk, Hz. rewrite (proj2 (Nat.leb_gt (S i) i)) by lia. simpl. rewrite !Nat.eqb_refl. simpl.
           unfold sc. simpl. now rewrite (nth_error_nth _ _ 0%R En).
        -- rewrite <- Hk. destruct (_ && _ && _); auto. simpl. apply Nat.eqb_neq in N. now rewrite N.
    + assert (Hz : flag_set z = true) by (unfold flag_set; now rewrite Ez).
      destruct (IH (S i) m) as (m' & E & R & C & O & L).
      { intros j Hj1 Hj2. destruct (H (S j)) as [X Y]; [simpl; lia|simpl; auto|]. lia. }
      exists m'. do 4 (split; auto). intros j. rewrite L. specialize (Hj j _ eq_refl). destruct Hj as [[-> Hk]|[N Hk]].
      * rewrite Hk, Hz. rewrite (proj2 (Nat.leb_gt (S i) i)) by lia. reflexivity.
      * now rewrite <- Hk.
Qed.

(* outcome of the substitution of the parameters l *)
Record subst_of (r0 b : robot) (l : list string) : Prop := {
  so_rest : b = with_args (with_model r0 (model b)) (args b);
  so_mc : forall k, mcount k (model b) = mcount k (model r0);
  so_arg : forall k, arg b k = arg r0 k;
  so_r : forall k, rows (mdl b k) = rows (mdl r0 k);
  so_c : forall k, cols (mdl b k) = cols (mdl r0 k);
  so_ok : forall k, ok (mdl b k) = ok (mdl r0 k) \/ cols (mdl r0 k) = 0;
  so_el : forall k j, el (mdl b k) j 0 =
     if existsb (String.eqb k) l && Nat.ltb j (List.length (flags r0 k)) && negb (flag_set (nth j (flags r0 k) 0%Z))
     then Cst (nth j (arg r0 k) 0%R) else el (mdl r0 k) j 0
}.
Definition subs_ok (r0 : robot) (k : string) : Prop :=
  forall j, j < List.length (flags r0 k) -> flag_set (nth j (flags r0 k) 0%Z) = false ->
    j < List.length (arg r0 k) /\ j < rows (mdl r0 k).

Lemma subs_step r0 b l k : subs_ok r0 k -> subst_of r0 b l ->
  exists b', subs_symb_par b k = Ok b' /\ subst_of r0 b' (l ++ [k]).
Proof.
  intros Hok [].
  assert (Hf : flags b k = flags r0 k) by (rewrite so_rest0; reflexivity).
  unfold subs_symb_par. rewrite Hf, so_arg0.
  destruct (subs_loop_spec (flags r0 k) 0 (mdl b k) (arg r0 k)) as (m' & E & R & C & O & L).
  { intros j H1 H2. simpl. rewrite so_r0. apply Hok; auto. }
  rewrite E. cbn [bind].
  assert (Hex : forall k' j, existsb (String.eqb k') (l ++ [k]) && Nat.ltb j (List.length (flags r0 k')) && negb (flag_set (nth j (flags r0 k') 0%Z)) =
    (existsb (String.eqb k') l && Nat.ltb j (List.length (flags r0 k')) && negb (flag_set (nth j (flags r0 k') 0%Z))) ||
    (String.eqb k' k && Nat.ltb j (List.length (flags r0 k')) && negb (flag_set (nth j (flags r0 k') 0%Z)))).
  { intros. rewrite existsb_app. simpl. rewrite orb_false_r. destruct (existsb _ l), (String.eqb k' k), (Nat.ltb _ _), (negb _); reflexivity. }
  destruct (existsb (Z.eqb 0) (flags r0 k)) eqn:Ez.
  - apply existsb_exists in Ez. destruct Ez as (z & Hz & Ez). apply Z.eqb_eq in Ez; subst z.
    apply In_nth with (d := 0%Z) in Hz. destruct Hz as (j0 & Hj0 & Ej0).
    destruct (Hok j0) as [Ha0 Hr0]; [auto|now rewrite Ej0|].
    eexists. split; [reflexivity|]. constructor.
    + rewrite so_rest0. reflexivity.
    + intros k'. cbn [model with_args with_model]. destruct (string_dec k' k) as [->|N].
      * rewrite mcount_mset. symmetry. unfold mdl, mget in Hr0. unfold mcount. destruct (mfind k (model r0)); auto. exfalso; apply (Nat.nlt_0_r _ Hr0).
      * rewrite mcount_mset_ne; auto.
    + intros k'. unfold arg. cbn [args with_args with_model]. destruct (string_dec k' k) as [->|N].
      * rewrite mget_mset. reflexivity.
      * rewrite mget_mset_ne by auto. apply so_arg0.
    + intros k'. unfold mdl at 1. cbn [model with_args with_model]. destruct (string_dec k' k) as [->|N].
      * rewrite mget_mset, R. auto.
      * rewrite mget_mset_ne by auto. apply so_r0.
    + intros k'. unfold mdl at 1. cbn [model with_args with_model]. destruct (string_dec k' k) as [->|N].
      * rewrite mget_mset, C. auto.
      * rewrite mget_mset_ne by auto. apply so_c0.
    + intros k'. unfold mdl at 1. cbn [model with_args with_model]. destruct (string_dec k' k) as [->|N].
      * rewrite mget_mset. specialize (so_ok0 k). rewrite so_c0 in O. destruct O as [->|O]; auto.
      * rewrite mget_mset_ne by auto. apply so_ok0.
    + intros k' j. unfold mdl at 1. cbn [model with_args with_model]. rewrite Hex. destruct (string_dec k' k) as [->|N].
      * rewrite mget_mset, L, String.eqb_refl, so_el0. rewrite Nat.sub_0_r. simpl.
        destruct (Nat.ltb j (List.length (flags r0 k)) && negb (flag_set (nth j (flags r0 k) 0%Z))); simpl.
        -- now rewrite orb_true_r.
        -- now rewrite orb_false_r.
      * rewrite mget_mset_ne by auto. fold (mdl b k'). rewrite so_el0. apply String.eqb_neq in N. rewrite N. simpl. now rewrite orb_false_r.
  - exists b. split; auto. constructor; auto.
    intros k' j. rewrite so_el0, Hex. destruct (string_dec k' k) as [->|N].
    + rewrite String.eqb_refl. simpl.
      destruct (Nat.ltb j (List.length (flags r0 k)) && negb (flag_set (nth j (flags r0 k) 0%Z))) eqn:Ej.
      * exfalso. apply andb_true_iff in Ej. destruct Ej as [A B]. apply Nat.ltb_lt in A.
        assert (existsb (Z.eqb 0) (flags r0 k) = true); [|congruence]. apply existsb_exists.
        exists (nth j (flags r0 k) 0%Z). split; [apply nth_In; auto|].
        unfold flag_set in B. rewrite negb_involutive in B. now rewrite Z.eqb_sym.
      * now rewrite orb_false_r.
    + apply String.eqb_neq in N. rewrite N. simpl. now rewrite orb_false_r.
Qed.
Lemma subs_all r0 l : (forall k, In k l -> subs_ok r0 k) -> forall b l0, subst_of r0 b l0 ->
  exists b', loop_list l (fun par r' => subs_symb_par r' par) b = Ok b' /\ subst_of r0 b' (l0 ++ l).
Proof.
  induction l as [|k t IH]; intros Hl b l0 Hb.
  - exists b. rewrite app_nil_r. auto.
  - destruct (subs_step r0 b l0 k) as (b1 & E1 & H1); auto. { apply Hl; left; auto. }
    destruct (IH (fun k Hk => Hl k (or_intror Hk)) b1 (l0 ++ [k])%list H1) as (b2 & E2 & H2).
    exists b2. cbn [loop_list]. rewrite E1. cbn [bind]. split; auto. now rewrite <- app_assoc in H2.
Qed.

Lemma count_le l : count_elastic l <= List.length l.
Proof. unfold count_elastic. induction l; cbn [filter List.length]; auto. destruct (Z.eqb 1 a); cbn [List.length]; lia. Qed.

Definition cvof (r0 : robot) : cvals := fun k i => nth i (arg r0 k) 0%R.
Theorem init_base r0 : loaded r0 -> well_formed r0 ->
  exists b, init_symb_parameters r0 = Ok b /\ base (cvof r0) b /\
    b = with_args (with_model r0 (model b)) (args b) /\ (forall k, arg b k = arg r0 k).
Proof.
  intros HL HW. destruct HL, HW.
  assert (Hmd : forall k len, In (k, len) (keys r0) -> mdl r0 k = sym_vec (symname k) len).
  { intros k len H. unfold mdl, mget. now rewrite (ld_model k len H). }
  assert (Hfl : forall k len, In (k, len) (keys r0) -> List.length (flags r0 k) = len).
  { intros k len H. unfold keys in H. apply in_app_iff in H. destruct H as [H|H].
    - unfold flags, mget. rewrite (ld_state k len H). apply repeat_length.
    - apply (wf_sizes k len H). }
  assert (Hst : forall k len, In (k, len) (state_keys r0) -> forall z, In z (flags r0 k) -> flag_set z = true).
  { intros k len H z Hz. unfold flags, mget in Hz. rewrite (ld_state k len H) in Hz. apply repeat_spec in Hz. now subst. }
  assert (Hok : forall k, In k (map fst (symb r0)) -> subs_ok r0 k).
  { intros k Hk j Hj Hn. destruct (ld_sk k Hk) as [[len H]|H]; [|rewrite H in Hj; simpl in Hj; lia].
    rewrite (Hmd k len H). simpl. rewrite (Hfl k len H) in Hj. split; auto.
    unfold keys in H. apply in_app_iff in H. destruct H as [H|H].
    - exfalso. assert (flag_set (nth j (flags r0 k) 0%Z) = true); [|congruence]. apply (Hst k len H). apply nth_In.
      rewrite (Hfl k len); auto. unfold keys. apply in_app_iff. auto.
    - rewrite (proj2 (wf_sizes k len H)). auto. }
  destruct (subs_all r0 (map fst (symb r0)) Hok r0 []) as (b & E & Hb).
  { constructor; intros; auto. destruct r0; reflexivity. }
  exists b. split; [exact E|]. clear E. simpl in Hb. destruct Hb.
  split; [|split; auto].
  assert (Hkeys : keys b = keys r0) by (rewrite so_rest0; reflexivity).
  assert (Hskeys : state_keys b = state_keys r0) by (rewrite so_rest0; reflexivity).
  assert (Hflb : forall k, flags b k = flags r0 k) by (intros; rewrite so_rest0; reflexivity).
  assert (Hnm : forall k, ~ In k arg_keys -> mcount k (model b) = false).
  { intros k Hk. rewrite so_mc0. unfold mcount. destruct (mfind k (model r0)) eqn:E; auto. exfalso. apply Hk, ld_mk.
    apply mfind_keys. congruence. }
  constructor.
  - rewrite so_rest0. exact wf_name.
  - rewrite so_rest0. auto.
  - rewrite so_rest0. cbn [numJoints numElasticJoints with_args with_model]. rewrite ld_ne, ld_el. etransitivity; [apply count_le|].
    rewrite map_length, ld_jt. apply Nat.le_refl.
  - rewrite so_rest0. auto.
  - rewrite so_rest0. cbn [jointsType with_args with_model]. intros t Ht. apply wf_types in Ht. unfold is_P, is_R.
    simpl in Ht. destruct Ht as [<-|[<-|[<-|[<-|[]]]]]; auto.
  - rewrite Hkeys. intros k len H.
    assert (Hex : existsb (String.eqb k) (map fst (symb r0)) = true).
    { apply existsb_exists. exists k. split; [|apply String.eqb_refl]. apply mfind_keys. apply mfind_some_count.
      eapply ld_sc; eauto. }
    constructor.
    + rewrite so_mc0. unfold mcount. now rewrite (ld_model k len H).
    + rewrite so_rest0. cbn [symb with_args with_model]. eapply ld_sc; eauto.
    + rewrite so_r0, (Hmd k len H). reflexivity.
    + rewrite so_c0, (Hmd k len H). reflexivity.
    + destruct (so_ok0 k) as [->|Hc]; rewrite (Hmd k len H) in *; [reflexivity|discriminate Hc].
    + rewrite Hflb. eauto.
    + intros i Hi. rewrite so_el0, Hex, Hflb, (Hfl k len H), (proj2 (Nat.ltb_lt _ _) Hi). simpl.
      rewrite (Hmd k len H). unfold cvof. destruct (flag_set _); reflexivity.
  - rewrite Hskeys. intros k len H z. rewrite Hflb. eapply Hst; eauto.
  - intros f. apply Hnm. intros Hk. apply (name_not_arg f _ Hk). reflexivity.
  - apply Hnm. simpl. intros Hk. repeat (destruct Hk as [Hk|Hk]; [discriminate Hk|]). destruct Hk.
  - rewrite so_rest0. auto.
  - rewrite so_rest0. auto.
Qed.
