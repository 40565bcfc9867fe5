(* What the generated class writes it reads back. *)
From Coq Require Import Reals List String Arith ZArith Bool Lia Lra.
From Verif.Model Require Import Base Expr SX Robot Yaml Inertia Build Template.
From Verif.Spec Require Import Math Setup State Config Template.
From Verif.Proofs Require Import Maps State InertiaConv StateSess Files TSetters TFiles TSync.
Import ListNotations.
Open Scope nat_scope.
Open Scope string_scope.

Lemma read_reg l : List.length l = 10 -> read_list (YMap (combine reg_keys (map YDbl l))) reg_keys = Some l.
Proof. intros H. do 10 (destruct l as [|? l]; [discriminate|]); destruct l; [|discriminate]. reflexivity. Qed.
Lemma read_inertial l : List.length l = 10 -> read_list (YMap (combine inertial_keys (map YDbl l))) inertial_keys = Some l.
Proof. intros H. do 10 (destruct l as [|? l]; [discriminate|]); destruct l; [|discriminate]. reflexivity. Qed.
Lemma splice_ok p off v : off + List.length v <= List.length p ->
  splice p off v = Some (firstn off p ++ v ++ skipn (off + List.length v) p)%list.
Proof. intros H. unfold splice. now rewrite (proj2 (Nat.leb_le _ _) H). Qed.
Lemma firstn_splice (p v : list R) off : off <= List.length p ->
  firstn (off + List.length v) (firstn off p ++ v ++ skipn (off + List.length v) p) = (firstn off p ++ v)%list.
Proof.
  intros H. assert (L : List.length (firstn off p ++ v) = off + List.length v) by (rewrite app_length, firstn_length; lia).
  rewrite app_assoc, <- L, firstn_app, Nat.sub_diag, firstn_all. cbn [firstn]. apply app_nil_r.
Qed.
Lemma first_rest (vals : list R) a b : (firstn a vals ++ firstn b (skipn a vals))%list = firstn (a + b) vals.
Proof. revert vals. induction a; intros vals; simpl; auto. destruct vals; simpl; [now rewrite firstn_nil|]. now rewrite IHa. Qed.

Lemma t_reg_saved dlO : forall n i vals dl p, 10 * n <= List.length vals -> List.length p = 10 * (i + n) ->
  t_reg_links (t_save_links reg_keys n i dlO vals dl) n i p = Go (firstn (10 * i) p ++ firstn (10 * n) vals)%list.
Proof.
  induction n as [|n IH]; intros i vals dl p Hv Hp; cbn [t_save_links t_reg_links].
  - rewrite Nat.mul_0_r. cbn [firstn]. rewrite app_nil_r. rewrite firstn_all2 by lia. reflexivity.
  - assert (L10 : List.length (firstn 10 vals) = 10) by (rewrite firstn_length; lia).
    cbn [t_link_node yidx_c mget mfind String.eqb Ascii.eqb Bool.eqb ybind]. unfold t_link_node. cbn [yidx_c ybind].
    change (mget YZombie "inertial" _) with (YMap (combine reg_keys (map YDbl (firstn 10 vals)))).
    rewrite read_reg by auto. unfold STD_PAR_LINK. rewrite splice_ok by (rewrite L10; lia). rewrite IH.
    + f_equal. replace (10 * S i) with (10 * i + List.length (firstn 10 vals)) by (rewrite L10; lia).
      rewrite firstn_splice by lia. rewrite <- app_assoc. f_equal. rewrite first_rest. f_equal. lia.
    + rewrite skipn_length. lia.
    + rewrite !app_length, firstn_length, skipn_length, L10. lia.
Qed.
(* the file written by Robot::save_par_REG has no friction entries *)
Lemma t_reg_robot : forall n i vals p, 10 * n <= List.length vals -> List.length p = 10 * (i + n) ->
  t_reg_links (save_links reg_keys n i vals) n i p = Go (firstn (10 * i) p ++ firstn (10 * n) vals)%list.
Proof.
  induction n as [|n IH]; intros i vals p Hv Hp; cbn [save_links t_reg_links].
  - rewrite Nat.mul_0_r. cbn [firstn]. rewrite app_nil_r. rewrite firstn_all2 by lia. reflexivity.
  - assert (L10 : List.length (firstn 10 vals) = 10) by (rewrite firstn_length; lia).
    unfold link_node. cbn [yidx_c ybind].
    change (mget YZombie "inertial" _) with (YMap (combine reg_keys (map YDbl (firstn 10 vals)))).
    rewrite read_reg by auto. unfold STD_PAR_LINK. rewrite splice_ok by (rewrite L10; lia). rewrite IH.
    + f_equal. replace (10 * S i) with (10 * i + List.length (firstn 10 vals)) by (rewrite L10; lia).
      rewrite firstn_splice by lia. rewrite <- app_assoc. f_equal. rewrite first_rest. f_equal. lia.
    + rewrite skipn_length. lia.
    + rewrite !app_length, firstn_length, skipn_length, L10. lia.
Qed.

Lemma loaded_REG p upd t : sized t -> List.length p = 10 * t_n t -> forall cfg dyn,
  yidx cfg "dynamics" = Some dyn -> ydef dyn = true -> t_reg_links (ychildren dyn) (t_n t) 0 (member t "par_REG") = Go p ->
  exists t1, t_load_par_REG t (Some cfg) upd = Ok (t1, p) /\ sized t1 /\ member t1 "par_REG" = p /\
    t_changes ["par_DYN"; "par_REG"] t t1 /\ (upd = false -> member t1 "par_DYN" = member t "par_DYN") /\
    (upd = true -> massive (t_n t) p -> t_sync t1).
Proof.
  intros Hs Lp cfg dyn Ed Dd El. destruct (load_REG_ok (Some cfg) upd t Hs) as (t1 & v & E & S1 & V & C & D).
  destruct (sized_DYN t Hs) as [LD LR].
  unfold t_load_par_REG in *. rewrite Ed, Dd, El in *. cbv zeta in *.
  assert (Sp : sized (tput "par_REG" p t)) by (apply sized_tput; auto; right; congruence).
  destruct upd.
  - rewrite update_DYN_eq in * by auto. cbn [bind] in *. rewrite t_n_tput, member_tput in *. injection E as E1 E2.
    rewrite member_tput_ne, member_tput in E2 |- * by discriminate. exists t1. subst t1.
    split; [reflexivity|]. split; [auto|]. split; [rewrite member_tput_ne by discriminate; apply member_tput|]. split; [auto|]. split; [auto|].
    intros _ Hm. unfold t_sync. rewrite !t_n_tput, member_tput, (member_tput_ne "par_DYN" "par_REG"), member_tput by discriminate.
    apply dyn_links; auto.
  - injection E as E1 E2. rewrite member_tput in *. exists t1. subst t1. rewrite member_tput.
    split; [reflexivity|]. split; [auto|]. split; [auto|]. split; [auto|]. split; [auto|]. discriminate.
Qed.

Lemma sized_Dl t : sized t -> List.length (member t "par_Dl") = t_Dl t * t_n t.
Proof.
  intros Hs. apply (Hs "par_Dl" (t_Dl t * t_n t)); [cbn -[Nat.mul]; auto 20|cbn; intuition discriminate].
Qed.
Theorem save_REG_load t t2 upd : sized t -> sized t2 -> t_n t2 = t_n t ->
  exists file t3, t_save_par_REG t = Ok file /\ t_load_par_REG t2 (Some file) upd = Ok (t3, member t "par_REG") /\
    member t3 "par_REG" = member t "par_REG" /\ t_changes ["par_DYN"; "par_REG"] t2 t3 /\
    (upd = false -> member t3 "par_DYN" = member t2 "par_DYN") /\
    (upd = true -> massive (t_n t) (member t "par_REG") -> t_sync t3).
Proof.
  intros Hs Hs2 Hn. destruct (sized_DYN t Hs) as [LD LR]. destruct (sized_DYN t2 Hs2) as [LD2 LR2]. pose proof (sized_Dl t Hs) as LL.
  unfold t_save_par_REG, t_save, STD_PAR_LINK. rewrite LR, LL, !Nat.leb_refl. cbn [andb].
  pose proof (t_reg_saved (t_Dl t) (t_n t) 0 (member t "par_REG") (member t "par_Dl") (member t2 "par_REG")) as E.
  rewrite LR, LR2, Hn in E. specialize (E ltac:(lia) ltac:(lia)). rewrite Nat.mul_0_r in E. cbn [firstn app] in E.
  rewrite firstn_all2 in E by lia.
  set (l := t_save_links reg_keys (t_n t) 0 (t_Dl t) (member t "par_REG") (member t "par_Dl")) in *.
  destruct (loaded_REG (member t "par_REG") upd t2 Hs2 ltac:(congruence)
     (YMap [("dynamics", match l with [] => YNull | p :: q => YMap (p :: q) end)]) (match l with [] => YNull | p :: q => YMap (p :: q) end)) as (t3 & A & _ & B & C & D & F).
  - reflexivity.
  - destruct l; reflexivity.
  - rewrite Hn. destruct l; exact E.
  - eexists _, t3. split; [reflexivity|]. split; [exact A|]. split; [exact B|]. split; [exact C|]. split; [exact D|].
    intros U M. apply F; auto. rewrite Hn. exact M.
Qed.

Theorem robot_REG_load r t2 upd : List.length (get_arg r "par_REG") = 10 * numJoints r -> sized t2 -> t_n t2 = numJoints r ->
  exists file t3, save_par_REG r = Ok file /\ t_load_par_REG t2 (Some file) upd = Ok (t3, get_arg r "par_REG") /\
    member t3 "par_REG" = get_arg r "par_REG" /\ t_changes ["par_DYN"; "par_REG"] t2 t3 /\
    (upd = false -> member t3 "par_DYN" = member t2 "par_DYN") /\
    (upd = true -> massive (numJoints r) (get_arg r "par_REG") -> t_sync t3).
Proof.
  intros LR Hs2 Hn. destruct (sized_DYN t2 Hs2) as [LD2 LR2]. unfold get_arg in *.
  unfold save_par_REG, STD_PAR_LINK. rewrite LR, Nat.leb_refl.
  pose proof (t_reg_robot (numJoints r) 0 (arg r "par_REG") (member t2 "par_REG")) as E.
  rewrite LR, LR2, Hn in E. specialize (E ltac:(lia) ltac:(lia)). rewrite Nat.mul_0_r in E. cbn [firstn app] in E.
  rewrite firstn_all2 in E by lia.
  set (l := save_links reg_keys (numJoints r) 0 (arg r "par_REG")) in *.
  destruct (loaded_REG (arg r "par_REG") upd t2 Hs2 ltac:(congruence) (YMap [("dynamics", YMap l)]) (YMap l)) as (t3 & A & _ & B & C & D & F).
  - reflexivity.
  - reflexivity.
  - rewrite Hn. exact E.
  - eexists _, t3. split; [reflexivity|]. split; [exact A|]. split; [exact B|]. split; [exact C|]. split; [exact D|].
    intros U M. apply F; auto. rewrite Hn. exact M.
Qed.

(* ---- save_par_DYN and load_conf ---- *)
Lemma read_vec_all v : forall o j base (p : list R), j + o <= List.length v -> base + j + o <= List.length p ->
  read_vec v o j base p = Go (firstn (base + j) p ++ firstn o (skipn j v) ++ skipn (base + j + o) p)%list.
Proof.
  induction o as [|o IH]; intros j base p Hv Hp; cbn [read_vec].
  - cbn [firstn app]. rewrite Nat.add_0_r, firstn_skipn. reflexivity.
  - destruct (nth_error v j) as [x|] eqn:Ex; [|apply nth_error_None in Ex; lia].
    rewrite IH by (rewrite ?upd_len; lia). f_equal.
    assert (U : upd p (base + j) x = (firstn (base + j) p ++ x :: skipn (S (base + j)) p)%list).
    { unfold upd. rewrite lset_spec by lia. reflexivity. }
    assert (F : List.length (firstn (base + j) p) = base + j) by (rewrite firstn_length; lia).
    rewrite U. replace (base + S j) with (S (base + j)) by lia.
    assert (Sv : skipn j v = x :: skipn (S j) v).
    { clear - Ex. revert v Ex. induction j; intros v Ex; destruct v; try discriminate; simpl in *; [congruence|auto]. }
    rewrite Sv, firstn_cons.
    assert (A1 : firstn (S (base + j)) (firstn (base + j) p ++ x :: skipn (S (base + j)) p) = (firstn (base + j) p ++ [x])%list).
    { rewrite firstn_app, F. replace (S (base + j) - (base + j)) with 1 by lia. rewrite firstn_all2 by lia. reflexivity. }
    assert (A2 : skipn (S (base + j) + o) (firstn (base + j) p ++ x :: skipn (S (base + j)) p) = skipn (base + j + S o) p).
    { rewrite skipn_app, F. rewrite skipn_all2 by lia. replace (S (base + j) + o - (base + j)) with (S o) by lia. rewrite app_nil_l, skipn_cons.
      rewrite skipn_skipn'. f_equal. lia. }
    rewrite A1, A2, <- app_assoc. reflexivity.
Qed.
Lemma t_links_saved dlO : forall n i vals dl s, 10 * n <= List.length vals -> dlO * n <= List.length dl ->
  List.length (p_DYN s) = 10 * (i + n) -> List.length (p_Dl s) = dlO * (i + n) ->
  t_links (t_save_links inertial_keys n i dlO vals dl) n i dlO s =
  Go (mkPars (firstn (10 * i) (p_DYN s) ++ firstn (10 * n) vals) (firstn (dlO * i) (p_Dl s) ++ firstn (dlO * n) dl)
        (p_K s) (p_D s) (p_Dm s) (p_Mm s)).
Proof.
  induction n as [|n IH]; intros i vals dl s Hv Hd Hp Hl; cbn [t_save_links t_links].
  - rewrite !Nat.mul_0_r. cbn [firstn]. rewrite !app_nil_r, !firstn_all2 by lia. destruct s; reflexivity.
  - assert (L10 : List.length (firstn 10 vals) = 10) by (rewrite firstn_length; lia).
    assert (Ld : List.length (firstn dlO dl) = dlO) by (rewrite firstn_length; lia).
    unfold t_link_node. cbn [yidx_c ybind].
    change (mget YZombie "inertial" _) with (YMap (combine inertial_keys (map YDbl (firstn 10 vals)))).
    change (mget YZombie "friction" _) with (YMap [("Dl", YSeq (map YDbl (firstn dlO dl)))]).
    rewrite read_inertial by auto. unfold STD_PAR_LINK. rewrite splice_ok by (rewrite L10; lia).
    cbn [ydef yidx_c ybind]. change (mget YZombie "Dl" _) with (YSeq (map YDbl (firstn dlO dl))). cbn [as_vector].
    rewrite ymap_dbl. cbn [p_Dl]. rewrite read_vec_all by (rewrite ?Ld; lia). rewrite skipn_O. cbn [lift_Dl gbind p_DYN p_K p_D p_Dm p_Mm].
    rewrite IH; cbn [p_DYN p_Dl p_K p_D p_Dm p_Mm].
    + f_equal. rewrite Nat.add_0_r.
      rewrite (firstn_all2 (firstn dlO dl)) by lia. f_equal.
      * replace (10 * S i) with (10 * i + List.length (firstn 10 vals)) by (rewrite L10; lia).
        rewrite firstn_splice by lia. rewrite <- app_assoc. f_equal. rewrite first_rest. f_equal. lia.
      * replace (dlO * S i) with (dlO * i + List.length (firstn dlO dl)) by (rewrite Ld; lia).
        replace (dlO * i + dlO) with (dlO * i + List.length (firstn dlO dl)) by (rewrite Ld; lia).
        rewrite firstn_splice by lia. rewrite <- app_assoc. f_equal. rewrite first_rest. f_equal. lia.
    + rewrite skipn_length. lia.
    + rewrite skipn_length. lia.
    + rewrite !app_length, firstn_length, skipn_length, L10. lia.
    + rewrite (firstn_all2 (firstn dlO dl)) by lia. rewrite !app_length, firstn_length, skipn_length, Ld. lia.
Qed.

Lemma put_same t s k : sized t -> In k ["par_K"; "par_D"; "par_Dm"; "par_Mm"] ->
  p_K s = member t "par_K" -> p_D s = member t "par_D" -> p_Dm s = member t "par_Dm" -> p_Mm s = member t "par_Mm" ->
  member (put_pars t s) k = member t k.
Proof.
  intros _ H A B C D. rewrite put_pars_members. simpl in H. decompose [or] H; try contradiction; subst k; cbn; auto.
Qed.
Lemma load_only_dynamics junk t x upd : t_load_conf junk t (Some (YMap [("dynamics", x)])) upd =
  match t_dynamics upd (YMap [("dynamics", x)]) t with Go t | Caught t => Ok t | Bad m => UB m end.
Proof.
  unfold t_load_conf. change (t_kinematics junk _ t) with (Go t). cbn [gbind].
  change (t_frame junk "Base_to_L0" "par_world2L0" "world2L0_symb" _ t) with (Go t). cbn [gbind].
  change (t_frame junk "Ln_to_EE" "par_Ln2EE" "Ln2EE_symb" _ t) with (Go t). cbn [gbind].
  destruct (t_dynamics _ _ _); reflexivity.
Qed.
Theorem save_DYN_load junk t t2 upd : sized t -> sized t2 -> t_n t2 = t_n t -> t_Dl t2 = t_Dl t ->
  exists file t3, t_save_par_DYN t = Ok file /\ t_load_conf junk t2 (Some file) upd = Ok t3 /\
    member t3 "par_DYN" = member t "par_DYN" /\ member t3 "par_Dl" = member t "par_Dl" /\
    t_changes ["par_DYN"; "par_Dl"; "par_REG"] t2 t3 /\
    (upd = false -> member t3 "par_REG" = member t2 "par_REG") /\ (upd = true -> t_sync t3).
Proof.
  intros Hs Hs2 Hn Hd. destruct (sized_DYN t Hs) as [LD LR]. destruct (sized_DYN t2 Hs2) as [LD2 LR2].
  pose proof (sized_Dl t Hs) as LL. pose proof (sized_Dl t2 Hs2) as LL2.
  unfold t_save_par_DYN, t_save, STD_PAR_LINK. rewrite LD, LL, !Nat.leb_refl. cbn [andb].
  pose proof (t_links_saved (t_Dl t) (t_n t) 0 (member t "par_DYN") (member t "par_Dl") (pars_of t2)) as E.
  cbn [pars_of p_DYN p_Dl p_K p_D p_Dm p_Mm] in E. rewrite LD, LL, LD2, LL2, Hn, Hd in E.
  specialize (E ltac:(lia) ltac:(lia) ltac:(lia) ltac:(lia)). rewrite !Nat.mul_0_r in E. cbn [firstn app] in E.
  rewrite !firstn_all2 in E by lia.
  set (l := t_save_links inertial_keys (t_n t) 0 (t_Dl t) (member t "par_DYN") (member t "par_Dl")) in *.
  exists (YMap [("dynamics", match l with [] => YNull | p :: q => YMap (p :: q) end)]).
  set (s := mkPars (member t "par_DYN") (member t "par_Dl") (member t2 "par_K") (member t2 "par_D") (member t2 "par_Dm") (member t2 "par_Mm")) in *.
  assert (Hs1 : sized (put_pars t2 s)).
  { apply (kept_pars t2); [|split; auto using same_class_refl]. repeat split; cbn; congruence. }
  assert (C1 : t_changes ["par_DYN"; "par_Dl"; "par_REG"] t2 (put_pars t2 s)).
  { split; [split; reflexivity|]. split; [reflexivity|]. intros k Hk. rewrite put_pars_members. cbn [mfind].
    repeat match goal with |- context [String.eqb k ?x] => destruct (String.eqb_spec k x) as [->|?]; [first [exfalso; apply Hk; simpl; tauto | reflexivity]|] end.
    reflexivity. }
  assert (Lc : t_load_conf junk t2 (Some (YMap [("dynamics", match l with [] => YNull | p :: q => YMap (p :: q) end)])) upd =
    match (if upd then to_prog (t_update_REG (put_pars t2 s)) (put_pars t2 s) else Go (put_pars t2 s)) with
    | Go t | Caught t => Ok t | Bad m => UB m end).
  { rewrite load_only_dynamics. unfold t_dynamics.
    assert (D1 : ydef (match l with [] => YNull | p :: q => YMap (p :: q) end) = true) by (destruct l; reflexivity).
    assert (D2 : ychildren (match l with [] => YNull | p :: q => YMap (p :: q) end) = l) by (destruct l; reflexivity).
    match goal with |- context [yidx (YMap [("dynamics", ?x)]) "dynamics"] => change (yidx (YMap [("dynamics", x)]) "dynamics") with (Some x) end.
    cbv beta iota.
    rewrite D1, D2, Hn, Hd, E. fold s. cbn [on_pars gbind]. reflexivity. }
  destruct upd.
  - destruct (update_synced _ Hs1) as (t4 & E4 & [S4 Y4] & _). rewrite E4 in Lc. cbn [to_prog] in Lc.
    exists t4. split; [reflexivity|]. split; [exact Lc|].
    rewrite update_REG_eq in E4 by auto. assert (E5 : t4 = tput "par_REG" (map_links (t_n t2) reg_of_dyn (member (put_pars t2 s) "par_DYN")) (put_pars t2 s)) by (symmetry; injection E4 as E5; exact E5).
    clear E4. split. { rewrite E5, member_tput_ne, put_pars_members by discriminate. reflexivity. }
    split. { rewrite E5, member_tput_ne, put_pars_members by discriminate. reflexivity. }
    split. { eapply changes_trans; [exact C1|]. rewrite E5. apply changes_tput. simpl; auto. }
    split; [discriminate|auto].
  - exists (put_pars t2 s). split; [reflexivity|]. split; [exact Lc|]. split; [rewrite put_pars_members; reflexivity|].
    split; [rewrite put_pars_members; reflexivity|]. split; [exact C1|]. split; [|discriminate].
    intros _. rewrite put_pars_members. reflexivity.
Qed.
