(* Conversions of the generated class, and concrete objects. *)
From Coq Require Import Reals Lra Lia Arith List String Bool ZArith.
From Verif.Model Require Import Base Expr SX Robot Yaml Inertia Build Template.
From Verif.Spec Require Import Math Setup Kinematics State Config Template Sample.
From Verif.Spec Require Api.
From Verif.Proofs Require Api.
From Verif.Proofs Require Import Maps Shape Load Final Get State InertiaConv StateSess StateToy Files TSetters TFiles TSync TSave TFacts TAgree TLoad TGet HeaderToy Sample Sample1 FrictionToy.
Import ListNotations.
Open Scope nat_scope.
Open Scope string_scope.

Lemma reached_kept r t : reached r t -> sized t /\ same_class (new_class r) t.
Proof. intros (junk & h & Hk & E). exact (history_kept junk h Hk r t E). Qed.
Lemma reached_n r t : reached r t -> t_n t = numJoints r /\ t_e t = numElasticJoints r.
Proof. intros H. destruct (reached_kept r t H) as [_ C]. destruct (same_class_ne _ _ C) as [-> ->]. split; reflexivity. Qed.
Lemma reached_Dl r t : reached r t -> t_Dl t = Dl_order r.
Proof. intros H. destruct (reached_kept r t H) as [_ [_ Q]]. injection Q as _ _ -> _. reflexivity. Qed.

(* the same conversion as the robot's *)
Theorem same_to_REG r t r2 : reached r t -> numJoints r2 = numJoints r ->
  get_arg r2 "par_DYN" = member t "par_DYN" -> List.length (get_arg r2 "par_REG") = 10 * numJoints r2 ->
  exists r3 t1, update_inertial_REG r2 = Ok r3 /\ t_update_REG t = Ok t1 /\ get_arg r3 "par_REG" = member t1 "par_REG" /\
    t_changes ["par_REG"] t t1 /\ t_sync t1.
Proof.
  intros H En ED LR. destruct (reached_kept r t H) as [Hs Hc]. destruct (reached_n r t H) as [N _]. destruct (sized_DYN t Hs) as [LD LG].
  destruct (to_REG r2) as (r3 & E & C & V & S); [rewrite ED, LD, N, En; reflexivity|exact LR|].
  rewrite update_REG_eq by auto. eexists. eexists. split; [exact E|]. split; [reflexivity|].
  split. { rewrite V, member_tput, ED, En, N. reflexivity. }
  split; [apply changes_tput; left; auto|]. unfold t_sync. rewrite t_n_tput, member_tput, member_tput_ne by discriminate. apply reg_links. exact LD.
Qed.
Theorem same_to_DYN r t r2 : reached r t -> numJoints r2 = numJoints r ->
  get_arg r2 "par_REG" = member t "par_REG" -> List.length (get_arg r2 "par_DYN") = 10 * numJoints r2 -> massive (numJoints r) (member t "par_REG") ->
  exists r3 t1, update_inertial_DYN r2 = Ok r3 /\ t_update_DYN t = Ok t1 /\ get_arg r3 "par_DYN" = member t1 "par_DYN" /\
    t_changes ["par_DYN"] t t1 /\ t_sync t1.
Proof.
  intros H En ED LR M. destruct (reached_kept r t H) as [Hs Hc]. destruct (reached_n r t H) as [N _]. destruct (sized_DYN t Hs) as [LD LG].
  destruct (to_DYN r2) as (r3 & E & C & V & S); [exact LR|rewrite ED, LG, N, En; reflexivity|rewrite ED, En; exact M|].
  rewrite update_DYN_eq by auto. eexists. eexists. split; [exact E|]. split; [reflexivity|].
  split. { rewrite V, member_tput, ED, En, N. reflexivity. }
  split; [apply changes_tput; left; auto|]. unfold t_sync. rewrite t_n_tput, member_tput, member_tput_ne by discriminate. apply dyn_links; [exact LG|now rewrite N].
Qed.
Lemma links_mass n D G i : same_links n D G -> i < n -> link_of G i 0 = link_of D i 0.
Proof. intros H Hi. apply (H i Hi). Qed.
Lemma dyn_reg_id n p : List.length p = 10 * n -> massive n p -> map_links n dyn_of_reg (map_links n reg_of_dyn p) = p.
Proof.
  intros L M. pose proof (reg_links n p L) as S1. set (q := map_links n reg_of_dyn p) in *.
  assert (Lq : List.length q = 10 * n) by (apply map_links_len, reg10).
  assert (Mq : massive n q) by (intros i Hi; rewrite (links_mass n p q i S1 Hi); apply M; auto).
  pose proof (dyn_links n q Lq Mq) as S2. apply (links_ext n); [apply map_links_len, dyn10|exact L|].
  intros i c Hi Hc. exact (same_dyn_unique _ _ _ (Mq i Hi) (S2 i Hi) (S1 i Hi) c Hc).
Qed.
Lemma reg_dyn_id n p : List.length p = 10 * n -> massive n p -> map_links n reg_of_dyn (map_links n dyn_of_reg p) = p.
Proof.
  intros L M. pose proof (dyn_links n p L M) as S1. set (q := map_links n dyn_of_reg p) in *.
  assert (Lq : List.length q = 10 * n) by (apply map_links_len, dyn10).
  pose proof (reg_links n q Lq) as S2. apply (links_ext n); [apply map_links_len, reg10|exact L|].
  intros i c Hi Hc. exact (same_reg_unique _ _ _ (S2 i Hi) (S1 i Hi) c Hc).
Qed.
Theorem t_round_trip r t : reached r t ->
  (massive (numJoints r) (member t "par_DYN") -> exists t1 t2, t_update_REG t = Ok t1 /\ t_update_DYN t1 = Ok t2 /\ member t2 "par_DYN" = member t "par_DYN") /\
  (massive (numJoints r) (member t "par_REG") -> exists t1 t2, t_update_DYN t = Ok t1 /\ t_update_REG t1 = Ok t2 /\ member t2 "par_REG" = member t "par_REG").
Proof.
  intros H. destruct (reached_kept r t H) as [Hs Hc]. destruct (reached_n r t H) as [N _]. destruct (sized_DYN t Hs) as [LD LG]. rewrite <- N. split; intros M.
  - rewrite update_REG_eq by auto. eexists. eexists. split; [reflexivity|].
    rewrite update_DYN_eq. 2:{ apply sized_tput; auto. right. rewrite reg_links_len. now symmetry. }
    split; [reflexivity|]. rewrite member_tput, t_n_tput, member_tput. apply dyn_reg_id; auto.
  - rewrite update_DYN_eq by auto. eexists. eexists. split; [reflexivity|].
    rewrite update_REG_eq. 2:{ apply sized_tput; auto. right. rewrite map_links_len by exact dyn10. now symmetry. }
    split; [reflexivity|]. rewrite member_tput, t_n_tput, member_tput. apply reg_dyn_id; auto.
Qed.

(* ---- wrong sizes that are not ignored ---- *)
Lemma repeat_link (x : R) m i c : 10 * i + c < m -> link_of (repeat x m) i c = x.
Proof. intros H. unfold link_of. apply nth_error_nth. rewrite <- (repeat_length x m) in H at 1. revert H. generalize (10 * i + c). clear. intros k. revert k. induction m; destruct k; simpl; intros; try lia; auto. apply IHm. lia. Qed.
Lemma new_member r k len : In (k, len) (member_sizes (numJoints r) (numElasticJoints r) (K_order r) (D_order r) (Dl_order r) (Dm_order r)) ->
  member (new_class r) k = repeat 0%R len.
Proof. intros H. unfold member, mget. now rewrite (new_count r k len H). Qed.
Theorem DYN_overwrites r : 1 <= numJoints r -> exists t v t1, reached r t /\ List.length v <> List.length (member t "par_DYN") /\
  t_set_par_DYN v true t = Ok t1 /\ member t1 "par_REG" <> member t "par_REG".
Proof.
  intros Hn. set (n := numJoints r) in *. set (v1 := repeat 1%R (10 * n)).
  destruct (tset_REG v1 false (new_class r) (new_sized r)) as (t & E & Hs & C & V & _ & D & _).
  change (t_n (new_class r)) with n in V. rewrite (proj2 (Nat.eqb_eq _ _) (repeat_length 1%R (10 * n) : List.length v1 = 10 * n)) in V. specialize (D eq_refl).
  assert (H : reached r t).
  { exists (fun _ => 0%R), [CREG v1 false]. split; [intros c [<-|[]]; exact I|]. cbn [t_do_all t_do]. rewrite E. reflexivity. }
  destruct (reached_n r t H) as [N _]. fold n in N. destruct (sized_DYN t Hs) as [LD LG].
  exists t, [], (tput "par_REG" (map_links (t_n t) reg_of_dyn (member t "par_DYN")) t).
  split; [exact H|]. split; [rewrite LD; cbn [List.length]; lia|]. split.
  - unfold t_set_par_DYN, tstore. rewrite (proj2 (Nat.eqb_neq _ _)) by (rewrite LD; cbn [List.length]; lia). apply update_REG_eq; auto.
  - rewrite member_tput, V. intros Q. pose proof (reg_links (t_n t) (member t "par_DYN") LD 0 ltac:(lia)) as (M & _). rewrite Q in M.
    unfold v1 in M. rewrite repeat_link in M by lia. rewrite D in M.
    rewrite (new_member r "par_DYN" (STD_PAR_LINK * n)) in M by (cbn [member_sizes In]; auto 20). rewrite repeat_link in M by (unfold STD_PAR_LINK; lia). lra.
Qed.
Theorem DHtable_asserts r : 1 <= numJoints r -> exists t v cols m, reached r t /\ List.length v = now "par_DHtable" t /\ t_set_par_DHtable cols v t = UB m.
Proof.
  intros Hn. exists (new_class r), (repeat 0%R (numJoints r * 4)), 4, "Eigen: assignment of a matrix to a vector".
  assert (L : member (new_class r) "par_DHtable" = repeat 0%R (numJoints r * 4)) by (apply new_member; cbn [member_sizes In]; auto 25).
  split; [exists (fun _ => 0%R), []; split; [intros c []|reflexivity]|]. unfold now, t_set_par_DHtable. rewrite L, Nat.eqb_refl, repeat_length.
  split; [reflexivity|]. rewrite (proj2 (Nat.eqb_neq (numJoints r * 4) 0)) by lia. reflexivity.
Qed.
(* load_conf, asked to update par_REG, of a file whose second link lacks its numbers *)
Definition half_link : ynode :=
  YMap [("inertial", YMap (combine inertial_keys (map YDbl (1 :: repeat 0%R 9)%R)))].
Definition half_file : ynode := YMap [("dynamics", YMap [("link1", half_link); ("link2", YMap [])])].
Theorem load_conf_half junk r : 2 <= numJoints r -> exists t, t_load_conf junk (new_class r) (Some half_file) true = Ok t /\ ~ t_sync t.
Proof.
  intros Hn. unfold half_file. rewrite load_only_dynamics. unfold t_dynamics.
  change (yidx (YMap [("dynamics", YMap [("link1", half_link); ("link2", YMap [])])]) "dynamics") with (Some (YMap [("link1", half_link); ("link2", YMap [])])).
  cbn [ydef ychildren]. change (t_n (new_class r)) with (numJoints r).
  assert (L : List.length (p_DYN (pars_of (new_class r))) = 10 * numJoints r).
  { rewrite pars_new. unfold zero_pars, STD_PAR_LINK. cbn [p_DYN]. apply repeat_length. }
  set (s := pars_of (new_class r)) in *.
  assert (E : exists s1, t_links [("link1", half_link); ("link2", YMap [])] (numJoints r) 0 (t_Dl (new_class r)) s = Caught s1 /\
    p_DYN s1 = ((1 :: repeat 0 9) ++ skipn 10 (p_DYN s))%R%list).
  { destruct (numJoints r) as [|[|n]]; try lia. cbn [t_links]. unfold half_link at 1. cbn [yidx_c mget mfind String.eqb Ascii.eqb Bool.eqb ybind].
    change (mget YZombie "inertial" _) with (YMap (combine inertial_keys (map YDbl (1 :: repeat 0%R 9)%R))).
    rewrite (read_inertial (1 :: repeat 0%R 9)%R) by reflexivity.
    rewrite splice_ok by (unfold STD_PAR_LINK; cbn [List.length repeat]; lia).
    change (yidx_c half_link "friction") with (Some YZombie). cbn [ydef gbind].
    change (yidx_c (YMap []) "inertial") with (Some YZombie). cbn [ybind]. change (read_list YZombie inertial_keys) with (@None (list R)).
    eexists. split; [reflexivity|]. reflexivity. }
  destruct E as (s1 & -> & ED). cbn [on_pars gbind]. eexists. split; [reflexivity|].
  intros Q. unfold t_sync in Q. rewrite !put_pars_members in Q. cbn [mfind] in Q. change (t_n (put_pars (new_class r) s1)) with (numJoints r) in Q.
  destruct (Q 0 ltac:(lia)) as (M & _).
  change (link_of (member (new_class r) "par_REG") 0 0 = link_of (p_DYN s1) 0 0) in M.
  rewrite (new_member r "par_REG" (STD_PAR_LINK * numJoints r)) in M by (cbn [member_sizes In]; auto 20).
  rewrite repeat_link in M by (unfold STD_PAR_LINK; lia). rewrite ED in M. cbn in M. lra.
Qed.

(* ---- concrete objects ---- *)
Lemma toy_loaded_object h junk : exists t, t_do_all junk [CLoadConf (Some (toy_cfg h)) true] (new_class (toy0 h)) = Ok t /\
  (forall c, In c [CLoadConf (Some (toy_cfg h)) true] -> careful (numJoints (toy0 h)) c) /\
  t_n t = 3 /\ massive 3 (member t "par_DYN") /\ massive 3 (member t "par_REG").
Proof.
  destruct (load_conf_agrees junk "toy" (toy_cfg h) (toy0 h) true (toy_loads h) (toy_wf h) (toy_complete h)) as (t & E & Hs & Hk & Hp & Hq).
  assert (D : t_do_all junk [CLoadConf (Some (toy_cfg h)) true] (new_class (toy0 h)) = Ok t) by (cbn [t_do_all t_do]; rewrite E; reflexivity).
  assert (Hc : forall c, In c [CLoadConf (Some (toy_cfg h)) true] -> careful (numJoints (toy0 h)) c).
  { intros c [<-|[]]. cbn [careful]. split; [reflexivity|]. intros cfg Q. assert (toy_cfg h = cfg) as <- by congruence. apply toy_complete. }
  destruct (toy_lengths h) as (_ & _ & N3 & M & _). rewrite N3 in M.
  destruct (same_class_ne _ _ Hk) as [N _]. assert (N' : t_n t = 3) by (rewrite N; exact N3).
  pose proof (history_sync junk (toy0 h) _ Hc t D) as Y.
  assert (MD : massive 3 (member t "par_DYN")).
  { rewrite (Hq "par_DYN" (10 * numJoints (toy0 h))); [exact M|unfold par_sizes; cbn [In app]; auto 10|cbn; intuition discriminate]. }
  exists t. split; [exact D|]. split; [exact Hc|]. split; [exact N'|]. split; [exact MD|].
  intros i Hi. unfold t_sync in Y. rewrite N' in Y. rewrite (links_mass _ _ _ i Y Hi). apply MD; auto.
Qed.
Definition toy_link1 (m : R) : ynode := resymb 1 (toy_link m).
Lemma toy1_complete h : complete_links inertial_keys (numJoints (toy0_flags 1 h)) (resymb 1 (toy_cfg h)).
Proof.
  intros dyn E k nd Hk.
  assert (D : entry (resymb 1 (toy_cfg h)) "dynamics" = Some (YMap [("link1", toy_link1 1); ("link2", toy_link1 2); ("link3", toy_link1 3)])) by reflexivity.
  rewrite D in E. injection E as <-. change (numJoints (toy0_flags 1 h)) with 3 in Hk. cbn [ychildren firstn In] in Hk.
  assert (L : forall m, complete_link inertial_keys (toy_link1 m)).
  { intros m. split.
    - eexists. split; [reflexivity|]. intros k' Hk'. unfold number_at. cbn [inertial_keys In] in Hk'.
      decompose [or] Hk'; try contradiction; subst k'; do 2 eexists; (split; [reflexivity|reflexivity]).
    - right. do 3 eexists. split; [reflexivity|]. split; reflexivity. }
  destruct Hk as [Hk|[Hk|[Hk|[]]]]; injection Hk as <- <-; apply L.
Qed.
Lemma generic_meets name cfg r0 r junk : robot_from_file name cfg false = Ok r0 -> well_formed r0 -> robot_from_file name cfg true = Ok r ->
  complete_links inertial_keys (numJoints r0) cfg -> numJoints r0 = 3 -> numElasticJoints r0 = 1 ->
  (forall k len, In (k, len) (state_sizes r0) -> List.length (toy_args 0 k) = len) ->
  exists r' t, session name cfg r0 r r' /\ t_load_conf junk (new_class r) (Some cfg) true = Ok t /\
  (forall k len, In (k, len) (state_sizes r0) -> member (t_run toy_calls t) k = arg r' k) /\
  (forall k len, In (k, len) (par_sizes r0) -> member (t_run toy_calls t) k = member t k /\ arg r' k = arg r k).
Proof.
  intros Hl Hw Hr Hc N3 N1 Hst.
  destruct (session_any name cfg r0 r (conf_args r0) Hl Hw Hr) as [S1 A1].
  { intros k len Hk. unfold conf_args. rewrite (state_is _ _ _ Hk). auto. }
  { intros k len Hk. unfold conf_args. rewrite (par_not_state _ _ _ Hk). apply pick_selected. }
  set (r1 := with_args r _) in S1, A1. clearbody r1.
  destruct (load_conf_agrees junk name cfg r0 true Hl Hw Hc) as (t & E & Hs & Hk & Hp & Hq).
  destruct (same_class_ne _ _ Hk) as [T1 T2]. cbn [new_class t_n t_e] in T1, T2. rewrite N3 in T1. rewrite N1 in T2.
  pose proof (fun k => toy_run t k T1 T2 Hs) as M.
  exists r1, t. split; [exact S1|]. split; [rewrite (new_class_eq _ _ _ _ _ S1); exact E|]. split.
  - intros k len Hi. rewrite M, (state_mem _ _ _ Hi). rewrite (A1 k len) by (unfold keys; apply in_app_iff; left; exact Hi).
    unfold conf_args. now rewrite (state_is _ _ _ Hi).
  - intros k len Hi. rewrite M, (par_not_mem _ _ _ Hi). split; [reflexivity|]. assert (Hi' : In (k, len) (keys r0)) by (unfold keys; apply in_app_iff; right; exact Hi).
    rewrite (A1 k len Hi'). destruct (session_sess _ _ _ _ _ S1) as (b & _ & Bt). rewrite (bt_arg _ _ _ Bt k len Hi').
    unfold conf_args. now rewrite (par_not_state _ _ _ Hi).
Qed.
Lemma toy1_meets h junk : exists r r' t, let r0 := toy0_flags 1 h in
  session "toy" (resymb 1 (toy_cfg h)) r0 r r' /\ complete_links inertial_keys (numJoints r0) (resymb 1 (toy_cfg h)) /\
  (forall k len, In (k, len) (par_sizes r0) -> ~ In k compacted -> uniform (flags r0 k)) /\
  t_load_conf junk (new_class r) (Some (resymb 1 (toy_cfg h))) true = Ok t /\ (forall c, In c toy_calls -> In (fst c) tsetters) /\
  (forall k len, In (k, len) (state_sizes r0) -> member (t_run toy_calls t) k = arg r' k) /\
  (forall k len, In (k, len) (par_sizes r0) -> member (t_run toy_calls t) k = member t k /\ arg r' k = arg r k) /\
  selected (flags r0 "par_DYN") = 30 /\ Api.published r "M".
Proof.
  destruct (built_file _ _ _ (toy1_loads h) (toy1_wf h)) as [r Hr].
  destruct (generic_meets _ _ _ r junk (toy1_loads h) (toy1_wf h) Hr (toy1_complete h)) as (r' & t & S & E & A & B).
  { vm_compute. reflexivity. } { vm_compute. reflexivity. } { lens. }
  exists r, r', t. cbv zeta. split; [exact S|]. split; [apply toy1_complete|]. split.
  { intros k len Hk _. left.
    assert (U : forallb (fun p => forallb (Z.eqb 1) (flags (toy0_flags 1 h) (fst p))) (par_sizes (toy0_flags 1 h)) = true) by (vm_compute; reflexivity).
    rewrite forallb_forall in U. specialize (U _ Hk). cbn [fst] in U. rewrite forallb_forall in U. intros z Hz. specialize (U z Hz). apply Z.eqb_eq in U. exact (eq_sym U). }
  split; [exact E|]. split; [intros c Hc; apply state_in, toy_calls_ok, Hc|]. split; [exact A|]. split; [exact B|]. split; [vm_compute; reflexivity|].
  assert (C : In ("M", (3, 3)) (Api.catalogue (toy0_flags 1 h))) by inkeys.
  apply (proj1 (Api.catalogue_published _ _ _ _ _ S)) in C. destruct C as (fo & Hf & <- & _). unfold Api.published. apply in_map. exact Hf.
Qed.
