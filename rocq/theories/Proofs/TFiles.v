(* Files read and written by the generated class. *)
From Coq Require Import Reals List String Arith ZArith Bool Lia Lra.
From Verif.Model Require Import Base Expr SX Robot Yaml Inertia Build Template.
From Verif.Spec Require Import Math Setup State Config Template.
From Verif.Proofs Require Import Maps State InertiaConv StateSess Files TSetters.
Import ListNotations.
Open Scope nat_scope.
Open Scope string_scope.

(* ---- what holds of every state a loader can leave ---- *)
Definition okp {S} (P : S -> Prop) (x : prog S) : Prop := forall s, x = Go s \/ x = Caught s -> P s.
Lemma okp_go {S} (P : S -> Prop) s : P s -> okp P (Go s).
Proof. intros H s' [E|E]; inversion E; subst; auto. Qed.
Lemma okp_caught {S} (P : S -> Prop) s : P s -> okp P (Caught s).
Proof. intros H s' [E|E]; inversion E; subst; auto. Qed.
Lemma okp_bad {S} (P : S -> Prop) m : okp P (Bad m).
Proof. intros s' [E|E]; inversion E. Qed.
Lemma okp_bind {S} (P : S -> Prop) x f : okp P x -> (forall s, P s -> okp P (f s)) -> okp P (gbind x f).
Proof. intros H Hf. destruct x; cbn [gbind]; [apply Hf, H; auto|exact H|apply okp_bad]. Qed.

Definition samelen (s s' : pars) : Prop :=
  List.length (p_DYN s') = List.length (p_DYN s) /\ List.length (p_Dl s') = List.length (p_Dl s) /\
  List.length (p_K s') = List.length (p_K s) /\ List.length (p_D s') = List.length (p_D s) /\
  List.length (p_Dm s') = List.length (p_Dm s) /\ List.length (p_Mm s') = List.length (p_Mm s).
Lemma samelen_refl s : samelen s s. Proof. repeat split. Qed.
Lemma samelen_trans a b c : samelen a b -> samelen b c -> samelen a c.
Proof. unfold samelen. intuition congruence. Qed.
Lemma read_vec_len v : forall order j base p, okp (fun p' => List.length p' = List.length p) (read_vec v order j base p).
Proof.
  induction order as [|o IH]; intros j base p; cbn [read_vec]; [apply okp_go; auto|].
  destruct (nth_error v j); [|apply okp_bad]. intros p' H. rewrite (IH _ _ _ p' H). apply upd_len.
Qed.
Lemma splice_len p off v p' : splice p off v = Some p' -> List.length p' = List.length p.
Proof.
  unfold splice. destruct (Nat.leb_spec (off + List.length v) (List.length p)); [|discriminate]. intros E; injection E as <-.
  rewrite !app_length, firstn_length, skipn_length. lia.
Qed.
Ltac okp_lift H := intros s' E; match type of H with okp _ ?x => destruct x as [p|p|m] eqn:Ex end; cbn in E; destruct E as [E|E]; try discriminate;
  injection E as <-; repeat split; cbn; apply H; auto.
Lemma lift_Dl_ok s x : okp (fun p => List.length p = List.length (p_Dl s)) x -> okp (samelen s) (lift_Dl s x).
Proof. intros H. okp_lift H. Qed.
Lemma lift_K_ok s x : okp (fun p => List.length p = List.length (p_K s)) x -> okp (samelen s) (lift_K s x).
Proof. intros H. okp_lift H. Qed.
Lemma lift_D_ok s x : okp (fun p => List.length p = List.length (p_D s)) x -> okp (samelen s) (lift_D s x).
Proof. intros H. okp_lift H. Qed.
Lemma lift_Dm_ok s x : okp (fun p => List.length p = List.length (p_Dm s)) x -> okp (samelen s) (lift_Dm s x).
Proof. intros H. okp_lift H. Qed.
Lemma okp_weaken {S} (P Q : S -> Prop) x : (forall s, P s -> Q s) -> okp P x -> okp Q x.
Proof. intros H A s E. auto. Qed.
Lemma load_order_len nd key order base p : okp (fun p' => List.length p' = List.length p) (load_order nd key order base p).
Proof.
  unfold load_order. destruct (Nat.ltb 0 order); [|apply okp_go; auto].
  destruct (read_vector_key nd key); [apply read_vec_len|apply okp_caught; auto].
Qed.
Lemma load_elastic_len l : forall left i kO dO dmO s, okp (samelen s) (load_elastic l left i kO dO dmO s).
Proof.
  induction l as [|[k nd] l IH]; intros left i kO dO dmO s; cbn [load_elastic].
  - apply okp_go, samelen_refl.
  - destruct left; [apply okp_go, samelen_refl|].
    apply okp_bind. { apply lift_K_ok, load_order_len. } intros s1 H1.
    apply okp_bind. { eapply okp_weaken; [|apply lift_D_ok, load_order_len]. intros; eapply samelen_trans; eauto. } clear s1 H1. intros s2 H2.
    apply okp_bind. { eapply okp_weaken; [|apply lift_Dm_ok, load_order_len]. intros; eapply samelen_trans; eauto. } clear s2 H2. intros s3 H3.
    destruct (ybind _ _); [|apply okp_caught; auto].
    eapply okp_weaken; [|apply IH]. intros s' H'. eapply samelen_trans; [exact H3|]. eapply samelen_trans; [|exact H'].
    repeat split; cbn. apply upd_len.
Qed.
Lemma t_links_len l : forall left i dlO s, okp (samelen s) (t_links l left i dlO s).
Proof.
  induction l as [|[k nd] l IH]; intros left i dlO s; cbn [t_links].
  - apply okp_go, samelen_refl.
  - destruct left; [apply okp_go, samelen_refl|].
    destruct (ybind _ _) as [v|]; [|apply okp_caught, samelen_refl].
    destruct (splice (p_DYN s) (STD_PAR_LINK * i) v) as [p|] eqn:Es; [|apply okp_bad].
    apply splice_len in Es.
    set (s1 := mkPars p (p_Dl s) (p_K s) (p_D s) (p_Dm s) (p_Mm s)).
    assert (H1 : samelen s s1) by (repeat split; auto).
    destruct (yidx_c nd "friction") as [fr|]; [|apply okp_caught; auto].
    apply okp_bind.
    + destruct (ydef fr); [|apply okp_go; auto]. destruct (ybind _ _); [|apply okp_caught; auto].
      eapply okp_weaken; [|apply lift_Dl_ok, read_vec_len]. intros; eapply samelen_trans; eauto.
    + intros s2 H2. eapply okp_weaken; [|apply IH]. intros; eapply samelen_trans; eauto.
Qed.

(* ---- load_conf keeps the class and the sizes ---- *)
Definition kept (t0 t : tobj) : Prop := sized t /\ same_class t0 t.
Lemma kept_tput t0 k v t : (In k compacted \/ List.length v = List.length (member t k)) -> kept t0 t -> kept t0 (tput k v t).
Proof. intros H [A B]. split; [apply sized_tput; auto|]. eapply same_class_trans; [exact B|apply same_class_tput]. Qed.
Lemma kept_symb t0 k v t : kept t0 t -> kept t0 (tput_symb k v t).
Proof. intros [A B]. split; [exact A|]. eapply same_class_trans; [exact B|apply same_class_symb]. Qed.
Lemma put_pars_members t s k : member (put_pars t s) k =
  match mfind k [("par_DYN", p_DYN s); ("par_Dl", p_Dl s); ("par_K", p_K s); ("par_D", p_D s); ("par_Dm", p_Dm s); ("par_Mm", p_Mm s)] with
  | Some v => v | None => member t k end.
Proof.
  unfold put_pars. cbn [mfind].
  repeat match goal with |- context [String.eqb k ?x] => destruct (String.eqb_spec k x) as [->|?];
    [repeat (rewrite member_tput_ne by discriminate); apply member_tput|] end.
  rewrite !member_tput_ne by auto. reflexivity.
Qed.
Lemma kept_pars t0 t s : samelen (pars_of t) s -> kept t0 t -> kept t0 (put_pars t s).
Proof.
  intros (A & B & C & D & E & F) H. unfold put_pars. cbn in A, B, C, D, E, F.
  repeat (apply kept_tput; [right; repeat (rewrite member_tput_ne by discriminate); assumption|]). exact H.
Qed.
Lemma on_pars_okp P x t : okp (fun s => P (put_pars t s)) x -> okp P (on_pars x t).
Proof. intros H t' E. destruct x; cbn in E; destruct E as [E|E]; inversion E; subst; apply H; auto. Qed.

Section J.
  Variable junk : nat -> R.
  Variable t0 : tobj.
  Lemma compact_in k : In k ["par_DHtable"; "par_world2L0"; "par_Ln2EE"; "par_gravity"] -> In k compacted.
  Proof. auto. Qed.
  Lemma kinematics_ok cfg t : kept t0 t -> okp (kept t0) (t_kinematics junk cfg t).
  Proof.
    intros H. unfold t_kinematics. destruct (yidx cfg "kinematics") as [kin|]; [|apply okp_caught; auto].
    destruct (ydef kin); [|apply okp_go; auto]. cbv zeta.
    assert (H1 : kept t0 (tput "par_DHtable" (vresize junk (t_n t * 4) (member t "par_DHtable")) t)).
    { apply kept_tput; auto. left; simpl; auto. }
    destruct (ybind _ _) as [dh|]; [|apply okp_caught; auto].
    destruct (new_flags _ _) as [fl|]; [|apply okp_caught; auto].
    destruct (picked _ _ _) as [l|]; [|apply okp_bad]. destruct (Nat.leb _ _); [|apply okp_bad].
    apply okp_go. apply kept_tput; [left; simpl; auto|]. apply kept_symb; auto.
  Qed.
  Lemma frame_ok sec par sy cfg t : In par compacted -> kept t0 t -> okp (kept t0) (t_frame junk sec par sy cfg t).
  Proof.
    intros Hp H. unfold t_frame. destruct (yidx cfg sec) as [fr|]; [|apply okp_caught; auto].
    destruct (ydef fr); [|apply okp_go; auto]. cbv zeta.
    assert (H1 : kept t0 (tput par (vresize junk 6 (member t par)) t)) by (apply kept_tput; auto).
    destruct (new_flags _ _) as [fl|]; [|apply okp_caught; auto].
    assert (H2 : kept t0 (tput_symb sy fl (tput par (vresize junk 6 (member t par)) t))) by (apply kept_symb; auto).
    destruct (ybind _ _); [|apply okp_caught; auto]. destruct (ybind _ _); [|apply okp_caught; auto].
    destruct (picked 3 fl _); [|apply okp_bad]. destruct (picked _ _ _); [|apply okp_bad]. apply okp_go. apply kept_tput; auto.
  Qed.
  Lemma gravity_ok cfg t : kept t0 t -> okp (kept t0) (t_gravity junk cfg t).
  Proof.
    intros H. unfold t_gravity. destruct (yidx cfg "gravity") as [fr|]; [|apply okp_caught; auto].
    destruct (ydef fr); [|apply okp_go; auto]. cbv zeta.
    assert (Hc : In "par_gravity" compacted) by (simpl; auto).
    assert (H1 : kept t0 (tput "par_gravity" (vresize junk 3 (member t "par_gravity")) t)) by (apply kept_tput; auto).
    destruct (new_flags _ _) as [fl|]; [|apply okp_caught; auto].
    assert (H2 : kept t0 (tput_symb "gravity_symb" fl (tput "par_gravity" (vresize junk 3 (member t "par_gravity")) t))) by (apply kept_symb; auto).
    destruct (ybind _ _); [|apply okp_caught; auto].
    destruct (picked _ _ _); [|apply okp_bad]. apply okp_go. apply kept_tput; auto.
  Qed.
  Lemma kept_update_REG t : kept t0 t -> exists t1, t_update_REG t = Ok t1 /\ kept t0 t1.
  Proof.
    intros [Hs Hc]. rewrite update_REG_eq by auto. eexists. split; [reflexivity|]. apply kept_tput; [|split; auto].
    right. rewrite reg_links_len. symmetry. apply sized_DYN; auto.
  Qed.
  Lemma dynamics_ok upd cfg t : kept t0 t -> okp (kept t0) (t_dynamics upd cfg t).
  Proof.
    intros H. unfold t_dynamics. destruct (yidx cfg "dynamics") as [fr|]; [|apply okp_caught; auto].
    destruct (ydef fr); [|apply okp_go; auto].
    apply okp_bind.
    - apply on_pars_okp. eapply okp_weaken; [|apply t_links_len]. intros s Hs. apply kept_pars; auto.
    - intros t1 H1. destruct upd; [|apply okp_go; auto].
      destruct (kept_update_REG t1 H1) as (t2 & E & H2). rewrite E. apply okp_go; auto.
  Qed.
  Lemma elastic_ok cfg t : kept t0 t -> okp (kept t0) (t_elastic cfg t).
  Proof.
    intros H. unfold t_elastic. destruct (yidx cfg "elastic") as [fr|]; [|apply okp_caught; auto].
    destruct (ydef fr); [|apply okp_go; auto]. destruct (yidx fr "joints"); [|apply okp_caught; auto].
    apply on_pars_okp. eapply okp_weaken; [|apply load_elastic_len]. intros s Hs. apply kept_pars; auto.
  Qed.
  Lemma load_conf_kept file upd t t1 : kept t0 t -> t_load_conf junk t file upd = Ok t1 -> kept t0 t1.
  Proof.
    intros H E. unfold t_load_conf in E. destruct file as [cfg|]; [|injection E as <-; auto].
    match type of E with match ?x with _ => _ end = _ => set (x0 := x) in E; assert (K : okp (kept t0) x0) end.
    { unfold x0. apply okp_bind; [apply kinematics_ok; auto|]. intros a Ha.
      apply okp_bind; [apply frame_ok; auto; simpl; auto|]. clear a Ha. intros a Ha.
      apply okp_bind; [apply frame_ok; auto; simpl; auto|]. clear a Ha. intros a Ha.
      apply okp_bind; [apply dynamics_ok; auto|]. clear a Ha. intros a Ha.
      apply okp_bind; [apply gravity_ok; auto|]. clear a Ha. intros a Ha. apply elastic_ok; auto. }
    clearbody x0. destruct x0; try discriminate; injection E as <-; apply K; auto.
  Qed.
End J.

(* ---- load_par_REG ---- *)
Lemma read_list_len nd : forall keys v, read_list nd keys = Some v -> List.length v = List.length keys.
Proof.
  induction keys as [|k keys IH]; cbn [read_list]; intros v E; [injection E as <-; reflexivity|].
  destruct (ybind (yidx nd k) as_double); cbn [ybind] in E; [|discriminate].
  destruct (read_list nd keys) as [l|]; cbn [ybind] in E; [|discriminate]. injection E as <-. simpl. f_equal. auto.
Qed.
Lemma reg_links_ok l : forall left i p, List.length p = 10 * (i + left) ->
  okp (fun p' => List.length p' = List.length p) (t_reg_links l left i p) /\ forall m, t_reg_links l left i p <> Bad m.
Proof.
  induction l as [|[k nd] l IH]; intros left i p Hl; cbn [t_reg_links].
  - split; [apply okp_go; auto|discriminate].
  - destruct left; [split; [apply okp_go; auto|discriminate]|].
    destruct (ybind _ _) as [v|] eqn:Ev; [|split; [apply okp_caught; auto|discriminate]].
    assert (Lv : List.length v = 10).
    { destruct (yidx_c nd "inertial") as [x|]; cbn [ybind] in Ev; [|discriminate]. apply read_list_len in Ev. exact Ev. }
    destruct (splice p (STD_PAR_LINK * i) v) as [p1|] eqn:Es.
    + pose proof (splice_len _ _ _ _ Es) as L1. destruct (IH left (S i) p1) as [A B]; [rewrite L1, Hl; lia|].
      split; auto. intros p' E. rewrite (A p' E). auto.
    + unfold splice in Es. rewrite Lv, Hl in Es. unfold STD_PAR_LINK in Es.
      rewrite (proj2 (Nat.leb_le _ _)) in Es by lia. discriminate.
Qed.
Theorem load_REG_ok file upd t : sized t -> exists t1 v, t_load_par_REG t file upd = Ok (t1, v) /\ sized t1 /\
  v = member t1 "par_REG" /\ t_changes ["par_DYN"; "par_REG"] t t1 /\ (upd = false -> member t1 "par_DYN" = member t "par_DYN").
Proof.
  intros Hs. destruct (sized_DYN t Hs) as [LD LR].
  assert (Same : exists t1 v, Ok (t, member t "par_REG") = Ok (t1, v) /\ sized t1 /\
    v = member t1 "par_REG" /\ t_changes ["par_DYN"; "par_REG"] t t1 /\ (upd = false -> member t1 "par_DYN" = member t "par_DYN")).
  { exists t, (member t "par_REG"). repeat (split; auto); auto using same_class_refl. }
  unfold t_load_par_REG. destruct file as [cfg|]; auto. destruct (yidx cfg "dynamics") as [dyn|]; auto. destruct (ydef dyn); auto.
  destruct (reg_links_ok (ychildren dyn) (t_n t) 0 (member t "par_REG")) as [A B]; [simpl; lia|].
  assert (Put : forall p, List.length p = List.length (member t "par_REG") -> sized (tput "par_REG" p t)).
  { intros p Hp. apply sized_tput; auto. }
  destruct (t_reg_links _ _ _ _) as [p|p|m]; [| |exfalso; eapply B; reflexivity]; specialize (A p);
    specialize (Put p (A ltac:(auto))).
  - cbv zeta. destruct upd.
    + rewrite update_DYN_eq by auto. cbn [bind]. eexists _, _. split; [reflexivity|]. split.
      { apply sized_tput; auto. right. rewrite dyn_links_len. rewrite member_tput_ne by discriminate. cbn. symmetry; exact LD. }
      split; [reflexivity|]. split; [|discriminate]. eapply changes_trans; apply changes_tput; simpl; auto.
    + eexists _, _. split; [reflexivity|]. split; [auto|]. split; [reflexivity|]. split; [apply changes_tput; simpl; auto|].
      intros _. apply member_tput_ne. discriminate.
  - eexists _, _. split; [reflexivity|]. split; [auto|]. split; [reflexivity|]. split; [apply changes_tput; simpl; auto|].
    intros _. apply member_tput_ne. discriminate.
Qed.

(* ---- every history ---- *)
Lemma do_kept junk t0 c t t1 : known c -> kept t0 t -> t_do junk c t = Ok t1 -> kept t0 t1.
Proof.
  intros Hk [Hs Hc] E. destruct c; cbn [t_do] in E.
  - injection E as <-. cbn in Hk. split; [apply sized_set; auto|]. eapply same_class_trans; [exact Hc|]. apply class_set; auto.
  - injection E as <-. unfold t_setArguments.
    destruct (Nat.eqb_spec (List.length q) (t_n t)), (Nat.eqb_spec (List.length dq) (t_n t)),
      (Nat.eqb_spec (List.length dqr) (t_n t)), (Nat.eqb_spec (List.length ddqr) (t_n t)); cbn [andb]; try (split; assumption).
    assert (L : forall k, In k ["q"; "dq"; "dqr"; "ddqr"] -> List.length (member t k) = t_n t).
    { intros k Hi. apply (Hs k (t_n t)); simpl in Hi; decompose [or] Hi; try contradiction; subst k; cbn; auto 20; intuition discriminate. }
    repeat (apply kept_tput; [right; repeat (rewrite member_tput_ne by discriminate); rewrite L by (simpl; auto 10); assumption|]).
    split; auto.
  - unfold t_set_par_DHtable in E. destruct (Nat.eqb _ _); [|injection E as <-; split; auto].
    destruct (_ || _); [|discriminate]. injection E as <-. apply kept_tput; [left; simpl; auto|split; auto].
  - destruct (tset_DYN v upd t Hs) as (t2 & E2 & S2 & C2 & _). rewrite E2 in E. injection E as <-. split; auto.
    eapply same_class_trans; [exact Hc|apply C2].
  - destruct (tset_REG v upd t Hs) as (t2 & E2 & S2 & C2 & _). rewrite E2 in E. injection E as <-. split; auto.
    eapply same_class_trans; [exact Hc|apply C2].
  - destruct (load_REG_ok file upd t Hs) as (t2 & v & E2 & S2 & _ & C2 & _). rewrite E2 in E. cbn in E. injection E as <-. split; auto.
    eapply same_class_trans; [exact Hc|apply C2].
  - eapply load_conf_kept; [split; eauto|exact E].
Qed.
Theorem history_kept junk h : (forall c, In c h -> known c) -> forall r t, t_do_all junk h (new_class r) = Ok t ->
  sized t /\ same_class (new_class r) t.
Proof.
  intros Hk r. assert (H : forall h, (forall c, In c h -> known c) -> forall t1 t, kept (new_class r) t1 -> t_do_all junk h t1 = Ok t -> kept (new_class r) t).
  { clear. induction h as [|c h IH]; intros Hk t1 t H1 E; cbn [t_do_all] in E; [injection E as <-; auto|].
    destruct (t_do junk c t1) as [t2| |] eqn:E2; cbn [bind] in E; try discriminate.
    eapply IH; [|eapply do_kept; [apply Hk; left; reflexivity|exact H1|exact E2]|exact E]. intros; apply Hk; right; auto. }
  intros t E. apply (H h Hk (new_class r) t); auto. split; [apply new_sized|apply same_class_refl].
Qed.
