(* The files written by the two parameter file tools. *)
From Coq Require Import Reals Lra Lia String List Bool Arith ZArith.
From Verif.Model Require Import Base Robot Yaml Inertia Bodies Build Template GenYaml.
From Verif.Spec Require Import Math Config Values State Bodies Template Sample GenYaml.
From Verif.Proofs Require Import Values InertiaConv StateSess Bodies TSetters TSync TFacts TSave TFiles TGet.
Import ListNotations.
Open Scope nat_scope.
Open Scope string_scope.

Lemma read_list_gives nd : forall keys v, read_list nd keys = Some v <-> gives keys nd v.
Proof.
  induction keys as [|k keys IH]; intros v; cbn [read_list].
  - split; intros H; [injection H as <-; constructor|inversion H; reflexivity].
  - split.
    + intros H. destruct (yidx nd k) as [m|] eqn:Em; [|discriminate]. cbn [ybind] in H.
      destruct (as_double m) as [x|] eqn:Ex; [|discriminate]. cbn [ybind] in H.
      destruct (read_list nd keys) as [l|] eqn:El; [|discriminate]. cbn [ybind] in H. injection H as <-.
      constructor; [|apply IH; reflexivity]. exists m. split; [|apply as_double_reads; exact Ex].
      exact (yidx_get nd k m R x as_double Em Ex eq_refl).
    + intros H. inversion H as [|? x ? l (m & Em & Ex) Hl]; subst. rewrite (yidx_number nd k m x Em Ex). cbn [ybind].
      apply IH in Hl. rewrite Hl. reflexivity.
Qed.
Lemma F2_length {A B} (P : A -> B -> Prop) l m : Forall2 P l m -> List.length l = List.length m.
Proof. intros H. induction H; simpl; congruence. Qed.
Lemma gives_len keys nd v : gives keys nd v -> List.length v = List.length keys.
Proof. intros H. symmetry. exact (F2_length _ _ _ H). Qed.
Lemma gives_map keys (l : list R) : NoDup keys -> List.length l = List.length keys -> gives keys (YMap (combine keys (map YDbl l))) l.
Proof.
  intros ND L. revert l L. induction ND as [|k keys Hk ND IH]; intros l L; destruct l as [|x l]; try discriminate; [constructor|].
  cbn [map combine]. constructor.
  - exists (YDbl x). split; [cbn [entry mfind]; now rewrite String.eqb_refl|constructor].
  - specialize (IH l ltac:(simpl in L; lia)).
    assert (G : forall ks vs, (forall q, In q ks -> q <> k) -> Forall2 (fun q y => exists m, entry (YMap (combine keys (map YDbl l))) q = Some m /\ reads_as m y) ks vs ->
      Forall2 (fun q y => exists m, entry (YMap ((k, YDbl x) :: combine keys (map YDbl l))) q = Some m /\ reads_as m y) ks vs).
    { intros ks vs N F. induction F as [|q y ks vs (m & A & B) F IF]; constructor.
      - exists m. split; [|exact B]. cbn [entry mfind] in *. rewrite (proj2 (String.eqb_neq q k)); [exact A|]. apply N. left; reflexivity.
      - apply IF. intros z Hz. apply N. right; exact Hz. }
    apply G; [intros q Hq ->; contradiction|exact IH].
Qed.
Lemma nodup_dyn : NoDup link_keys. Proof. repeat constructor; simpl; intuition discriminate. Qed.
Lemma nodup_reg : NoDup reg_link_keys. Proof. repeat constructor; simpl; intuition discriminate. Qed.

(* building the map of the links *)
Lemma yput_new k v l : ~ In k (map fst l) -> yput k v l = (l ++ [(k, v)])%list.
Proof.
  induction l as [|[k' v'] l IH]; simpl; intros H; [reflexivity|]. rewrite (proj2 (String.eqb_neq k k')) by intuition.
  rewrite IH by tauto. reflexivity.
Qed.
Lemma fold_yput (f : body -> ynode) : forall links acc, NoDup (map fst acc ++ map b_name links)%list ->
  fold_left (fun l b => yput (b_name b) (f b) l) links acc = (acc ++ map (fun b => (b_name b, f b)) links)%list.
Proof.
  induction links as [|b links IH]; intros acc H; cbn [fold_left map]; [now rewrite app_nil_r|].
  cbn [map] in H. rewrite yput_new.
  - rewrite IH; [rewrite <- app_assoc; reflexivity|]. rewrite map_app, <- app_assoc. exact H.
  - apply NoDup_remove_2 in H. intros Q. apply H. apply in_or_app. left. exact Q.
Qed.
Lemma fill_links keys links : NoDup (map b_name links) ->
  links_in (fillInertialYaml keys links) = map (fun b => (b_name b, fill_link keys b)) links.
Proof.
  intros H. unfold links_in, fillInertialYaml. rewrite fold_yput by exact H. cbn [app entry mfind String.eqb Ascii.eqb Bool.eqb].
  generalize (map (fun b => (b_name b, fill_link keys b)) links). intros [|? ?]; reflexivity.
Qed.

(* reading *)
Definition link_body (name : string) (v dl : list R) : body := mkBody name (p_at v 0) (skipn 4 v) (firstn 3 (skipn 1 v)) [0; 0; 0]%R dl.
Lemma lset_app {A} (pre post : list A) a b : lset (pre ++ a :: post) (List.length pre) b = Some (pre ++ b :: post)%list.
Proof. induction pre; simpl; [reflexivity|]. now rewrite IHpre. Qed.
Lemma read_ten_says nd inertial v : entry nd "inertial" = Some inertial -> gives link_keys inertial v -> read_ten nd = Some v.
Proof.
  intros E G. unfold read_ten. rewrite (entry_yidxc _ _ _ E). cbn [ybind]. apply read_list_gives. exact G.
Qed.
Lemma read_all : forall l (vs : list (list R)) pre post, Forall2 (fun e v => read_ten (snd e) = Some v) l vs ->
  List.length l <= List.length post ->
  read_links 0 l (List.length pre) (pre ++ post) =
  Ok (Some (pre ++ map (fun ev => link_body (fst (fst ev)) (snd ev) [0]%R) (combine l vs) ++ skipn (List.length l) post)%list).
Proof.
  induction l as [|[k nd] l IH]; intros vs pre post F L; inversion F as [|? v ? vs' Hv F']; subst; cbn [read_links combine map]; [reflexivity|].
  cbn [snd] in Hv. rewrite Hv. unfold read_Dl. cbn [Z.eqb bind]. destruct post as [|a post]; [simpl in L; lia|].
  rewrite lset_app. fold (link_body k v [0]%R).
  specialize (IH vs' (pre ++ [link_body k v [0]%R])%list post F' ltac:(simpl in L; lia)).
  rewrite app_length in IH. cbn [List.length] in IH. rewrite Nat.add_1_r in IH. rewrite <- !app_assoc in IH. cbn [app] in IH.
  rewrite IH. cbn [fst snd List.length skipn]. reflexivity.
Qed.
Lemma ten_split (v : list R) : List.length v = 10 -> link_numbers (link_body "" v []) = v.
Proof.
  intros H. do 10 (destruct v as [|? v]; [discriminate|]). destruct v; [reflexivity|discriminate].
Qed.
Lemma numbers_link name v dl : List.length v = 10 -> link_numbers (link_body name v dl) = v.
Proof. intros H. exact (ten_split v H). Qed.
Lemma reg_link_numbers b : List.length (b_I b) = 6 -> link_numbers (reg_link b) = reg_of_dyn (link_numbers b).
Proof.
  intros H. destruct b as [nm m I xyz rpy dl]. cbn [b_I] in H. do 6 (destruct I as [|? I]; [discriminate|]). destruct I; [|discriminate].
  reflexivity.
Qed.
Lemma reg_link_name b : b_name (reg_link b) = b_name b. Proof. reflexivity. Qed.
Lemma map_combine_fst {A B} (l : list (string * A)) (vs : list B) : List.length l = List.length vs ->
  map (fun ev => fst (fst ev)) (combine l vs) = map fst l.
Proof. revert vs; induction l as [|a l IH]; intros [|v vs] H; simpl in *; try discriminate; auto. f_equal. apply IH. lia. Qed.

Lemma readable_numbers (l : list (string * ynode)) : (forall k nd, In (k, nd) l -> exists inertial v, entry nd "inertial" = Some inertial /\ gives link_keys inertial v) ->
  exists vs, Forall2 (fun e v => read_ten (snd e) = Some v) l vs /\ Forall (fun v => List.length v = 10) vs.
Proof.
  induction l as [|[k nd] l IH]; intros H; [exists []; split; constructor|].
  destruct IH as (vs & A & B); [intros; eapply H; right; eauto|].
  destruct (H k nd (or_introl eq_refl)) as (inertial & v & E & G). exists (v :: vs). split; constructor; auto.
  - exact (read_ten_says nd inertial v E G).
  - exact (gives_len _ _ _ G).
Qed.
Lemma order_zero l : no_friction (YMap l) -> ybind (yidx (YMap l) "Dl_order") (fun d => if ydef d then as_int d else Some 0%Z) = Some 0%Z.
Proof. unfold no_friction. cbn [entry yidx ybind]. unfold mget. intros [->| ->]; reflexivity. Qed.

Lemma gen_main n cfg dyn : entry cfg "dynamics" = Some dyn -> no_friction cfg -> List.length (links_in cfg) = n -> readable_file cfg ->
  exists vs, Forall2 (fun e v => read_ten (snd e) = Some v) (links_in cfg) vs /\ Forall (fun v => List.length v = 10) vs /\
  let links := map (fun ev => link_body (fst (fst ev)) (snd ev) [0]%R) (combine (links_in cfg) vs) in
  genInertial_files n (Some cfg) = Ok (Some (fillInertialYaml reg_keys (map reg_link links), fillInertialYaml inertial_keys links)).
Proof.
  intros Ed D L [ND RD]. destruct (readable_numbers _ RD) as (vs & F & T). exists vs. split; [exact F|]. split; [exact T|].
  cbv zeta. unfold genInertial_files. destruct cfg; try discriminate. rewrite order_zero by exact D.
  rewrite (entry_yidx _ _ _ Ed). unfold links_in in *. rewrite Ed in *.
  pose proof (read_all (ychildren dyn) vs [] (repeat new_link n) F ltac:(rewrite repeat_length; lia)) as E.
  cbn [List.length app] in E. rewrite E. cbn [bind]. rewrite skipn_all2 by (rewrite repeat_length; lia). rewrite app_nil_r. reflexivity.
Qed.
Lemma F2_nth {A B} (P : A -> B -> Prop) l m i a : Forall2 P l m -> nth_error l i = Some a -> exists b, nth_error m i = Some b /\ P a b.
Proof.
  intros H. revert i. induction H as [|x y l m Hxy H IH]; intros [|i] E; try discriminate.
  - injection E as <-. exists y. auto.
  - exact (IH i E).
Qed.
Lemma nth_combine {A B} : forall (l : list A) (m : list B) i a b, nth_error l i = Some a -> nth_error m i = Some b ->
  nth_error (combine l m) i = Some (a, b).
Proof. induction l as [|x l IH]; intros [|y m] [|i] a b E1 E2; try discriminate; simpl in *; [congruence|auto]. Qed.

Theorem gen_files n cfg dyn : entry cfg "dynamics" = Some dyn -> no_friction cfg -> List.length (links_in cfg) = n -> readable_file cfg ->
  exists reg out, genInertial_files n (Some cfg) = Ok (Some (reg, out)) /\
    List.length (links_in reg) = n /\ List.length (links_in out) = n /\
    forall i k v, link_says link_keys cfg i k v -> link_says link_keys out i k v /\
      exists w, link_says reg_link_keys reg i k w /\ same_link (ten v) (ten w).
Proof.
  intros Ed D L RD. destruct (gen_main n cfg dyn Ed D L RD) as (vs & F & T & E). cbv zeta in E.
  set (links := map (fun ev : string * ynode * list R => link_body (fst (fst ev)) (snd ev) [0]%R) (combine (links_in cfg) vs)) in E. destruct RD as [ND RD].
  pose proof (F2_length _ _ _ F) as LF.
  assert (N : map b_name links = map fst (links_in cfg)).
  { unfold links. rewrite map_map. cbn [link_body b_name]. apply map_combine_fst. exact LF. }
  assert (NDl : NoDup (map b_name links)) by (rewrite N; exact ND).
  assert (NDr : NoDup (map b_name (map reg_link links))) by (rewrite map_map; exact NDl).
  assert (Ll : List.length links = n) by (unfold links; rewrite map_length, combine_length; lia).
  eexists _, _. split; [exact E|]. rewrite !fill_links by assumption. rewrite !map_length.
  split; [exact Ll|]. split; [exact Ll|].
  intros i k v (nd & inertial & En & Ei & G). pose proof (read_ten_says nd inertial v Ei G) as Rv.
  destruct (F2_nth _ _ _ _ _ F En) as (v' & Ev & Rv'). cbn [snd] in Rv'. rewrite Rv in Rv'. injection Rv' as <-.
  assert (L10 : List.length v = 10) by (rewrite (gives_len _ _ _ G); reflexivity).
  assert (Eb : nth_error links i = Some (link_body k v [0]%R)).
  { unfold links. rewrite (map_nth_error _ _ _ (nth_combine _ _ _ _ _ En Ev)). reflexivity. }
  split.
  - exists (fill_link inertial_keys (link_body k v [0]%R)), (YMap (combine link_keys (map YDbl v))).
    rewrite fill_links by assumption. rewrite (map_nth_error _ _ _ Eb). cbn [link_body b_name]. split; [reflexivity|].
    split; [unfold fill_link; rewrite numbers_link by exact L10; reflexivity|]. apply gives_map; [exact nodup_dyn|rewrite L10; reflexivity].
  - exists (reg_of_dyn v). split; [|exact (reg_same v)].
    exists (fill_link reg_keys (reg_link (link_body k v [0]%R))), (YMap (combine reg_link_keys (map YDbl (reg_of_dyn v)))).
    rewrite fill_links by assumption. rewrite (map_nth_error _ _ _ (map_nth_error _ _ _ Eb)). split; [reflexivity|]. split.
    + unfold fill_link. rewrite reg_link_numbers.
      * rewrite numbers_link by exact L10. reflexivity.
      * cbn [link_body b_I]. rewrite skipn_length, L10. reflexivity.
    + apply gives_map; [exact nodup_reg|reflexivity].
Qed.

(* running the tool on its own output *)
Lemma fill_readable links : NoDup (map b_name links) -> readable_file (fillInertialYaml link_keys links).
Proof.
  intros ND. unfold readable_file. rewrite fill_links by exact ND. split; [rewrite map_map; exact ND|].
  intros k nd H. apply in_map_iff in H. destruct H as (b & E & _). injection E as <- <-.
  eexists _, (link_numbers b). split; [reflexivity|]. apply gives_map; [exact nodup_dyn|reflexivity].
Qed.
Lemma fill_dyn keys links : exists d, entry (fillInertialYaml keys links) "dynamics" = Some d /\ ydef d = true.
Proof. unfold fillInertialYaml. eexists. split; [reflexivity|]. destruct (fold_left _ links []); reflexivity. Qed.
Lemma link_body_back b : List.length (b_I b) = 6 -> List.length (b_xyz b) = 3 -> b_rpy b = [0; 0; 0]%R -> b_Dl b = [0]%R ->
  link_body (b_name b) (link_numbers b) [0]%R = b.
Proof.
  destruct b as [nm m I xyz rpy dl]. cbn [b_I b_xyz b_rpy b_Dl b_name]. intros HI HX -> ->.
  do 6 (destruct I as [|? I]; [discriminate|]). destruct I; [|discriminate].
  do 3 (destruct xyz as [|? xyz]; [discriminate|]). destruct xyz; [|discriminate]. reflexivity.
Qed.
Theorem gen_again n cfg dyn reg out : entry cfg "dynamics" = Some dyn -> no_friction cfg -> List.length (links_in cfg) = n -> readable_file cfg ->
  genInertial_files n (Some cfg) = Ok (Some (reg, out)) -> genInertial_files n (Some out) = Ok (Some (reg, out)).
Proof.
  intros Ed D L RD E0. destruct (gen_main n cfg dyn Ed D L RD) as (vs & F & T & E). cbv zeta in E. rewrite E0 in E.
  set (links := map (fun ev : string * ynode * list R => link_body (fst (fst ev)) (snd ev) [0]%R) (combine (links_in cfg) vs)) in E.
  injection E as -> ->. destruct RD as [ND RD]. pose proof (F2_length _ _ _ F) as LF.
  assert (N : map b_name links = map fst (links_in cfg)).
  { unfold links. rewrite map_map. cbn [link_body b_name]. apply map_combine_fst. exact LF. }
  assert (NDl : NoDup (map b_name links)) by (rewrite N; exact ND).
  assert (Ll : List.length links = n) by (unfold links; rewrite map_length, combine_length; lia).
  destruct (fill_dyn link_keys links) as (d & Hd & _).
  destruct (gen_main n (fillInertialYaml link_keys links) d Hd) as (ws & F2 & T2 & E2).
  - left. reflexivity.
  - rewrite fill_links, map_length by exact NDl. exact Ll.
  - apply fill_readable. exact NDl.
  - cbv zeta in E2. change inertial_keys with link_keys. rewrite E2. rewrite fill_links in * by exact NDl.
    assert (Q : map (fun ev : string * ynode * list R => link_body (fst (fst ev)) (snd ev) [0]%R)
                 (combine (map (fun b => (b_name b, fill_link link_keys b)) links) ws) = links).
    { assert (W : Forall (fun b => List.length (b_I b) = 6 /\ List.length (b_xyz b) = 3 /\ b_rpy b = [0; 0; 0]%R /\ b_Dl b = [0]%R) links).
      { unfold links. apply Forall_map, Forall_forall. intros [[k nd] v] Hin. apply in_combine_r in Hin.
        rewrite Forall_forall in T. specialize (T v Hin). cbn [snd fst link_body b_I b_xyz b_rpy b_Dl].
        rewrite skipn_length, firstn_length, skipn_length, T. repeat split. }
      clear - F2 W. revert ws F2. induction W as [|b links (A & B & C & D) W IH]; intros ws F2; inversion F2 as [|? w ? ws' Hw F3]; subst; [reflexivity|].
      cbn [map combine fst snd] in *. rewrite IH by exact F3. f_equal. clear IH.
      assert (w = link_numbers b) as ->.
      { assert (Q : read_ten (fill_link link_keys b) = Some (link_numbers b)).
        { apply read_ten_says with (inertial := YMap (combine link_keys (map YDbl (link_numbers b)))); [reflexivity|].
          apply gives_map; [exact nodup_dyn|reflexivity]. }
        congruence. }
      apply link_body_back; assumption. }
    rewrite Q. reflexivity.
Qed.

(* the file is one the generated class loads *)
Lemma reg_links_read : forall links i p, List.length p = 10 * (i + List.length links) ->
  t_reg_links (map (fun b => (b_name b, fill_link reg_keys b)) links) (List.length links) i p =
  Go (firstn (10 * i) p ++ concat (map link_numbers links))%list.
Proof.
  induction links as [|b links IH]; intros i p Hp; cbn [map List.length t_reg_links concat].
  - rewrite app_nil_r, firstn_all2; [reflexivity|]. simpl in Hp; lia.
  - unfold fill_link at 1. cbn [yidx_c ybind].
    change (mget YZombie "inertial" _) with (YMap (combine reg_keys (map YDbl (link_numbers b)))).
    rewrite read_reg by reflexivity. unfold STD_PAR_LINK. cbn [List.length] in Hp.
    assert (L10 : List.length (link_numbers b) = 10) by reflexivity.
    rewrite splice_ok by (rewrite L10; lia). rewrite IH.
    + f_equal. replace (10 * S i) with (10 * i + List.length (link_numbers b)) by (rewrite L10; lia).
      rewrite firstn_splice by lia. rewrite <- app_assoc. reflexivity.
    + rewrite !app_length, firstn_length, skipn_length, L10. lia.
Qed.
Lemma concat_ten (links : list body) i b c : nth_error links i = Some b -> c < 10 ->
  link_of (concat (map link_numbers links)) i c = nth c (link_numbers b) 0%R.
Proof.
  unfold link_of. revert i. induction links as [|a links IH]; intros [|i] E Hc; try discriminate; cbn [map concat].
  - injection E as ->. rewrite app_nth1 by (cbn [link_numbers List.length]; lia). f_equal.
  - rewrite app_nth2 by (cbn [link_numbers List.length]; lia). rewrite <- (IH i E Hc). f_equal. cbn [link_numbers List.length]. lia.
Qed.
Lemma concat_len (links : list body) : List.length (concat (map link_numbers links)) = 10 * List.length links.
Proof. induction links; [reflexivity|]. cbn [map concat]. rewrite app_length, IHlinks. cbn [link_numbers List.length]. lia. Qed.
Lemma says_fun keys file i k k' v v' : link_says keys file i k v -> link_says keys file i k' v' -> k = k' /\ v = v'.
Proof.
  intros (nd & m & E & Ei & G) (nd' & m' & E' & Ei' & G'). rewrite E in E'. injection E' as <- <-. split; [reflexivity|].
  rewrite Ei in Ei'. injection Ei' as <-. apply read_list_gives in G, G'. congruence.
Qed.
Theorem gen_loads n cfg dyn reg out : entry cfg "dynamics" = Some dyn -> no_friction cfg -> List.length (links_in cfg) = n -> readable_file cfg ->
  genInertial_files n (Some cfg) = Ok (Some (reg, out)) ->
  forall t upd, sized t -> t_n t = n -> exists t1 p, t_load_par_REG t (Some reg) upd = Ok (t1, p) /\ member t1 "par_REG" = p /\
    List.length p = 10 * n /\ (forall i k v, link_says link_keys cfg i k v -> same_link (ten v) (link_of p i)) /\
    t_changes ["par_DYN"; "par_REG"] t t1 /\ (upd = false -> member t1 "par_DYN" = member t "par_DYN") /\
    (upd = true -> massive n p -> t_sync t1).
Proof.
  intros Ed D L RD E0 t upd Hs Hn. destruct (gen_main n cfg dyn Ed D L RD) as (vs & F & T & E). cbv zeta in E. rewrite E0 in E.
  set (links := map (fun ev : string * ynode * list R => link_body (fst (fst ev)) (snd ev) [0]%R) (combine (links_in cfg) vs)) in E.
  injection E as -> ->. destruct RD as [ND RD]. pose proof (F2_length _ _ _ F) as LF.
  assert (N : map b_name links = map fst (links_in cfg)).
  { unfold links. rewrite map_map. cbn [link_body b_name]. apply map_combine_fst. exact LF. }
  assert (NDr : NoDup (map b_name (map reg_link links))) by (rewrite map_map; change (NoDup (map b_name links)); rewrite N; exact ND).
  assert (Ll : List.length (map reg_link links) = n) by (rewrite map_length; unfold links; rewrite map_length, combine_length; lia).
  destruct (fill_dyn reg_keys (map reg_link links)) as (d & Hd & Dd).
  destruct (sized_DYN t Hs) as [_ LR].
  set (p := concat (map link_numbers (map reg_link links))).
  assert (Lp : List.length p = 10 * n) by (unfold p; rewrite concat_len, Ll; reflexivity).
  pose proof (fill_links reg_keys (map reg_link links) NDr) as Fl. unfold links_in in Fl. rewrite Hd in Fl.
  pose proof (reg_links_read (map reg_link links) 0 (member t "par_REG") ltac:(rewrite Ll, LR, Hn; reflexivity)) as Er.
  rewrite Ll, <- Fl, Nat.mul_0_r in Er. cbn [firstn app] in Er.
  destruct (loaded_REG p upd t Hs ltac:(rewrite Hn; exact Lp) (fillInertialYaml reg_keys (map reg_link links)) d (entry_yidx _ _ _ Hd) Dd)
    as (t1 & A & _ & B & C & D1 & D2); [rewrite Hn; exact Er|].
  exists t1, p. split; [exact A|]. split; [exact B|]. split; [exact Lp|]. split; [|split; [exact C|split; [exact D1|rewrite <- Hn; exact D2]]].
  intros i k v (nd & inertial & En & Ei & G). pose proof (read_ten_says nd inertial v Ei G) as Rv.
  destruct (F2_nth _ _ _ _ _ F En) as (v' & Ev & Rv'). cbn [snd] in Rv'. rewrite Rv in Rv'. injection Rv' as <-.
  assert (L10 : List.length v = 10) by (rewrite (gives_len _ _ _ G); reflexivity).
  assert (Eb : nth_error links i = Some (link_body k v [0]%R)).
  { unfold links. rewrite (map_nth_error _ _ _ (nth_combine _ _ _ _ _ En Ev)). reflexivity. }
  eapply same_link_ext; [| |exact (reg_same v)]; [reflexivity|].
  intros c Hc. unfold p. rewrite (concat_ten _ i (reg_link (link_body k v [0]%R)) c (map_nth_error _ _ _ Eb) Hc).
  rewrite reg_link_numbers by (cbn [link_body b_I]; rewrite skipn_length, L10; reflexivity). rewrite numbers_link by exact L10. reflexivity.
Qed.
(* the robot loaded from the same configuration holds the numbers of both files *)
Theorem gen_robot n cfg dyn reg out name r0 : entry cfg "dynamics" = Some dyn -> no_friction cfg -> List.length (links_in cfg) = n -> readable_file cfg ->
  (forall k nd, In (k, nd) (links_in cfg) -> readable_link nd) ->
  robot_from_file name cfg false = Ok r0 -> numJoints r0 = n -> genInertial_files n (Some cfg) = Ok (Some (reg, out)) ->
  forall t upd, sized t -> t_n t = n -> exists t1, t_load_par_REG t (Some reg) upd = Ok (t1, get_arg r0 "par_REG") /\
    member t1 "par_REG" = get_arg r0 "par_REG".
Proof.
  intros Ed D L RD RL Er Hn E t upd Hs Ht. destruct (gen_loads n cfg dyn reg out Ed D L RD E t upd Hs Ht) as (t1 & p & A & B & Lp & Hp & _).
  pose proof (loaded_as_written _ _ _ Er) as W. destruct (loaded_sync _ _ _ Er) as (LD & LG & SY). rewrite Hn in *.
  assert (p = get_arg r0 "par_REG") as <-; [|exists t1; auto].
  apply (links_ext n); [exact Lp|exact LG|]. intros i c Hi Hc. revert c Hc. apply same_reg_unique with (d := link_of (get_arg r0 "par_DYN") i); [|exact (SY i Hi)].
  destruct (nth_error (links_in cfg) i) as [[k nd]|] eqn:En; [|apply nth_error_None in En; lia].
  destruct RD as [ND RD]. destruct (RD k nd (nth_error_In _ _ En)) as (inertial & v & Ei & G).
  specialize (Hp i k v (ex_intro _ nd (ex_intro _ inertial (conj En (conj Ei G))))).
  eapply same_link_ext; [|reflexivity|exact Hp]. intros c Hc. unfold ten, link_of, get_arg.
  unfold links_in in En, RL. rewrite Ed in En, RL.
  assert (Ek : exists key, nth_error link_keys c = Some key).
  { destruct (nth_error link_keys c) eqn:Q; [eauto|]. apply nth_error_None in Q. simpl in Q. lia. }
  destruct Ek as [key Ek].
  destruct (aw_link _ _ W dyn i k nd Ed ltac:(lia) En) with (j := c) (key := key) as (m & x & E2 & Rx & Nx).
  - intros j k' nd' _ Ej. exact (RL k' nd' (nth_error_In _ _ Ej)).
  - exact Ek.
  - rewrite (nth_error_nth _ _ _ Nx). destruct (F2_nth _ _ _ _ _ G Ek) as (y & Ey & m' & E' & Ry).
    rewrite (nth_error_nth _ _ _ Ey). unfold entry2 in E2. rewrite Ei in E2. rewrite E' in E2. injection E2 as ->.
    apply as_double_reads in Rx, Ry. congruence.
Qed.

(* never more links than joints: no undefined behaviour, whatever the entries *)
Theorem gen_safe n cfg : (forall dyn, entry cfg "dynamics" = Some dyn -> List.length (ychildren dyn) <= n) ->
  (forall z, entry cfg "Dl_order" = Some (YInt z) -> (0 <= z)%Z) ->
  exists o, genInertial_files n (Some cfg) = Ok o.
Proof.
  intros H Hz. unfold genInertial_files. destruct (yidx cfg "dynamics") as [dyn|] eqn:Ed; [|eauto].
  destruct (ybind (yidx cfg "Dl_order") _) as [z|] eqn:Ez; [|eauto].
  assert (Z0 : (0 <= z)%Z).
  { destruct (yidx cfg "Dl_order") as [d|] eqn:Eo; [|discriminate]. cbn [ybind] in Ez. destruct (ydef d) eqn:Dd; [|injection Ez as <-; lia].
    apply (Hz z). pose proof (yidx_get cfg "Dl_order" d Z z as_int Eo Ez eq_refl) as Q. rewrite Q. destruct d; try discriminate. injection Ez as ->. reflexivity. }
  assert (Ld : List.length (ychildren dyn) <= n).
  { destruct (ychildren dyn) eqn:Q; [simpl; lia|]. rewrite <- Q. apply H. destruct cfg; cbn [yidx] in Ed; try discriminate; try (injection Ed as <-; discriminate).
    injection Ed as Ed. cbn [entry]. unfold mget in Ed. destruct (mfind "dynamics" _); [congruence|]. rewrite <- Ed in Q. discriminate. }
  assert (G : forall l i links, i + List.length l <= List.length links -> exists x, read_links z l i links = Ok x).
  { induction l as [|[k nd] l IH]; intros i links Hl; cbn [read_links]; [eauto|]. destruct (read_ten nd) as [v|]; [|eauto].
    assert (Q : exists o, read_Dl z nd = Ok o).
    { unfold read_Dl. destruct (Z.eqb z 0); [eauto|]. destruct (Z.ltb_spec z 0); [lia|eauto]. }
    destruct Q as ([dl|] & ->); cbn [bind]; [|eauto].
    destruct (lset links i _) as [links'|] eqn:Es.
    - apply IH. cbn [List.length] in Hl. rewrite (lset_len _ _ _ _ Es). lia.
    - exfalso. revert Hl Es. generalize (mkBody k (p_at v 0) (skipn 4 v) (firstn 3 (skipn 1 v)) [0; 0; 0]%R dl). clear. revert i.
      induction links as [|a links IH]; intros [|i] b Hl Es; cbn [List.length lset] in *; try lia; try discriminate.
      destruct (lset links i b) eqn:E; [discriminate|]. eapply IH; [|exact E]. lia. }
  destruct (G (ychildren dyn) 0 (repeat new_link n)) as (x & ->); [rewrite repeat_length; exact Ld|].
  cbn [bind]. destruct x; eauto.
Qed.

(* ---- the URDF converter ---- *)
Section Urdf.
  Variable scan : string -> list R.
  Lemma urdf_link_reads k nd b : urdf_entry scan nd b -> urdf_link scan k nd = Some (Some (mkBody k (b_mass b) (b_I b) (b_xyz b) (b_rpy b) [0]%R)).
  Proof.
    intros ((m & Em & Rm) & (I & EI & LI & GI) & (sx & Ex & Bx) & (sr & Er & Br)).
    unfold entry2 in Ex, Er. destruct (entry nd "origin") as [o|] eqn:Eo; [|discriminate].
    unfold urdf_link. rewrite (entry_yidxc _ _ _ Em), (entry_yidxc _ _ _ EI), (entry_yidxc _ _ _ Eo). cbn [ybind].
    rewrite (proj2 (as_double_reads m (b_mass b)) Rm). cbn [ybind]. rewrite (proj2 (read_list_gives I _ (b_I b)) GI). cbn [ybind].
    rewrite (entry_yidx _ _ _ Ex), (entry_yidx _ _ _ Er). cbn [ybind ydef as_string]. rewrite Bx, Br. reflexivity.
  Qed.
  Lemma urdf_links_read : forall (links : list (string * body)) l,
    (forall i k b, nth_error links i = Some (k, b) -> exists nd, nth_error l i = Some (k, nd) /\ urdf_entry scan nd b) ->
    forall i k b, nth_error links i = Some (k, b) ->
    nth_error (urdf_links scan l) i = Some (mkBody k (b_mass b) (b_I b) (b_xyz b) (b_rpy b) [0]%R).
  Proof.
    induction links as [|[k0 b0] links IH]; intros l H i k b E; [destruct i; discriminate|].
    destruct (H 0 k0 b0 eq_refl) as (nd0 & E0 & U0). destruct l as [|[k1 nd1] l]; [discriminate|]. injection E0 as -> ->.
    cbn [urdf_links]. rewrite (urdf_link_reads k0 nd0 b0 U0). destruct i as [|i]; cbn [nth_error] in *.
    - injection E as -> ->. reflexivity.
    - apply IH; [|exact E]. intros j kj bj Ej. exact (H (S j) kj bj Ej).
  Qed.
End Urdf.

Definition row (f : R * R * (R * R * R)) : list R * list R := let '(roll, yaw, (x, y, z)) := f in ([roll; 0; yaw], [x; y; z])%R.
Lemma transforms_rows g : transforms g = map row (dh_frames g).
Proof. destruct g; unfold transforms, dh_frames, row; cbn [map app]; repeat (f_equal; try lra). Qed.
Lemma rows_plain g f : In f (dh_frames g) -> let '(roll, yaw, _) := f in (sin yaw * sin roll)%R = 0%R.
Proof.
  destruct g; unfold dh_frames; cbn [app In]; intros H; decompose [or] H; try contradiction; subst f; rewrite ?sin_0; ring.
Qed.
Lemma rot_two yaw roll i j : i < 3 -> j < 3 -> ypr_rotation yaw 0 roll i j = rmul 4 (hrotz yaw) (hrotx roll) i j.
Proof.
  intros Hi Hj. unfold ypr_rotation, rmul, rsum. destruct i as [|[|[|i]]]; [| | |lia]; (destruct j as [|[|[|j]]]; [| | |lia]);
    cbn -[sin cos]; rewrite ?sin_0, ?cos_0; ring.
Qed.
Lemma conjugate_ext B B' I i j : (forall i j, i < 3 -> j < 3 -> B i j = B' i j) -> i < 3 -> j < 3 -> conjugate B I i j = conjugate B' I i j.
Proof. intros H Hi Hj. unfold conjugate, rmul, rtr, rsum. rewrite !H by lia. reflexivity. Qed.
Lemma moved_rows g f b old : In f (dh_frames g) -> plain_rpy b -> seen_from f b (transformBodyInertial (snd (row f)) (fst (row f)) b old).
Proof.
  intros Hf Hb. pose proof (rows_plain g f Hf) as P. destruct f as [[roll yaw] [[x y] z]]. cbn [row fst snd].
  destruct (transform_rigid [x; y; z]%R [roll; 0; yaw]%R b old P Hb) as (M & _ & _ & C & I & _). cbn [nth] in C, I.
  unfold seen_from. split; [exact M|]. split.
  - intros a Ha. rewrite C by exact Ha. unfold moved, rmv, rsum. rewrite !rot_two by lia. reflexivity.
  - intros i j Hi Hj. rewrite I by assumption. apply conjugate_ext; [|exact Hi|exact Hj].
    intros i' j' Hi' _. unfold rmul at 1 2, rsum. rewrite !rot_two by lia. reflexivity.
Qed.
Lemma move_ok : forall tr i links, (forall j, j < List.length tr -> exists b, nth_error links (i + j) = Some b) ->
  exists out, move_links tr i links = Ok out /\ List.length out = List.length tr /\
    forall j r b, nth_error tr j = Some r -> nth_error links (i + j) = Some b ->
    nth_error out j = Some (transformBodyInertial (snd r) (fst r) b new_link).
Proof.
  induction tr as [|[rpy xyz] tr IH]; intros i links H; cbn [move_links].
  - exists []. split; [reflexivity|]. split; [reflexivity|]. intros [|j]; discriminate.
  - destruct (H 0 ltac:(simpl; lia)) as (b & Eb). rewrite Nat.add_0_r in Eb. rewrite Eb.
    destruct (IH (S i) links) as (out & -> & L & N).
    { intros j Hj. destruct (H (S j) ltac:(simpl; lia)) as (b' & E'). exists b'. rewrite <- E'. f_equal. lia. }
    cbn [bind]. eexists. split; [reflexivity|]. split; [simpl; lia|]. intros [|j] r b' Er Eb'; cbn [nth_error] in *.
    + injection Er as <-. rewrite Nat.add_0_r, Eb in Eb'. injection Eb' as <-. reflexivity.
    + apply N; [exact Er|]. rewrite <- Eb'. f_equal. lia.
Qed.
Lemma body_says b : List.length (b_I b) = 6 -> List.length (b_xyz b) = 3 -> body_numbers b (link_numbers b).
Proof.
  destruct b as [nm m I xyz rpy dl]. cbn [b_I b_xyz]. intros HI HX.
  do 6 (destruct I as [|? I]; [discriminate|]). destruct I; [|discriminate].
  do 3 (destruct xyz as [|? xyz]; [discriminate|]). destruct xyz; [|discriminate].
  split; [reflexivity|]. split; [reflexivity|]. split.
  - intros a Ha. do 3 (destruct a; [reflexivity|]). lia.
  - intros i j Hi Hj. destruct i as [|[|[|i]]]; [| | |lia]; (destruct j as [|[|[|j]]]; [| | |lia]); reflexivity.
Qed.
Lemma same_numbers b v : body_numbers b v -> forall b', same_body b b' -> body_numbers b' v.
Proof.
  intros (L & M & C & I) b' (M' & C' & I'). split; [exact L|]. split; [congruence|]. split.
  - intros a Ha. rewrite C, C' by exact Ha. reflexivity.
  - intros i j Hi Hj. rewrite I, I' by assumption. reflexivity.
Qed.
Lemma nth_first {A} : forall n (l : list A) i, i < n -> nth_error (firstn n l) i = nth_error l i.
Proof. induction n; intros [|a l] [|i] H; try lia; try reflexivity; cbn [firstn nth_error]. apply IHn. lia. Qed.
Lemma nth_error_seq n i : i < n -> nth_error (seq 0 n) i = Some i.
Proof. intros H. rewrite (nth_error_nth' _ 0) by (rewrite seq_length; exact H). rewrite seq_nth by exact H. reflexivity. Qed.
Lemma fill_urdf_nth keys links i b : nth_error links i = Some b -> i < 7 -> NoDup keys -> List.length keys = 10 ->
  exists nd, nth_error (fill_urdf keys links) i = Some (b_name b, nd) /\ gives keys nd (link_numbers b).
Proof.
  intros E Hi ND L. exists (YMap (combine keys (map YDbl (link_numbers b)))). split; [|apply gives_map; [exact ND|rewrite L; reflexivity]].
  unfold fill_urdf. erewrite map_nth_error; [reflexivity|]. rewrite nth_first by (unfold NUMLINKS; exact Hi). exact E.
Qed.
Lemma fill_urdf_len keys links : 7 <= List.length links -> List.length (fill_urdf keys links) = 7.
Proof. intros H. unfold fill_urdf, NUMLINKS. rewrite map_length, firstn_length. lia. Qed.

(* the perturbed parameters *)
Definition same_ten (p q : nat -> R) : Prop := forall c, c < 10 -> p c = q c.
Lemma perturb_numbers b e : same_ten (ten (link_numbers (perturbateLinkProp b e))) (fun c => (ten (link_numbers b) c * (1 + nth c e 0))%R).
Proof. intros c Hc. do 10 (destruct c; [reflexivity|]). lia. Qed.
Lemma urdf_reg_same b : same_link (ten (link_numbers b)) (ten (link_numbers (urdf_reg_link b))).
Proof.
  destruct b as [nm m I xyz rpy dl]. unfold same_link, ten, link_numbers, urdf_reg_link. cbn [b_mass b_xyz b_I nth Nat.add].
  unfold v3sc, upper. cbn [map]. unfold p_at. split; [reflexivity|]. split.
  - intros a Ha. do 3 (destruct a; [reflexivity|]). lia.
  - intros a c Ha Hc. destruct a as [|[|[|a]]]; [| | |lia]; (destruct c as [|[|[|c]]]; [| | |lia]);
      cbn; unfold createI, hhT, sum3, hatR, rdot, rsum, p_at; cbn; ring.
Qed.
Lemma noisy_nth noise pct links i b : nth_error links i = Some b -> i < 7 ->
  nth_error (noisy_links noise pct links) i = Some (urdf_reg_link (perturbateLinkProp b (draws noise pct i))).
Proof.
  intros E Hi. unfold noisy_links, NUMLINKS. erewrite map_nth_error; [|apply nth_combine; [|exact E]; apply nth_error_seq; exact Hi]. reflexivity.
Qed.
Lemma main_files scan noise g cfg links : move_links (transforms g) 1 (urdf_links scan (ychildren cfg)) = Ok links ->
  exists files, gen_yaml_main scan noise g (Some cfg) = Ok files /\
    mfind "inertial_DH_DYN.yaml" files = Some (fill_urdf inertial_keys (merge_hand g links)) /\
    forall nm pct, In (nm, pct) reg_files -> mfind nm files = Some (fill_urdf reg_keys (noisy_links noise pct (merge_hand g links))).
Proof.
  intros E. unfold gen_yaml_main. rewrite E. cbn [bind]. eexists. split; [reflexivity|]. split; [reflexivity|].
  intros nm pct H. unfold reg_files in H. cbn [In] in H. decompose [or] H; try contradiction;
    match goal with Q : _ = (nm, pct) |- _ => injection Q as <- <- end; reflexivity.
Qed.

(* an entry whose mass cannot be read ends the reading *)
Lemma urdf_link_bad scan k nd : (forall m x, entry nd "mass" = Some m -> ~ reads_as m x) -> urdf_link scan k nd = None.
Proof.
  intros H. unfold urdf_link. destruct (yidx_c nd "mass") as [m|] eqn:Em; [|reflexivity]. cbn [ybind].
  destruct (yidx_c nd "inertia"); [|reflexivity]. cbn [ybind]. destruct (yidx_c nd "origin"); [|reflexivity]. cbn [ybind].
  destruct (as_double m) as [x|] eqn:Ex; [|reflexivity]. exfalso. apply (H m x); [|apply as_double_reads; exact Ex].
  destruct nd; cbn in Em; try discriminate Em; try (injection Em as <-; discriminate Ex).
  cbn [entry]. injection Em as <-. unfold mget in Ex |- *. destruct (mfind "mass" l); [reflexivity|discriminate Ex].
Qed.
Lemma urdf_links_short scan : forall l i k nd, nth_error l i = Some (k, nd) -> urdf_link scan k nd = None ->
  List.length (urdf_links scan l) <= i.
Proof.
  induction l as [|[k' nd'] l IH]; intros [|i] k nd E H; cbn [nth_error] in E; try discriminate; cbn [urdf_links].
  - injection E as -> ->. rewrite H. simpl. lia.
  - specialize (IH i k nd E H). destruct (urdf_link scan k' nd') as [[b|]|]; simpl; lia.
Qed.
Lemma move_bad : forall tr i links, i <= List.length links < i + List.length tr -> exists m, move_links tr i links = UB m.
Proof.
  induction tr as [|[rpy xyz] tr IH]; intros i links H; cbn [move_links]; [simpl in H; lia|].
  destruct (nth_error links i) as [b|] eqn:E; [|eauto].
  assert (i < List.length links) by (apply nth_error_Some; congruence).
  destruct (IH (S i) links) as (m & ->); [simpl in H; lia|]. cbn [bind]. eauto.
Qed.
Lemma move_none tr links : tr <> [] -> List.length links < 1 + List.length tr -> exists m, move_links tr 1 links = UB m.
Proof.
  intros N H. destruct links as [|b l]; [|apply move_bad; simpl in *; lia]. destruct tr as [|[rpy xyz] tr]; [congruence|]. cbn. eauto.
Qed.
Theorem urdf_stops scan noise (g : bool) cfg i k nd : nth_error (ychildren cfg) i = Some (k, nd) -> i < (if g then 9 else 8) ->
  (forall m x, entry nd "mass" = Some m -> ~ reads_as m x) -> exists e, gen_yaml_main scan noise g (Some cfg) = UB e.
Proof.
  intros E Hi H. unfold gen_yaml_main. pose proof (urdf_links_short scan _ i k nd E (urdf_link_bad scan k nd H)) as L.
  destruct (move_none (transforms g) (urdf_links scan (ychildren cfg))) as (m & ->); [destruct g; discriminate| |cbn [bind]; eauto].
  destruct g; simpl List.length in *; lia.
Qed.

(* the whole program *)
Theorem urdf_files scan noise (g : bool) cfg (src : list (string * body)) : List.length src = (if g then 9 else 8) ->
  (forall i k b, nth_error src i = Some (k, b) -> plain_rpy b /\ exists nd, nth_error (ychildren cfg) i = Some (k, nd) /\ urdf_entry scan nd b) ->
  exists files dyn, gen_yaml_main scan noise g (Some cfg) = Ok files /\ mfind "inertial_DH_DYN.yaml" files = Some dyn /\ List.length dyn = 7 /\
    (forall i k b f, i < (if g then 6 else 7) -> nth_error src (S i) = Some (k, b) -> nth_error (dh_frames g) i = Some f ->
       exists nd v t, nth_error dyn i = Some (k, nd) /\ gives link_keys nd v /\ body_numbers t v /\ seen_from f b t) /\
    (g = true -> forall k7 b7 f7 kh bh fh, nth_error src 7 = Some (k7, b7) -> nth_error src 8 = Some (kh, bh) ->
       nth_error (dh_frames g) 6 = Some f7 -> nth_error (dh_frames g) 7 = Some fh -> (b_mass b7 + b_mass bh <> 0)%R ->
       exists nd v t t7 th, nth_error dyn 6 = Some (k7, nd) /\ gives link_keys nd v /\ body_numbers t v /\ seen_from f7 b7 t7 /\ seen_from fh bh th /\
         b_mass t = (b_mass t7 + b_mass th)%R /\ (forall a, a < 3 -> moment t a = (moment t7 a + moment th a)%R) /\
         (forall i j, i < 3 -> j < 3 -> inertia_origin t i j = (inertia_origin t7 i j + inertia_origin th i j)%R)) /\
    forall nm pct, In (nm, pct) reg_files -> exists reg, mfind nm files = Some reg /\ List.length reg = 7 /\
      forall i k nd v, nth_error dyn i = Some (k, nd) -> gives link_keys nd v ->
      exists nd' w e, nth_error reg i = Some (k, nd') /\ gives reg_link_keys nd' w /\
        same_link (fun c => (ten v c * (1 + e c))%R) (ten w) /\ (pct = 0 -> forall c, e c = 0%R).
Proof.
  intros L H.
  assert (RD : forall i k b, nth_error src i = Some (k, b) ->
    nth_error (urdf_links scan (ychildren cfg)) i = Some (mkBody k (b_mass b) (b_I b) (b_xyz b) (b_rpy b) [0]%R)).
  { apply urdf_links_read. intros i k b E. destruct (H i k b E) as [_ ?]. assumption. }
  assert (Lt : List.length (transforms g) = (if g then 8 else 7)) by (destruct g; reflexivity).
  destruct (move_ok (transforms g) 1 (urdf_links scan (ychildren cfg))) as (out & Em & Lo & N).
  { intros j Hj. destruct (nth_error src (1 + j)) as [[k b]|] eqn:E; [eexists; exact (RD _ _ _ E)|].
    apply nth_error_None in E. exfalso. rewrite Lt in Hj. destruct g; lia. }
  rewrite Lt in Lo.
  destruct (main_files scan noise g cfg out Em) as (files & Ef & Ed & Er). exists files, (fill_urdf inertial_keys (merge_hand g out)).
  assert (Lm : List.length (merge_hand g out) = List.length out).
  { unfold merge_hand. destruct g; [|reflexivity]. do 8 (destruct out as [|? out]; [discriminate|]). destruct out; [|discriminate]. reflexivity. }
  assert (L7 : 7 <= List.length (merge_hand g out)) by (rewrite Lm, Lo; destruct g; lia).
  assert (Nf : forall i k b f, nth_error src (S i) = Some (k, b) -> nth_error (dh_frames g) i = Some f ->
     exists t, nth_error out i = Some t /\ b_name t = k /\ seen_from f b t /\ List.length (b_I t) = 6 /\ List.length (b_xyz t) = 3).
  { intros i k b f Es Eh. eexists. split; [apply (N i (row f)); [rewrite transforms_rows; apply map_nth_error; exact Eh|exact (RD _ _ _ Es)]|].
    split; [reflexivity|]. split; [|split; reflexivity].
    exact (moved_rows g f (mkBody k (b_mass b) (b_I b) (b_xyz b) (b_rpy b) [0]%R) new_link (nth_error_In _ _ Eh) (proj1 (H _ _ _ Es))). }
  split; [exact Ef|]. split; [exact Ed|]. split; [apply fill_urdf_len; exact L7|]. split; [|split].
  - intros i k b f Hi Es Eh. destruct (Nf i k b f Es Eh) as (t & Et & <- & Sf & LI & LX).
    assert (Em' : nth_error (merge_hand g out) i = Some t).
    { unfold merge_hand. destruct g; [|exact Et]. do 8 (destruct out as [|? out]; [discriminate|]). destruct out; [|discriminate].
      do 6 (destruct i as [|i]; [exact Et|]). lia. }
    destruct (fill_urdf_nth inertial_keys _ i t Em' ltac:(destruct g; lia) nodup_dyn eq_refl) as (nd & En & G).
    exists nd, (link_numbers t), t. split; [exact En|]. split; [exact G|]. split; [apply body_says; assumption|exact Sf].
  - intros -> k7 b7 f7 kh bh fh E7 Eh F7 Fh Hm.
    destruct (Nf 6 k7 b7 f7 E7 F7) as (t7 & Et7 & <- & S7 & _). destruct (Nf 7 kh bh fh Eh Fh) as (th & Eth & _ & Sh & _).
    assert (Hm2 : (b_mass t7 + b_mass th <> 0)%R).
    { destruct f7 as [[? ?] [[? ?] ?]], fh as [[? ?] [[? ?] ?]]. destruct S7 as (-> & _), Sh as (-> & _). exact Hm. }
    destruct (merge_ok t7 th new_link Hm2) as (A & B & C). set (w := mergeBodyInertial t7 th new_link) in *.
    set (t := mkBody (b_name t7) (b_mass w) (b_I w) (b_xyz w) (b_rpy w) (b_Dl w)).
    assert (Em' : nth_error (merge_hand true out) 6 = Some t).
    { unfold merge_hand. do 8 (destruct out as [|? out]; [discriminate|]). destruct out; [|discriminate].
      cbn [nth_error] in Et7, Eth. injection Et7 as ->. injection Eth as ->. reflexivity. }
    destruct (fill_urdf_nth inertial_keys _ 6 t Em' ltac:(lia) nodup_dyn eq_refl) as (nd & En & G).
    exists nd, (link_numbers t), t, t7, th. split; [exact En|]. split; [exact G|]. split; [apply body_says; reflexivity|].
    split; [exact S7|]. split; [exact Sh|]. split; [exact A|]. split; [exact B|exact C].
  - intros nm pct Hn. eexists. split; [exact (Er nm pct Hn)|]. split.
    { apply fill_urdf_len. unfold noisy_links, NUMLINKS. rewrite map_length, combine_length, seq_length. lia. }
    intros i k nd v En G.
    assert (Hi : i < 7). { rewrite <- (fill_urdf_len inertial_keys _ L7). apply nth_error_Some. congruence. }
    destruct (nth_error (merge_hand g out) i) as [b|] eqn:Eb; [|apply nth_error_None in Eb; lia].
    destruct (fill_urdf_nth inertial_keys _ i b Eb Hi nodup_dyn eq_refl) as (nd0 & E0 & G0). rewrite En in E0. injection E0 as -> <-.
    assert (v = link_numbers b) as -> by (change inertial_keys with link_keys in G0; apply read_list_gives in G, G0; congruence).
    destruct (fill_urdf_nth reg_keys _ i _ (noisy_nth noise pct _ i b Eb Hi) Hi nodup_reg eq_refl) as (nd' & E' & G').
    exists nd', (link_numbers (urdf_reg_link (perturbateLinkProp b (draws noise pct i)))), (fun c => nth c (draws noise pct i) 0%R).
    split; [exact E'|]. split; [exact G'|]. split.
    + eapply same_link_ext; [exact (perturb_numbers b (draws noise pct i))|reflexivity|apply urdf_reg_same].
    + intros ->. unfold draws. cbn [Nat.eqb]. intros c. do 10 (destruct c; [reflexivity|]). destruct c; reflexivity.
Qed.

(* ---- samples ---- *)
(* three links, no friction *)
Definition plain_link (m : R) : ynode :=
  YMap [("inertial", YMap [("symb", YSeq (map YInt [1; 0; 1; 0; 0; 0; 0; 0; 0; 1]%Z));
    ("mass", YDbl m); ("CoM_x", YDbl (1/10)%R); ("CoM_y", YInt 0); ("CoM_z", YDbl (1/5)%R);
    ("Ixx", YDbl 1%R); ("Ixy", YDbl 0%R); ("Ixz", YDbl 0%R); ("Iyy", YDbl 1%R); ("Iyz", YDbl 0%R); ("Izz", YInt 2)])].
Definition plain_cfg (h : R) : ynode :=
  YMap [("num_joints", YInt 2); ("type_joints", YSeq [YStr "R"; YStr "P"]); ("Dl_order", YInt 0); ("ELASTIC_MODEL", YBool false);
        ("kinematics", YMap [("DH", YSeq (map YDbl [1; h; 0; 0;  0; 0; 1; h]%R))]);
        ("gravity", YMap [("value", YSeq (map YDbl [0; 0; -10]%R))]);
        ("Base_to_L0", YMap [("tr", YSeq (map YDbl [0; 0; 1]%R)); ("ypr", YSeq (map YDbl [h; 0; 0]%R))]);
        ("Ln_to_EE", YMap [("tr", YSeq (map YDbl [0; 1; 0]%R)); ("ypr", YSeq (map YDbl [0; h; 0]%R))]);
        ("dynamics", YMap [("link1", plain_link 1); ("link2", plain_link 3)])].
Lemma plain_loads h : exists r0, robot_from_file "plain" (plain_cfg h) false = Ok r0 /\ numJoints r0 = 2.
Proof.
  destruct (robot_from_file "plain" (plain_cfg h) false) as [r0| |] eqn:E; [exists r0; split; [reflexivity|]| |];
    vm_compute in E; try discriminate. injection E as <-. reflexivity.
Qed.


Lemma plain_readable h : entry (plain_cfg h) "dynamics" <> None /\ no_friction (plain_cfg h) /\ List.length (links_in (plain_cfg h)) = 2 /\
  readable_file (plain_cfg h) /\ forall k nd, In (k, nd) (links_in (plain_cfg h)) -> readable_link nd.
Proof.
  assert (Q : forall k nd, In (k, nd) (links_in (plain_cfg h)) -> exists m, nd = plain_link m).
  { intros k nd [E|[E|[]]]; injection E as <- <-; eauto. }
  split; [discriminate|]. split; [right; reflexivity|]. split; [reflexivity|]. split.
  - split; [repeat constructor; simpl; intuition discriminate|]. intros k nd H. destruct (Q k nd H) as (m & ->).
    eexists _, _. split; [reflexivity|]. instantiate (1 := [m; 1/10; IZR 0; 1/5; 1; 0; 0; 1; 0; IZR 2]%R).
    repeat constructor; eexists; (split; [reflexivity|constructor]).
  - intros k nd H. destruct (Q k nd H) as (m & ->). split; [|left; reflexivity]. intros key Hk. cbn [link_keys In] in Hk.
    decompose [or] Hk; try contradiction; subst key; eexists _, _; (split; [reflexivity|constructor]).
Qed.
(* friction coefficients are not found although the robot class reads them *)
Lemma toy_no_files h : (exists r0, robot_from_file "toy" (toy_cfg h) false = Ok r0 /\ numJoints r0 = 3) /\
  genInertial_files 3 (Some (toy_cfg h)) = Ok None.
Proof.
  split; [|reflexivity]. destruct (robot_from_file "toy" (toy_cfg h) false) as [r0| |] eqn:E; [exists r0; split; [reflexivity|]| |];
    vm_compute in E; try discriminate. injection E as <-. reflexivity.
Qed.
Lemma too_many_links h : exists m, genInertial_files 1 (Some (plain_cfg h)) = UB m.
Proof. eexists. reflexivity. Qed.

(* the source file of the converter *)
Definition sample_scan (s : string) : list R := if String.eqb s "0 0 0" then [0; 0; 0]%R else [1; 2; 3]%R.
Definition sample_body (m : R) : body := mkBody "" m [1; 0; 0; 2; 0; 3]%R [1; 2; 3]%R [0; 0; 0]%R [0]%R.
Definition sample_origin : ynode := YMap [("xyz", YStr "1 2 3"); ("rpy", YStr "0 0 0")].
Definition sample_entry (m : R) (origin : ynode) : ynode :=
  YMap [("origin", origin); ("mass", YDbl m);
        ("inertia", YMap [("xx", YDbl 1); ("yy", YDbl 2); ("zz", YDbl 3); ("xy", YDbl 0); ("xz", YDbl 0); ("yz", YDbl 0)])]%R.
Definition sample_names : list string := ["link0"; "link1"; "link2"; "link3"; "link4"; "link5"; "link6"; "link7"; "hand"].
Definition sample_urdf (bad : string) : ynode :=
  YMap (map (fun k => (k, sample_entry 1 (if String.eqb k bad then YMap [("rpy", YStr "0 0 0")] else sample_origin))) sample_names).
Lemma sample_src i k b : nth_error (map (fun k => (k, sample_body 1)) sample_names) i = Some (k, b) ->
  plain_rpy b /\ exists nd, nth_error (ychildren (sample_urdf "")) i = Some (k, nd) /\ urdf_entry sample_scan nd b.
Proof.
  intros H. apply nth_error_In in H as H'. assert (b = sample_body 1) as ->.
  { apply in_map_iff in H'. destruct H' as (? & E & _). injection E as _ <-. reflexivity. }
  split; [unfold plain_rpy; cbn; rewrite sin_0; ring|]. exists (sample_entry 1 sample_origin). split.
  - do 9 (destruct i as [|i]; [injection H as <-; reflexivity|]). destruct i; discriminate.
  - repeat split.
    + eexists. split; [reflexivity|constructor].
    + eexists. split; [reflexivity|]. split; [reflexivity|]. repeat constructor; eexists; (split; [reflexivity|constructor]).
    + exists "1 2 3". split; reflexivity.
    + exists "0 0 0". split; reflexivity.
Qed.
(* an entry without position is skipped: every later link takes the place, the frame change and the number of the one before *)
Lemma urdf_shift noise : exists files dyn nd, gen_yaml_main sample_scan noise false (Some (sample_urdf "link1")) = Ok files /\
  mfind "inertial_DH_DYN.yaml" files = Some dyn /\ nth_error dyn 0 = Some ("link2", nd) /\ List.length dyn = 7.
Proof. eexists _, _, _. split; [reflexivity|]. split; [reflexivity|]. split; reflexivity. Qed.
Lemma urdf_short noise : exists m, gen_yaml_main sample_scan noise true (Some (sample_urdf "link1")) = UB m.
Proof. eexists. reflexivity. Qed.
(* the generated class finds nothing in such a file *)
Lemma urdf_not_loaded t reg upd : ~ In "dynamics" (map fst reg) -> t_load_par_REG t (Some (YMap reg)) upd = Ok (t, member t "par_REG").
Proof.
  intros H. unfold t_load_par_REG. cbn [yidx]. unfold mget.
  assert (mfind "dynamics" reg = None) as ->; [|reflexivity].
  induction reg as [|[k v] reg IH]; [reflexivity|]. cbn [mfind]. cbn [map fst In] in H.
  rewrite (proj2 (String.eqb_neq "dynamics" k)) by (intros E; apply H; left; symmetry; exact E). apply IH. tauto.
Qed.
