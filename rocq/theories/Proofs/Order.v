(* What is read from a configuration depends only on the entries under the known names. *)
From Coq Require Import Reals Lia Arith List String Bool ZArith.
From Verif.Model Require Import Base Expr SX Robot Yaml Build Template.
From Verif.Spec Require Import Order.
Import ListNotations.
Open Scope nat_scope.
Open Scope string_scope.

Lemma same_int a b : same a b -> as_int a = as_int b.
Proof. now intros [n|l1 l2 H]. Qed.
Lemma same_bool a b : same a b -> as_bool a = as_bool b.
Proof. now intros [n|l1 l2 H]. Qed.
Lemma same_double a b : same a b -> as_double a = as_double b.
Proof. now intros [n|l1 l2 H]. Qed.
Lemma same_def a b : same a b -> ydef a = ydef b.
Proof. now intros [n|l1 l2 H]. Qed.
Lemma same_vector A (f : ynode -> yres A) a b : same a b -> as_vector f a = as_vector f b.
Proof. now intros [n|l1 l2 H]. Qed.

Definition rel (R : ynode -> ynode -> Prop) (x y : yres ynode) : Prop :=
  match x, y with Some a, Some b => R a b | None, None => True | _, _ => False end.
Lemma same_idx a b k : same a b -> In k vocabulary -> rel same (yidx a k) (yidx b k).
Proof.
  intros [n|l1 l2 H] Hk.
  - unfold rel. destruct (yidx n k); auto. apply same_node.
  - simpl. unfold mget. destruct (H k Hk); auto. apply same_node.
Qed.
Lemma same_idx_c a b k : same a b -> In k vocabulary -> rel same (yidx_c a k) (yidx_c b k).
Proof.
  intros [n|l1 l2 H] Hk.
  - unfold rel. destruct (yidx_c n k); auto. apply same_node.
  - simpl. unfold mget. destruct (H k Hk); auto. apply same_node.
Qed.

(* combinators *)
Lemma b_p A x y (F G : ynode -> pres A) : rel same x y -> (forall a b, same a b -> F a = G b) -> pbind (ofy x) F = pbind (ofy y) G.
Proof. intros H E. destruct x, y; simpl in *; auto; contradiction. Qed.
Lemma b_y A x y (F G : ynode -> yres A) : rel same x y -> (forall a b, same a b -> F a = G b) -> ybind x F = ybind y G.
Proof. intros H E. destruct x, y; simpl in *; auto; contradiction. Qed.
Lemma b_same A B (x y : pres A) (F G : A -> pres B) : x = y -> (forall a, F a = G a) -> pbind x F = pbind y G.
Proof. intros -> E. destruct y; simpl; auto. Qed.
Lemma b_prog A (x y : prog A) (F G : A -> prog A) : x = y -> (forall a, F a = G a) -> gbind x F = gbind y G.
Proof. intros -> E. destruct y; simpl; auto. Qed.

Ltac known := unfold vocabulary; repeat (first [left; reflexivity | right]).
Ltac step :=
  match goal with
  | H : same ?a ?b |- pbind (ofy (yidx ?a ?k)) _ = pbind (ofy (yidx ?b ?k)) _ =>
      apply b_p; [apply (same_idx a b k H); known|let x := fresh "x" in let y := fresh "y" in let S := fresh "S" in intros x y S]
  | H : same ?a ?b |- pbind (ofy (yidx_c ?a ?k)) _ = pbind (ofy (yidx_c ?b ?k)) _ =>
      apply b_p; [apply (same_idx_c a b k H); known|let x := fresh "x" in let y := fresh "y" in let S := fresh "S" in intros x y S]
  | |- pbind _ _ = pbind _ _ => apply b_same; [|let x := fresh "v" in intros x]
  | H : same ?a ?b |- context [ydef ?a] => rewrite (same_def a b H)
  | H : same ?a ?b |- context [as_int ?a] => rewrite (same_int a b H)
  | H : same ?a ?b |- context [as_bool ?a] => rewrite (same_bool a b H)
  | H : same ?a ?b |- context [as_double ?a] => rewrite (same_double a b H)
  | H : same ?a ?b |- context [@as_vector ?A ?f ?a] => rewrite (same_vector A f a b H)
  | |- (if ?c then _ else _) = (if ?c then _ else _) => destruct c
  end.
Ltac steps := repeat (first [reflexivity | step]).

Lemma link_flags_same key width l1 l2 : In key vocabulary -> Forall2 (fun x y => same (snd x) (snd y)) l1 l2 ->
  forall i acc, link_flags key width l1 i acc = link_flags key width l2 i acc.
Proof.
  intros Hk F. induction F as [|[k1 a] [k2 b] l1 l2 S F IH]; intros i acc; [reflexivity|]. simpl in S. cbn [link_flags].
  apply b_p; [now apply same_idx_c|]. intros x y Sx. step. steps. apply IH.
Qed.
Lemma symb_vector_same a b key n : In key vocabulary -> same a b -> symb_vector a key n = symb_vector b key n.
Proof. intros Hk S. unfold symb_vector. apply b_p; [now apply same_idx_c|]. intros x y Sx. steps. Qed.
Lemma elastic_symb_same l1 l2 kO dO dmO : Forall2 (fun x y => same (snd x) (snd y)) l1 l2 ->
  forall left, elastic_symb l1 left kO dO dmO = elastic_symb l2 left kO dO dmO.
Proof.
  intros F. induction F as [|[k1 a] [k2 b] l1 l2 S F IH]; intros left; [reflexivity|]. simpl in S. cbn [elastic_symb].
  destruct left as [|left]; [reflexivity|]. rewrite !(symb_vector_same a b) by (auto; known).
  steps. apply IH.
Qed.
Lemma section_same a b n : same a b -> section_symb a n = section_symb b n.
Proof. intros S. unfold section_symb. steps. Qed.

Section File.
  Variables (l1 l2 : list (string * ynode)).
  Hypothesis H : forall k, In k vocabulary ->
    both (if String.eqb k "dynamics" then listed else if String.eqb k "elastic" then same_elastic else same) (mfind k l1) (mfind k l2).
  Lemma top k : In k vocabulary -> k <> "dynamics" -> k <> "elastic" -> same (mget YUndef k l1) (mget YUndef k l2).
  Proof.
    intros Hk N1 N2. specialize (H k Hk). apply String.eqb_neq in N1, N2. rewrite N1, N2 in H. unfold mget.
    destruct H; auto. apply same_node.
  Qed.
  Lemma dyn_list : ydef (mget YUndef "dynamics" l1) = ydef (mget YUndef "dynamics" l2) /\
    Forall2 (fun x y => same (snd x) (snd y)) (ychildren (mget YUndef "dynamics" l1)) (ychildren (mget YUndef "dynamics" l2)).
  Proof.
    specialize (H "dynamics" ltac:(known)). unfold mget. simpl in H. destruct H as [|a b (m1 & m2 & -> & -> & F)]; simpl; auto.
  Qed.
  Lemma ela_entry : (mget YUndef "elastic" l1 = YUndef /\ mget YUndef "elastic" l2 = YUndef) \/
    exists m1 m2, mget YUndef "elastic" l1 = YMap m1 /\ mget YUndef "elastic" l2 = YMap m2 /\
      (forall k, In k vocabulary -> k <> "joints" -> same (mget YUndef k m1) (mget YUndef k m2)) /\
      Forall2 (fun x y => same (snd x) (snd y)) (ychildren (mget YUndef "joints" m1)) (ychildren (mget YUndef "joints" m2)).
  Proof.
    specialize (H "elastic" ltac:(known)). unfold mget. simpl in H. destruct H as [|a b (m1 & m2 & -> & -> & F)]; [now left|]. right.
    exists m1, m2. split; [reflexivity|]. split; [reflexivity|]. split.
    - intros k Hk N. specialize (F k Hk). apply String.eqb_neq in N. rewrite N in F. destruct F; auto. apply same_node.
    - specialize (F "joints" ltac:(known)). simpl in F. destruct F as [|a b (n1 & n2 & -> & -> & F)]; simpl; auto.
  Qed.
  Lemma ela_idx k : In k vocabulary -> k <> "joints" -> rel same (yidx (mget YUndef "elastic" l1) k) (yidx (mget YUndef "elastic" l2) k).
  Proof.
    intros Hk N. destruct ela_entry as [[-> ->]|(m1 & m2 & -> & -> & A & _)]; simpl; [apply same_node|now apply A].
  Qed.
  Lemma ela_def : ydef (mget YUndef "elastic" l1) = ydef (mget YUndef "elastic" l2).
  Proof. destruct ela_entry as [[-> ->]|(m1 & m2 & -> & -> & _)]; reflexivity. Qed.
  Lemma ela_joints : exists a b, yidx (mget YUndef "elastic" l1) "joints" = Some a /\ yidx (mget YUndef "elastic" l2) "joints" = Some b /\
    Forall2 (fun x y => same (snd x) (snd y)) (ychildren a) (ychildren b).
  Proof.
    destruct ela_entry as [[-> ->]|(m1 & m2 & -> & -> & _ & A)]; simpl; do 2 eexists; (split; [reflexivity|]); (split; [reflexivity|]); auto.
    constructor.
  Qed.

  Lemma parse_same name : parse_config name (YMap l1) = parse_config name (YMap l2).
  Proof.
    assert (T := top).
    unfold parse_config.
    pose proof (T "num_joints" ltac:(known) ltac:(discriminate) ltac:(discriminate)) as T1.
    pose proof (T "type_joints" ltac:(known) ltac:(discriminate) ltac:(discriminate)) as T2.
    pose proof (T "Dl_order" ltac:(known) ltac:(discriminate) ltac:(discriminate)) as T3.
    pose proof (T "ELASTIC_MODEL" ltac:(known) ltac:(discriminate) ltac:(discriminate)) as T4.
    pose proof (T "kinematics" ltac:(known) ltac:(discriminate) ltac:(discriminate)) as T5.
    pose proof (T "gravity" ltac:(known) ltac:(discriminate) ltac:(discriminate)) as T6.
    pose proof (T "Base_to_L0" ltac:(known) ltac:(discriminate) ltac:(discriminate)) as T7.
    pose proof (T "Ln_to_EE" ltac:(known) ltac:(discriminate) ltac:(discriminate)) as T8. clear T.
    cbn [yidx ofy pbind]. 
    rewrite (same_int _ _ T1), (same_vector _ _ _ _ T2), (same_def _ _ T3), (same_int _ _ T3), (same_def _ _ T4), (same_bool _ _ T4), (same_def _ _ T6).
    apply b_same; [reflexivity|intros nj]. apply b_same; [reflexivity|intros jt]. apply b_same; [reflexivity|intros dl]. apply b_same; [reflexivity|intros ela].
    apply b_same.
    { destruct ela; [|reflexivity].
      apply b_p; [apply ela_idx; [known|discriminate]|]. intros a1 b1 S1. rewrite (same_int _ _ S1). apply b_same; [reflexivity|intros kz].
      apply b_p; [apply ela_idx; [known|discriminate]|]. intros a2 b2 S2. rewrite (same_int _ _ S2). apply b_same; [reflexivity|intros dz].
      apply b_p; [apply ela_idx; [known|discriminate]|]. intros a3 b3 S3. rewrite (same_int _ _ S3). reflexivity. }
    intros ords. do 5 (apply b_same; [reflexivity|intros ?]). apply b_same; [reflexivity|intros isel].
    set (nej := count_elastic isel).
    step. step; [steps|].
    apply b_same. { destruct (ydef (mget YUndef "gravity" l2)); [|reflexivity]. steps. }
    intros grav. step. step; [steps|]. step. step; [steps|]. step. step; [steps|]. step. step; [steps|].
    destruct dyn_list as [_ DL].
    apply b_same; [apply link_flags_same; [known|exact DL]|intros sDYN].
    apply b_same; [match goal with |- (if ?c then _ else _) = _ => destruct c end; [apply link_flags_same; [known|exact DL]|reflexivity]|intros sDl].
    apply b_same.
    { destruct ela; [|reflexivity]. destruct ela_joints as (ja & jb & -> & -> & JL). cbn [ofy pbind]. now apply elastic_symb_same. }
    intros [[[sK sD] sDm] sMm].
    rewrite (section_same _ _ _ T5), (section_same _ _ _ T7), (section_same _ _ _ T8), (section_same _ _ _ T6). reflexivity.
  Qed.

  Lemma read_keys_same a b keys : same a b -> (forall k, In k keys -> In k vocabulary) ->
    forall pos p, read_keys a keys pos p = read_keys b keys pos p.
  Proof.
    intros S. induction keys as [|k t IH]; intros Hk pos p; [reflexivity|]. cbn [read_keys].
    rewrite (b_y _ _ _ as_double as_double (same_idx a b k S ltac:(apply Hk; now left)) same_double).
    destruct ybind; [|reflexivity]. apply IH. intros; apply Hk; now right.
  Qed.
  Lemma inertial_known k : In k inertial_keys -> In k vocabulary.
  Proof. unfold inertial_keys, vocabulary. simpl. tauto. Qed.
  Lemma load_links_same m1 m2 dlO : Forall2 (fun x y => same (snd x) (snd y)) m1 m2 ->
    forall left i s, load_links m1 left i dlO s = load_links m2 left i dlO s.
  Proof.
    intros F. induction F as [|[k1 a] [k2 b] m1 m2 S F IH]; intros left i s; [reflexivity|]. simpl in S. cbn [load_links].
    pose proof (same_idx_c a b "inertial" S ltac:(known)) as R1. unfold rel in R1.
    destruct (yidx_c a "inertial") as [ia|], (yidx_c b "inertial") as [ib|]; try contradiction; [|reflexivity].
    destruct left as [|left]; [reflexivity|]. rewrite (read_keys_same ia ib _ R1 inertial_known).
    apply b_prog; [reflexivity|]. intros s'.
    pose proof (same_idx_c a b "friction" S ltac:(known)) as R2. unfold rel in R2.
    destruct (yidx_c a "friction") as [fa|], (yidx_c b "friction") as [fb|]; try contradiction; [|reflexivity].
    apply b_prog; [|intros; apply IH]. rewrite (same_def _ _ R2). destruct (ydef fb); [|reflexivity].
    now rewrite (b_y _ _ _ (as_vector as_double) (as_vector as_double) (same_idx_c fa fb "Dl" R2 ltac:(known)) (same_vector _ _)).
  Qed.
  Lemma load_order_same a b key o base p : In key vocabulary -> same a b -> load_order a key o base p = load_order b key o base p.
  Proof.
    intros Hk S. unfold load_order, read_vector_key.
    now rewrite (b_y _ _ _ (as_vector as_double) (as_vector as_double) (same_idx_c a b key S Hk) (same_vector _ _)).
  Qed.
  Lemma load_elastic_same m1 m2 kO dO dmO : Forall2 (fun x y => same (snd x) (snd y)) m1 m2 ->
    forall left i s, load_elastic m1 left i kO dO dmO s = load_elastic m2 left i kO dO dmO s.
  Proof.
    intros F. induction F as [|[k1 a] [k2 b] m1 m2 S F IH]; intros left i s; [reflexivity|]. simpl in S. cbn [load_elastic].
    destruct left as [|left]; [reflexivity|].
    rewrite (load_order_same a b "K") by (auto; known). apply b_prog; [reflexivity|intros s1].
    rewrite (load_order_same a b "D") by (auto; known). apply b_prog; [reflexivity|intros s2].
    rewrite (load_order_same a b "Dm") by (auto; known). apply b_prog; [reflexivity|intros s3].
    rewrite (b_y _ _ _ as_double as_double (same_idx_c a b "Mm" S ltac:(known)) same_double).
    destruct ybind; [|reflexivity]. apply IH.
  Qed.
  Lemma tree_same r : load_conf_tree r (YMap l1) = load_conf_tree r (YMap l2).
  Proof.
    unfold load_conf_tree. cbn [yidx]. rewrite (load_links_same _ _ _ (proj2 dyn_list)). apply b_prog; [reflexivity|]. intros s.
    destruct (ELASTIC r); [|reflexivity]. rewrite ela_def. destruct (ydef (mget YUndef "elastic" l2)); [|reflexivity].
    destruct ela_joints as (ja & jb & -> & -> & JL). now apply load_elastic_same.
  Qed.
  Lemma file_same name compute : robot_from_file name (YMap l1) compute = robot_from_file name (YMap l2) compute.
  Proof.
    unfold robot_from_file, new_robot. rewrite parse_same. destruct (parse_config name (YMap l2)); try reflexivity.
    destruct (initVarsFuns a); try reflexivity. cbn [bind]. unfold load_conf_par. now rewrite tree_same.
  Qed.

  (* the generated class *)
  Lemma read_list_same a b keys : same a b -> (forall k, In k keys -> In k vocabulary) -> read_list a keys = read_list b keys.
  Proof.
    intros S. induction keys as [|k t IH]; intros Hk; [reflexivity|]. cbn [read_list].
    rewrite (b_y _ _ _ as_double as_double (same_idx a b k S ltac:(apply Hk; now left)) same_double).
    rewrite IH; [reflexivity|]. intros; apply Hk; now right.
  Qed.
  Lemma t_links_same m1 m2 dlO : Forall2 (fun x y => same (snd x) (snd y)) m1 m2 ->
    forall left i s, t_links m1 left i dlO s = t_links m2 left i dlO s.
  Proof.
    intros F. induction F as [|[k1 a] [k2 b] m1 m2 S F IH]; intros left i s; [reflexivity|]. simpl in S. cbn [t_links].
    destruct left as [|left]; [reflexivity|].
    rewrite (b_y _ _ _ (fun n => read_list n inertial_keys) (fun n => read_list n inertial_keys) (same_idx_c a b "inertial" S ltac:(known))
      (fun x y Sx => read_list_same x y inertial_keys Sx inertial_known)).
    destruct ybind as [v|]; [|reflexivity]. destruct splice as [p|]; [|reflexivity]. cbv zeta.
    pose proof (same_idx_c a b "friction" S ltac:(known)) as R2. unfold rel in R2.
    destruct (yidx_c a "friction") as [fa|], (yidx_c b "friction") as [fb|]; try contradiction; [|reflexivity].
    apply b_prog; [|intros; apply IH]. rewrite (same_def _ _ R2). destruct (ydef fb); [|reflexivity].
    now rewrite (b_y _ _ _ (as_vector as_double) (as_vector as_double) (same_idx_c fa fb "Dl" R2 ltac:(known)) (same_vector _ _)).
  Qed.
  Lemma new_flags_same a b cur : same a b -> new_flags a cur = new_flags b cur.
  Proof.
    intros S. unfold new_flags. apply b_y; [apply same_idx; [exact S|known]|]. intros x y Sx.
    now rewrite (same_def _ _ Sx), (same_vector _ _ _ _ Sx).
  Qed.
  Lemma vector_same a b k : same a b -> In k vocabulary -> ybind (yidx a k) (as_vector as_double) = ybind (yidx b k) (as_vector as_double).
  Proof. intros S Hk. apply b_y; [now apply same_idx|]. intros; now apply same_vector. Qed.
  Lemma t_frame_same junk sec par sy t : In sec vocabulary -> sec <> "dynamics" -> sec <> "elastic" ->
    t_frame junk sec par sy (YMap l1) t = t_frame junk sec par sy (YMap l2) t.
  Proof.
    intros Hk N1 N2. pose proof (top sec Hk N1 N2) as S. unfold t_frame. cbn [yidx]. rewrite (same_def _ _ S).
    rewrite (vector_same _ _ "tr" S) by known. rewrite (vector_same _ _ "ypr" S) by known. cbv zeta.
    rewrite (new_flags_same _ _ _ S). reflexivity.
  Qed.
  Lemma t_load_same junk t up : t_load_conf junk t (Some (YMap l1)) up = t_load_conf junk t (Some (YMap l2)) up.
  Proof.
    unfold t_load_conf.
    assert (E : forall x y : prog tobj, x = y -> match x with Go t | Caught t => Ok t | Bad m => UB m end = match y with Go t | Caught t => Ok t | Bad m => UB m end) by (now intros x y ->).
    apply E. apply b_prog.
    { pose proof (top "kinematics" ltac:(known) ltac:(discriminate) ltac:(discriminate)) as S.
      unfold t_kinematics. cbn [yidx]. rewrite (same_def _ _ S), (vector_same _ _ "DH" S) by known. cbv zeta.
      destruct (ydef (mget YUndef "kinematics" l2)); [|reflexivity]. destruct ybind; [|reflexivity]. now rewrite (new_flags_same _ _ _ S). }
    intros t1. apply b_prog; [apply t_frame_same; [known|discriminate|discriminate]|]. intros t2.
    apply b_prog; [apply t_frame_same; [known|discriminate|discriminate]|]. intros t3.
    apply b_prog.
    { unfold t_dynamics. cbn [yidx]. rewrite (proj1 dyn_list). destruct (ydef (mget YUndef "dynamics" l2)); [|reflexivity].
      now rewrite (t_links_same _ _ _ (proj2 dyn_list)). }
    intros t4. apply b_prog.
    { pose proof (top "gravity" ltac:(known) ltac:(discriminate) ltac:(discriminate)) as S.
      unfold t_gravity. cbn [yidx]. rewrite (same_def _ _ S), (vector_same _ _ "value" S) by known. cbv zeta.
      now rewrite (new_flags_same _ _ _ S). }
    intros t5. unfold t_elastic. cbn [yidx]. rewrite ela_def. destruct (ydef (mget YUndef "elastic" l2)); [|reflexivity].
    destruct ela_joints as (ja & jb & -> & -> & JL). now rewrite (load_elastic_same _ _ _ _ _ JL).
  Qed.
End File.
