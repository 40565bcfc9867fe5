(* Parsing a configuration: what it reports, and when it stays inside its buffers. *)
From Coq Require Import Reals List Arith String Bool Lia ZArith.
From Verif.Model Require Import Base Expr SX Robot Yaml Inertia Build.
From Verif.Spec Require Import Setup Config.
From Verif.Proofs Require Import Maps Load.
Import ListNotations.
Open Scope nat_scope.
Open Scope string_scope.

Lemma yidx_entry n k v : yidx n k = Some v -> v = match entry n k with Some m => m | None => YUndef end.
Proof. destruct n; cbn [yidx entry]; intros H; inversion H; try reflexivity. Qed.
Lemma yidx_c_entry n k v : yidx_c n k = Some v -> v = match entry n k with Some m => m | None => YZombie end.
Proof. destruct n; cbn [yidx_c entry]; intros H; inversion H; try reflexivity. Qed.
Lemma ymap_len {A} (f : ynode -> yres A) l : forall v, ymap f l = Some v -> List.length v = List.length l.
Proof.
  induction l as [|a l IH]; cbn [ymap]; intros v H; [inversion H; auto|].
  destruct (f a); [|discriminate]. cbn [ybind] in H. destruct (ymap f l); [|discriminate]. inversion H. simpl. now rewrite IH.
Qed.
Lemma as_vector_items {A} (f : ynode -> yres A) n v : as_vector f n = Some v -> items n = List.length v.
Proof. destruct n; try discriminate. cbn [as_vector items]. intros H. symmetry. now apply ymap_len in H. Qed.
Lemma ymap_nth {A} (f : ynode -> yres A) l : forall v i a, ymap f l = Some v -> nth_error v i = Some a ->
  exists n, nth_error l i = Some n /\ f n = Some a.
Proof.
  induction l as [|b l IH]; cbn [ymap]; intros v i a H E; [inversion H; subst; destruct i; discriminate|].
  destruct (f b) as [x|] eqn:Eb; [|discriminate]. cbn [ybind] in H. destruct (ymap f l) as [w|]; [|discriminate]. inversion H; subst.
  destruct i; cbn [nth_error] in *; [exists b; split; [reflexivity|congruence]|]. eapply IH; eauto.
Qed.

Lemma ofy_ok {A} (x : yres A) a : ofy x = POk a -> x = Some a.
Proof. destruct x; cbn; intros H; inversion H; auto. Qed.
Lemma ofy_ub {A} (x : yres A) m : ofy x = PUB m -> False.
Proof. destruct x; discriminate. Qed.
Lemma pbind_ub {A B} (x : pres A) (f : A -> pres B) m : pbind x f = PUB m -> x = PUB m \/ exists a, x = POk a /\ f a = PUB m.
Proof. destruct x; cbn; intros H; try discriminate; eauto. left; congruence. Qed.
Lemma nonneg_ub z m : nonneg z = PUB m -> False.
Proof. unfold nonneg. destruct (Z.ltb z 0); discriminate. Qed.
Lemma nonneg_ok z n : nonneg z = POk n -> z = Z.of_nat n.
Proof. unfold nonneg. destruct (Z.ltb_spec z 0); intros H0; inversion H0. now rewrite Z2Nat.id. Qed.
Lemma three_ub v m : three v = PUB m -> List.length v < 3.
Proof.
  unfold three, vec_at. destruct v as [|a [|b [|c v]]]; cbn; intros H; try discriminate; lia.
Qed.
Lemma section_ub s n m : section_symb s n = PUB m -> False.
Proof.
  unfold section_symb. intros H. apply pbind_ub in H. destruct H as [H|(a & _ & H)]; [eapply ofy_ub; eauto|].
  destruct (ydef a); [eapply ofy_ub; eauto|discriminate].
Qed.
Lemma symb_vector_ub s k n m : symb_vector s k n = PUB m -> False.
Proof.
  unfold symb_vector. intros H. apply pbind_ub in H. destruct H as [H|(a & _ & H)]; [eapply ofy_ub; eauto|].
  destruct (ydef a); [|discriminate]. apply pbind_ub in H. destruct H as [H|(v & _ & H)]; [eapply ofy_ub; eauto|discriminate].
Qed.
Lemma elastic_symb_ub l : forall left kO dO dmO m, elastic_symb l left kO dO dmO = PUB m -> False.
Proof.
  induction l as [|(k & nd) l IH]; intros left kO dO dmO m H; destruct left; cbn [elastic_symb] in H; try discriminate.
  apply pbind_ub in H. destruct H as [H|(? & _ & H)]; [eapply symb_vector_ub; eauto|].
  apply pbind_ub in H. destruct H as [H|(? & _ & H)]; [eapply symb_vector_ub; eauto|].
  apply pbind_ub in H. destruct H as [H|(? & _ & H)]; [eapply symb_vector_ub; eauto|].
  apply pbind_ub in H. destruct H as [H|(? & _ & H)]; [eapply ofy_ub; eauto|].
  apply pbind_ub in H. destruct H as [H|(? & _ & H)].
  { destruct (ydef _); [eapply ofy_ub; eauto|discriminate]. }
  apply pbind_ub in H. destruct H as [H|((((? & ?) & ?) & ?) & _ & H)]; [eapply IH; eauto|discriminate].
Qed.
Lemma copy_len d o v d' : copy_at d o v = POk d' -> List.length d' = List.length d.
Proof.
  unfold copy_at. destruct (Nat.leb_spec (o + List.length v) (List.length d)); intros E; inversion E.
  rewrite !app_length, firstn_length, skipn_length. lia.
Qed.
Lemma link_flags_ub key width : forall l i acc m,
  (forall k nd s, In (k, nd) l -> entry2 nd key "symb" = Some s -> items s <= width) ->
  width * (i + List.length l) <= List.length acc -> link_flags key width l i acc = PUB m -> False.
Proof.
  induction l as [|(k & nd) l IH]; intros i acc m Hs Hl H; cbn [link_flags] in H; [discriminate|].
  cbn [List.length] in Hl.
  apply pbind_ub in H. destruct H as [H|(sub & E1 & H)]; [eapply ofy_ub; eauto|].
  apply pbind_ub in H. destruct H as [H|(s & E2 & H)]; [eapply ofy_ub; eauto|].
  apply pbind_ub in H. destruct H as [H|(v & E3 & H)]; [destruct (ydef s); [eapply ofy_ub; eauto|discriminate]|].
  assert (Hv : List.length v <= width).
  { destruct (ydef s) eqn:Ed; [|inversion E3; rewrite repeat_length; lia]. apply ofy_ok in E1, E2, E3.
    apply yidx_c_entry in E1. apply yidx_entry in E2. apply as_vector_items in E3. rewrite <- E3.
    apply (Hs k nd s); [left; reflexivity|]. unfold entry2. destruct (entry nd key) as [n1|]; subst sub; cbn [entry] in E2;
      [|subst s; discriminate]. destruct (entry n1 "symb"); subst s; [reflexivity|discriminate]. }
  assert (Hfit : i * width + List.length v <= List.length acc) by nia.
  apply pbind_ub in H. destruct H as [H|(acc' & E4 & H)].
  - unfold copy_at in H. apply Nat.leb_le in Hfit. rewrite Hfit in H. discriminate.
  - eapply IH in H; [exact H| |].
    + intros k' nd' s' Hi. apply (Hs k' nd' s'). right; exact Hi.
    + apply copy_len in E4. rewrite E4. nia.
Qed.
Lemma link_flags_nil key width l : forall i acc m, link_flags key width l i acc = PUB m -> l <> [].
Proof. destruct l; cbn [link_flags]; intros; discriminate. Qed.

Ltac ubstep H := apply pbind_ub in H; destruct H as [H|H];
  [try (exfalso; first [eapply ofy_ub; exact H | eapply nonneg_ub; exact H | eapply section_ub; exact H])
  |let a := fresh "a" in let E := fresh "E" in destruct H as (a & E & H)]; cbv beta zeta in H.

Lemma entry2_sec cfg sec key fb v x : ofy (yidx cfg sec) = POk fb -> ofy (yidx fb key) = POk v -> as_vector as_double v = Some x ->
  entry2 cfg sec key = Some v.
Proof.
  intros E1 E2 E3. apply ofy_ok in E1, E2. apply yidx_entry in E1, E2. unfold entry2.
  destruct (entry cfg sec) as [n|]; subst fb; cbn [entry] in E2; [|subst v; discriminate].
  destruct (entry n key); subst v; [reflexivity|discriminate].
Qed.
Lemma entry_int cfg k v z : ofy (yidx cfg k) = POk v -> ofy (as_int v) = POk z -> entry cfg k = Some (YInt z).
Proof.
  intros E1 E2. apply ofy_ok in E1, E2. apply yidx_entry in E1. destruct (entry cfg k); subst v; [|discriminate].
  destruct y; inversion E2; reflexivity.
Qed.
Lemma dyn_children cfg d : ofy (yidx cfg "dynamics") = POk d -> ychildren d <> [] -> entry cfg "dynamics" = Some d.
Proof.
  intros E N. apply ofy_ok in E. apply yidx_entry in E. destruct (entry cfg "dynamics"); subst d; [reflexivity|]. destruct N; reflexivity.
Qed.

Theorem parse_safe name cfg m : fits cfg -> parse_config name cfg <> PUB m.
Proof.
  intros F H. unfold parse_config in H.
  ubstep H. ubstep H. ubstep H. ubstep H. ubstep H.
  apply pbind_ub in H. destruct H as [H|(dlZ & Edl & H)]; [match type of H with context[ydef ?x] => destruct (ydef x) end; [eapply ofy_ub; eauto|discriminate]|].
  ubstep H.
  apply pbind_ub in H. destruct H as [H|(ela & Eela & H)]; [match type of H with context[ydef ?x] => destruct (ydef x) end; [eapply ofy_ub; eauto|discriminate]|].
  apply pbind_ub in H. destruct H as [H|(ords & Eords & H)].
  { destruct ela; [|discriminate]. ubstep H. ubstep H. ubstep H. ubstep H. ubstep H. ubstep H. ubstep H. discriminate. }
  ubstep H. ubstep H. ubstep H. ubstep H. ubstep H. rename a5 into nj.
  match goal with E : nonneg a0 = POk nj |- _ => pose proof (nonneg_ok _ _ E) as Hz end. subst a0.
  match goal with A : ofy (yidx cfg "num_joints") = _, B : ofy (as_int _) = POk (Z.of_nat nj) |- _ => pose proof (entry_int _ _ _ _ A B) as Hnj end.
  apply pbind_ub in H. destruct H as [H|(isel & Eisel & H)].
  { unfold elastic_flags in H. destruct (Nat.leb_spec nj (List.length a2)) as [|Hlt]; [discriminate|].
    match goal with A : ofy (as_vector as_string ?v) = POk a2 |- _ => apply ofy_ok in A; pose proof (as_vector_items _ _ _ A) as Hi end.
    match goal with A : ofy (yidx cfg "type_joints") = POk ?v |- _ => apply ofy_ok, yidx_entry in A; destruct (entry cfg "type_joints") as [tj|] eqn:Etj; subst v end.
    - pose proof (ft_types _ F _ _ Hnj Etj). lia.
    - match goal with A : as_vector as_string YUndef = Some _ |- _ => discriminate A end. }
  ubstep H. ubstep H. ubstep H. ubstep H.
  apply pbind_ub in H. destruct H as [H|(grav & Egrav & H)].
  { match type of H with context[ydef ?x] => destruct (ydef x) end; [|discriminate]. ubstep H. eapply ofy_ub; eauto. }
  ubstep H. ubstep H. ubstep H. ubstep H. ubstep H. ubstep H. ubstep H. ubstep H. ubstep H. ubstep H. ubstep H.
  match goal with A : ofy (yidx cfg "dynamics") = POk ?d |- _ => rename d into dyn; rename A into Edyn end.
  apply pbind_ub in H. destruct H as [H|(sDYN & EDYN & H)].
  { pose proof (link_flags_nil _ _ _ _ _ _ H) as N. pose proof (dyn_children _ _ Edyn N) as Ed.
    eapply link_flags_ub in H; [exact H| |].
    - intros k nd s Hi Hs. exact (ft_inertial _ F dyn k nd s Ed Hi Hs).
    - pose proof (ft_links _ F _ _ Hnj Ed). rewrite repeat_length. apply Nat.mul_le_mono_l. lia. }
  apply pbind_ub in H. destruct H as [H|(sDl & EDl & H)].
  { match type of H with (if Nat.ltb 0 ?x then _ else _) = _ => destruct (Nat.ltb_spec 0 x) as [Hp|]; [|discriminate]; rename x into dlO end.
    pose proof (link_flags_nil _ _ _ _ _ _ H) as N. pose proof (dyn_children _ _ Edyn N) as Ed.
    match goal with A : order_of dlZ = POk dlO |- _ => pose proof (nonneg_ok _ _ A) as Hdl end.
    assert (EO : entry cfg "Dl_order" = Some (YInt (Z.of_nat dlO))).
    { match goal with A : ofy (yidx cfg "Dl_order") = POk ?v |- _ => destruct (ydef v); [|inversion Edl; lia]; apply (entry_int _ _ _ _ A) end. now rewrite <- Hdl. }
    eapply link_flags_ub in H; [exact H| |].
    - intros k nd s Hi Hs. pose proof (ft_friction _ F _ dyn k nd s EO Ed Hi Hs). lia.
    - pose proof (ft_links _ F _ _ Hnj Ed). rewrite repeat_length. apply Nat.mul_le_mono_l. lia. }
  apply pbind_ub in H. destruct H as [H|((((sK & sD) & sDm) & sMm) & EEl & H)].
  { destruct ela; [|discriminate]. ubstep H. ubstep H. eapply elastic_symb_ub; eauto. }
  ubstep H. ubstep H. ubstep H. ubstep H. ubstep H.
  match type of H with (if ?c then _ else _) = _ => destruct c; [discriminate|] end.
  pose proof (ft_vectors _ F) as V.
  apply pbind_ub in H. destruct H as [H|(x1 & _ & H)].
  { apply three_ub in H. match goal with A : ofy (yidx cfg "Base_to_L0") = POk ?fb, B : ofy (yidx ?fb "tr") = POk ?v, C : ofy (as_vector as_double ?v) = _ |- _ =>
      apply ofy_ok in C; pose proof (V "Base_to_L0" "tr" v ltac:(simpl; auto 10) (entry2_sec _ _ _ _ _ _ A B C)); pose proof (as_vector_items _ _ _ C) end. lia. }
  apply pbind_ub in H. destruct H as [H|(x2 & _ & H)].
  { apply three_ub in H. match goal with A : ofy (yidx cfg "Base_to_L0") = POk ?fb, B : ofy (yidx ?fb "ypr") = POk ?v, C : ofy (as_vector as_double ?v) = _ |- _ =>
      apply ofy_ok in C; pose proof (V "Base_to_L0" "ypr" v ltac:(simpl; auto 10) (entry2_sec _ _ _ _ _ _ A B C)); pose proof (as_vector_items _ _ _ C) end. lia. }
  apply pbind_ub in H. destruct H as [H|(x3 & _ & H)].
  { apply three_ub in H. match goal with A : ofy (yidx cfg "Ln_to_EE") = POk ?fb, B : ofy (yidx ?fb "tr") = POk ?v, C : ofy (as_vector as_double ?v) = _ |- _ =>
      apply ofy_ok in C; pose proof (V "Ln_to_EE" "tr" v ltac:(simpl; auto 10) (entry2_sec _ _ _ _ _ _ A B C)); pose proof (as_vector_items _ _ _ C) end. lia. }
  apply pbind_ub in H. destruct H as [H|(x4 & _ & H)].
  { apply three_ub in H. match goal with A : ofy (yidx cfg "Ln_to_EE") = POk ?fb, B : ofy (yidx ?fb "ypr") = POk ?v, C : ofy (as_vector as_double ?v) = _ |- _ =>
      apply ofy_ok in C; pose proof (V "Ln_to_EE" "ypr" v ltac:(simpl; auto 10) (entry2_sec _ _ _ _ _ _ A B C)); pose proof (as_vector_items _ _ _ C) end. lia. }
  apply pbind_ub in H. destruct H as [H|(x5 & _ & H)]; [|discriminate].
  apply three_ub in H.
  match type of Egrav with (if ydef ?g then _ else _) = _ => destruct (ydef g) end.
  - apply pbind_ok in Egrav. destruct Egrav as (v & Ev & C). apply ofy_ok in C.
    match goal with A : ofy (yidx cfg "gravity") = POk ?g, B : ofy (yidx ?g "value") = POk v |- _ =>
      pose proof (V "gravity" "value" v ltac:(simpl; auto 10) (entry2_sec _ _ _ _ _ _ A B C)) end.
    pose proof (as_vector_items _ _ _ C). lia.
  - inversion Egrav; subst grav. cbn in H. lia.
Qed.

Lemma ymap_str l : forall v i t, ymap as_string l = Some v -> nth_error l i = Some (YStr t) -> nth_error v i = Some t.
Proof.
  induction l as [|b l IH]; cbn [ymap]; intros v i t H E; [destruct i; discriminate|].
  destruct (as_string b) as [x|] eqn:Eb; [|discriminate]. cbn [ybind] in H. destruct (ymap as_string l) as [w|]; [|discriminate]. inversion H; subst.
  destruct i; cbn [nth_error] in *; [inversion E; subst; inversion Eb; reflexivity|]. eapply IH; eauto.
Qed.
Lemma count_sea l : count_elastic (map (fun t => if is_sea t then 1%Z else 0%Z) l) = List.length (filter elastic_type l).
Proof.
  unfold count_elastic. induction l as [|t l IH]; [reflexivity|]. cbn [map filter]. change (elastic_type t) with (is_sea t).
  destruct (is_sea t); cbn [Z.eqb Pos.eqb List.length]; rewrite <- IH; reflexivity.
Qed.
Lemma section_none s n v : section_symb s n = POk v -> entry s "symb" = None -> forall z, In z v -> z = 0%Z.
Proof.
  unfold section_symb. intros H E. apply pbind_ok in H. destruct H as (a & Ea & H). apply ofy_ok, yidx_entry in Ea. rewrite E in Ea. subst a.
  inversion H. intros z Hz. now apply repeat_spec in Hz.
Qed.
Lemma entry2_none cfg sec s : ofy (yidx cfg sec) = POk s -> entry2 cfg sec "symb" = None -> entry s "symb" = None.
Proof. intros E N. apply ofy_ok, yidx_entry in E. unfold entry2 in N. destruct (entry cfg sec); subst s; auto. Qed.
Lemma entry2_int cfg k1 k2 e v z : ofy (yidx cfg k1) = POk e -> ofy (yidx e k2) = POk v -> ofy (as_int v) = POk z -> entry2 cfg k1 k2 = Some (YInt z).
Proof.
  intros E1 E2 E3. pose proof (entry_int _ _ _ _ E2 E3) as E. apply ofy_ok, yidx_entry in E1. unfold entry2.
  destruct (entry cfg k1); subst e; [exact E|discriminate].
Qed.

Theorem parse_reports name cfg r : parse_config name cfg = POk r -> reports cfg r.
Proof.
  intros HP. pose proof (parse_inv _ _ _ HP) as PA. unfold parse_config in HP. rename HP into H. pinv H.
  match type of H with (let (_, _) := ?x in _) = _ => destruct x as [[[sK sD] sDm] sMm] eqn:Ex end.
  pinv H.
  match type of H with (if negb (Nat.eqb ?x ?y) then _ else _) = _ => destruct (Nat.eqb x y) eqn:Hjt end;
    cbn [negb] in H; [|discriminate]. apply Nat.eqb_eq in Hjt.
  pinv H. inversion H; subst r; clear H. destruct PA. cbn [jointsType numJoints isElasticJoint numElasticJoints ELASTIC Dl_order K_order D_order Dm_order] in *.
  repeat match goal with A : order_of ?z = POk ?n |- _ => apply nonneg_ok in A | A : nonneg ?z = POk ?n |- _ => apply nonneg_ok in A end.
  constructor; cbn [jointsType numJoints isElasticJoint numElasticJoints ELASTIC Dl_order K_order D_order Dm_order].
  - subst. eapply entry_int; eassumption.
  - match goal with A : ofy (yidx cfg "type_joints") = POk ?v, B : ofy (as_vector as_string ?v) = POk _ |- _ =>
      apply ofy_ok, yidx_entry in A; apply ofy_ok in B; destruct (entry cfg "type_joints") as [tj|]; subst v; [|discriminate];
      destruct tj as [| | | | | | |l|]; try discriminate; exists l; cbn [as_vector] in B; split; [reflexivity|];
      split; [rewrite <- Hjt; symmetry; eapply ymap_len; exact B|]; split; [exact Hjt|]; intros i t; apply ymap_str; exact B end.
  - split; [|exact pa_el]. rewrite pa_el. apply count_sea.
  - match goal with A : ofy (yidx cfg "Dl_order") = POk ?v, B : (if ydef ?v then ofy (as_int ?v) else _) = POk ?z, C : ?z = Z.of_nat ?n |- _ =>
      apply ofy_ok, yidx_entry in A; destruct (entry cfg "Dl_order") as [y|]; subst v end.
    + match goal with B : (if ydef y then ofy (as_int y) else _) = POk ?z |- _ => destruct y; inversion B; subst end; first [reflexivity|congruence].
    + match goal with B : (if ydef YUndef then _ else _) = POk ?z |- _ => inversion B; subst end. lia.
  - match goal with A : ofy (yidx cfg "ELASTIC_MODEL") = POk ?v |- _ =>
      apply ofy_ok, yidx_entry in A; destruct (entry cfg "ELASTIC_MODEL") as [y|]; subst v end.
    + match goal with B : (if ydef y then ofy (as_bool y) else _) = POk ?z |- _ => destruct y; inversion B; subst end; reflexivity.
    + match goal with B : (if ydef YUndef then _ else _) = POk ?z |- _ => inversion B; subst end. reflexivity.
  - match goal with |- if ?b then _ else _ => destruct b end; [|auto].
    match goal with B : pbind (ofy (yidx cfg "elastic")) (fun e => pbind (ofy (yidx e "K_order")) _) = POk _ |- _ => pinv B; inversion B end.
    subst. cbn [fst snd] in *. subst. repeat split; eapply entry2_int; eassumption.
  - intros EN. match goal with A : ofy (yidx cfg "gravity") = POk ?v, B : (if ydef ?v then _ else POk [0; 0; 0]%R) = POk _ |- _ =>
      apply ofy_ok, yidx_entry in A; rewrite EN in A; subst v; inversion B; subst end.
    match goal with T : three [0; 0; 0]%R = POk _ |- _ => inversion T; subst end. reflexivity.
  - intros sec key Hk EN z. cbn [In] in Hk.
    destruct Hk as [Hk|[Hk|[Hk|[Hk|[]]]]]; inversion Hk; subst; unfold flags, mget; cbn [symb].
    all: lazy beta iota delta [mfind String.eqb Ascii.eqb Bool.eqb]; intros Hz; (eapply section_none; [|eapply entry2_none; [|exact EN]|exact Hz]; eassumption).
Qed.
