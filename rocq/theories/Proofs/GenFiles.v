(* The generated class files of a robot whose computation succeeded. *)
From Coq Require Import Reals String Ascii List Bool Arith ZArith Lia Decimal DecimalString.
From Verif.Model Require Import Base SX Robot Text TemplateText Main.
From Verif.Spec Require Import Text Setup Generated.
From Verif.Proofs Require Import Text Header Names Segments GenText.
Import ListNotations.
Open Scope nat_scope.
Open Scope string_scope.

Lemma hasb_get c s : hasb c s = true -> exists i, String.get i s = Some c.
Proof.
  induction s as [|a s IH]; cbn [hasb]; [discriminate|]. intros H. apply orb_true_iff in H. destruct H as [H|H].
  - apply Ascii.eqb_eq in H. subst. exists 0. reflexivity.
  - destruct (IH H) as [i Hi]. exists (S i). exact Hi.
Qed.
Lemma identifier_free c s : identifier s -> ~ letter c -> ~ digit c -> c <> "_"%char -> hasb c s = false.
Proof.
  intros I L D U. destruct (hasb c s) eqn:E; [|reflexivity]. destruct (hasb_get c s E) as [i Hi].
  destruct (id_chars s I i c Hi) as [H|[H|H]]; contradiction.
Qed.
Lemma identifier_slash s : identifier s -> hasb "/" s = false.
Proof. intros I. apply identifier_free; auto; unfold letter, digit; cbn; try (intros []; lia); try lia; discriminate. Qed.
Lemma identifier_sharp s : identifier s -> hasb "#" s = false.
Proof. intros I. apply identifier_free; auto; unfold letter, digit; cbn; try (intros []; lia); try lia; discriminate. Qed.
Lemma digits_free c n : ~ digit c -> hasb c (to_string n) = false.
Proof.
  intros D. unfold to_string. induction (Nat.to_uint n); cbn [NilEmpty.string_of_uint hasb]; try reflexivity; rewrite IHu, orb_false_r;
    apply Ascii.eqb_neq; intros <-; apply D; unfold digit; cbn; lia.
Qed.
Lemma hasb_concat c sep l : hasb c sep = false -> (forall s, In s l -> hasb c s = false) -> hasb c (String.concat sep l) = false.
Proof.
  intros Hs. induction l as [|a l IH]; intros H; [reflexivity|]. destruct l as [|b l].
  - cbn [String.concat]. apply H. now left.
  - rewrite concat_cons', !hasb_app, (H a (or_introl eq_refl)), Hs, IH by (intros; apply H; now right). reflexivity.
Qed.
Lemma flag_list_slash l : hasb "/" (flag_list l) = false.
Proof.
  unfold flag_list. rewrite !hasb_app. rewrite hasb_concat; [reflexivity|reflexivity|]. intros s Hs. apply in_map_iff in Hs.
  destruct Hs as (z & <- & _). apply digits_free. unfold digit. cbn. lia.
Qed.
Lemma replaced_free c from to s s' : replaced from to s s' -> hasb c s = false -> hasb c to = false -> hasb c s' = false.
Proof.
  intros H Hs Ht. induction H as [s _|pre rest rest' _ _ IH]; [exact Hs|]. rewrite !hasb_app in Hs |- *.
  apply orb_false_iff in Hs. destruct Hs as [H1 H2]. apply orb_false_iff in H2. destruct H2 as [_ H2]. now rewrite H1, Ht, IH.
Qed.

(* ---- the header ---- *)
Definition header_of (guard cls : string) (r : robot) (descr : string -> string) : string :=
  header_text ("THUNDER_" ++ guard) cls (robotName r) (to_string (numJoints r)) (if ELASTIC r then "1" else "0") (to_string (numElasticJoints r))
    (to_string (K_order r)) (to_string (D_order r)) (to_string (Dl_order r)) (to_string (Dm_order r)) (flag_list (isElasticJoint r)) (declarations r descr).
Lemma change_h_steps tm name r descr c1 c2 c3 res :
  1 <= numJoints r -> (forall z, In z (isElasticJoint r) -> (0 <= z)%Z) -> List.length (isElasticJoint r) = numJoints r ->
  replace_first tm "THUNDERROBOT" ("THUNDER_" ++ name) = Ok c1 -> replace_first c1 "THUNDERROBOT" ("THUNDER_" ++ name) = Ok c2 ->
  replace_all c2 "robot" name = c3 ->
  replace_list (fillings (robotName r) (to_string (numJoints r)) (if ELASTIC r then "1" else "0") (to_string (numElasticJoints r))
    (to_string (K_order r)) (to_string (D_order r)) (to_string (Dl_order r)) (to_string (Dm_order r)) (flag_list (isElasticJoint r)) (declarations r descr)) c3 = res ->
  change_h "robot" name r descr tm = Ok res.
Proof.
  intros J Z L E1 E2 <- <-. unfold change_h. rewrite E1. cbn [bind]. rewrite E2. cbn [bind].
  destruct (elastic_string (numJoints r) (isElasticJoint r)) as [eJ|m|m] eqn:EJ; cbn [bind].
  2,3: exfalso; unfold elastic_string in EJ; rewrite <- L, firstn_all, Nat.leb_refl in EJ; destruct (isElasticJoint r); [cbn in L; lia|discriminate].
  apply (elastic_string_ok _ _ _ Z L) in EJ. subst eJ. rewrite functions_h_ok. fold (declarations r descr).
  unfold fillings, bool_string. cbn [replace_list]. reflexivity.
Qed.
Theorem change_h_text name r descr : identifier name -> hasb "/" (robotName r) = false -> ~ occurs_in "THUNDERROBOT" name ->
  1 <= numJoints r -> (forall z, In z (isElasticJoint r) -> (0 <= z)%Z) -> List.length (isElasticJoint r) = numJoints r ->
  change_h "robot" name r descr template_h = Ok (header_of (replace_all name "robot" name) name r descr).
Proof.
  intros I Nr N J Z L. refine (change_h_steps _ _ _ _ _ _ _ _ J Z L (guard1 name) (guard2 name N) (robot_h name) _).
  assert (D : ~ digit "/") by (unfold digit; cbn; lia).
  apply fill_h.
  intros v. cbn [In]. intros H. repeat (destruct H as [<-|H]); try contradiction; try (apply digits_free; exact D); auto.
  - eapply replaced_free; [apply (replace_all_ok name "robot" name); discriminate| |]; now apply identifier_slash.
  - now apply identifier_slash.
  - now destruct (ELASTIC r).
  - apply flag_list_slash.
Qed.
(* an ordinary name *)
Lemma guard_plain name : ~ occurs_in "robot" name -> replace_all name "robot" name = name.
Proof. intros N. now apply replace_all_none. Qed.

(* ---- the source ---- *)
Lemma lines_end l : l <> [] -> exists s, lines l = s ++ nl.
Proof.
  intros H. unfold lines. rewrite concat_ended by exact H. eauto.
Qed.
Definition getter_of (cls : string) (r : robot) (descr : string -> string) (fo : fun_obj) : string :=
  getter (robotName r) cls (fo_name fo) (descr (fo_name fo)) (fo_args fo) (fo_rows fo) (fo_cols fo).
Lemma getter_end cls r descr fo : exists s, getter_of cls r descr fo = s ++ nl.
Proof. apply lines_end. discriminate. Qed.
Lemma concat_empty_cons a l : String.concat "" (a :: l) = a ++ String.concat "" l.
Proof. destruct l; [cbn; now rewrite app_nil_s|]. now rewrite concat_cons'. Qed.
Lemma concat_app_s l l' : String.concat "" (l ++ l')%list = String.concat "" l ++ String.concat "" l'.
Proof. induction l as [|a l IH]; [reflexivity|]. change ((a :: l) ++ l')%list with (a :: (l ++ l'))%list. rewrite (concat_empty_cons a (l ++ l')), (concat_empty_cons a l), IH. now rewrite app_assoc_s. Qed.
Lemma getters_end cls r descr : exists s, getters cls r descr = s ++ nl.
Proof.
  assert (E : getters cls r descr = nl ++ String.concat "" (map (getter_of cls r descr) (get_functions r))) by reflexivity.
  rewrite E. clear E. induction (get_functions r) as [|fo l _] using rev_ind; [exists ""; reflexivity|].
  destruct (getter_end cls r descr fo) as [s Hs]. rewrite map_app, concat_app_s. cbn [map String.concat]. rewrite Hs.
  exists (nl ++ String.concat "" (map (getter_of cls r descr) l) ++ s). now rewrite !app_assoc_s.
Qed.
(* no sharp sign in a getter *)
Lemma lines_free c l : hasb c nl = false -> (forall s, In s l -> hasb c s = false) -> hasb c (lines l) = false.
Proof.
  intros N H. unfold lines. apply hasb_concat; [reflexivity|]. intros s Hs. apply in_map_iff in Hs. destruct Hs as (x & <- & Hx).
  now rewrite hasb_app, (H x Hx), N.
Qed.
Lemma getter_sharp cls r descr fo : hasb "#" cls = false -> hasb "#" (robotName r) = false -> hasb "#" (fo_name fo) = false ->
  hasb "#" (descr (fo_name fo)) = false -> (forall a, In a (fo_args fo) -> hasb "#" a = false) -> hasb "#" (getter_of cls r descr fo) = false.
Proof.
  intros C R F D A. unfold getter_of, getter. assert (Z : ~ digit "#") by (unfold digit; cbn; lia).
  assert (P : hasb "#" (pointers (fo_args fo)) = false).
  { unfold pointers. destruct (fo_args fo) as [|a l]; [reflexivity|]. rewrite !hasb_app. rewrite hasb_concat; [reflexivity|reflexivity|].
    intros s Hs. apply in_map_iff in Hs. destruct Hs as (x & <- & Hx). now rewrite hasb_app, (A x Hx). }
  apply lines_free; [reflexivity|]. intros s. cbn [In]. unfold matrix_type.
  intros H. repeat (destruct H as [<-|H]); try contradiction; rewrite ?hasb_app, ?P, ?C, ?R, ?F, ?D, ?(digits_free _ _ Z); reflexivity.
Qed.
Lemma getters_sharp cls r descr : hasb "#" cls = false -> hasb "#" (robotName r) = false ->
  (forall fo, In fo (get_functions r) -> hasb "#" (fo_name fo) = false /\ hasb "#" (descr (fo_name fo)) = false /\ forall a, In a (fo_args fo) -> hasb "#" a = false) ->
  hasb "#" (getters cls r descr) = false.
Proof.
  intros C R H. assert (E : getters cls r descr = nl ++ String.concat "" (map (getter_of cls r descr) (get_functions r))) by reflexivity.
  rewrite E, hasb_app. apply hasb_concat; [reflexivity|]. intros s Hs. apply in_map_iff in Hs. destruct Hs as (fo & <- & Hf).
  destruct (H fo Hf) as (A & B & D). now apply getter_sharp.
Qed.
Definition bindings_of (cls : string) (r : robot) (descr : string -> string) : string :=
  String.concat nl (map (fun fo => binding cls (fo_name fo) (descr (fo_name fo))) (get_functions r)) ++ ";" ++ nl.

Lemma change_cpp_steps tm name r descr c res : replace_all tm "robot" name = c -> replace_all c functions_point (getters name r descr) = res ->
  change_cpp "robot" name r descr false tm = Ok res.
Proof. intros <- <-. unfold change_cpp. rewrite functions_cpp_ok. reflexivity. Qed.
Lemma change_cpp_py_steps tm name r descr c c1 res : get_functions r <> [] -> replace_all tm "robot" name = c ->
  replace_all c functions_point (getters name r descr) = c1 -> replace_all c1 bindings_point (bindings_of name r descr) = res ->
  change_cpp "robot" name r descr true tm = Ok res.
Proof.
  intros N <- <- <-. unfold change_cpp. rewrite functions_cpp_ok. destruct (pybindings_some name descr _ N) as [b B]. rewrite B. cbn [bind].
  apply pybindings_ok in B. destruct B as [_ ->]. reflexivity.
Qed.
Theorem change_cpp_text name r descr : identifier name ->
  change_cpp "robot" name r descr false template_cpp =
  Ok (includes_text name ++ top_cpp ++ include_point ++ body_of name ++ getters name r descr ++ gap_cpp ++ module_point ++ end_cpp).
Proof.
  intros I. eapply change_cpp_steps; [reflexivity|]. apply source_plain. now apply identifier_slash.
Qed.
Theorem change_cpp_python_text name r descr : identifier name -> get_functions r <> [] -> hasb "#" (getters name r descr) = false ->
  change_cpp "robot" name r descr true (add_bindings template_cpp) =
  Ok (includes_text name ++ top_cpp ++ pybind_includes ++ body_of name ++ getters name r descr ++ gap_cpp ++ module_text name (bindings_of name r descr) ++ end_cpp).
Proof.
  intros I N H. eapply change_cpp_py_steps; [exact N|reflexivity|reflexivity|]. apply source_python; [now apply identifier_slash|exact H|apply getters_end].
Qed.
