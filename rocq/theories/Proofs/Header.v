(* The source and header of the generated class: which substitutions take place, in which order. *)
From Coq Require Import String Ascii List Bool Arith ZArith Lia.
From Verif.Model Require Import Base Robot Text.
From Verif.Spec Require Import Text.
From Verif.Proofs Require Import Text.
Import ListNotations.
Open Scope nat_scope.
Open Scope string_scope.

Definition getters (cls : string) (r : robot) (descr : string -> string) : string :=
  nl ++ String.concat "" (map (fun fo => getter (robotName r) cls (fo_name fo) (descr (fo_name fo)) (fo_args fo) (fo_rows fo) (fo_cols fo)) (get_functions r)).
Definition declarations (r : robot) (descr : string -> string) : string :=
  nl ++ String.concat "" (map (fun fo => declaration (fo_name fo) (descr (fo_name fo)) (fo_rows fo) (fo_cols fo)) (get_functions r)).

Theorem change_cpp_ok from to r descr content c : from <> "" -> change_cpp from to r descr false content = Ok c ->
  filled [(from, to); ("/*#-FUNCTIONS_CPP-#*/", getters to r descr)] content c.
Proof.
  intros H E. injection E as <-.
  econstructor; [apply (proj2 (replace_all_ok content from to H))|].
  econstructor; [|constructor]. unfold getters. rewrite <- functions_cpp_ok. apply replace_all_ok. discriminate.
Qed.

Lemma replace_first_ok s w t s' : replace_first s w t = Ok s' -> first_replaced w t s s'.
Proof.
  unfold replace_first, find_from. pose proof (index_0 w s) as I.
  destruct (String.index 0 w s) as [p|]; [|discriminate]. intros X; injection X as <-.
  destruct I as (pre & post & -> & <- & M). exists pre, post. split; [auto|]. split; [|auto].
  rewrite substring_pre. rewrite !length_app.
  replace (pre ++ w ++ post) with ((pre ++ w) ++ post) by apply app_assoc_s.
  rewrite (substring_drop' (pre ++ w)) by now rewrite length_app.
  rewrite substring_all' by lia. auto.
Qed.

Lemma more_flags_spec l : forall a acc, (forall z, In z l -> (0 <= z)%Z) ->
  more_flags l (acc ++ a) = acc ++ String.concat ", " (a :: map (fun z => to_string (Z.to_nat z)) l).
Proof.
  induction l as [|b l IH]; intros a acc H; [reflexivity|].
  simpl map. rewrite concat_cons'. cbn [more_flags].
  replace (z_to_string b) with (to_string (Z.to_nat b)) by (specialize (H b (or_introl eq_refl)); destruct b; auto; lia).
  replace ((acc ++ a) ++ ", " ++ to_string (Z.to_nat b)) with ((acc ++ a ++ ", ") ++ to_string (Z.to_nat b)) by (rewrite !app_assoc_s; auto).
  rewrite IH by (intros; apply H; right; auto). rewrite !app_assoc_s. auto.
Qed.
Lemma elastic_string_ok n l s : (forall z, In z l -> (0 <= z)%Z) -> List.length l = n -> elastic_string n l = Ok s -> s = flag_list l.
Proof.
  intros H L. unfold elastic_string. rewrite <- L, firstn_all, Nat.leb_refl. destruct l as [|z l]; [discriminate|].
  intros X. injection X as <-. unfold flag_list. 
  replace (z_to_string z) with (to_string (Z.to_nat z)) by (specialize (H z (or_introl eq_refl)); destruct z; auto; lia).
  match goal with |- more_flags l ?x ++ _ = _ => change x with ("{" ++ to_string (Z.to_nat z)) end.
  rewrite more_flags_spec by (intros; apply H; right; auto). simpl map. rewrite app_assoc_s. auto.
Qed.

Theorem change_h_ok from to r descr content c : from <> "" ->
  (forall z, In z (isElasticJoint r) -> (0 <= z)%Z) -> List.length (isElasticJoint r) = numJoints r ->
  change_h from to r descr content = Ok c ->
  exists c1 c2, first_replaced "THUNDERROBOT" ("THUNDER_" ++ to) content c1 /\ first_replaced "THUNDERROBOT" ("THUNDER_" ++ to) c1 c2 /\
  filled [(from, to); ("/*#-ROBOT_NAME-#*/", robotName r); ("/*#-n_joints-#*/", to_string (numJoints r));
          ("/*#-ELASTIC-#*/", if ELASTIC r then "1" else "0"); ("/*#-numElasticJoints-#*/", to_string (numElasticJoints r));
          ("/*#-K_order-#*/", to_string (K_order r)); ("/*#-D_order-#*/", to_string (D_order r));
          ("/*#-Dl_order-#*/", to_string (Dl_order r)); ("/*#-Dm_order-#*/", to_string (Dm_order r));
          ("/*#-isElasticJoint-#*/", flag_list (isElasticJoint r));
          ("/*#-FUNCTIONS_H-#*/", declarations r descr)] c2 c.
Proof.
  intros N Z L. unfold change_h. destruct (replace_first content _ _) as [c1| |] eqn:E1; cbn [bind]; try discriminate.
  destruct (replace_first c1 _ _) as [c2| |] eqn:E2; cbn [bind]; try discriminate.
  destruct (elastic_string _ _) as [eJ| |] eqn:EJ; cbn [bind]; try discriminate.
  intros X. injection X as <-. exists c1, c2. split; [apply replace_first_ok; auto|]. split; [apply replace_first_ok; auto|].
  apply elastic_string_ok in EJ; auto. subst eJ. unfold declarations. rewrite <- functions_h_ok.
  fold (bool_string (ELASTIC r)).
  repeat (eapply fill_cons; [apply replace_all_ok; first [exact N|discriminate]|]). constructor.
Qed.

(* ---- python bindings ---- *)
Lemma append_binding_spec cls descr acc fo :
  append_binding cls descr acc fo = acc ++ binding cls (fo_name fo) (descr (fo_name fo)) ++ nl.
Proof. unfold append_binding, binding. fold nl. change newline with nl. change tab with tb. change quote with dq. rewrite !app_assoc_s. auto. Qed.
Lemma concat_ended l : l <> [] -> String.concat "" (map (fun s => s ++ nl) l) = String.concat nl l ++ nl.
Proof.
  induction l as [|a l IH]; [congruence|]. intros _. destruct l as [|b l]; [reflexivity|].
  simpl map. rewrite concat_cons'. rewrite (concat_cons' nl). change ("" ++ ?x) with x.
  simpl map in IH. rewrite IH by discriminate. rewrite !app_assoc_s. auto.
Qed.
Theorem pybindings_ok cls descr fs s : pybindings cls descr fs = Ok s ->
  fs <> [] /\ s = String.concat nl (map (fun fo => binding cls (fo_name fo) (descr (fo_name fo))) fs) ++ ";" ++ nl.
Proof.
  unfold pybindings. rewrite (fold_append _ (fun fo => binding cls (fo_name fo) (descr (fo_name fo)) ++ nl)) by (intros; apply append_binding_spec).
  change ("" ++ ?x) with x. destruct fs as [|fo fs]; [discriminate|].
  rewrite <- (map_map (fun fo => binding cls (fo_name fo) (descr (fo_name fo))) (fun s => s ++ nl)).
  rewrite concat_ended by discriminate.
  set (x := String.concat nl _). destruct (String.eqb (x ++ nl) ""); [discriminate|]. intros H. split; [discriminate|].
  injection H as <-. rewrite length_app. change (String.length nl) with 1. rewrite Nat.add_sub. rewrite substring_pre. reflexivity.
Qed.
Theorem pybindings_none cls descr : exists m, pybindings cls descr [] = UB m.
Proof. eexists. reflexivity. Qed.
Lemma pybindings_some cls descr fs : fs <> [] -> exists s, pybindings cls descr fs = Ok s.
Proof.
  intros H. unfold pybindings. destruct fs as [|fo fs]; [congruence|].
  rewrite (fold_append _ (fun fo => binding cls (fo_name fo) (descr (fo_name fo)) ++ nl)) by (intros; apply append_binding_spec).
  rewrite <- (map_map (fun fo => binding cls (fo_name fo) (descr (fo_name fo))) (fun s => s ++ nl)).
  rewrite concat_ended by discriminate. destruct (String.eqb_spec ("" ++ String.concat nl (map (fun fo => binding cls (fo_name fo) (descr (fo_name fo))) (fo :: fs)) ++ nl) ""); [|eauto].
  apply (f_equal String.length) in e. rewrite !length_app in e. simpl in e. lia.
Qed.

Theorem change_cpp_python from to r descr content c : from <> "" -> change_cpp from to r descr true content = Ok c ->
  filled [(from, to); ("/*#-FUNCTIONS_CPP-#*/", getters to r descr);
          ("/*#-GENERATED_PYTHON_BINDINGS-#*/",
             String.concat nl (map (fun fo => binding to (fo_name fo) (descr (fo_name fo))) (get_functions r)) ++ ";" ++ nl)] content c.
Proof.
  intros H. unfold change_cpp. destruct (pybindings _ _ _) as [b| |] eqn:B; cbn [bind]; try discriminate. intros E. injection E as <-.
  apply pybindings_ok in B. destruct B as [_ ->].
  econstructor; [apply (proj2 (replace_all_ok content from to H))|].
  unfold getters. rewrite <- functions_cpp_ok.
  repeat (eapply fill_cons; [apply replace_all_ok; discriminate|]). constructor.
Qed.
