(* add_function: what it changes, and what the new function returns. *)
From Coq Require Import Reals List String Arith ZArith Bool Lia.
From Verif.Model Require Import Base Expr SX Robot Yaml Build.
From Verif.Spec Require Import Math Setup State.
From Verif.Proofs Require Import Calc Maps SortedMaps Load State Shape Get.
Import ListNotations.
Open Scope nat_scope.
Open Scope string_scope.

Lemma fold_touch_find {V} (d : V) l m k : mget d k (fold_left (fun m a => mtouch d a m) l m) = mget d k m.
Proof.
  revert m. induction l as [|a l IH]; cbn [fold_left]; intros m; auto. rewrite IH. unfold mget, mtouch.
  destruct (string_dec k a) as [->|N].
  - rewrite mfind_minsert. destruct (mfind a m); auto.
  - now rewrite mfind_minsert_ne.
Qed.

Theorem add_kept r f e fa : mcount f (model r) = true -> add_function r f e fa false = Ok (r, 0).
Proof. intros H. unfold add_function. now rewrite H. Qed.

Lemma fun_inputs_ext r r' fa : (forall k, In k fa -> flags r' k = flags r k /\ mdl r' k = mdl r k) -> fun_inputs r' fa = fun_inputs r fa.
Proof.
  induction fa as [|k fa IH]; intros H; [reflexivity|]. cbn [fun_inputs]. unfold fun_input.
  destruct (H k (or_introl eq_refl)) as [-> ->]. rewrite IH; auto. intros; apply H; simpl; auto.
Qed.
Lemma add_inv r f e fa ow r1 c : add_function r f e fa ow = Ok (r1, c) -> ow = true \/ mcount f (model r) = false ->
  c = 1 /\ ok e = true /\ check_name (robotName r ++ "_" ++ f ++ "_fun") = true /\ exists m2 s2 inputs,
    (forall k, mget empty_sx k m2 = mget empty_sx k (mset f e (model r))) /\ (forall k, mget [] k s2 = mget [] k (symb r)) /\
    fun_inputs (with_symb (with_model r m2) s2) fa = Ok inputs /\
    forallb valid_input inputs = true /\ nodup_syms (flat_map syms_of_input inputs) = true /\
    no_free (flat_map syms_of_input inputs) e = true /\
    r1 = with_funs (with_symb (with_model r m2) s2) (mset f fa (fun_args r))
           (mset f (mkFun (robotName r ++ "_" ++ f ++ "_fun") inputs e) (casadi_fun r)).
Proof.
  unfold add_function. intros H Ho.
  assert (E : negb ow && mcount f (model r) = false) by (destruct Ho as [->| ->]; [reflexivity|apply andb_false_r]).
  rewrite E in H. clear E Ho. destruct (ok e) eqn:Ee; cbn [negb] in H; [|discriminate].
  cbn [touch_args with_funs with_model model symb casadi_fun fun_args] in H.
  set (m2 := fold_left (fun m a => mtouch empty_sx a m) fa (mset f e (model r))) in *.
  set (s2 := fold_left (fun s a => mtouch [] a s) fa (symb r)) in *.
  destruct (fun_inputs (touch_args _ fa) fa) as [inputs| |] eqn:Ei; cbn [bind] in H; try discriminate.
  match type of H with context [check_name ?x] => destruct (check_name x) eqn:Ec end; cbn [negb] in H; [|discriminate].
  destruct (forallb valid_input inputs && nodup_syms (flat_map syms_of_input inputs)) eqn:Ev; cbn [negb] in H; [|discriminate].
  destruct (no_free (flat_map syms_of_input inputs) e) eqn:En; cbn [negb] in H; [|discriminate].
  inversion H; subst r1 c; clear H. apply andb_true_iff in Ev. destruct Ev as [Ev1 Ev2].
  split; [reflexivity|]. split; [reflexivity|]. split; [exact Ec|]. exists m2, s2, inputs.
  split; [intros k; apply fold_touch_find|]. split; [intros k; apply fold_touch_find|].
  split; [|split; [exact Ev1|split; [exact Ev2|split; [exact En|reflexivity]]]].
  rewrite <- Ei. apply fun_inputs_ext. intros k _. split; reflexivity.
Qed.

(* everything but the name f is as before; f is published with the given arguments and expression *)
Theorem add_effect r f e fa ow r1 c : add_function r f e fa ow = Ok (r1, c) -> ow = true \/ mcount f (model r) = false ->
  c = 1 /\
  (args r1 = args r /\ numJoints r1 = numJoints r /\ numElasticJoints r1 = numElasticJoints r /\ jointsType r1 = jointsType r) /\
  (forall nm, nm <> f -> get r1 nm = get r nm /\ mdl r1 nm = mdl r nm) /\
  (forall k, flags r1 k = flags r k) /\ mdl r1 f = e /\
  (forall fo, In fo (get_functions r1) -> fo_name fo = f -> fo_args fo = fa /\ fo_rows fo = rows e /\ fo_cols fo = cols e) /\
  (forall nm, In nm (map fo_name (get_functions r1)) <-> nm = f \/ In nm (map fo_name (get_functions r))).
Proof.
  intros H Ho. destruct (add_inv _ _ _ _ _ _ _ H Ho) as (-> & _ & _ & m2 & s2 & inputs & Hm & Hs & _ & _ & _ & _ & ->).
  clear H Ho. split; [reflexivity|]. split; [auto|].
  assert (Hf : mget empty_sx f m2 = e) by (rewrite Hm; apply mget_mset).
  split; [|split; [|split; [|split]]].
  - intros nm N. split.
    + unfold get. cbn [with_funs fun_args casadi_fun]. rewrite !mfind_mset_ne by auto. reflexivity.
    + unfold mdl. cbn [with_funs with_symb with_model model]. rewrite Hm. apply mget_mset_ne; auto.
  - intros k. unfold flags. cbn [with_funs with_symb symb]. apply Hs.
  - exact Hf.
  - intros fo Hi E. unfold get_functions in Hi. apply in_map_iff in Hi. destruct Hi as ([k v] & <- & _).
    cbn [fst fo_name fo_args fo_rows fo_cols] in *. subst k. unfold mdl. cbn [with_funs with_symb with_model model fun_args].
    rewrite mget_mset, Hf. auto.
  - intros nm. unfold get_functions. rewrite !map_map. cbn [fo_name with_funs casadi_fun]. apply in_mset.
Qed.

(* ---- value of the new function ---- *)
Definition fully (r : robot) (k : string) : Prop :=
  List.length (flags r k) = rows (mdl r k) /\ (forall z, In z (flags r k) -> flag_set z = true).

Lemma closed_occurs l e s : closed_by l e = true -> occurs s e = true -> In s l.
Proof.
  induction e; cbn [closed_by occurs]; intros H Ho; auto; try discriminate;
  try (apply andb_true_iff in H; destruct H; apply orb_true_iff in Ho; destruct Ho; auto).
  apply sym_mem_In in H. unfold sym_eqb in Ho. apply andb_true_iff in Ho. destruct Ho as [A B].
  apply String.eqb_eq in A. apply Nat.eqb_eq in B. destruct s, s0; cbn [fst snd] in *; subst; auto.
Qed.
Lemma fully_input r k x : fully r k -> fun_input r k = Ok x ->
  rows x = rows (mdl r k) /\ forall i, i < rows (mdl r k) -> el x i 0 = el (mdl r k) i 0.
Proof.
  intros [Hl Hz] H. unfold fun_input in H. rewrite select_symb_eq in H by lia. cbn [bind] in H. inversion H; subst x; clear H.
  assert (E : filter (fun j => flag_set (nth j (flags r k) 0%Z)) (seq 0 (rows (mdl r k))) = seq 0 (rows (mdl r k))).
  { rewrite <- Hl. clear -Hz. generalize (flags r k) Hz. clear. intros l Hz.
    assert (G : forall s, (forall j, In j s -> j < List.length l) -> filter (fun j => flag_set (nth j l 0%Z)) s = s).
    { induction s as [|j s IH]; intros H; [reflexivity|]. cbn [filter].
      rewrite Hz by (apply nth_In, H; simpl; auto). f_equal. apply IH. intros; apply H; simpl; auto. }
    apply G. intros j Hj. apply in_seq in Hj. lia. }
  rewrite E. cbn [rows vertcat_list]. rewrite map_length, seq_length. split; [reflexivity|].
  intros i Hi. cbn [el vertcat_list].
  rewrite nth_indep with (d' := vat (mdl r k) 0) by (rewrite map_length, seq_length; auto).
  rewrite map_nth, seq_nth by auto. reflexivity.
Qed.
Lemma env_combine_nth (syms : list sym) : forall (v : list R) i s, NoDup syms -> List.length v = List.length syms ->
  nth_error syms i = Some s -> env_of (combine syms v) s = nth i v 0%R.
Proof.
  induction syms as [|a syms IH]; intros v i s Hn Hl Hi; [destruct i; discriminate|].
  destruct v as [|x v]; [discriminate|]. inversion Hn; subst. cbn [combine env_of].
  destruct i as [|i]; cbn [nth_error] in Hi.
  - inversion Hi; subst. unfold sym_eqb. now rewrite String.eqb_refl, Nat.eqb_refl.
  - destruct (sym_eqb s a) eqn:E.
    + exfalso. apply H1. apply sym_eqb_eq in E. subst. apply nth_error_In in Hi. exact Hi.
    + cbn [nth]. apply IH; auto.
Qed.
Lemma syms_var x : all_syms x = true -> syms_of_input x = map (fun i => match el x i 0 with Var s => s | _ => ("", 0) end) (seq 0 (rows x)).
Proof.
  unfold all_syms, syms_of_input. generalize (seq 0 (rows x)). induction l as [|i l IH]; cbn [forallb flat_map map]; intros H; auto.
  apply andb_true_iff in H. destruct H as [H1 H2]. rewrite IH by auto. destruct (el x i 0); try discriminate. reflexivity.
Qed.
Lemma NoDup_app_l {A} (l1 l2 : list A) : NoDup (l1 ++ l2) -> NoDup l1.
Proof. induction l1; simpl; intros H; [constructor|]. inversion H; subst. constructor; auto. intros X; apply H2, in_app_iff; auto. Qed.
Lemma NoDup_app_r {A} (l1 l2 : list A) : NoDup (l1 ++ l2) -> NoDup l2.
Proof. induction l1; simpl; intros H; auto. inversion H; subst. auto. Qed.
Lemma combine_keys {A B} (l : list A) : forall (v : list B), List.length v = List.length l -> map fst (combine l v) = l.
Proof. induction l; intros [|b v] H; try discriminate; simpl; auto. f_equal. apply IHl. simpl in H; lia. Qed.

Lemma bind_agrees r (rho : sym -> R) : forall fa inputs,
  (forall k, In k fa -> fully r k /\ List.length (arg r k) = rows (mdl r k) /\
     forall i, i < rows (mdl r k) -> eval rho (el (mdl r k) i 0) = nth i (arg r k) 0%R) ->
  fun_inputs r fa = Ok inputs -> forallb valid_input inputs = true -> NoDup (flat_map syms_of_input inputs) ->
  exists b, bind_inputs inputs (map (arg r) fa) = Ok b /\ map fst b = flat_map syms_of_input inputs /\
    forall s, In s (flat_map syms_of_input inputs) -> env_of b s = rho s.
Proof.
  induction fa as [|k fa IH]; intros inputs H Hi Hv Hn; cbn [fun_inputs] in Hi.
  - inversion Hi; subst. exists []. split; [reflexivity|]. split; [reflexivity|]. intros s [].
  - destruct (fun_input r k) as [x| |] eqn:Ex; cbn [bind] in Hi; try discriminate.
    destruct (fun_inputs r fa) as [rest| |] eqn:Er; cbn [bind] in Hi; try discriminate.
    inversion Hi; subst inputs; clear Hi. cbn [forallb] in Hv. apply andb_true_iff in Hv. destruct Hv as [V1 V2].
    cbn [flat_map] in Hn.
    destruct (IH rest) as (b & Eb & Kb & Hb); auto; [intros; apply H; simpl; auto|eapply NoDup_app_r; eauto|].
    destruct (H k (or_introl eq_refl)) as (F & L & Val). destruct (fully_input r k x F Ex) as [Rx Elx].
    cbn [map bind_inputs]. unfold fit_input. rewrite L, Rx, Nat.eqb_refl. cbn [bind]. rewrite Eb. cbn [bind].
    eexists. split; [reflexivity|].
    unfold valid_input in V1. apply andb_true_iff in V1. destruct V1 as [_ V1].
    pose proof (syms_var x V1) as SV.
    assert (SL : List.length (syms_of_input x) = rows (mdl r k)) by (rewrite SV, map_length, seq_length; exact Rx).
    split.
    + rewrite map_app, combine_keys by congruence. rewrite Kb. reflexivity.
    + intros s Hs. rewrite env_of_app, combine_keys by congruence.
      destruct (sym_mem s (syms_of_input x)) eqn:Em.
      * apply sym_mem_In in Em. apply In_nth_error in Em. destruct Em as [i Ei].
        rewrite (env_combine_nth _ _ i s); [|eapply NoDup_app_l; exact Hn|congruence|exact Ei].
        assert (Hi : i < rows (mdl r k)). { rewrite <- SL. apply nth_error_Some. congruence. }
        rewrite <- Val by exact Hi. rewrite <- Elx by exact Hi. rewrite SV in Ei.
        rewrite nth_error_map in Ei. rewrite (nth_error_nth' _ 0) in Ei by (rewrite seq_length, Rx; exact Hi).
        rewrite seq_nth in Ei by (rewrite Rx; exact Hi). cbn [option_map Nat.add] in Ei.
        unfold all_syms in V1. rewrite forallb_forall in V1. specialize (V1 i). 
        assert (Hs' : is_sym (el x i 0) = true) by (apply V1, in_seq; rewrite Rx; lia).
        destruct (el x i 0); try discriminate. inversion Ei; subst. reflexivity.
      * apply Hb. cbn [flat_map] in Hs. apply in_app_iff in Hs. destruct Hs as [Hs|Hs]; auto.
        apply sym_mem_In in Hs. congruence.
Qed.

Theorem add_value r f e fa ow r1 c (rho : sym -> R) :
  add_function r f e fa ow = Ok (r1, c) -> ow = true \/ mcount f (model r) = false -> ~ In f fa ->
  (forall k, In k fa -> fully r k /\ List.length (arg r k) = rows (mdl r k) /\
     forall i, i < rows (mdl r k) -> eval rho (el (mdl r k) i 0) = nth i (arg r k) 0%R) ->
  exists m, get r1 f = Ok m /\ m_rows m = rows e /\ m_cols m = cols e /\
    forall i j, i < rows e -> j < cols e -> m_val m i j = eval rho (el e i j).
Proof.
  intros H Ho Hf Hk. destruct (add_inv _ _ _ _ _ _ _ H Ho) as (-> & _ & _ & m2 & s2 & inputs & Hm & Hs & Ei & Ev & En & Ef & ->).
  rewrite (fun_inputs_ext r) in Ei.
  2:{ intros k Hi. unfold flags, mdl. cbn [symb model with_symb with_model]. rewrite Hs, Hm, mget_mset_ne; auto.
      intros ->; auto. }
  apply nodup_syms_NoDup in En.
  destruct (bind_agrees r rho fa inputs Hk Ei Ev En) as (b & Eb & _ & Hb).
  unfold get. cbn [with_funs fun_args casadi_fun]. rewrite !mfind_mset. unfold call. cbn [f_inputs f_out].
  replace (map (arg _) fa) with (map (arg r) fa) by reflexivity. rewrite Eb. cbn [bind].
  eexists. split; [reflexivity|]. cbn [m_rows m_cols m_val]. split; [reflexivity|]. split; [reflexivity|].
  intros i j Hi Hj. unfold ev. apply eval_ext. intros s Hoc. apply Hb.
  unfold no_free in Ef. rewrite forallb_forall in Ef.
  assert (Ei' : In i (seq 0 (rows e))) by (apply in_seq; lia). specialize (Ef i Ei'). rewrite forallb_forall in Ef.
  eapply closed_occurs; [apply Ef, in_seq; split; [apply Nat.le_0_l|exact Hj]|exact Hoc].
Qed.
