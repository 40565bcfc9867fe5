(* User functions added to a robot built from a configuration. *)
From Coq Require Import Reals List String Arith ZArith Bool Lia Lra.
From Verif.Model Require Import Base Expr SX Robot Yaml Inertia Build.
From Verif.Spec Require Import Math Setup Kinematics Dynamics Api State.
From Verif.Proofs Require Import Maps Pure Names Shape BuildReg Load Init Final Get Api State AddFun StateSess.
Import ListNotations.
Open Scope nat_scope.
Open Scope string_scope.

(* arguments all of whose elements are symbolic *)
Definition free_arg (r0 : robot) (k : string) : Prop :=
  exists len, In (k, len) (state_sizes r0) \/ In (k, len) (par_sizes r0) /\ selected (flags r0 k) = len.

Lemma selected_le fl : selected fl <= List.length fl.
Proof. unfold selected. induction fl; cbn [filter List.length]; auto. destruct (flag_set a); cbn [List.length]; lia. Qed.
Lemma selected_all fl : selected fl = List.length fl -> forall z, In z fl -> flag_set z = true.
Proof.
  induction fl as [|a fl IH]; intros H z Hz; [destruct Hz|]. pose proof (selected_le fl) as L.
  assert (E : selected (a :: fl) = (if flag_set a then 1 else 0) + selected fl).
  { unfold selected. cbn [filter]. destruct (flag_set a); reflexivity. }
  rewrite E in H. cbn [List.length] in H. destruct (flag_set a) eqn:Ea; [|lia].
  destruct Hz as [<-|Hz]; [exact Ea|apply IH; [lia|exact Hz]].
Qed.
Lemma fidx_seq fl : (forall z, In z fl -> flag_set z = true) -> fidx fl = seq 0 (List.length fl).
Proof.
  induction fl as [|a fl IH]; intros H; [reflexivity|]. rewrite fidx_cons, IH by (intros; apply H; simpl; auto).
  rewrite H by (simpl; auto). cbn [List.length seq app]. f_equal. now rewrite seq_shift.
Qed.

Section U.
  Variables (name : string) (cfg : ynode) (r0 r r' : robot).
  Hypothesis Hs : session name cfg r0 r r'.

  Lemma free_shape k : free_arg r0 k -> exists len, In k arg_keys /\ pshape (cvof r0) r' k len /\
    (forall z, In z (flags r0 k) -> flag_set z = true) /\ List.length (arg r' k) = len.
  Proof.
    destruct (session_sess _ _ _ _ _ Hs) as (b & S & B). intros [len H]. exists len.
    assert (Hk : In (k, len) (keys r0)) by (apply (keys_sizes r0); apply in_app_iff; tauto).
    pose proof (flags0_len _ _ _ S k len Hk) as FL.
    assert (HZ : forall z, In z (flags r0 k) -> flag_set z = true).
    { destruct H as [H|[H H1]].
      - unfold flags, mget. rewrite (ld_state _ (ss_load _ _ _ S) k len H). intros z Hz. apply repeat_spec in Hz. now subst.
      - apply selected_all. congruence. }
    assert (SY : symbolic r0 k = len) by (unfold symbolic; rewrite <- fidx_selected, fidx_seq, seq_length; auto).
    split; [eapply keys_arg; eauto|]. split; [|split; [exact HZ|]].
    2:{ rewrite (ss_len _ _ _ S k len Hk), fidx_seq, seq_length; auto. }
    destruct (mdl_r r0 r r' k len b B S Hk) as [R E].
    pose proof (bt_mdl _ _ _ B k len Hk) as MD.
    pose proof (se_args _ _ _ _ _ Hs) as EA. destruct (session_dims _ _ _ _ _ Hs) as (_ & _ & _ & FR).
    assert (MM : mdl r' k = mdl r k) by (rewrite EA; reflexivity).
    assert (FF : flags r' k = flags r0 k) by (rewrite EA; apply FR).
    assert (Hkb : In (k, len) (keys b)) by (rewrite (keys_b _ _ _ S); exact Hk).
    pose proof (bs_shape _ _ (bt_base _ _ _ B) k len Hkb) as P.
    constructor; rewrite ?MM, ?FF; auto.
    - unfold mcount. assert (C : cols (mdl r' k) = 1) by (rewrite MM, MD; reflexivity).
      unfold mdl, mget in C. destruct (mfind k (model r')); [reflexivity|discriminate].
    - replace (symb r') with (symb r0). { apply (ld_sc _ (ss_load _ _ _ S) k len Hk). }
      rewrite EA, (bt_r _ _ _ B). cbn [symb with_args with_model]. rewrite (sr_symb _ _ (pubs_rest b (L_all b))).
      rewrite (bt_b _ _ _ B). reflexivity.
    - now rewrite R.
    - rewrite MD. reflexivity.
    - rewrite MD. cbn [ok cmodel]. apply (ps_ok _ _ _ _ P).
    - intros i Hi. rewrite E by (rewrite SY; exact Hi). rewrite HZ by (apply nth_In; lia). f_equal.
      rewrite fidx_seq by exact HZ. rewrite seq_nth by lia. reflexivity.
  Qed.

  Lemma user_name nm : identifier nm -> check_name (robotName r' ++ "_" ++ nm ++ "_fun") = true.
  Proof.
    intros Hn. destruct (session_sess _ _ _ _ _ Hs) as (b & S & B).
    assert (E : robotName r' = robotName b).
    { rewrite (se_args _ _ _ _ _ Hs), (bt_r _ _ _ B). cbn [robotName with_args with_model]. apply (sr_name _ _ (pubs_rest b (L_all b))). }
    rewrite E. destruct (identifier_solid _ (bs_name _ _ (bt_base _ _ _ B))). destruct (identifier_solid _ Hn). now apply fun_name_ok.
  Qed.
  Theorem user_function nm e fa (rho : sym -> R) : identifier nm ->
    ok e = true -> NoDup fa -> ~ In nm fa -> (forall k, In k fa -> free_arg r0 k) ->
    (forall i j, i < rows e -> j < cols e -> forall s, occurs s (el e i j) = true ->
       exists k l, In k fa /\ l < rows (mdl r' k) /\ el (mdl r' k) l 0 = Var s) ->
    (forall k l, In k fa -> l < rows (mdl r' k) -> eval rho (el (mdl r' k) l 0) = state r' k l) ->
    exists r1 m, add_function r' nm e fa true = Ok (r1, 1) /\ get r1 nm = Ok m /\ m_rows m = rows e /\ m_cols m = cols e /\
      forall i j, i < rows e -> j < cols e -> m_val m i j = eval rho (el e i j).
  Proof.
    intros Hid He Hn Hnm Hfa Hoc Hrho.
    assert (SH : forall k, In k fa -> exists len, In k arg_keys /\ pshape (cvof r0) r' k len).
    { intros k Hk. destruct (free_shape k (Hfa k Hk)) as (len & A & P & _). eauto. }
    assert (EI : exists r1, add_function r' nm e fa true = Ok (r1, 1)).
    { unfold add_function. cbn [negb andb]. rewrite He. cbn [negb].
      rewrite (fun_inputs_ext r').
      2:{ intros k Hk. unfold flags, mdl. cbn [touch_args with_funs with_model with_symb symb model]. rewrite !fold_touch_find.
          rewrite mget_mset_ne; auto. intros ->; contradiction. }
      rewrite (fun_inputs_eq (cvof r0)) by (intros k Hk; destruct (SH k Hk) as (len & _ & P); eauto).
      cbn [bind]. change (robotName (touch_args _ fa)) with (robotName r'). rewrite (user_name nm Hid). cbn [negb].
      rewrite (inputs_check (cvof r0)) by auto. cbn [negb].
      rewrite no_free_within.
      - cbn [negb]. eauto.
      - intros i j Hi Hj s Ho. destruct (Hoc i j Hi Hj s Ho) as (k & l & Hk & Hl & El).
        rewrite (inputs_syms (cvof r0)) by auto. apply in_flat_map. exists k. split; auto.
        destruct (free_shape k (Hfa k Hk)) as (len & _ & P & HZ & _).
        rewrite (ps_el _ _ _ _ P) in El by (rewrite <- (ps_r _ _ _ _ P); exact Hl).
        unfold isyms. apply in_map_iff. exists l.
        assert (FF : flags r' k = flags r0 k).
        { destruct (session_dims _ _ _ _ _ Hs) as (_ & _ & _ & FR). rewrite (se_args _ _ _ _ _ Hs). apply FR. }
        rewrite FF in El |- *. rewrite HZ in El by (apply nth_In; rewrite <- FF, (ps_fl _ _ _ _ P), <- (ps_r _ _ _ _ P); exact Hl).
        split; [now inversion El|]. rewrite fidx_seq by exact HZ. apply in_seq.
        rewrite <- FF, (ps_fl _ _ _ _ P), <- (ps_r _ _ _ _ P). split; [apply Nat.le_0_l|exact Hl]. }
    destruct EI as [r1 E1]. exists r1.
    destruct (add_value r' nm e fa true r1 1 rho E1 (or_introl eq_refl) Hnm) as (m & A & B & C & D).
    - intros k Hk. destruct (free_shape k (Hfa k Hk)) as (len & _ & P & HZ & HL).
      assert (FF : flags r' k = flags r0 k).
      { destruct (session_dims _ _ _ _ _ Hs) as (_ & _ & _ & FR). rewrite (se_args _ _ _ _ _ Hs). apply FR. }
      split; [|split].
      + split; [rewrite (ps_fl _ _ _ _ P), (ps_r _ _ _ _ P); reflexivity|]. rewrite FF. exact HZ.
      + rewrite HL, (ps_r _ _ _ _ P). reflexivity.
      + intros i Hi. apply Hrho; auto.
    - exists m. auto.
  Qed.
End U.

Lemma vat_ok name cfg r0 r r' k len i : session name cfg r0 r r' -> In (k, len) (keys r0) -> i < symbolic r0 k -> ok (vat (mdl r' k) i) = true.
Proof.
  intros Hs Hk' Hp. destruct (session_sess _ _ _ _ _ Hs) as (b & S & B).
  destruct (mdl_r r0 r r' k len b B S Hk') as [R E].
  pose proof (bt_mdl _ _ _ B k len Hk') as MD. pose proof (se_args _ _ _ _ _ Hs) as EA.
  assert (MM : mdl r' k = mdl r k) by (rewrite EA; reflexivity).
  assert (Hkb : In (k, len) (keys b)) by (rewrite (keys_b _ _ _ S); exact Hk').
  pose proof (bs_shape _ _ (bt_base _ _ _ B) k len Hkb) as P.
  rewrite MM. unfold vat. cbn [ok]. rewrite R. apply Nat.ltb_lt in Hp. rewrite Hp, MD. cbn [ok cmodel cols].
  now rewrite (ps_ok _ _ _ _ P).
Qed.

(* After construction the vectors are compacted but the selection flags are not: an argument whose first elements
   were numeric is offered to the new function without its symbols. *)
Theorem user_function_lost name cfg r0 r r' k len nm : session name cfg r0 r r' -> In (k, len) (par_sizes r0) ->
  0 < symbolic r0 k -> identifier nm -> nm <> k -> (forall i, i < symbolic r0 k -> flag_set (nth i (flags r0 k) 0%Z) = false) ->
  let e := vat (mdl r' k) 0 in
  ok e = true /\ (exists s, el e 0 0 = Var s) /\ add_function r' nm e [k] true = Throw "casadi: free variables".
Proof.
  intros Hs Hk Hp Hid Hn Hf e. destruct (session_sess _ _ _ _ _ Hs) as (b & S & B).
  assert (Hk' : In (k, len) (keys r0)) by (apply (keys_sizes r0); apply in_app_iff; auto).
  destruct (mdl_r r0 r r' k len b B S Hk') as [R E].
  pose proof (bt_mdl _ _ _ B k len Hk') as MD.
  pose proof (se_args _ _ _ _ _ Hs) as EA. destruct (session_dims _ _ _ _ _ Hs) as (_ & _ & _ & FR).
  assert (MM : mdl r' k = mdl r k) by (rewrite EA; reflexivity).
  assert (FF : flags r' k = flags r0 k) by (rewrite EA; apply FR).
  assert (Hkb : In (k, len) (keys b)) by (rewrite (keys_b _ _ _ S); exact Hk').
  pose proof (bs_shape _ _ (bt_base _ _ _ B) k len Hkb) as P.
  assert (Oe : ok e = true) by (exact (vat_ok _ _ _ _ _ k len 0 Hs Hk' Hp)).
  assert (Ve : el e 0 0 = Var (symname k, nth 0 (fidx (flags r0 k)) 0)).
  { unfold e. rewrite MM. cbn [el vat]. apply E. exact Hp. }
  split; [exact Oe|]. split; [eauto|].
  unfold add_function. cbn [negb andb]. rewrite Oe. cbn [negb]. rewrite (fun_inputs_ext r').
  2:{ intros k' [<-|[]]. unfold flags, mdl. cbn [touch_args with_funs with_model with_symb symb model]. rewrite !fold_touch_find.
      rewrite mget_mset_ne; auto. }
  cbn [fun_inputs]. unfold fun_input. rewrite MM, R, FF.
  assert (LE : symbolic r0 k <= List.length (flags r0 k)) by apply selected_le.
  rewrite select_symb_eq by exact LE. cbn [bind].
  assert (EM : filter (fun j => flag_set (nth j (flags r0 k) 0%Z)) (seq 0 (symbolic r0 k)) = []).
  { assert (G : forall s, (forall j, In j s -> j < symbolic r0 k) -> filter (fun j => flag_set (nth j (flags r0 k) 0%Z)) s = []).
    { induction s as [|j s IH]; intros H; [reflexivity|]. cbn [filter]. rewrite Hf by (apply H; simpl; auto). apply IH. intros; apply H; simpl; auto. }
    apply G. intros j Hj. apply in_seq in Hj. lia. }
  change (robotName (touch_args _ [k])) with (robotName r'). rewrite (user_name _ _ _ _ _ Hs nm Hid). cbn [negb].
  rewrite EM. cbn [map]. cbn [forallb flat_map].
  replace (valid_input (vertcat_list []) && true && nodup_syms (syms_of_input (vertcat_list []) ++ [])) with true by reflexivity.
  cbn [negb]. replace (no_free _ e) with false; [reflexivity|].
  unfold no_free. replace (rows e) with 1 by reflexivity. replace (cols e) with 1 by reflexivity. cbn [seq forallb]. rewrite Ve. reflexivity.
Qed.
