(* The state properties on the sample robots. *)
From Coq Require Import Reals Lra Lia Arith List String Bool ZArith.
From Verif.Model Require Import Base Expr SX Robot Yaml Inertia Build.
From Verif.Spec Require Import Math Setup Kinematics Dynamics Regressor Api State Sample.
From Verif.Proofs Require Import Names Maps Load Final Get Sample Api Sample1 State InertiaConv Files AddFun StateSess UserFun.
Import ListNotations.
Open Scope nat_scope.
Open Scope string_scope.

Lemma toy_par_DYN (h : R) : exists name cfg r0 r, session name cfg r0 r r /\ forall v,
  (exists m, set_par_DYN r v = Throw m) \/ (exists r1, set_par_DYN r v = Ok (r1, 0) /\ changes_nothing r r1).
Proof.
  destruct (toy_built h) as [r Hr]. exists "toy", (toy_cfg h), (toy0 h), r.
  pose proof (session_r _ _ _ _ _ (proj1 (toy_session h r 0%R Hr))) as S. split; [exact S|].
  intros v. apply (par_DYN_refused _ _ _ _ _ v S). vm_compute. lia.
Qed.
Lemma toy_setters (h : R) : exists r r1, session "toy" (toy_cfg h) (toy0 h) r r /\
  run [(mkSetter "q" numJoints set_q, [1; 2; 3]%R); (mkSetter "q" numJoints set_q, [7]%R); (mkSetter "x" numElasticJoints set_x, [4]%R)] r = Ok (r1, [1; 0; 1]) /\
  get_arg r1 "q" = [1; 2; 3]%R /\ get_arg r1 "x" = [4]%R.
Proof.
  destruct (toy_built h) as [r Hr]. exists r.
  pose proof (session_r _ _ _ _ _ (proj1 (toy_session h r 0%R Hr))) as S.
  destruct (session_history _ _ _ _ _ [(mkSetter "q" numJoints set_q, [1; 2; 3]%R); (mkSetter "q" numJoints set_q, [7]%R);
      (mkSetter "x" numElasticJoints set_x, [4]%R)] S) as (r1 & E & _ & G).
  - assert (EU : usable (toy0 h) = (state_setters ++ motor_setters)%list) by reflexivity. rewrite EU.
    intros s v [H|[H|[H|[]]]]; apply (f_equal fst) in H; cbn [fst] in H; rewrite <- H; unfold state_setters, motor_setters;
      repeat (first [left; reflexivity | right]).
  - exists r1. split; [exact S|]. split; [exact E|]. split; rewrite G; reflexivity.
Qed.
Lemma toy_desync (h : R) : exists name cfg r0 r v r1, session name cfg r0 r r /\ in_sync r /\
  set_par_DYN r v = Ok (r1, 1) /\ ~ in_sync r1.
Proof.
  destruct (built_file _ _ _ (toy1_loads h) (toy1_wf h)) as [r Hr].
  exists "toy", (resymb 1 (toy_cfg h)), (toy0_flags 1 h), r.
  pose proof (session_r _ _ _ _ _ (toy1_session h r Hr)) as S.
  pose proof (loaded_sync _ _ _ (toy1_loads h)) as L. destruct L as (L1 & L2 & L3).
  destruct (session_dims _ _ _ _ _ S) as (E1 & _). pose proof (built_REG _ _ _ _ _ S) as EG.
  assert (ED : get_arg r "par_DYN" = get_arg (toy0_flags 1 h) "par_DYN").
  { unfold get_arg. rewrite (arg_compact _ _ _ _ _ S "par_DYN" 30) by (vm_compute; tauto). reflexivity. }
  assert (SY : in_sync r) by (unfold in_sync; rewrite E1, EG, ED; auto).
  set (m := link_of (get_arg r "par_REG") 0 0). set (v := repeat (m + 1)%R (10 * numJoints r)).
  destruct (set_sized_ok "par_DYN" (10 * numJoints r) r v) as (r1 & Er & Ev & C1 & C2).
  - apply SY.
  - apply repeat_length.
  - exists v, r1. split; [exact S|]. split; [exact SY|]. split; [exact Er|].
    intros (_ & _ & K). assert (En : numJoints r1 = 3) by (rewrite C1; cbn [numJoints with_args]; rewrite E1; reflexivity).
    specialize (K 0 ltac:(lia)). destruct K as [K _]. rewrite Ev, (C2 "par_REG") in K by discriminate. fold m in K.
    unfold v in K. rewrite E1 in K. unfold link_of in K. change (10 * numJoints (toy0_flags 1 h)) with 30 in K. simpl in K. lra.
Qed.
Lemma get_set r k v : get_arg (fst (set_arg r k v)) k = v.
Proof. unfold get_arg, arg. cbn [fst set_arg with_args args]. apply mget_mset. Qed.
Lemma set_nj r k v : numJoints (fst (set_arg r k v)) = numJoints r.
Proof. reflexivity. Qed.
Lemma toy_files (h : R) : let r := fst (set_arg (toy0 h) "q" [1; 2; 3]%R) in
  exists r3, load_par (toy0 h) (save_par r ["q"; "par_gravity"; "q"]) ["q"] = Ok (r3, 1) /\ get_arg r3 "q" = [1; 2; 3]%R.
Proof.
  intros r. destruct (save_load_some r (toy0 h) ["q"; "par_gravity"; "q"] ["q"]) as (r3 & E & _ & G).
  - discriminate.
  - intros k [<-|[]]; simpl; auto.
  - intros k [<-|[]]. unfold r. rewrite get_set. vm_compute. reflexivity.
  - exists r3. split; [exact E|]. rewrite (G "q"). destruct (in_dec string_dec "q" ["q"]) as [_|N]; [apply get_set|destruct N; simpl; auto].
Qed.
Lemma toy_reg_lost (h : R) : (forall r, List.length (get_arg r "par_REG") = 10 * numJoints r ->
  exists file r1, save_par_REG r = Ok file /\ load_par_REG r file false = Ok r1 /\
    get_arg r1 "par_REG" = repeat 0%R (10 * numJoints r)) /\
  exists r, List.length (get_arg r "par_REG") = 10 * numJoints r /\ 0 < numJoints r /\ get_arg r "par_REG" <> repeat 0%R (10 * numJoints r).
Proof.
  split; [exact reg_file_lost|]. exists (fst (set_arg (toy0 h) "par_REG" (repeat 1%R 30))).
  rewrite get_set, set_nj.
  replace (numJoints (toy0 h)) with 3 by (vm_compute; reflexivity). rewrite repeat_length.
  split; [reflexivity|]. split; [lia|]. intros H. apply (f_equal (fun l => nth 0 l 0%R)) in H. cbn in H. lra.
Qed.
Lemma toy_user_lost (h : R) : exists name cfg r0 r k, session name cfg r0 r r /\
  let e := vat (mdl r k) 0 in
  ok e = true /\ (exists s, el e 0 0 = Var s) /\ add_function r "mine" e [k] true = Throw "casadi: free variables".
Proof.
  destruct (toy_built h) as [r Hr]. exists "toy", (toy_cfg h), (toy0 h), r, "par_gravity".
  pose proof (session_r _ _ _ _ _ (proj1 (toy_session h r 0%R Hr))) as S. split; [exact S|].
  apply (user_function_lost _ _ _ _ _ "par_gravity" 3 "mine" S).
  - vm_compute; tauto.
  - vm_compute; lia.
  - apply identifier_check. reflexivity.
  - discriminate.
  - intros i Hi. assert (E : symbolic (toy0 h) "par_gravity" = 1) by reflexivity. rewrite E in Hi. assert (i = 0) by lia. subst. reflexivity.
Qed.
Lemma toy_user (h : R) : exists r r1 m, session "toy" (toy_cfg h) (toy0 h) r r /\
  add_function r "twice" (vat (mdl r "q") 1) ["q"] true = Ok (r1, 1) /\ get r1 "twice" = Ok m /\ m_val m 0 0 = state r "q" 1.
Proof.
  destruct (toy_built h) as [r Hr]. exists r.
  pose proof (session_r _ _ _ _ _ (proj1 (toy_session h r 0%R Hr))) as S.
  destruct (session_sess _ _ _ _ _ S) as (b & SS & B).
  destruct (mdl_r (toy0 h) r r "q" 3 b B SS) as [R E]; [vm_compute; tauto|].
  change (symbolic (toy0 h) "q") with 3 in R, E.
  assert (V : forall l, l < 3 -> el (mdl r "q") l 0 = Var ("q", l)).
  { intros l Hl. rewrite E by auto. destruct l as [|[|[|l]]]; [reflexivity..|lia]. }
  destruct (user_function _ _ _ _ _ S "twice" (vat (mdl r "q") 1) ["q"] (fun s => state r "q" (snd s))) as (r1 & m & A1 & A2 & _ & _ & A3).
  - apply identifier_check. reflexivity.
  - apply (vat_ok _ _ _ _ _ "q" 3 1 S); vm_compute; [tauto|lia].
  - constructor; [intros []|constructor].
  - intros [H|[]]; discriminate.
  - intros k [<-|[]]. exists 3. left. vm_compute; tauto.
  - intros i j Hi Hj s Ho. cbn [el vat] in Ho. rewrite V in Ho by lia. exists "q", 1. split; [simpl; auto|]. rewrite R. split; [lia|].
    rewrite V by lia. f_equal. cbn [occurs] in Ho. unfold sym_eqb in Ho. apply andb_true_iff in Ho. destruct Ho as [H1 H2].
    apply String.eqb_eq in H1. apply Nat.eqb_eq in H2. destruct s; cbn [fst snd] in *; subst; reflexivity.
  - intros k l [<-|[]] Hl. rewrite R in Hl. rewrite V by exact Hl. reflexivity.
  - exists r1, m. split; [exact S|]. split; [exact A1|]. split; [exact A2|]. rewrite A3 by (cbn [rows cols vat]; lia).
    cbn [el vat]. rewrite V by lia. reflexivity.
Qed.
Lemma toy_lengths (h : R) : List.length (get_arg (toy0 h) "par_DYN") = 10 * numJoints (toy0 h) /\
  List.length (get_arg (toy0 h) "par_REG") = 10 * numJoints (toy0 h) /\ numJoints (toy0 h) = 3 /\
  massive (numJoints (toy0 h)) (get_arg (toy0 h) "par_DYN") /\ massive (numJoints (toy0 h)) (get_arg (toy0 h) "par_REG").
Proof.
  destruct (loaded_sync _ _ _ (toy_loads h)) as (A & B & C). split; [exact A|]. split; [exact B|].
  assert (E : numJoints (toy0 h) = 3) by (vm_compute; reflexivity). split; [exact E|].
  assert (M : massive (numJoints (toy0 h)) (get_arg (toy0 h) "par_DYN")).
  { intros i Hi. rewrite E in Hi. assert (V : forall i, i < 3 -> (0 < link_of (get_arg (toy0 h) "par_DYN") i 0)%R).
    { intros [|[|[|j]]] Hj; [vm_compute; lra..|lia]. }
    specialize (V i Hi). lra. }
  split; [exact M|]. intros i Hi. destruct (C i Hi) as [K _]. rewrite K. apply M, Hi.
Qed.
Lemma toy_kept (h : R) : exists r, session "toy" (toy_cfg h) (toy0 h) r r /\ forall e, add_function r "q" e [] false = Ok (r, 0).
Proof.
  destruct (toy_built h) as [r Hr]. exists r.
  pose proof (session_r _ _ _ _ _ (proj1 (toy_session h r 0%R Hr))) as S. split; [exact S|].
  destruct (session_sess _ _ _ _ _ S) as (b & SS & B).
  destruct (mdl_r (toy0 h) r r "q" 3 b B SS) as [R E]; [vm_compute; tauto|].
  change (symbolic (toy0 h) "q") with 3 in R. intros e. apply add_kept. unfold mcount. unfold mdl, mget in R.
  destruct (mfind "q" (model r)); [reflexivity|discriminate].
Qed.
