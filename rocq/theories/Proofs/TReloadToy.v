(* Objects of a generated class that load their configuration again. *)
From Coq Require Import Reals List Arith String Bool Lia ZArith Lra.
From Verif.Model Require Import Base Expr SX Robot Kinematics Dynamics Regressors Yaml Inertia Build Template.
From Verif.Spec Require Import Math Setup Kinematics State Config Template TReload Sample.
From Verif.Spec Require Api.
From Verif.Proofs Require Api.
From Verif.Proofs Require Import Calc Rel Maps Pure Names Shape Load Init Final Get StateSess Files TSetters TFiles TSync TFacts TAgree TLoad TGet HeaderToy Sample Sample1 FrictionMain FrictionToy TToy TReload.
Import ListNotations.
Open Scope nat_scope.
Open Scope string_scope.

Lemma reload_meets name cfg r0 r junk h T : robot_from_file name cfg false = Ok r0 -> well_formed r0 -> robot_from_file name cfg true = Ok r ->
  (forall k len, In (k, len) (state_sizes r0) -> List.length (toy_args 0 k) = len) ->
  (forall c, In c h -> known c) -> t_do_all junk h (new_class r0) = Ok T ->
  map (fun p => member T (fst p)) (state_sizes r0) = map (fun p => toy_args 0 (fst p)) (state_sizes r0) ->
  exists r', session name cfg r0 r r' /\ reached r T /\
  (forall k len, In (k, len) (state_sizes r0) -> arg r' k = member T k) /\
  (forall k len, In (k, len) (par_sizes r0) -> arg r' k = arg r k).
Proof.
  intros Hl Hw Hr Hst Hk E M.
  destruct (session_any name cfg r0 r (conf_args r0) Hl Hw Hr) as [S1 A1].
  { intros k len Hi. unfold conf_args. rewrite (state_is _ _ _ Hi). auto. }
  { intros k len Hi. unfold conf_args. rewrite (par_not_state _ _ _ Hi). apply pick_selected. }
  set (r1 := with_args r _) in S1, A1. clearbody r1.
  exists r1. split; [exact S1|]. split.
  { exists junk, h. split; [exact Hk|]. rewrite (new_class_eq _ _ _ _ _ S1). exact E. }
  split.
  - intros k len Hi. pose proof (ext_in_map M (k, len) Hi) as Q. cbn [fst] in Q. rewrite Q.
    rewrite (A1 k len) by (unfold keys; apply in_app_iff; left; exact Hi). unfold conf_args. now rewrite (state_is _ _ _ Hi).
  - intros k len Hi. assert (Hi' : In (k, len) (keys r0)) by (unfold keys; apply in_app_iff; right; exact Hi).
    rewrite (A1 k len Hi'). destruct (session_sess _ _ _ _ _ S1) as (b & _ & Bt). rewrite (bt_arg _ _ _ Bt k len Hi').
    unfold conf_args. now rewrite (par_not_state _ _ _ Hi).
Qed.

(* an object that was configured, given a state, and then given other parameters *)
Definition spoil : list tcall :=
  [CSet (mkTS "par_Mm" (now "par_Mm") t_set_par_Mm) [7%R]; CSet (mkTS "par_Dl" (now "par_Dl") t_set_par_Dl) (repeat 9%R 6);
   CSet (mkTS "par_gravity" (now "par_gravity") t_set_par_gravity) [1; 2; 3]%R; CDYN (repeat 5%R 30) true].
Definition spoil_calls (cfg : ynode) : list tcall := (CLoadConf (Some cfg) true :: map (fun c => CSet (fst c) (snd c)) toy_calls ++ spoil)%list.
Definition spoiled (junk : nat -> R) (cfg : ynode) (r0 : robot) : tobj :=
  match t_do_all junk (spoil_calls cfg) (new_class r0) with Ok t => t | _ => new_class r0 end.
Definition reloaded (junk : nat -> R) (cfg : ynode) (r0 : robot) : tobj :=
  match t_load_conf junk (spoiled junk cfg r0) (Some cfg) true with Ok t => t | _ => new_class r0 end.
Lemma spoil_known cfg c : In c (spoil_calls cfg) -> known c.
Proof.
  intros [<-|H]; [exact I|]. apply in_app_iff in H. destruct H as [H|H].
  - apply in_map_iff in H. destruct H as (x & <- & Hx). cbn. apply state_in, toy_calls_ok, Hx.
  - cbn [spoil In] in H. decompose [or] H; try contradiction; subst c; cbn [known]; try exact I; cbn; tauto.
Qed.

Lemma toy1_given h : let r0 := toy0_flags 1 h in let cfg := resymb 1 (toy_cfg h) in
  links_given (numJoints r0) cfg /\ elastic_given (numElasticJoints r0) cfg.
Proof.
  cbv zeta. change (numJoints (toy0_flags 1 h)) with 3. change (numElasticJoints (toy0_flags 1 h)) with 1.
  assert (D : entry (resymb 1 (toy_cfg h)) "dynamics" = Some (YMap [("link1", toy_link1 1); ("link2", toy_link1 2); ("link3", toy_link1 3)])) by reflexivity.
  split.
  - eexists. split; [exact D|]. cbn. lia.
  - eexists. split; [reflexivity|]. split; [cbn; lia|]. intros k nd Hk. cbn [firstn In] in Hk. destruct Hk as [Hk|[]]. injection Hk as <- <-.
    repeat split; do 2 eexists; (split; [reflexivity|reflexivity]).
Qed.
Lemma toy1_spoiled junk h : t_do_all junk (spoil_calls (resymb 1 (toy_cfg h))) (new_class (toy0_flags 1 h)) = Ok (spoiled junk (resymb 1 (toy_cfg h)) (toy0_flags 1 h)).
Proof. vm_compute. reflexivity. Qed.
Lemma toy1_reloaded junk h : t_load_conf junk (spoiled junk (resymb 1 (toy_cfg h)) (toy0_flags 1 h)) (Some (resymb 1 (toy_cfg h))) true =
  Ok (reloaded junk (resymb 1 (toy_cfg h)) (toy0_flags 1 h)).
Proof. vm_compute. reflexivity. Qed.
Lemma toy1_reloads junk h : exists r r' t t1, let r0 := toy0_flags 1 h in let cfg := resymb 1 (toy_cfg h) in
  session "toy" cfg r0 r r' /\ reached r t /\ complete_links inertial_keys (numJoints r0) cfg /\ links_given (numJoints r0) cfg /\
  elastic_given (numElasticJoints r0) cfg /\ 0 < Dl_order r0 /\ ELASTIC r0 = true /\
  (forall k len, In (k, len) (par_sizes r0) -> ~ In k compacted -> uniform (flags r0 k)) /\
  t_load_conf junk t (Some cfg) true = Ok t1 /\
  (forall k len, In (k, len) (state_sizes r0) -> arg r' k = member t k) /\
  (forall k len, In (k, len) (par_sizes r0) -> arg r' k = arg r k) /\
  (forall k, In k ["par_Mm"; "par_Dl"; "par_gravity"; "par_DYN"] -> member t k <> arg r0 k) /\ Api.published r "M".
Proof.
  destruct (toy1_meets h junk) as (r & _ & _ & _ & _ & U & _). cbv zeta in U.
  destruct (built_file _ _ _ (toy1_loads h) (toy1_wf h)) as [r2 Hr].
  destruct (reload_meets _ _ _ r2 junk _ _ (toy1_loads h) (toy1_wf h) Hr ltac:(lens) (spoil_known _) (toy1_spoiled junk h)) as (r' & A & B & C & D).
  { vm_compute. reflexivity. }
  destruct (toy1_given h) as (G1 & G3).
  exists r2, r', (spoiled junk (resymb 1 (toy_cfg h)) (toy0_flags 1 h)), (reloaded junk (resymb 1 (toy_cfg h)) (toy0_flags 1 h)). cbv zeta.
  split; [exact A|]. split; [exact B|]. split; [apply toy1_complete|]. split; [exact G1|]. split; [exact G3|].
  split; [vm_compute; lia|]. split; [vm_compute; reflexivity|]. split; [exact U|]. split; [apply toy1_reloaded|]. split; [exact C|]. split; [exact D|]. split.
  - intros k Hk Q. apply (f_equal (fun l => nth 0 l 0%R)) in Q. cbn [In] in Hk. decompose [or] Hk; try contradiction; subst k; vm_compute in Q; lra.
  - assert (X : In ("M", (3, 3)) (Api.catalogue (toy0_flags 1 h))) by inkeys.
    apply (proj1 (Api.catalogue_published _ _ _ _ _ A)) in X. destruct X as (fo & Hf & <- & _). unfold Api.published. apply in_map. exact Hf.
Qed.

(* a link that the file does not describe keeps the inertial parameters the object had *)
Lemma two_loads h : robot_from_file "toy" (two_links_cfg h) false = Ok (two_links0 h).
Proof. vm_compute. reflexivity. Qed.
Lemma two_wf h : well_formed (two_links0 h).
Proof.
  constructor.
  - apply identifier_check. reflexivity.
  - vm_compute. repeat constructor.
  - intros t. vm_compute. tauto.
  - intros k len Hk. vm_compute in Hk. decompose [or] Hk; try contradiction;
      match goal with E : _ = _ |- _ => injection E as <- <- end; vm_compute; auto.
Qed.
Lemma two_given h : let r0 := two_links0 h in let cfg := two_links_cfg h in
  complete_links inertial_keys (numJoints r0) cfg /\ elastic_given (numElasticJoints r0) cfg.
Proof.
  cbv zeta. change (numJoints (two_links0 h)) with 3. change (numElasticJoints (two_links0 h)) with 1.
  assert (D : entry (two_links_cfg h) "dynamics" = Some (YMap [("link1", toy_link1 1); ("link2", toy_link1 2)])) by reflexivity.
  split.
  - intros dyn E k nd Hk. rewrite D in E. injection E as <-. cbn [ychildren firstn In] in Hk.
    assert (L : forall m, complete_link inertial_keys (toy_link1 m)).
    { intros m. split.
      - eexists. split; [reflexivity|]. intros k' Hk'. unfold number_at. cbn [inertial_keys In] in Hk'.
        decompose [or] Hk'; try contradiction; subst k'; do 2 eexists; (split; [reflexivity|reflexivity]).
      - right. do 3 eexists. split; [reflexivity|]. split; reflexivity. }
    destruct Hk as [Hk|[Hk|[]]]; injection Hk as <- <-; apply L.
  - eexists. split; [reflexivity|]. split; [cbn; lia|]. intros k nd Hk. cbn [firstn In] in Hk. destruct Hk as [Hk|[]]. injection Hk as <- <-.
    repeat split; do 2 eexists; (split; [reflexivity|reflexivity]).
Qed.
Lemma two_spoiled junk h : t_do_all junk (spoil_calls (two_links_cfg h)) (new_class (two_links0 h)) = Ok (spoiled junk (two_links_cfg h) (two_links0 h)).
Proof. vm_compute. reflexivity. Qed.
Lemma two_reloaded junk h : t_load_conf junk (spoiled junk (two_links_cfg h) (two_links0 h)) (Some (two_links_cfg h)) true = Ok (reloaded junk (two_links_cfg h) (two_links0 h)).
Proof. vm_compute. reflexivity. Qed.
Lemma two_keeps junk h : exists r r' t t1, let r0 := two_links0 h in let cfg := two_links_cfg h in
  session "toy" cfg r0 r r' /\ reached r t /\ complete_links inertial_keys (numJoints r0) cfg /\
  elastic_given (numElasticJoints r0) cfg /\ t_load_conf junk t (Some cfg) true = Ok t1 /\
  nth 20 (arg r0 "par_DYN") 1%R = 0%R /\ nth 20 (member t1 "par_DYN") 1%R = 5%R.
Proof.
  destruct (built_file _ _ _ (two_loads h) (two_wf h)) as [r Hr].
  destruct (reload_meets _ _ _ r junk _ _ (two_loads h) (two_wf h) Hr ltac:(lens) (spoil_known _) (two_spoiled junk h)) as (r' & A & B & _ & _).
  { vm_compute. reflexivity. }
  destruct (two_given h) as (G1 & G3).
  exists r, r', (spoiled junk (two_links_cfg h) (two_links0 h)), (reloaded junk (two_links_cfg h) (two_links0 h)). cbv zeta.
  split; [exact A|]. split; [exact B|]. split; [exact G1|]. split; [exact G3|]. split; [apply two_reloaded|].
  split; vm_compute; reflexivity.
Qed.

(* the flags of a file loaded before are kept where the own file has none, and may be too few *)
Lemma silent_loads h : robot_from_file "toy" (silent_cfg h) false = Ok (silent0 h).
Proof. vm_compute. reflexivity. Qed.
Lemma silent_wf h : well_formed (silent0 h).
Proof.
  constructor.
  - apply identifier_check. reflexivity.
  - vm_compute. repeat constructor.
  - intros t. vm_compute. tauto.
  - intros k len Hk. vm_compute in Hk. decompose [or] Hk; try contradiction;
      match goal with E : _ = _ |- _ => injection E as <- <- end; vm_compute; auto.
Qed.
Lemma silent_complete h : complete_links inertial_keys (numJoints (silent0 h)) (silent_cfg h).
Proof.
  intros dyn E k nd Hk. refine (toy_complete h dyn _ k nd _); [|exact Hk]. rewrite <- E. reflexivity.
Qed.
Definition confused (junk : nat -> R) (h : R) : tobj :=
  match t_load_conf junk (new_class (silent0 h)) (Some other_cfg) true with Ok t => t | _ => new_class (silent0 h) end.
Lemma confused_eq junk h : t_do_all junk [CLoadConf (Some other_cfg) true] (new_class (silent0 h)) = Ok (confused junk h).
Proof. vm_compute. reflexivity. Qed.
Lemma confused_crash junk h : exists m, t_load_conf junk (confused junk h) (Some (silent_cfg h)) true = UB m.
Proof. eexists. vm_compute. reflexivity. Qed.
Lemma silent_crashes junk h : exists r t m, let r0 := silent0 h in let cfg := silent_cfg h in
  robot_from_file "toy" cfg false = Ok r0 /\ well_formed r0 /\ robot_from_file "toy" cfg true = Ok r /\ reached r t /\
  complete_links inertial_keys (numJoints r0) cfg /\ t_load_conf junk t (Some cfg) true = UB m.
Proof.
  destruct (built_file _ _ _ (silent_loads h) (silent_wf h)) as [r Hr].
  destruct (session_any "toy" (silent_cfg h) (silent0 h) r (conf_args (silent0 h)) (silent_loads h) (silent_wf h) Hr) as [S _].
  { intros k len Hi. unfold conf_args. rewrite (state_is _ _ _ Hi). revert k len Hi. lens. }
  { intros k len Hi. unfold conf_args. rewrite (par_not_state _ _ _ Hi). apply pick_selected. }
  destruct (confused_crash junk h) as [m Hm]. exists r, (confused junk h), m. cbv zeta.
  split; [apply silent_loads|]. split; [apply silent_wf|]. split; [exact Hr|]. split.
  { exists junk, [CLoadConf (Some other_cfg) true]. split; [intros c [<-|[]]; exact I|]. rewrite (new_class_eq _ _ _ _ _ S). apply confused_eq. }
  split; [apply silent_complete|exact Hm].
Qed.
Lemma toy1_flags h : flags_given (resymb 1 (toy_cfg h)).
Proof.
  split.
  - intros sec Hs. cbn [In] in Hs. decompose [or] Hs; try contradiction; subst sec; eexists; reflexivity.
  - right. eexists. reflexivity.
Qed.
