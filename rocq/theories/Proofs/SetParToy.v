(* Cases in which the conditions of the theorems of SetPar.v hold. *)
From Coq Require Import Reals List Arith String Bool Lia ZArith Lra.
From Verif.Model Require Import Base Expr SX Robot Kinematics Dynamics Regressors Yaml Inertia Build Template.
From Verif.Spec Require Import Math Setup Kinematics State Config Template Sample Shipped.
From Verif.Spec Require Api.
From Verif.Proofs Require Import Calc Rel Maps Pure Names Shape Load Init Final Get StateSess TSetters TAgree TLoad Sample TGet TToy Shipped SetPar.
From Verif.Proofs Require Api.
Import ListNotations.
Open Scope nat_scope.
Open Scope string_scope.

Lemma set_meets junk name cfg r0 r k len v : session name cfg r0 r r -> complete_links inertial_keys (numJoints r0) cfg ->
  In (k, len) (par_sizes r0) -> (exists s, In s par_tsetters /\ ts_mem s = k) -> List.length v = selected (flags r0 k) ->
  exists r' t s, session name cfg r0 r r' /\ t_load_conf junk (new_class r) (Some cfg) true = Ok t /\ In s par_tsetters /\ ts_mem s = k /\
  (forall k' len, In (k', len) (state_sizes r0) -> member (ts_call s v t) k' = arg r' k') /\ arg r' k = v /\
  (forall k' len, In (k', len) (par_sizes r0) -> k' <> k -> arg r' k' = arg r k').
Proof.
  intros S Hc Hk (s & Hin & Es) Hv.
  destruct (load_conf_agrees junk name cfg r0 true (se_load _ _ _ _ _ S) (se_wf _ _ _ _ _ S) Hc) as (t & E & Hs & Hcl & Hp & Hq).
  pose proof (se_load _ _ _ _ _ S) as L. pose proof (se_wf _ _ _ _ _ S) as W. pose proof (se_build _ _ _ _ _ S) as B.
  set (A := fun k' => if is_state r0 k' then member t k' else if String.eqb k' k then v else arg r k').
  destruct (session_any name cfg r0 r A L W B) as [S1 A1].
  { intros k' l Hl. unfold A. rewrite (state_is _ _ _ Hl). destruct (in_members r0 k' l) as [l' Hl'].
    { unfold keys. apply in_app_iff. left. exact Hl. }
    assert (Hl2 : In (k', l') (member_sizes (t_n t) (t_e t) (t_K t) (t_D t) (t_Dl t) (t_Dm t))).
    { destruct Hcl as [Q1 Q2]. injection Q1 as _ -> -> _. injection Q2 as -> -> -> ->. exact Hl'. }
    destruct (Hs k' l' Hl2) as [_ Q]. rewrite Q.
    - assert (X : List.length (arg r k') = l) by (apply (se_state _ _ _ _ _ S k' l Hl)).
      clear - Hl Hl'. unfold state_sizes in Hl. cbv zeta in Hl. unfold member_sizes in Hl'.
      rewrite !in_app_iff in Hl. cbn [In] in Hl, Hl'. destruct (ELASTIC r0); cbn [In] in Hl;
      decompose [or] Hl; try contradiction; match goal with X : _ = (k', l) |- _ => injection X as <- <- end;
      decompose [or] Hl'; try contradiction; match goal with X : _ = (_, l') |- _ => first [discriminate X|injection X as <-; reflexivity] end.
    - intros Hn. pose proof (state_is _ _ _ Hl) as Q2.
      assert (P : In (k', if String.eqb k' "par_DHtable" then 4 * numJoints r0 else if String.eqb k' "par_gravity" then 3 else 6) (par_sizes r0)).
      { unfold par_sizes. cbv zeta. apply in_app_iff. left. unfold compacted in Hn. cbn [In] in Hn. decompose [or] Hn; try contradiction; subst k'; cbn; tauto. }
      rewrite (par_not_state _ _ _ P) in Q2. discriminate. }
  { intros k' l Hl. unfold A. rewrite (par_not_state _ _ _ Hl). destruct (String.eqb_spec k' k) as [->|N]; [exact Hv|].
    apply (se_par _ _ _ _ _ S k' l Hl). }
  set (r1 := with_args r _) in S1, A1. clearbody r1. exists r1, t, s. rewrite (new_class_eq _ _ _ _ _ S).
  split; [exact S1|]. split; [exact E|]. split; [exact Hin|]. split; [exact Es|]. split; [|split].
  - intros k' l Hl. rewrite (A1 k' l) by (unfold keys; apply in_app_iff; left; exact Hl). unfold A. rewrite (state_is _ _ _ Hl).
    rewrite tsetter_store by (now apply par_in). unfold tstore. destruct Nat.eqb; [|reflexivity]. apply member_tput_ne.
    rewrite Es. intros ->. pose proof (par_not_state _ _ _ Hk) as Q. rewrite (state_is _ _ _ Hl) in Q. discriminate.
  - rewrite (A1 k len) by (unfold keys; apply in_app_iff; right; exact Hk). unfold A. rewrite (par_not_state _ _ _ Hk), String.eqb_refl. reflexivity.
  - intros k' l Hl N. rewrite (A1 k' l) by (unfold keys; apply in_app_iff; right; exact Hl). unfold A. rewrite (par_not_state _ _ _ Hl).
    destruct (String.eqb_spec k' k); [contradiction|reflexivity].
Qed.
Lemma ego_meets junk : exists cfg r0 r r' t s, In ("egoRightArm", cfg) (shipped (PI / 2)) /\ session "egoRightArm" cfg r0 r r' /\
  complete_links inertial_keys (numJoints r0) cfg /\
  (forall k len, In (k, len) (par_sizes r0) -> ~ In k compacted -> uniform (flags r0 k)) /\
  t_load_conf junk (new_class r) (Some cfg) true = Ok t /\ In s par_tsetters /\ ts_mem s = "par_Ln2EE" /\
  In ("par_Ln2EE", 6) (par_sizes r0) /\ selected (flags r0 "par_Ln2EE") = 3 /\
  (forall k' len, In (k', len) (state_sizes r0) -> member (ts_call s [1; 2; 3]%R t) k' = arg r' k') /\ arg r' "par_Ln2EE" = [1; 2; 3]%R /\
  (forall k' len, In (k', len) (par_sizes r0) -> k' <> "par_Ln2EE" -> arg r' k' = arg r k').
Proof.
  assert (H : In ("egoRightArm", cfg_egoRightArm (PI / 2)) (shipped (PI / 2))) by (unfold shipped; cbn [In]; tauto).
  assert (N : ~ In "egoRightArm" outdated) by (cbn; intros [E|[E|[]]]; discriminate).
  destruct (shipped_session _ _ _ H N) as (r0 & r & S). pose proof (se_load _ _ _ _ _ S) as L.
  destruct (shipped_meets _ _ _ _ _ _ H S) as (_ & _ & C & U & _).
  assert (F : selected (flags r0 "par_Ln2EE") = 3).
  { assert (K : match robot_from_file "egoRightArm" (cfg_egoRightArm (PI / 2)) false with Ok r => selected (flags r "par_Ln2EE") = 3 | _ => True end) by (vm_compute; reflexivity).
    rewrite L in K. exact K. }
  assert (P : In ("par_Ln2EE", 6) (par_sizes r0)) by (unfold par_sizes; cbv zeta; apply in_app_iff; left; cbn [In]; tauto).
  clear N L. revert H S C U. generalize (cfg_egoRightArm (PI / 2)). intros cfg H S C U.
  destruct (set_meets junk "egoRightArm" cfg r0 r "par_Ln2EE" 6 [1; 2; 3]%R S C P) as (r' & t & s & Q).
  { exists (mkTS "par_Ln2EE" (now "par_Ln2EE") t_set_par_Ln2EE). split; [cbn [par_tsetters In]; tauto|reflexivity]. } { now rewrite F. }
  exists cfg, r0, r, r', t, s. tauto.
Qed.
