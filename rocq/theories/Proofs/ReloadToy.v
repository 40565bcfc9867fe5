(* Reloading, on the sample configurations. *)
From Coq Require Import Reals Lra Lia Arith List String Bool ZArith.
From Verif.Model Require Import Base Expr SX Robot Yaml Build.
From Verif.Spec Require Import Math Setup Api State Sample Reload.
From Verif.Proofs Require Import Maps Pure Names Load Final Get Sample Api Sample1 State Files StateSess StateToy Reload.
Import ListNotations.
Open Scope nat_scope.
Open Scope string_scope.

(* a session stays one when a vector is replaced by one of the same length *)
Lemma session_set name cfg r0 r r' k v : session name cfg r0 r r' -> List.length v = List.length (arg r' k) ->
  session name cfg r0 r (fst (set_arg r' k v)).
Proof.
  intros [L W B A St P] E.
  assert (X : forall k', List.length (arg (fst (set_arg r' k v)) k') = List.length (arg r' k')).
  { intros k'. destruct (string_dec k' k) as [->|N].
    - change (arg (fst (set_arg r' k v)) k) with (get_arg (fst (set_arg r' k v)) k). now rewrite get_set.
    - unfold arg. cbn [fst set_arg with_args args]. rewrite mget_mset_ne by congruence. reflexivity. }
  constructor; auto.
  - rewrite A. reflexivity.
  - intros k' len Hk. rewrite X. auto.
  - intros k' len Hk. rewrite X. eauto.
Qed.

Lemma toy1_whole h : whole (toy0_flags 1 h).
Proof.
  intros k len Hk _. vm_compute in Hk. decompose [or] Hk; try contradiction;
  match goal with E : _ = _ |- _ => injection E as <- <- end; vm_compute; reflexivity.
Qed.
Lemma toy1_reload h : exists r r', session "toy" (resymb 1 (toy_cfg h)) (toy0_flags 1 h) r r' /\ whole (toy0_flags 1 h) /\
  List.length (get_arg r' "par_REG") = 10 * numJoints (toy0_flags 1 h) /\
  (forall k, ~ In k (file_parameters (toy0_flags 1 h)) -> get_arg r' k = get_arg r k) /\
  get_arg r' "par_DYN" <> get_arg r "par_DYN" /\ file_parameters (toy0_flags 1 h) = ["par_DYN"; "par_REG"; "par_Dl"; "par_K"; "par_D"; "par_Dm"; "par_Mm"].
Proof.
  destruct (built_file _ _ _ (toy1_loads h) (toy1_wf h)) as [r Hr].
  pose proof (toy1_session h r Hr) as S.
  assert (LD : List.length (arg r "par_DYN") = 30).
  { rewrite (se_par _ _ _ _ _ S "par_DYN" 30) by (vm_compute; tauto). vm_compute. reflexivity. }
  pose proof (loaded_sync _ _ _ (toy1_loads h)) as (_ & L2 & _).
  pose proof (built_REG _ _ _ _ _ S) as EG.
  assert (EF : file_parameters (toy0_flags 1 h) = ["par_DYN"; "par_REG"; "par_Dl"; "par_K"; "par_D"; "par_Dm"; "par_Mm"]) by (vm_compute; reflexivity).
  set (v := repeat (nth 0 (arg r "par_DYN") 0 + 1)%R 30).
  exists r, (fst (set_arg r "par_DYN" v)).
  split; [apply session_set; [exact S|]; unfold v; rewrite LD; apply repeat_length|].
  split; [apply toy1_whole|].
  split; [unfold get_arg, arg; cbn [fst set_arg with_args args]; rewrite mget_mset_ne by discriminate; fold (arg r "par_REG"); change (arg r "par_REG") with (get_arg r "par_REG"); rewrite EG; exact L2|].
  split; [|split; [|exact EF]].
  - intros k Hk. rewrite EF in Hk. unfold get_arg, arg; cbn [fst set_arg with_args args]. rewrite mget_mset_ne; [reflexivity|].
    intros X. apply Hk. rewrite X. left. reflexivity.
  - rewrite get_set. intros X. apply (f_equal (fun l => nth 0 l 0%R)) in X. unfold v in X. cbn [repeat nth] in X. unfold get_arg in X. lra.
Qed.
Lemma toy_breaks h : exists r r1 m, session "toy" (toy_cfg h) (toy0 h) r r /\
  (exists M, get r "M" = Ok M) /\ load_conf_par r (toy_cfg h) true = Ok r1 /\ get r1 "M" = Throw m.
Proof.
  destruct (toy_built h) as [r Hr].
  pose proof (session_r _ _ _ _ _ (proj1 (toy_session h r 0%R Hr))) as S. exists r.
  pose proof (loaded_sync _ _ _ (toy_loads h)) as (_ & L2 & _).
  destruct (reload_breaks _ _ _ _ _ S) as (r1 & m & E & G).
  - vm_compute. lia.
  - rewrite (built_REG _ _ _ _ _ S). exact L2.
  - exists r1, m. split; [exact S|]. split; [|split; [exact E|exact G]].
    destruct (session_sess _ _ _ _ _ S) as (b & Hs & _).
    destruct (get_value _ _ _ Hs fM I) as (M & EM & _). exists M. exact EM.
Qed.
