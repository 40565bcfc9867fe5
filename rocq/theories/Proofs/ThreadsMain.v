(* Threads that use the class generated from a configuration. *)
From Coq Require Import Reals String List Bool Arith Lia.
From Verif.Model Require Import Base SX Robot Build Template Threads.
From Verif.Spec Require Import Math Setup Kinematics Template Safe Api Threads.
From Verif.Proofs Require Import Api MainFiles TSafe Threads.
Import ListNotations.
Open Scope nat_scope.
Open Scope list_scope.

Lemma asks_of junk f l : In (Ask f) (program junk l) -> In f (getters l).
Proof.
  unfold program, getters. rewrite in_map_iff, in_flat_map. intros ([g|c] & E & H); [|discriminate]. injection E as ->. exists (Getter f). split; [exact H|now left].
Qed.
Lemma does_of junk c l : In (Do c) (program junk l) -> methods l <> [].
Proof.
  unfold program, methods. rewrite in_map_iff. intros ([g|d] & E & H); [discriminate|]. intros Q.
  assert (In d (flat_map (fun q => match q with Getter _ => [] | Method c => [c] end) l)); [|now rewrite Q in H0].
  apply in_flat_map. exists (Method d). split; [exact H|now left].
Qed.
Section S.
Variables (name : string) (cfg : Yaml.ynode) (r0 r r' : robot).
Hypothesis Hs : session name cfg r0 r r'.
Lemma out_sizes t f m : Api.published r f -> t_get r t f = Ok m -> m_rows m = fst (out_size r f) /\ m_cols m = snd (out_size r f).
Proof.
  intros P E. unfold out_size. destruct (find _ (get_functions r)) as [fo|] eqn:Ef.
  - apply find_some in Ef. destruct Ef as [Hf Ef]. apply String.eqb_eq in Ef. subst f.
    destruct (inputs_of _ _ _ _ _ Hs fo Hf) as (cf & F & R & C & _). unfold t_get in E. rewrite F in E.
    destruct (read_inputs _ _ _) as [v| |]; cbn [bind] in E; try discriminate. unfold call in E.
    destruct (bind_inputs _ _) as [b| |]; cbn [bind] in E; try discriminate. injection E as <-. split; [exact R|exact C].
  - exfalso. unfold Api.published in P. apply in_map_iff in P. destruct P as (fo & <- & Hf).
    pose proof (find_none _ _ Ef fo Hf) as Q. cbn in Q. now rewrite String.eqb_refl in Q.
Qed.
Lemma t_do_app junk h1 : forall h2 t, t_do_all junk (h1 ++ h2) t = bind (t_do_all junk h1 t) (t_do_all junk h2).
Proof.
  induction h1 as [|c h1 IH]; intros h2 t; cbn [app t_do_all]; [reflexivity|]. destruct (t_do junk c t) as [t1| |]; cbn [bind]; auto.
Qed.
Theorem all_answered junk l : forall h t, (forall c, In c h -> matching (numJoints r0) cfg c) -> (forall c, In c (methods l) -> matching (numJoints r0) cfg c) ->
  (forall f, In f (getters l) -> Api.published r f) ->
  t_do_all junk h (new_class r) = Ok t -> (exists t', t_do_all junk (methods l) t = Ok t') -> map fst (alone r t (program junk l)) = getters l.
Proof.
  induction l as [|[f|c] l IH]; intros h t Hh Hl Hg Eh Hm; [reflexivity| |].
  - cbn [program map alone getters flat_map app]. change (flat_map _ l) with (getters l).
    assert (P : Api.published r f) by (apply Hg; now left). unfold Api.published in P. apply in_map_iff in P. destruct P as (fo & <- & Hf).
    destruct (safe_history junk name cfg r0 r r' h t Hs Hh Eh fo Hf) as (m & -> & _). cbn [map fst]. f_equal.
    apply (IH h t Hh); auto. intros f' Hf'. apply Hg. now right.
  - cbn [program map alone getters flat_map app]. change (flat_map _ l) with (getters l). destruct Hm as [t' Hm].
    cbn [methods flat_map app t_do_all] in Hm. change (flat_map _ l) with (methods l) in Hm.
    destruct (t_do junk c t) as [t1| |] eqn:E1; cbn [bind] in Hm; try discriminate.
    apply (IH (h ++ [c]) t1).
    + intros c' Hc. apply in_app_iff in Hc. destruct Hc as [Hc|[<-|[]]]; [now apply Hh|]. apply Hl. now left.
    + intros c' Hc. apply Hl. now right.
    + exact Hg.
    + rewrite t_do_app, Eh. cbn [bind t_do_all]. now rewrite E1.
    + now exists t'.
Qed.
End S.
