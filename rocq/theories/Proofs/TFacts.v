(* What a successful parse says about the sections of the file. *)
From Coq Require Import Reals List Arith String Bool Lia ZArith.
From Verif.Model Require Import Base Expr SX Robot Kinematics Dynamics Regressors Yaml Inertia Build.
From Verif.Spec Require Import Setup.
From Verif.Proofs Require Import Calc Rel Maps Pure Names Shape Load StateSess.
Import ListNotations.
Open Scope nat_scope.
Open Scope string_scope.

Record facts (cfg : ynode) (r : robot) : Prop := {
  fc_kin : exists kin dhN dh, yidx cfg "kinematics" = Some kin /\ yidx kin "DH" = Some dhN /\ as_vector as_double dhN = Some dh /\
    arg r "par_DHtable" = dh /\ section_symb kin (List.length dh) = POk (flags r "par_DHtable");
  fc_frame : forall sec par, In (sec, par) [("Base_to_L0", "par_world2L0"); ("Ln_to_EE", "par_Ln2EE")] ->
    exists fr tN tr yN ypr a b, yidx cfg sec = Some fr /\ yidx fr "tr" = Some tN /\ as_vector as_double tN = Some tr /\
    yidx fr "ypr" = Some yN /\ as_vector as_double yN = Some ypr /\ three tr = POk a /\ three ypr = POk b /\
    arg r par = (a ++ b)%list /\ section_symb fr 6 = POk (flags r par);
  fc_grav : exists g, yidx cfg "gravity" = Some g /\ section_symb g 3 = POk (flags r "par_gravity") /\
    (ydef g = true -> exists vN v, yidx g "value" = Some vN /\ as_vector as_double vN = Some v /\ three v = POk (arg r "par_gravity"));
  fc_dyn : exists dyn, yidx cfg "dynamics" = Some dyn /\ forall k nd, In (k, nd) (ychildren dyn) -> exists sub, yidx_c nd "inertial" = Some sub
}.

Lemma ofy_inv {A} (x : yres A) a : ofy x = POk a -> x = Some a.
Proof. destruct x; simpl; intros H; inversion H; auto. Qed.
Lemma link_flags_sub w : forall l i acc r, link_flags "inertial" w l i acc = POk r ->
  forall k nd, In (k, nd) l -> exists sub, yidx_c nd "inertial" = Some sub.
Proof.
  induction l as [|[k nd] l IH]; intros i acc r H k' nd' Hi; [destruct Hi|].
  cbn [link_flags] in H. destruct (yidx_c nd "inertial") as [sub|] eqn:E; cbn [ofy pbind] in H; [|discriminate].
  destruct Hi as [Hi|Hi]; [injection Hi as <- <-; eauto|].
  destruct (yidx sub "symb") as [s|]; cbn [ofy pbind] in H; [|discriminate].
  destruct (if ydef s then _ else _); cbn [pbind] in H; try discriminate.
  destruct (copy_at acc (i * w) a); cbn [pbind] in H; try discriminate. eapply IH; eauto.
Qed.
Lemma parse_facts name cfg r : parse_config name cfg = POk r -> facts cfg r.
Proof.
  unfold parse_config. intros H. pinv H.
  match type of H with (let (_, _) := ?x in _) = _ => destruct x as [[[sK sD] sDm] sMm] eqn:Ex end.
  pinv H.
  match type of H with (if negb (Nat.eqb ?x ?y) then _ else _) = _ => destruct (Nat.eqb x y) eqn:Hjt end;
    cbn [negb] in H; [|discriminate].
  pinv H. injection H as <-.
  repeat match goal with E : ofy _ = POk _ |- _ => apply ofy_inv in E end.
  constructor.
  - do 3 eexists. repeat (split; [eassumption|]). split; [reflexivity|]. assumption.
  - intros sec par [Q0|[Q0|[]]]; injection Q0 as <- <-; do 7 eexists; repeat (split; [eassumption|]); (split; [reflexivity|assumption]).
  - match goal with E : yidx cfg "gravity" = Some ?g, E' : section_symb ?g _ = _ |- _ => exists g; split; [exact E|split; [exact E'|]] end.
    match goal with E : yidx cfg "gravity" = Some ?g, E' : yidx cfg "gravity" = Some ?g' |- ydef ?g' = true -> _ =>
      assert (g = g') by congruence; subst end.
    intros D. match goal with E : (if ydef ?g then _ else _) = POk _ |- _ => rewrite D in E; apply pbind_ok in E; destruct E as (vN & Q1 & Q2) end.
    apply ofy_inv in Q1. apply ofy_inv in Q2. do 2 eexists. split; [exact Q1|]. split; [exact Q2|]. assumption.
  - eexists. split; [eassumption|]. eapply link_flags_sub; eassumption.
Qed.
