(* C70: the order of the entries of a configuration file. *)
From Coq Require Import Reals Lra Lia Arith List String Bool ZArith Permutation.
From Verif.Model Require Import Base Robot Yaml Build Template.
From Verif.Spec Require Import Sample Order.
From Verif.Proofs Require Import Order.
Import ListNotations.
Open Scope nat_scope.
Open Scope string_scope.

(* What is missing from the full property: links under "dynamics" and elastic joints under "joints" are read one
   after the other, so their order must be the same (their names do not matter). *)
Theorem C70_order_partial name f1 f2 compute : same_file f1 f2 -> robot_from_file name f1 compute = robot_from_file name f2 compute.
Proof. intros (l1 & l2 & -> & -> & H). exact (file_same l1 l2 H name compute). Qed.
Print Assumptions C70_order_partial.
Theorem C70_generated_partial junk t f1 f2 update_REG : same_file f1 f2 ->
  t_load_conf junk t (Some f1) update_REG = t_load_conf junk t (Some f2) update_REG.
Proof. intros (l1 & l2 & -> & -> & H). exact (t_load_same l1 l2 H junk t update_REG). Qed.
Print Assumptions C70_generated_partial.

(* the same links under the same names in another order are another robot *)
Theorem C70_refuted : exists rest links1 links2 r1 r2, Permutation links1 links2 /\ NoDup (map fst links1) /\
  robot_from_file "toy" (YMap (("dynamics", YMap links1) :: rest)) false = Ok r1 /\
  robot_from_file "toy" (YMap (("dynamics", YMap links2) :: rest)) false = Ok r2 /\
  nth 0 (get_arg r1 "par_DYN") 0%R = 1%R /\ nth 0 (get_arg r2 "par_DYN") 0%R = 2%R.
Proof.
  pose (cfg := toy_cfg 0). exists (match cfg with YMap l => l | _ => [] end).
  exists [("link1", toy_link 1); ("link2", toy_link 2); ("link3", toy_link 3)], [("link2", toy_link 2); ("link1", toy_link 1); ("link3", toy_link 3)].
  do 2 eexists. split; [apply perm_swap|]. split; [repeat constructor; simpl; intuition discriminate|].
  split; [vm_compute; reflexivity|]. split; [vm_compute; reflexivity|]. split; vm_compute; reflexivity.
Qed.
Print Assumptions C70_refuted.

(* Non-vacuity: the sample file backwards, with other names of the links and with two entries that nobody reads *)
Definition mixed (n : ynode) : ynode := match n with YMap l => YMap (rev l) | _ => n end.
Definition toy_mixed : ynode :=
  match toy_cfg (PI / 2) with
  | YMap l => YMap (("author", YStr "me") :: rev (map (fun kv => (fst kv,
      if String.eqb (fst kv) "dynamics" then YMap [("a", mixed (toy_link 1)); ("b", mixed (toy_link 2)); ("c", mixed (toy_link 3))]
      else mixed (snd kv))) l) ++ [("date", YInt 3)])%list
  | n => n
  end.
Example C70_met : same_file (toy_cfg (PI / 2)) toy_mixed /\ toy_mixed <> toy_cfg (PI / 2).
Proof.
  assert (M : forall m, same (toy_link m) (mixed (toy_link m))).
  { intros m. apply same_map. intros k Hk. simpl in Hk. repeat (destruct Hk as [<-|Hk]; [cbn; constructor; apply same_node|]). contradiction. }
  split; [|discriminate]. unfold toy_mixed, toy_cfg. do 2 eexists. split; [reflexivity|]. split; [reflexivity|].
  intros k Hk. simpl in Hk.
  repeat (destruct Hk as [<-|Hk]; [cbn -[toy_link]; constructor; try apply same_node|]); [..|contradiction].
  all: try (apply same_map; intros k Hk; simpl in Hk; repeat (destruct Hk as [<-|Hk]; [cbn; constructor; apply same_node|]); contradiction).
  - do 2 eexists. split; [reflexivity|]. split; [reflexivity|]. intros k Hk. simpl in Hk.
    repeat (destruct Hk as [<-|Hk]; [cbn; constructor; try apply same_node|]); [..|contradiction].
    do 2 eexists. split; [reflexivity|]. split; [reflexivity|]. constructor; [apply same_node|constructor].
  - do 2 eexists. split; [reflexivity|]. split; [reflexivity|]. do 3 (constructor; [apply M|]). constructor.
Qed.
