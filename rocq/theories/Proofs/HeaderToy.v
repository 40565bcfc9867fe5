(* A generated robot meets the hypotheses of the text theorems. *)
From Coq Require Import Reals String Ascii List Bool Arith ZArith Lia.
From Verif.Model Require Import Base Robot Build Text.
From Verif.Spec Require Import Setup Api Sample Text.
From Verif.Proofs Require Import Pure Shape Load Init Final Get Api Sample Text Header.
Import ListNotations.
Open Scope nat_scope.
Open Scope string_scope.

Lemma session_rest name cfg r0 r r' : session name cfg r0 r r' ->
  robotName r = robotName r0 /\ numJoints r = numJoints r0 /\ numElasticJoints r = numElasticJoints r0 /\
  ELASTIC r = ELASTIC r0 /\ jointsType r = jointsType r0 /\ isElasticJoint r = isElasticJoint r0 /\
  K_order r = K_order r0 /\ D_order r = D_order r0 /\ Dl_order r = Dl_order r0 /\ Dm_order r = Dm_order r0 /\ symb r = symb r0.
Proof.
  intros H. destruct (session_built _ _ _ _ _ H) as [b B]. rewrite (bt_r _ _ _ B).
  destruct (pubs_rest b (L_all b)). cbn [robotName numJoints numElasticJoints ELASTIC jointsType isElasticJoint K_order D_order Dl_order Dm_order symb with_args with_model].
  rewrite sr_name, sr_n, sr_e, sr_el, sr_jt, sr_ie, sr_K, sr_D, sr_Dl, sr_Dm, sr_symb. rewrite (bt_b _ _ _ B).
  repeat split.
Qed.

Lemma guards : replace_first "#ifndef THUNDERROBOT_H #define THUNDERROBOT_H /*#-FUNCTIONS_H-#*/" "THUNDERROBOT" ("THUNDER_" ++ "arm")
   = Ok "#ifndef THUNDER_arm_H #define THUNDERROBOT_H /*#-FUNCTIONS_H-#*/" /\
  replace_first "#ifndef THUNDER_arm_H #define THUNDERROBOT_H /*#-FUNCTIONS_H-#*/" "THUNDERROBOT" ("THUNDER_" ++ "arm")
   = Ok "#ifndef THUNDER_arm_H #define THUNDER_arm_H /*#-FUNCTIONS_H-#*/".
Proof. split; vm_compute; reflexivity. Qed.
Lemma change_h_returns to r descr content c1 c2 eJ : replace_first content "THUNDERROBOT" ("THUNDER_" ++ to) = Ok c1 ->
  replace_first c1 "THUNDERROBOT" ("THUNDER_" ++ to) = Ok c2 -> elastic_string (numJoints r) (isElasticJoint r) = Ok eJ ->
  exists c, change_h "robot" to r descr content = Ok c.
Proof. intros A B C. unfold change_h. rewrite A. cbn [bind]. rewrite B. cbn [bind]. rewrite C. cbn [bind]. eexists. reflexivity. Qed.

Lemma toy_text h : exists r c d e, robot_from_file "toy" (toy_cfg h) true = Ok r /\
  change_cpp "robot" "arm" r (fun _ => "") false "thunder_robot::x /*#-FUNCTIONS_CPP-#*/" = Ok c /\
  change_cpp "robot" "arm" r (fun _ => "") true "thunder_robot::x /*#-FUNCTIONS_CPP-#*/" = Ok e /\
  change_h "robot" "arm" r (fun _ => "") "#ifndef THUNDERROBOT_H #define THUNDERROBOT_H /*#-FUNCTIONS_H-#*/" = Ok d /\
  (forall z, In z (isElasticJoint r) -> (0 <= z)%Z) /\ List.length (isElasticJoint r) = numJoints r /\
  exists fo, In fo (get_functions r) /\ fo_name fo = "M" /\ fo_rows fo = 3 /\ fo_cols fo = 3.
Proof.
  destruct (toy_built h) as [r Hr]. pose proof (proj1 (toy_session h r 0%R Hr)) as S.
  destruct (session_rest _ _ _ _ _ S) as (_ & EN & _ & _ & _ & EI & _).
  assert (F : exists fo, In fo (get_functions r) /\ fo_name fo = "M" /\ fo_rows fo = 3 /\ fo_cols fo = 3).
  { apply (proj1 (catalogue_published _ _ _ _ _ S)). vm_compute. tauto. }
  assert (NF : get_functions r <> []) by (destruct F as (fo & Hf & _); destruct (get_functions r); [destruct Hf|discriminate]).
  destruct (change_h_returns "arm" r (fun _ => "") _ _ _ "{0, 0, 1}" (proj1 guards) (proj2 guards)) as [d D].
  { rewrite EN, EI. vm_compute. reflexivity. }
  destruct (pybindings_some "arm" (fun _ => "") _ NF) as [s Hp].
  eexists. eexists. eexists. eexists. split; [exact Hr|]. split; [reflexivity|]. split.
  { unfold change_cpp. rewrite Hp. cbn [bind]. reflexivity. }
  split; [exact D|]. rewrite EN, EI. split; [|split; [reflexivity|exact F]].
  intros z Hz. vm_compute in Hz. intuition (subst; lia).
Qed.
