(* C37 - C42: text substitution, generated source text, command line, frames and rigid bodies. *)
From Coq Require Import Reals String Ascii List Bool Arith ZArith Lia Lra.
From Verif.Model Require Import Base Robot Text Bodies Build.
From Verif.Spec Require Import Math Setup Text Bodies Sample.
From Verif.Proofs Require Import Frames Text Cli Header HeaderToy Bodies Sample.
Import ListNotations.
Open Scope nat_scope.
Open Scope string_scope.

(* C37: for non-empty from the call returns, its result is the left to right substitution, and that is unique *)
Theorem C37_replace_all source from to : from <> "" ->
  exists x, replace_all_returns source from to x /\ replaced from to source x /\
    (forall y, replace_all_returns source from to y -> y = x) /\ (forall y, replaced from to source y -> y = x).
Proof.
  intros H. exists (replace_all source from to). destruct (replace_all_ok source from to H) as [A B].
  split; [exact A|]. split; [exact B|]. split.
  - intros y Y. exact (returns_fun source from to y _ Y A).
  - intros y Y. exact (replaced_fun from to source y _ H Y B).
Qed.
Print Assumptions C37_replace_all.
(* for empty from the loop never ends *)
Theorem C37_empty source to : ~ exists x, replace_all_returns source "" to x.
Proof. exact (replace_all_empty source to). Qed.
Print Assumptions C37_empty.
(* overlapping candidates, and a replacement that contains the pattern *)
Example C37_met : replace_all "aaaXa" "aa" "aaa" = "aaaaXa" /\ replaced "aa" "aaa" "aaaXa" "aaaaXa".
Proof. split; [reflexivity|]. exact (proj2 (replace_all_ok "aaaXa" "aa" "aaa" ltac:(discriminate))). Qed.

(* C38: the generated source is the template with the class renamed and, for each published function in order, a getter
   that passes the declared arguments in order to the generated function and uses a buffer of rows*cols doubles *)
Theorem C38_source from to r descr content c : from <> "" -> change_cpp from to r descr false content = Ok c ->
  filled [(from, to);
          ("/*#-FUNCTIONS_CPP-#*/", nl ++ String.concat "" (map (fun fo =>
             getter (robotName r) to (fo_name fo) (descr (fo_name fo)) (fo_args fo) (fo_rows fo) (fo_cols fo)) (get_functions r)))]
    content c.
Proof. exact (change_cpp_ok from to r descr content c). Qed.
Print Assumptions C38_source.
Theorem C38_python from to r descr content c : from <> "" -> change_cpp from to r descr true content = Ok c ->
  filled [(from, to);
          ("/*#-FUNCTIONS_CPP-#*/", nl ++ String.concat "" (map (fun fo =>
             getter (robotName r) to (fo_name fo) (descr (fo_name fo)) (fo_args fo) (fo_rows fo) (fo_cols fo)) (get_functions r)));
          ("/*#-GENERATED_PYTHON_BINDINGS-#*/",
             String.concat nl (map (fun fo => binding to (fo_name fo) (descr (fo_name fo))) (get_functions r)) ++ ";" ++ nl)]
    content c.
Proof. exact (change_cpp_python from to r descr content c). Qed.
Print Assumptions C38_python.
(* the header declares the same getters and the sizes of the robot *)
Theorem C38_header from to r descr content c : from <> "" ->
  (forall z, In z (isElasticJoint r) -> (0 <= z)%Z) -> List.length (isElasticJoint r) = numJoints r ->
  change_h from to r descr content = Ok c ->
  exists c1 c2, first_replaced "THUNDERROBOT" ("THUNDER_" ++ to) content c1 /\ first_replaced "THUNDERROBOT" ("THUNDER_" ++ to) c1 c2 /\
  filled [(from, to); ("/*#-ROBOT_NAME-#*/", robotName r); ("/*#-n_joints-#*/", to_string (numJoints r));
          ("/*#-ELASTIC-#*/", if ELASTIC r then "1" else "0"); ("/*#-numElasticJoints-#*/", to_string (numElasticJoints r));
          ("/*#-K_order-#*/", to_string (K_order r)); ("/*#-D_order-#*/", to_string (D_order r));
          ("/*#-Dl_order-#*/", to_string (Dl_order r)); ("/*#-Dm_order-#*/", to_string (Dm_order r));
          ("/*#-isElasticJoint-#*/", flag_list (isElasticJoint r));
          ("/*#-FUNCTIONS_H-#*/", nl ++ String.concat "" (map (fun fo =>
             declaration (fo_name fo) (descr (fo_name fo)) (fo_rows fo) (fo_cols fo)) (get_functions r)))] c2 c.
Proof. exact (change_h_ok from to r descr content c). Qed.
Print Assumptions C38_header.
Example C38_met : exists r c d e, robot_from_file "toy" (toy_cfg (PI / 2)) true = Ok r /\
  change_cpp "robot" "arm" r (fun _ => "") false "thunder_robot::x /*#-FUNCTIONS_CPP-#*/" = Ok c /\
  change_cpp "robot" "arm" r (fun _ => "") true "thunder_robot::x /*#-FUNCTIONS_CPP-#*/" = Ok e /\
  change_h "robot" "arm" r (fun _ => "") "#ifndef THUNDERROBOT_H #define THUNDERROBOT_H /*#-FUNCTIONS_H-#*/" = Ok d /\
  (forall z, In z (isElasticJoint r) -> (0 <= z)%Z) /\ List.length (isElasticJoint r) = numJoints r /\
  exists fo, In fo (get_functions r) /\ fo_name fo = "M" /\ fo_rows fo = 3 /\ fo_cols fo = 3.
Proof. exact (toy_text (PI / 2)). Qed.

(* C39: dir/name.yaml gives the robot name and the directory; --name wins; never an out of range access *)
Theorem C39_names_partial :
  (forall dir name over, (forall i, ~ char_at name i "/") ->
     cli_names (dir ++ "/" ++ name ++ ".yaml") over = Ok (Accepted (dir ++ "/") (match over with Some n => n | None => name end))) /\
  (forall name over, (forall i, ~ char_at name i "/") ->
     cli_names (name ++ ".yaml") over = Ok (Accepted "./" (match over with Some n => n | None => name end))) /\
  (forall path over, exists c, cli_names path over = Ok c) /\
  (* exactly which paths are rejected: those with none of the five characters after the first position *)
  (forall path over, cli_names path over = Ok Rejected <->
     forall i a, char_at path (S i) a -> ~ In a ["."; "y"; "a"; "m"; "l"]%char).
Proof. exact (conj cli_dir (conj cli_plain (conj cli_total cli_rejected))). Qed.
Print Assumptions C39_names_partial.
(* paths that do not end in .yaml are accepted, with a mangled name *)
Theorem C39_refuted : exists path n, (forall p, path <> p ++ ".yaml") /\ cli_names path None = Ok (Accepted "./" n).
Proof.
  exists "arm.yml", "ar". split; [|reflexivity]. intros p H.
  apply (f_equal (fun s => String.get 2 s)) in H as H6. apply (f_equal String.length) in H. rewrite length_app in H. simpl in H.
  destruct p as [|a [|b [|c p]]]; simpl in H; try lia. discriminate H6.
Qed.
Print Assumptions C39_refuted.
Example C39_met : (forall i, ~ char_at "seven.dof" i "/") /\
  cli_names ("robots/arm" ++ "/" ++ "seven.dof" ++ ".yaml") None = Ok (Accepted "robots/arm/" "seven.dof").
Proof.
  split; [|reflexivity]. intros i. unfold char_at.
  do 9 (destruct i as [|i]; [discriminate|]). destruct i; discriminate.
Qed.

Open Scope R_scope.
(* C40: the matrices are the roll-pitch-yaw rotation exactly when yaw or roll is a multiple of pi *)
Theorem C40_rotations_partial :
  (forall yaw pitch roll, rotation (ypr_rotation yaw pitch roll)) /\
  (forall rpy, (forall i j, (i < 3)%nat -> (j < 3)%nat -> rpyRot rpy i j = ypr_rotation (nth 2 rpy 0) (nth 1 rpy 0) (nth 0 rpy 0) i j)
     <-> sin (nth 2 rpy 0) * sin (nth 0 rpy 0) = 0) /\
  (forall f, (forall i j, (i < 3)%nat -> (j < 3)%nat -> get_rotation f i j =
       ypr_rotation (nth 0 (f_ypr f) 0) (nth 1 (f_ypr f) 0) (nth 2 (f_ypr f) 0) i j)
     <-> sin (nth 0 (f_ypr f) 0) * sin (nth 2 (f_ypr f) 0) = 0) /\
  (forall f, sin (nth 0 (f_ypr f) 0) * sin (nth 2 (f_ypr f) 0) = 0 ->
     forall i j, (i < 4)%nat -> (j < 4)%nat -> get_transform f i j =
       framemat (nth 0 (f_tr f) 0) (nth 1 (f_tr f) 0) (nth 2 (f_tr f) 0) (nth 0 (f_ypr f) 0) (nth 1 (f_ypr f) 0) (nth 2 (f_ypr f) 0) i j).
Proof. exact (conj ypr_rotation_rot (conj rpyRot_correct (conj get_rotation_correct get_transform_correct))). Qed.
Print Assumptions C40_rotations_partial.
(* for every other roll and yaw the matrices are no rotation at all, whatever the pitch *)
Theorem C40_exactly_partial :
  (forall rpy, rotation (rpyRot rpy) <-> sin (nth 2 rpy 0) * sin (nth 0 rpy 0) = 0) /\
  (forall f, rotation (get_rotation f) <-> sin (nth 0 (f_ypr f) 0) * sin (nth 2 (f_ypr f) 0) = 0).
Proof. exact (conj rpyRot_rotation get_rotation_rotation). Qed.
Print Assumptions C40_exactly_partial.
Theorem C40_refuted : exists rpy, List.length rpy = 3%nat /\ ~ rotation (rpyRot rpy).
Proof. exact rpy_not_rotation. Qed.
Print Assumptions C40_refuted.
Example C40_met : sin (nth 2 [PI / 4; PI / 4; 0] 0) * sin (nth 0 [PI / 4; PI / 4; 0] 0) = 0 /\ sin (nth 1 [PI / 4; PI / 4; 0] 0) <> 0.
Proof. exact rpy_sample. Qed.

(* C41 *)
Theorem C41_merge :
  (forall b1 b2 old, b_mass b1 + b_mass b2 <> 0 ->
     let b := mergeBodyInertial b1 b2 old in
     b_mass b = b_mass b1 + b_mass b2 /\
     (forall a, (a < 3)%nat -> moment b a = moment b1 a + moment b2 a) /\
     (forall i j, (i < 3)%nat -> (j < 3)%nat -> inertia_origin b i j = inertia_origin b1 i j + inertia_origin b2 i j)) /\
  (forall b1 b2 o o', b_mass b1 + b_mass b2 <> 0 -> same_body (mergeBodyInertial b1 b2 o) (mergeBodyInertial b2 b1 o')) /\
  (forall b1 b2 b3 o1 o2 o3 o4, b_mass b1 + b_mass b2 <> 0 -> b_mass b2 + b_mass b3 <> 0 -> b_mass b1 + b_mass b2 + b_mass b3 <> 0 ->
     same_body (mergeBodyInertial (mergeBodyInertial b1 b2 o1) b3 o2) (mergeBodyInertial b1 (mergeBodyInertial b2 b3 o3) o4)).
Proof. exact (conj merge_ok (conj merge_comm merge_assoc)). Qed.
Print Assumptions C41_merge.
Example C41_met : b_mass unit_body + b_mass unit_body <> 0 /\ b_mass unit_body + b_mass unit_body + b_mass unit_body <> 0.
Proof. simpl. split; lra. Qed.

(* C42: rigid when neither rotation falls on the wrong entry of rpyRot *)
Theorem C42_transform_partial d rpy b old :
  sin (nth 2 rpy 0) * sin (nth 0 rpy 0) = 0 -> sin (nth 2 (b_rpy b) 0) * sin (nth 0 (b_rpy b) 0) = 0 ->
  let A := ypr_rotation (nth 2 rpy 0) (nth 1 rpy 0) (nth 0 rpy 0) in
  let B := rmul 3 A (ypr_rotation (nth 2 (b_rpy b) 0) (nth 1 (b_rpy b) 0) (nth 0 (b_rpy b) 0)) in
  let t := transformBodyInertial d rpy b old in
  b_mass t = b_mass b /\ rotation A /\ rotation B /\
  (forall a, (a < 3)%nat -> com t a = moved A (fun a => nth a d 0) (com b) a) /\
  (forall i j, (i < 3)%nat -> (j < 3)%nat -> inertia t i j = conjugate B (inertia b) i j) /\
  trace (inertia t) = trace (inertia b).
Proof. exact (transform_rigid d rpy b old). Qed.
Print Assumptions C42_transform_partial.
(* for all angles: the same with the matrices the code uses, whatever they are *)
Theorem C42_form d rpy b old :
  let A := rpyRot rpy in let B := rmul 3 A (rpyRot (b_rpy b)) in
  let t := transformBodyInertial d rpy b old in
  b_name t = b_name b /\ b_mass t = b_mass b /\
  (forall a, (a < 3)%nat -> com t a = moved A (fun a => nth a d 0) (com b) a) /\
  (forall i j, (i < 3)%nat -> (j < 3)%nat -> inertia t i j = conjugate B (inertia b) i j).
Proof. exact (transform_ok d rpy b old). Qed.
Print Assumptions C42_form.
(* centres of mass move rigidly, by some rotation and some displacement that are the same for all bodies, exactly when
   yaw or roll is a multiple of pi *)
Theorem C42_exactly_partial d rpy old :
  (exists A c, rotation A /\ forall b a, (a < 3)%nat -> com (transformBodyInertial d rpy b old) a = moved A c (com b) a)
  <-> sin (nth 2 rpy 0) * sin (nth 0 rpy 0) = 0.
Proof. exact (transform_exactly d rpy old). Qed.
Print Assumptions C42_exactly_partial.
Theorem C42_refuted : exists d rpy b old, List.length rpy = 3%nat /\
  trace (inertia (transformBodyInertial d rpy b old)) <> trace (inertia b).
Proof. exact transform_trace_lost. Qed.
Print Assumptions C42_refuted.
Example C42_met : sin (nth 2 [PI / 4; PI / 4; 0] 0) * sin (nth 0 [PI / 4; PI / 4; 0] 0) = 0 /\
  sin (nth 2 (b_rpy unit_body) 0) * sin (nth 0 (b_rpy unit_body) 0) = 0.
Proof. split; [exact (proj1 rpy_sample)|]. simpl. rewrite sin_0. ring. Qed.
