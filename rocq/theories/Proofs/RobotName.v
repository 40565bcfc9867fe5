(* A robot whose computation succeeds has a name that is an identifier. *)
From Coq Require Import Reals List Arith String Ascii Bool Lia ZArith.
From Verif.Model Require Import Base Expr SX Robot Yaml Kinematics Build.
From Verif.Spec Require Import Setup.
From Verif.Proofs Require Import Pure Maps Names Load AddFun Types.
Import ListNotations.
Open Scope nat_scope.
Open Scope string_scope.

(* what precedes an underscore in an accepted name *)
Lemma before_under s t : name_tail (s ++ String "_" t) = true -> solid s = true.
Proof.
  induction s as [|a s IH]; [reflexivity|]. change (String a s ++ String "_" t) with (String a (s ++ String "_" t)).
  cbn [name_tail solid]. destruct (Ascii.eqb a "_").
  - destruct s as [|b s]; [discriminate|]. change (String b s ++ String "_" t) with (String b (s ++ String "_" t)) in *. cbv iota beta.
    intros H. apply andb_true_iff in H. destruct H as [-> H]. now apply IH.
  - intros H. apply andb_true_iff in H. destruct H as [-> H]. now apply IH.
Qed.
Lemma check_identifier nm t : check_name (nm ++ "_" ++ t) = true -> identifier nm.
Proof.
  intros H. apply identifier_check. apply andb_true_iff. destruct nm as [|a s].
  - change ("" ++ "_" ++ t) with (String "_" t) in H. unfold check_name in H. cbn [is_alpha] in H.
    rewrite andb_false_r in H. discriminate.
  - change (String a s ++ "_" ++ t) with (String a (s ++ String "_" t)) in H. unfold check_name in H.
    apply andb_true_iff in H. destruct H as [H T]. apply andb_true_iff in H. destruct H as [_ A]. split; [exact A|].
    cbn [solid]. rewrite (alpha_not_under a A). unfold is_alnum. rewrite A. cbn [orb andb]. now apply before_under in T.
Qed.
Lemma addf_named r nm e a r1 : addf r nm e a = Ok r1 -> identifier (robotName r).
Proof.
  unfold addf, add_function. cbn [negb andb]. destruct (ok e); cbn [negb]; [|discriminate].
  destruct (fun_inputs _ _) as [ins| |]; cbn [bind]; try discriminate.
  match goal with |- context [check_name ?s] => destruct (check_name s) eqn:E end; cbn [negb]; [|discriminate].
  intros _. apply check_identifier in E. exact E.
Qed.
Lemma subs_name r k r1 : subs_symb_par r k = Ok r1 -> robotName r1 = robotName r.
Proof.
  unfold subs_symb_par. intros H. apply bind_ok in H. destruct H as (m & _ & H).
  destruct (existsb _ _); inversion H; subst; auto.
Qed.
Lemma loop_subs_name l : forall r r1, loop_list l (fun par r' => subs_symb_par r' par) r = Ok r1 -> robotName r1 = robotName r.
Proof.
  induction l as [|k l IH]; intros r r1 H; cbn [loop_list] in H; [inversion H; subst; auto|].
  apply bind_ok in H. destruct H as (r2 & E & H). apply subs_name in E. apply IH in H. congruence.
Qed.
Lemma all_named r0 r : compute_all r0 = Ok r -> identifier (robotName r0).
Proof.
  rewrite all_eq. intros H. apply bind_ok in H. destruct H as (rb & Eb & H). apply loop_subs_name in Eb.
  apply bind_ok in H. destruct H as (rc & Ec & H). rewrite kin_unf in Ec.
  apply bind_ok in Ec. destruct Ec as (rd & Ed & _). unfold compute_chain in Ed.
  apply bind_ok in Ed. destruct Ed as (ra & Ea & _). apply addf_named in Ea. now rewrite Eb in Ea.
Qed.
Lemma loaded_name name cfg r0 : robot_from_file name cfg false = Ok r0 -> robotName r0 = name.
Proof.
  unfold robot_from_file. intros H. apply bind_ok in H. destruct H as (r1 & E1 & H).
  apply bind_ok in H. destruct H as (r2 & E2 & H). inversion H; subst r2; clear H.
  apply load_conf_argsonly in E2. rewrite E2. cbn [robotName with_args].
  unfold new_robot in E1. destruct (parse_config name cfg) as [r| | |] eqn:E; try discriminate.
  apply parse_inv in E. destruct E. unfold initVarsFuns in E1. rewrite pa_jt, Nat.eqb_refl in E1. cbn [negb] in E1.
  inversion E1; subst. reflexivity.
Qed.
Theorem built_named name cfg r : robot_from_file name cfg true = Ok r -> identifier name.
Proof.
  intros H. destruct (from_file_inv _ _ _ H) as [r0 E0]. rewrite (file_build _ _ _ E0) in H.
  apply all_named in H. now rewrite (loaded_name _ _ _ E0) in H.
Qed.
(* names of the kind a file stem easily has, and that are refused *)
Lemma not_identifiers : Forall (fun s => ~ identifier s) [""; "7dof"; "franka-fr3"; "seven.dof"; "arm_"; "my__arm"; "_arm"].
Proof.
  repeat constructor; intros H; apply identifier_solid in H; destruct H as [A B]; vm_compute in A, B; discriminate.
Qed.
