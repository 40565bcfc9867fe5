(* Unknown joint types: nothing is ever built from them, and a robot that is otherwise consistent raises. *)
From Coq Require Import Reals List Arith String Bool Lia ZArith.
From Verif.Model Require Import Base Expr SX Robot Kinematics Dynamics Regressors Yaml Build.
From Verif.Spec Require Import Setup.
From Verif.Proofs Require Import Maps Pure Names Shape Sizes Closed BuildEq Load Init AddFun.
Import ListNotations.
Open Scope nat_scope.
Open Scope string_scope.

Definition known (t : string) : Prop := In t ["R"; "P"; "R_SEA"; "P_SEA"].
Lemma known_eq t : known t <-> is_P t = true \/ is_R t = true.
Proof.
  unfold known, is_P, is_R. rewrite !orb_true_iff, !String.eqb_eq. simpl. intuition (subst; auto).
Qed.

Lemma loop_all {S} (P : S -> Prop) (Q : nat -> Prop) body : forall k lo s s',
  (forall i s s', lo <= i < lo + k -> P s -> body i s = Ok s' -> P s' /\ Q i) -> P s -> loop k lo body s = Ok s' ->
  P s' /\ forall i, lo <= i < lo + k -> Q i.
Proof.
  induction k as [|k IH]; simpl; intros lo s s' H Ps E.
  - inversion E; subst. split; auto. intros; lia.
  - destruct (body lo s) as [s1| |] eqn:E1; try discriminate. cbn [bind] in E.
    destruct (H lo s s1 ltac:(lia) Ps E1) as [P1 Q1].
    destruct (IH (Datatypes.S lo) s1 s') as [P2 Q2]; auto. { intros; eapply H; eauto. lia. }
    split; auto. intros i Hi. destruct (Nat.eq_dec i lo) as [->|]; auto. apply Q2. lia.
Qed.

Lemma addf_same r nm e a r1 : addf r nm e a = Ok r1 -> jointsType r1 = jointsType r /\ numJoints r1 = numJoints r.
Proof.
  unfold addf. destruct (add_function r nm e a true) as [[r2 c]| |] eqn:E; try discriminate. cbn [bind]. intros H; inversion H; subst.
  destruct (add_effect _ _ _ _ _ _ _ E) as (_ & (_ & A & _ & B) & _); auto.
Qed.
Lemma bind_ok {A B} (x : res A) (f : A -> res B) b : bind x f = Ok b -> exists a, x = Ok a /\ f a = Ok b.
Proof. destruct x; cbn [bind]; try discriminate; eauto. Qed.

Lemma DHTemplate_known row q t T : DHTemplate row q t = Ok T -> known t.
Proof.
  unfold DHTemplate. intros H. apply bind_ok in H. destruct H as (x & H & _). apply known_eq.
  destruct (is_P t); auto. destruct (is_R t); auto. discriminate.
Qed.
Theorem chain_known r r1 : compute_chain r = Ok r1 ->
  (jointsType r1 = jointsType r /\ numJoints r1 = numJoints r) /\
  forall i, i < numJoints r -> exists t, nth_error (jointsType r) i = Some t /\ known t.
Proof.
  unfold compute_chain. intros H.
  apply bind_ok in H. destruct H as (ra & Ea & H). apply addf_same in Ea.
  apply bind_ok in H. destruct H as (rb & Eb & H). apply addf_same in Eb.
  apply bind_ok in H. destruct H as ((rc & T) & Ec & H).
  apply bind_ok in H. destruct H as (rd & Ed & H). apply addf_same in Ed. apply addf_same in H.
  pose proof (fun H P => loop_all (fun st => jointsType (fst st) = jointsType r /\ numJoints (fst st) = numJoints r)
    (fun i => exists t, nth_error (jointsType r) i = Some t /\ known t) chain_body (numJoints r) 0 _ _ H P Ec) as AB; cbn beta in AB. destruct AB as [A B].
  - intros i [s T0] [s' T'] _ [P1 P2] E. cbn [fst] in *. unfold chain_body in E. rewrite P1 in E.
    destruct (nth_error (jointsType r) i) as [t|] eqn:Et; [|discriminate].
    apply bind_ok in E. destruct E as (Ti & ET & E). apply DHTemplate_known in ET.
    apply bind_ok in E. destruct E as (s1 & E1 & E). apply addf_same in E1.
    apply bind_ok in E. destruct E as (s2 & E2 & E). apply addf_same in E2. inversion E; subst.
    split; [|eauto]. destruct E1, E2. split; congruence.
  - cbn [fst]. destruct Ea, Eb. split; congruence.
  - cbn [fst] in A. split.
    + destruct A, Ed, H. split; congruence.
    + intros i Hi. apply B. lia.
Qed.
Lemma col_known r O j st st' : jac_col r O j st = Ok st' -> exists t, nth_error (jointsType r) j = Some t /\ known t.
Proof.
  destruct st as [Jp Jo]. unfold jac_col. destruct (nth_error (jointsType r) j) as [t|]; [|discriminate].
  intros H. exists t. split; auto. apply known_eq. destruct (is_P t); auto. destruct (is_R t); auto. discriminate.
Qed.
Theorem jac_known r r1 : compute_jacobians r = Ok r1 -> forall i, i < numJoints r -> exists t, nth_error (jointsType r) i = Some t /\ known t.
Proof.
  unfold compute_jacobians. intros H. apply bind_ok in H. destruct H as (ra & Ea & H).
  assert (E : jointsType ra = jointsType r /\ numJoints ra = numJoints r).
  { unfold ensure in Ea. destruct (mcount "T_0_0" (model r)); [inversion Ea; subst; auto|]. apply chain_known in Ea. tauto. }
  apply bind_ok in H. destruct H as ((rc & Jp & Jo) & Ec & H).
  pose proof (fun H P => loop_all (fun st => jointsType (fst st) = jointsType r)
    (fun i => forall j, j <= i -> j < numJoints r -> exists t, nth_error (jointsType r) j = Some t /\ known t) (jac_body (numJoints r)) (numJoints r + 1) 0 _ _ H P Ec) as AB; cbn beta in AB. destruct AB as [A B].
  - intros i [s J] [s' J'] Hi P1 E1. cbn [fst] in *. unfold jac_body in E1.
    apply bind_ok in E1. destruct E1 as ((Jp1 & Jo1) & EL & E1). apply bind_ok in E1. destruct E1 as (s2 & E2 & E1).
    apply addf_same in E2. inversion E1; subst. split; [destruct E2; congruence|].
    intros j Hj Hn. set (im := if Nat.ltb i (numJoints r) then i else numJoints r - 1) in *.
    destruct (loop_all (fun _ => True) (fun j => exists t, nth_error (jointsType r) j = Some t /\ known t) (jac_col s (tra_of (mdl s ("T_0_" ++ to_string (im + 1))))) (im + 1) 0 J (Jp1, Jo1)) as [_ L].
    + intros j' st st' _ _ Ej. split; auto. rewrite <- P1. eapply col_known; eauto.
    + auto.
    + exact EL.
    + apply L. unfold im. destruct (Nat.ltb_spec i (numJoints r)); lia.
  - apply E.
  - intros i Hi. apply (B i); lia.
Qed.
Theorem jaccm_known r r1 : DHJacCM r = Ok r1 -> forall i, i < numJoints r -> exists t, nth_error (jointsType r) i = Some t /\ known t.
Proof.
  unfold DHJacCM. intros H. apply bind_ok in H. destruct H as (ra & Ea & H).
  assert (E : jointsType ra = jointsType r /\ numJoints ra = numJoints r).
  { unfold ensure in Ea. destruct (mcount "T_0_0" (model r)); [inversion Ea; subst; auto|]. apply chain_known in Ea. tauto. }
  apply bind_ok in H. destruct H as (((rc & J) & lv & lw) & Ec & H).
  pose proof (fun H P => loop_all (fun st => jointsType (fst (fst st)) = jointsType r)
    (fun i => exists t, nth_error (jointsType r) i = Some t /\ known t) jac_cm_body (numJoints r) 0 _ _ H P Ec) as AB; cbn beta in AB. destruct AB as [A B].
  - intros i [[s J1] [l1 l2]] [[s' J'] [l1' l2']] Hi P1 E1. cbn [fst] in *. unfold jac_cm_body in E1.
    apply bind_ok in E1. destruct E1 as ((Jp1 & Jo1) & EL & E1). apply bind_ok in E1. destruct E1 as (s2 & E2 & E1).
    apply addf_same in E2. inversion E1; subst. split; [destruct E2; congruence|].
    match type of EL with loop _ _ (jac_col s ?O) _ = _ =>
    destruct (loop_all (fun _ => True) (fun j => exists t, nth_error (jointsType r) j = Some t /\ known t) (jac_col s O) (i + 1) 0 J1 (Jp1, Jo1)) as [_ L] end.
    + intros j' st st' _ _ Ej. split; auto. rewrite <- P1. eapply col_known; eauto.
    + auto.
    + exact EL.
    + apply L. lia.
  - apply E.
  - intros i Hi. apply (B i); lia.
Qed.

Lemma subs_types r k r1 : subs_symb_par r k = Ok r1 -> jointsType r1 = jointsType r /\ numJoints r1 = numJoints r.
Proof.
  unfold subs_symb_par. intros H. apply bind_ok in H. destruct H as (m & _ & H).
  destruct (existsb _ _); inversion H; subst; auto.
Qed.
Lemma loop_subs l : forall r r1, loop_list l (fun par r' => subs_symb_par r' par) r = Ok r1 -> jointsType r1 = jointsType r /\ numJoints r1 = numJoints r.
Proof.
  induction l as [|k l IH]; intros r r1 H; cbn [loop_list] in H; [inversion H; subst; auto|].
  apply bind_ok in H. destruct H as (r2 & E & H). apply subs_types in E. apply IH in H. destruct E, H. split; congruence.
Qed.
Lemma all_eq r : compute_all r = bind (init_symb_parameters r) (fun r => bind (compute_kinematics r true) (fun r =>
  bind (compute_dynamics r true) (fun r => bind (compute_regressors r) update_symb_parameters))).
Proof. reflexivity. Qed.
Lemma kin_unf r : compute_kinematics r true = bind (compute_chain r) (fun r => bind (compute_jacobians r) compute_kin_adv).
Proof. reflexivity. Qed.
Lemma from_file_inv name cfg r : robot_from_file name cfg true = Ok r -> exists r0, robot_from_file name cfg false = Ok r0.
Proof.
  unfold robot_from_file. destruct (new_robot name cfg) as [r1| |]; cbn [bind]; try discriminate.
  destruct (load_conf_par r1 cfg true) as [r2| |]; cbn [bind]; try discriminate. eauto.
Qed.
Lemma all_known r0 r : compute_all r0 = Ok r -> forall i, i < numJoints r0 -> exists t, nth_error (jointsType r0) i = Some t /\ known t.
Proof.
  rewrite all_eq. intros H. apply bind_ok in H. destruct H as (rb & Eb & H). apply loop_subs in Eb. destruct Eb as [B1 B2].
  apply bind_ok in H. destruct H as (rc & Ec & H). rewrite kin_unf in Ec.
  apply bind_ok in Ec. destruct Ec as (rd & Ed & _). apply chain_known in Ed. destruct Ed as [_ K]. rewrite B1, B2 in K. exact K.
Qed.
Theorem built_known name cfg r : robot_from_file name cfg true = Ok r ->
  exists r0, robot_from_file name cfg false = Ok r0 /\ forall t, In t (jointsType r0) -> known t.
Proof.
  intros H. destruct (from_file_inv _ _ _ H) as [r0 E0]. exists r0. split; auto. pose proof (file_loaded _ _ _ E0) as L.
  rewrite (file_build _ _ _ E0) in H. pose proof (all_known _ _ H) as K.
  intros t Ht. apply In_nth_error in Ht. destruct Ht as [i Hi].
  assert (Hl : i < numJoints r0).
  { rewrite <- (ld_jt _ L). apply nth_error_Some. congruence. }
  destruct (K i Hl) as (t' & E & Kt). congruence.
Qed.

(* ---- a consistent robot with an unknown type raises ---- *)
Definition with_types (l : list string) (r : robot) : robot :=
  mkRobot (robotName r) (numJoints r) (numElasticJoints r) (ELASTIC r) l (isElasticJoint r)
    (K_order r) (D_order r) (Dl_order r) (Dm_order r) (model r) (args r) (symb r) (fun_args r) (casadi_fun r).
Definition rmap {A B} (f : A -> B) (x : res A) : res B := match x with Ok a => Ok (f a) | Throw m => Throw m | UB m => UB m end.

Lemma addf_types l r nm e a : addf (with_types l r) nm e a = rmap (with_types l) (addf r nm e a).
Proof.
  unfold addf, add_function. cbn [negb andb]. destruct (ok e); cbn [negb]; [|reflexivity].
  cbn [model fun_args casadi_fun with_types with_model with_funs].
  rewrite (fun_inputs_ext (touch_args (with_funs (with_model r (mset nm e (model r))) (mset nm a (fun_args r)) (casadi_fun r)) a) (touch_args (with_funs (with_model (with_types l r) (mset nm e (model r))) (mset nm a (fun_args r)) (casadi_fun r)) a)).
  2:{ intros k _. split; reflexivity. }
  destruct (fun_inputs _ _) as [ins| |]; cbn [bind rmap]; try reflexivity.
  change (robotName (touch_args (with_funs (with_model (with_types l r) (mset nm e (model r))) (mset nm a (fun_args r)) (casadi_fun r)) a)) with (robotName r).
  change (robotName (touch_args (with_funs (with_model r (mset nm e (model r))) (mset nm a (fun_args r)) (casadi_fun r)) a)) with (robotName r).
  destruct (check_name _); cbn [negb]; [|reflexivity].
  destruct (forallb valid_input ins && nodup_syms (flat_map syms_of_input ins)); cbn [negb]; [|reflexivity].
  destruct (no_free _ e); cbn [negb]; reflexivity.
Qed.
Lemma subs_types_eq l r k : subs_symb_par (with_types l r) k = rmap (with_types l) (subs_symb_par r k).
Proof.
  unfold subs_symb_par. change (flags (with_types l r) k) with (flags r k). change (mdl (with_types l r) k) with (mdl r k).
  change (arg (with_types l r) k) with (arg r k). destruct (subs_loop _ _ _ _); cbn [bind]; try reflexivity.
  destruct (existsb _ _); reflexivity.
Qed.
Lemma init_types l r : init_symb_parameters (with_types l r) = rmap (with_types l) (init_symb_parameters r).
Proof.
  unfold init_symb_parameters. change (symb (with_types l r)) with (symb r). generalize (map fst (symb r)) as ks. intros ks. revert r.
  induction ks as [|k ks IH]; intros r; cbn [loop_list]; [reflexivity|].
  rewrite subs_types_eq. destruct (subs_symb_par r k); cbn [rmap bind]; auto.
Qed.

Lemma body_types l i r T t : nth_error l i = Some t -> nth_error (jointsType r) i = Some t ->
  chain_body i (with_types l r, T) = rmap (fun st => (with_types l (fst st), snd st)) (chain_body i (r, T)).
Proof.
  intros E1 E2. unfold chain_body. change (mdl (with_types l r)) with (mdl r). cbn [jointsType with_types]. rewrite E1, E2.
  destruct (DHTemplate _ _ t) as [Ti| |]; cbn [bind rmap]; try reflexivity.
  rewrite addf_types. change (obtain_symb_parameters (with_types l r)) with (obtain_symb_parameters r).
  destruct (addf r _ Ti _) as [r1| |]; cbn [bind rmap]; try reflexivity.
  rewrite addf_types. change (obtain_symb_parameters (with_types l r1)) with (obtain_symb_parameters r1).
  destruct (addf r1 _ _ _) as [r2| |]; cbn [bind rmap fst snd]; reflexivity.
Qed.
Lemma loop_types l bad : (exists t, nth_error l bad = Some t /\ ~ known t) ->
  forall k lo r T st, lo <= bad < lo + k -> (forall i, lo <= i < bad -> nth_error (jointsType r) i = nth_error l i /\ nth_error l i <> None) ->
  loop k lo chain_body (r, T) = Ok st ->
  loop k lo chain_body (with_types l r, T) = Throw "DHTemplate: Error joint type".
Proof.
  intros (t & Et & Kt). induction k as [|k IH]; intros lo r T st Hb Hl E; [lia|].
  cbn [loop] in *. destruct (Nat.eq_dec lo bad) as [->|N].
  - unfold chain_body at 1. cbn [jointsType with_types]. rewrite Et. unfold DHTemplate.
    destruct (is_P t) eqn:EP; [destruct Kt; apply known_eq; auto|]. destruct (is_R t) eqn:ER; [destruct Kt; apply known_eq; auto|]. reflexivity.
  - destruct (Hl lo ltac:(lia)) as [E1 E2]. destruct (nth_error l lo) as [t'|] eqn:El; [|congruence].
    rewrite (body_types l lo r T t') by congruence.
    apply bind_ok in E. destruct E as ((r1 & T1) & Eb & E). rewrite Eb. cbn [rmap bind fst snd].
    eapply IH; [lia| |exact E]. intros i Hi.
    assert (J : jointsType r1 = jointsType r).
    { unfold chain_body in Eb. rewrite E1 in Eb. apply bind_ok in Eb. destruct Eb as (? & _ & Eb).
      apply bind_ok in Eb. destruct Eb as (? & Ea & Eb). apply bind_ok in Eb. destruct Eb as (? & Ec & Eb). inversion Eb; subst.
      apply addf_same in Ea. apply addf_same in Ec. destruct Ea, Ec. congruence. }
    rewrite J. apply Hl. lia.
Qed.

Definition chain_end (n : nat) (r : robot) (T0n : sx) : res robot :=
  let Tee := mtimes T0n (get_transform (mdl r "par_Ln2EE")) in
  let al := obtain_symb_parameters r ["q"] ["par_DHtable"; "par_world2L0"; "par_Ln2EE"] in
  bind (addf r ("T_0_" ++ to_string (n + 1)) Tee al) (fun r => addf r "T_0_ee" Tee al).
Definition base_frame (r : robot) : sx := get_transform (mdl r "par_world2L0").
Definition base_args (r : robot) : list string := obtain_symb_parameters r [] ["par_world2L0"].
Lemma chain_unf r : compute_chain r =
  bind (addf r "T_0" (base_frame r) (base_args r)) (fun r1 => bind (addf r1 "T_0_0" (base_frame r) (base_args r1)) (fun r2 =>
  bind (loop (numJoints r) 0 chain_body (r2, base_frame r)) (fun st => chain_end (numJoints r) (fst st) (snd st)))).
Proof.
  unfold compute_chain, base_frame, base_args. destruct (addf r "T_0" _ _) as [r1| |]; cbn [bind]; try reflexivity.
  destruct (addf r1 "T_0_0" _ _) as [r2| |]; cbn [bind]; try reflexivity.
  destruct (loop _ _ _ _) as [[r3 T]| |]; reflexivity.
Qed.
Opaque base_frame.
Lemma chain_throws l bad b r : compute_chain b = Ok r -> (exists t, nth_error l bad = Some t /\ ~ known t) -> bad < numJoints b ->
  (forall i, i < bad -> nth_error (jointsType b) i = nth_error l i /\ nth_error l i <> None) ->
  compute_chain (with_types l b) = Throw "DHTemplate: Error joint type".
Proof.
  rewrite !chain_unf. intros CE Hbad Hb Hl. cbn [numJoints with_types].
  change (base_frame (with_types l b)) with (base_frame b). change (base_args (with_types l b)) with (base_args b).
  apply bind_ok in CE. destruct CE as (r1 & E1 & CE). rewrite addf_types, E1. cbn [rmap bind].
  change (base_args (with_types l r1)) with (base_args r1).
  apply bind_ok in CE. destruct CE as (r2 & E2 & CE). rewrite addf_types, E2. cbn [rmap bind].
  apply bind_ok in CE. destruct CE as (st & E3 & _).
  rewrite (loop_types l bad Hbad) with (st := st); [reflexivity|lia| |exact E3].
  intros i Hi. apply addf_same in E1. apply addf_same in E2. destruct E1 as [J1 _], E2 as [J2 _]. rewrite J2, J1. apply Hl. lia.
Qed.

Definition mend (t : string) : string := if is_P t || is_R t then t else "R".
Lemma mend_known t : known (mend t).
Proof. unfold mend. destruct (is_P t || is_R t) eqn:E; [apply known_eq; now apply orb_true_iff|]. unfold known; simpl; auto. Qed.
Lemma mend_id t : known t -> mend t = t.
Proof. intros H. apply known_eq in H. unfold mend. apply orb_true_iff in H. now rewrite H. Qed.
Lemma mend_sea t : is_sea (mend t) = is_sea t.
Proof.
  unfold mend. destruct (is_P t || is_R t) eqn:E; auto. unfold is_P, is_R in E. unfold is_sea. change (is_sea "R") with false.
  destruct (String.eqb t "R_SEA"); [rewrite !orb_true_r in E; discriminate|].
  destruct (String.eqb t "P_SEA"); [rewrite orb_true_r in E; discriminate|]. reflexivity.
Qed.

(* the first unknown type *)
Lemma first_bad (l : list string) : (exists t, In t l /\ ~ known t) ->
  exists bad t, nth_error l bad = Some t /\ ~ known t /\ forall i, i < bad -> exists t', nth_error l i = Some t' /\ known t'.
Proof.
  induction l as [|a l IH]; intros (t & Ht & Kt); [destruct Ht|].
  destruct (in_dec string_dec a ["R"; "P"; "R_SEA"; "P_SEA"]) as [Ka|Ka].
  - destruct Ht as [->|Ht]; [contradiction|]. destruct IH as (bad & t1 & A & B & C); [eauto|].
    exists (S bad), t1. split; auto. split; auto. intros [|i] Hi; [exists a; auto|]. apply C. lia.
  - exists 0, a. split; [reflexivity|]. split; auto. intros; lia.
Qed.

Theorem unknown_throws name cfg r0 : robot_from_file name cfg false = Ok r0 -> identifier (robotName r0) -> 1 <= numJoints r0 ->
  (forall k len, In (k, len) (par_sizes r0) -> List.length (flags r0 k) = len /\ List.length (arg r0 k) = len) ->
  (exists t, In t (jointsType r0) /\ ~ known t) ->
  robot_from_file name cfg true = Throw "DHTemplate: Error joint type".
Proof.
  intros H0 Hid Hn Hsz Hbad. pose proof (file_loaded _ _ _ H0) as L.
  rewrite (file_build _ _ _ H0).
  set (g := with_types (map mend (jointsType r0)) r0).
  assert (E0 : r0 = with_types (jointsType r0) g) by (destruct r0; reflexivity).
  assert (Lg : loaded g).
  { destruct L. constructor; try assumption.
    - unfold g. cbn [jointsType with_types numJoints]. now rewrite map_length.
    - unfold g. cbn [jointsType with_types isElasticJoint]. rewrite map_map. rewrite ld_el. apply map_ext. intros t. now rewrite mend_sea. }
  assert (Wg : well_formed g).
  { constructor; [exact Hid|exact Hn| |exact Hsz]. unfold g. cbn [jointsType with_types]. intros t Ht. apply in_map_iff in Ht.
    destruct Ht as (t' & <- & _). apply mend_known. }
  destruct (init_base g Lg Wg) as (b & Eb & Bb & Rb & _).
  assert (EI : init_symb_parameters r0 = Ok (with_types (jointsType r0) b)).
  { rewrite E0 at 1. rewrite init_types, Eb. reflexivity. }
  assert (Jb : jointsType b = map mend (jointsType r0)) by (rewrite Rb; reflexivity).
  assert (Nb : numJoints b = numJoints r0) by (rewrite Rb; reflexivity).
  destruct (first_bad _ Hbad) as (bad & t & F1 & F2 & F3).
  pose proof (chain_eq (cvof g) b Bb []) as CE. change (pubs b []) with b in CE.
  assert (EC : compute_chain (with_types (jointsType r0) b) = Throw "DHTemplate: Error joint type").
  { apply (chain_throws (jointsType r0) bad b _ CE).
    - eauto.
    - rewrite Nb, <- (ld_jt _ L). apply nth_error_Some. congruence.
    - intros i Hi. destruct (F3 i Hi) as (t' & F4 & F5). rewrite F4. split; [|discriminate].
      rewrite Jb, nth_error_map, F4. cbn [option_map]. now rewrite mend_id. }
  rewrite all_eq, EI. cbn [bind]. rewrite kin_unf, EC. reflexivity.
Qed.
