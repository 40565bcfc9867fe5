(* The sample configuration is readable; one with a missing number. *)
From Coq Require Import Reals List Arith String Bool Lia ZArith.
From Verif.Model Require Import Base Expr SX Robot Yaml Inertia Build.
From Verif.Spec Require Import Setup Config State Sample Values.
From Verif.Proofs Require Import Maps Load Sample Parse Values ParseToy.
Import ListNotations.
Open Scope nat_scope.
Open Scope string_scope.

Lemma ys_lists l : lists (ys l) l.
Proof. exists (map YDbl l). split; [reflexivity|]. induction l; constructor; auto; constructor. Qed.
Lemma toy_readable m : readable_link (toy_link m).
Proof.
  split.
  - intros k Hk. cbn [link_keys In] in Hk.
    repeat (destruct Hk as [<-|Hk]; [eexists; eexists; split; [reflexivity|apply reads_dbl]|]). destruct Hk.
  - right. exists (ys [1; 2]%R), [1; 2]%R. split; [reflexivity|apply ys_lists].
Qed.
Definition toy_joint : ynode :=
  YMap [("K", ys [10; 1]%R); ("D", ys [1; 1]%R); ("Dm", ys [1]%R); ("Mm", YDbl 1%R);
              ("K_symb", yi [1; 1]%Z); ("D_symb", yi [0; 1]%Z); ("Dm_symb", yi [1]%Z); ("Mm_symb", YInt 1)].
Lemma toy_joint_readable r : readable_joint r toy_joint.
Proof.
  split.
  - intros key order Hk _. cbn [In] in Hk. destruct Hk as [Q|[Q|[Q|[]]]]; apply (f_equal fst) in Q; cbn [fst] in Q; subst key;
      eexists; eexists; (split; [reflexivity|apply ys_lists]).
  - exists (YDbl 1%R), 1%R. split; [reflexivity|constructor].
Qed.
Lemma toy_links_readable h : exists dyn, entry (toy_cfg h) "dynamics" = Some dyn /\ List.length (ychildren dyn) = 3 /\
  first_ones readable_link 3 (ychildren dyn).
Proof.
  eexists. split; [reflexivity|]. split; [reflexivity|]. intros i k nd Hi E.
  destruct i as [|[|[|i]]]; [| | |lia]; cbn [ychildren nth_error] in E; apply (f_equal (fun o => match o with Some x => snd x | None => nd end)) in E;
    cbn [snd] in E; subst nd; apply toy_readable.
Qed.
Lemma toy_joints_readable h r : exists js, entry2 (toy_cfg h) "elastic" "joints" = Some js /\ List.length (ychildren js) = 1 /\
  first_ones (readable_joint r) 1 (ychildren js).
Proof.
  eexists. split; [reflexivity|]. split; [reflexivity|]. intros i k nd Hi E.
  destruct i as [|i]; [|lia]; cbn [ychildren nth_error] in E; apply (f_equal (fun o => match o with Some x => snd x | None => nd end)) in E;
    cbn [snd] in E; subst nd. apply toy_joint_readable.
Qed.

(* the first link of the sample without its last number *)
Definition no_Izz : ynode :=
  YMap [("inertial", YMap [("symb", yi [1; 0; 1; 0; 0; 0; 0; 0; 0; 1]%Z);
           ("mass", YDbl 1%R); ("CoM_x", YDbl (1/10)%R); ("CoM_y", YDbl 0%R); ("CoM_z", YDbl (1/5)%R);
           ("Ixx", YDbl 1%R); ("Ixy", YDbl 0%R); ("Ixz", YDbl 0%R); ("Iyy", YDbl 1%R); ("Iyz", YDbl 0%R)]);
        ("friction", YMap [("symb", yi [0; 1]%Z); ("Dl", ys [1; 2]%R)])].
Definition hole_cfg (h : R) : ynode := alter "dynamics" (YMap [("link1", no_Izz); ("link2", toy_link 2); ("link3", toy_link 3)]) (toy_cfg h).
Definition hole0 (h : R) : robot := match robot_from_file "hole" (hole_cfg h) false with Ok r => r | _ => no_robot end.
Lemma hole_loads h : robot_from_file "hole" (hole_cfg h) false = Ok (hole0 h).
Proof. vm_compute. reflexivity. Qed.
Lemma hole_zero h : nth_error (arg (hole0 h) "par_DYN") 10 = Some 0%R /\ nth_error (arg (hole0 h) "par_DYN") 20 = Some 0%R.
Proof. vm_compute. auto. Qed.
Lemma hole_mass h : exists dyn k nd, entry (hole_cfg h) "dynamics" = Some dyn /\ nth_error (ychildren dyn) 1 = Some (k, nd) /\
  readable_link nd /\ entry2 nd "inertial" "mass" = Some (YDbl 2%R).
Proof. do 3 eexists. split; [reflexivity|]. split; [reflexivity|]. split; [apply toy_readable|reflexivity]. Qed.
Lemma unreadable_fails name cfg sec key :
  In (sec, key) [("kinematics", "DH"); ("Base_to_L0", "tr"); ("Base_to_L0", "ypr"); ("Ln_to_EE", "tr"); ("Ln_to_EE", "ypr")] ->
  (forall n v, entry2 cfg sec key = Some n -> ~ lists n v) -> forall b r, robot_from_file name cfg b <> Ok r.
Proof.
  intros Hi Hn b r H.
  assert (X : exists r0, robot_from_file name cfg false = Ok r0).
  { destruct b; [|eauto]. unfold robot_from_file in *. destruct (new_robot name cfg) as [r1| |]; cbn [bind] in *; try discriminate.
    destruct (load_conf_par r1 cfg true) as [r2| |]; cbn [bind] in *; try discriminate. eauto. }
  destruct X as (r0 & X). apply loaded_as_written in X. destruct X as [A B _ _ _ _ _ _ _ _ _].
  cbn [In] in Hi. destruct Hi as [Q|[Q|[Q|[Q|[Q|[]]]]]]; injection Q as <- <-.
  - destruct A as (n & A1 & A2). exact (Hn _ _ A1 A2).
  - destruct (B "Base_to_L0" "par_world2L0" ltac:(simpl; auto)) as (n & t & m & y & B1 & B2 & B3 & B4 & _). exact (Hn _ _ B1 B2).
  - destruct (B "Base_to_L0" "par_world2L0" ltac:(simpl; auto)) as (n & t & m & y & B1 & B2 & B3 & B4 & _). exact (Hn _ _ B3 B4).
  - destruct (B "Ln_to_EE" "par_Ln2EE" ltac:(simpl; auto)) as (n & t & m & y & B1 & B2 & B3 & B4 & _). exact (Hn _ _ B1 B2).
  - destruct (B "Ln_to_EE" "par_Ln2EE" ltac:(simpl; auto)) as (n & t & m & y & B1 & B2 & B3 & B4 & _). exact (Hn _ _ B3 B4).
Qed.
Lemma hole_refutes : exists name cfg r0, robot_from_file name cfg false = Ok r0 /\
  exists dyn k nd, entry cfg "dynamics" = Some dyn /\ nth_error (ychildren dyn) 1 = Some (k, nd) /\ readable_link nd /\
    entry2 nd "inertial" "mass" = Some (YDbl 2%R) /\ nth_error (arg r0 "par_DYN") 10 = Some 0%R.
Proof.
  exists "hole", (hole_cfg 0%R), (hole0 0%R). split; [apply hole_loads|].
  destruct (hole_mass 0%R) as (dyn & k & nd & A & B & C & D). exists dyn, k, nd.
  split; [exact A|]. split; [exact B|]. split; [exact C|]. split; [exact D|]. exact (proj1 (hole_zero 0%R)).
Qed.
Lemma bad_DH : let cfg := alter "kinematics" (YMap [("DH", YSeq [YStr "one"])]) (toy_cfg (PI / 2)) in
  exists n, entry2 cfg "kinematics" "DH" = Some n /\ forall v, ~ lists n v.
Proof. eexists. split; [reflexivity|]. intros v (l & Q & F). injection Q as <-. inversion F as [|a b c d X Y]; subst. inversion X. Qed.
