(* Vocabulary for the values returned by get, and the geometry of the robot in textbook terms. *)
From Coq Require Import Reals List String Arith ZArith.
From Coquelicot Require Import Coquelicot.
From Verif.Model Require Import Base Robot Yaml Build.
From Verif.Spec Require Import Math Setup.
Import ListNotations.
Open Scope string_scope.
Open Scope R_scope.

(* get(name) succeeds and returns a matrix of the given size *)
Definition answers (r' : robot) (name : string) (rows cols : nat) : Prop :=
  exists m, get r' name = Ok m /\ m_rows m = rows /\ m_cols m = cols.
(* entries of the matrix returned by get(name); meaningful together with answers *)
Definition out (r' : robot) (name : string) : rmat :=
  match get r' name with Ok m => m_val m | _ => fun _ _ => 0 end.
Definition agree (rows cols : nat) (A B : rmat) : Prop :=
  forall i j, (i < rows)%nat -> (j < cols)%nat -> A i j = B i j.

(* joints *)
Definition prism (r0 : robot) (i : nat) : bool :=
  let t := nth i (jointsType r0) "" in String.eqb t "P" || String.eqb t "P_SEA".
Definition dh (r0 r' : robot) (i c : nat) : R := param r0 r' "par_DHtable" (i * 4 + c).
Definition joint_d (r0 r' : robot) (i : nat) : R :=
  if prism r0 i then dh r0 r' i 2 + state r' "q" i else dh r0 r' i 2.
Definition joint_theta (r0 r' : robot) (i : nat) : R :=
  if prism r0 i then dh r0 r' i 3 else dh r0 r' i 3 + state r' "q" i.

(* transform of joint i (0-based), base and tool frames *)
Definition joint_frame (r0 r' : robot) (i : nat) : rmat :=
  DHmat (dh r0 r' i 0) (dh r0 r' i 1) (joint_d r0 r' i) (joint_theta r0 r' i).
Definition frame_par (r0 r' : robot) (k : string) : rmat :=
  let p := param r0 r' k in framemat (p 0%nat) (p 1%nat) (p 2%nat) (p 3%nat) (p 4%nat) (p 5%nat).
Fixpoint fwd (r0 r' : robot) (i : nat) : rmat :=
  match i with
  | O => frame_par r0 r' "par_world2L0"
  | S k => rmul 4 (fwd r0 r' k) (joint_frame r0 r' k)
  end.
Definition fwd_ee (r0 r' : robot) : rmat :=
  rmul 4 (fwd r0 r' (numJoints r0)) (frame_par r0 r' "par_Ln2EE").

(* entries of the parameter vectors that are angles on their own *)
Definition angle_entry (r0 : robot) (k : string) (i : nat) : Prop :=
  (k = "par_DHtable" /\ exists j, (j < numJoints r0)%nat /\
     (i = j * 4 + 1 \/ (i = j * 4 + 3 /\ prism r0 j = true))%nat) \/
  ((k = "par_world2L0" \/ k = "par_Ln2EE") /\ (3 <= i < 6)%nat).
(* The code replaces the cosine or sine of a constant angle by 0 when it is below 1e-15. This is exact
   when a constant angle that close to a multiple of pi/2 is that multiple. *)
Definition exact_angles (r0 : robot) : Prop :=
  forall k i, angle_entry r0 k i -> flag_set (nth i (flags r0 k) 0%Z) = false ->
    let a := nth i (arg r0 k) 0 in
    (Rabs (cos a) < / 10 ^ 15 -> cos a = 0) /\ (Rabs (sin a) < / 10 ^ 15 -> sin a = 0).

(* the same geometry with the replacement made explicit *)
Definition snap (r0 : robot) (k : string) (i : nat) (x : R) : R :=
  if flag_set (nth i (flags r0 k) 0%Z) then x else if Rlt_dec (Rabs x) (/ 10 ^ 15) then 0 else x.
Definition joint_frame_snap (r0 r' : robot) (i : nat) : rmat :=
  let p := param r0 r' "par_DHtable" in
  let ca := snap r0 "par_DHtable" (i * 4 + 1) (cos (p (i * 4 + 1)%nat)) in
  let sa := snap r0 "par_DHtable" (i * 4 + 1) (sin (p (i * 4 + 1)%nat)) in
  let th := joint_theta r0 r' i in
  let ct := if prism r0 i then snap r0 "par_DHtable" (i * 4 + 3) (cos th) else cos th in
  let st := if prism r0 i then snap r0 "par_DHtable" (i * 4 + 3) (sin th) else sin th in
  DHcs (p (i * 4)%nat) ca sa (joint_d r0 r' i) ct st.
Definition frame_snap (r0 r' : robot) (k : string) : rmat :=
  let p := param r0 r' k in
  let c i := snap r0 k i (cos (p i)) in let s i := snap r0 k i (sin (p i)) in
  framecs (p 0%nat) (p 1%nat) (p 2%nat) (c 3%nat) (s 3%nat) (c 4%nat) (s 4%nat) (c 5%nat) (s 5%nat).
Fixpoint fwd_snap (r0 r' : robot) (i : nat) : rmat :=
  match i with
  | O => frame_snap r0 r' "par_world2L0"
  | S k => rmul 4 (fwd_snap r0 r' k) (joint_frame_snap r0 r' k)
  end.

(* A motion: argument vectors depending on time, with constant parameters. *)
Record motion (name : string) (cfg : ynode) (r0 r : robot) (rho : R -> robot) : Prop := {
  mo_session : forall t, session name cfg r0 r (rho t);
  mo_par : forall k len s t, In (k, len) (par_sizes r0) -> arg (rho s) k = arg (rho t) k
}.
(* vector dk is the time derivative of vector k at time t; at every time *)
Definition follows_at (r0 : robot) (rho : R -> robot) (k dk : string) (t : R) : Prop :=
  forall i, (i < numJoints r0)%nat ->
    is_derive (fun s => state (rho s) k i) t (state (rho t) dk i).
Definition follows (r0 : robot) (rho : R -> robot) (k dk : string) : Prop :=
  forall t, follows_at r0 rho k dk t.

(* centre of mass of link i (1-based) as a point of the world: frame i applied to the CoM of par_DYN *)
Definition com_point (r0 r' : robot) (i : nat) : rvec := fun a =>
  fwd r0 r' i a 3%nat + rsum 3 (fun c => fwd r0 r' i a c * param r0 r' "par_DYN" (10 * (i - 1) + 1 + c)).

(* the 3x3 block of A changes squared lengths by a factor within [(1 - 1e-30)^k, 1] *)
Definition keeps_length (k : nat) (A : rmat) : Prop :=
  forall v, (1 - / 10 ^ 30) ^ k * rdot 3 v v <= rdot 3 (rmv 3 A v) (rmv 3 A v) <= rdot 3 v v.
