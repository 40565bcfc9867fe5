(* Vocabulary for the theorems about setters, inertial parameter vectors and parameter files. *)
From Coq Require Import Reals List String Arith ZArith Bool.
From Verif.Model Require Import Base Robot Yaml Build.
From Verif.Spec Require Import Math Setup.
Import ListNotations.
Open Scope string_scope.

(* ---- setters ---- *)
(* a setter: the argument it writes, the length it declares, the call *)
Record setter := mkSetter {
  s_arg : string; s_len : robot -> nat; s_call : robot -> list R -> res (robot * nat) }.
Definition state_setters : list setter :=
  [mkSetter "q" numJoints set_q; mkSetter "dq" numJoints set_dq;
   mkSetter "dqr" numJoints set_dqr; mkSetter "ddqr" numJoints set_ddqr].
Definition motor_setters : list setter :=
  [mkSetter "x" numElasticJoints set_x; mkSetter "dx" numElasticJoints set_dx;
   mkSetter "ddx" numElasticJoints set_ddx; mkSetter "ddxr" numElasticJoints set_ddxr].
Definition inertial_setters : list setter :=
  [mkSetter "par_DYN" (fun r => 10 * numJoints r)%nat set_par_DYN;
   mkSetter "par_REG" (fun r => 10 * numJoints r)%nat set_par_REG].
Definition setters : list setter := (state_setters ++ motor_setters ++ inertial_setters)%list.

(* r1 differs from r at most in its argument vectors, and there at most under the name k *)
Definition changes_only (k : string) (r r1 : robot) : Prop :=
  r1 = with_args r (args r1) /\ forall k', k' <> k -> get_arg r1 k' = get_arg r k'.
(* nothing a user can read has changed *)
Definition changes_nothing (r r1 : robot) : Prop :=
  r1 = with_args r (args r1) /\ (forall k, get_arg r1 k = get_arg r k) /\ (forall nm, get r1 nm = get r nm).

(* a sequence of calls; the result codes are collected in order *)
Fixpoint run (h : list (setter * list R)) (r : robot) : res (robot * list nat) :=
  match h with
  | [] => Ok (r, [])
  | (s, v) :: t =>
      '(r1, c) <- s_call s r v ;
      '(r2, cs) <- run t r1 ;
      Ok (r2, c :: cs)
  end.
(* the vector of the last call that wrote k with the declared length, or the original one *)
Fixpoint last_accepted (r : robot) (k : string) (h : list (setter * list R)) (v0 : list R) : list R :=
  match h with
  | [] => v0
  | (s, v) :: t =>
      last_accepted r k t (if String.eqb (s_arg s) k && Nat.eqb (List.length v) (s_len s r) then v else v0)
  end.
Definition result_code (r : robot) (c : setter * list R) : nat :=
  if Nat.eqb (List.length (snd c)) (s_len (fst c) r) then 1%nat else 0%nat.

(* ---- the two descriptions of the inertia of the links ---- *)
(* ten numbers per link; the last six are the upper triangle of a symmetric tensor *)
Definition tensor (p : nat -> R) : rmat := fun a b =>
  match a, b with
  | 0%nat, 0%nat => p 4%nat
  | 0%nat, 1%nat | 1%nat, 0%nat => p 5%nat
  | 0%nat, 2%nat | 2%nat, 0%nat => p 6%nat
  | 1%nat, 1%nat => p 7%nat
  | 1%nat, 2%nat | 2%nat, 1%nat => p 8%nat
  | 2%nat, 2%nat => p 9%nat
  | _, _ => 0%R
  end.
(* d = [m; c; I about the centre of mass], g = [m; m c; inertia about the frame origin]: Steiner's theorem *)
Definition same_link (d g : nat -> R) : Prop :=
  let c := fun a => d (1 + a)%nat in
  g 0%nat = d 0%nat /\
  (forall a, (a < 3)%nat -> g (1 + a)%nat = (d 0%nat * c a)%R) /\
  (forall a b, (a < 3)%nat -> (b < 3)%nat ->
     tensor g a b = (tensor d a b + d 0%nat * ((if Nat.eqb a b then rdot 3 c c else 0) - c a * c b))%R).
Definition link_of (p : list R) (i : nat) : nat -> R := fun c => nth (10 * i + c) p 0%R.
Definition same_links (n : nat) (D G : list R) : Prop :=
  forall i, (i < n)%nat -> same_link (link_of D i) (link_of G i).
Definition massive (n : nat) (p : list R) : Prop := forall i, (i < n)%nat -> link_of p i 0%nat <> 0%R.
(* the robot's two vectors are complete and describe the same links *)
Definition in_sync (r : robot) : Prop :=
  List.length (get_arg r "par_DYN") = (10 * numJoints r)%nat /\
  List.length (get_arg r "par_REG") = (10 * numJoints r)%nat /\
  same_links (numJoints r) (get_arg r "par_DYN") (get_arg r "par_REG").
