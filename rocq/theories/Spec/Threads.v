(* What a thread would get if it were alone. *)
From Coq Require Import Reals String List Bool Arith.
From Verif.Model Require Import Base Robot Template Threads.
From Verif.Spec Require Import Math Kinematics Template Api.
Import ListNotations.
Open Scope nat_scope.

(* one call after the other on one object *)
Fixpoint alone (r : robot) (t : tobj) (l : list item) : list (string * mat) :=
  match l with
  | [] => []
  | Ask f :: l => match t_get r t f with Ok m => (f, m) :: alone r t l | _ => [] end
  | Do c :: l => match c t with Ok t' => alone r t' l | _ => [] end
  end.
Definition same_answer (a b : string * mat) : Prop :=
  fst a = fst b /\ m_rows (snd a) = m_rows (snd b) /\ m_cols (snd a) = m_cols (snd b) /\ agree (m_rows (snd b)) (m_cols (snd b)) (m_val (snd a)) (m_val (snd b)).
(* the threads before they start: anything may be in the buffers *)
Definition starting (progs : nat -> list item) (objs : nat -> tobj) (g : memory) : Prop :=
  objects g = objs /\ forall k, threads g k = mkThread (progs k) Between [].
(* an object used by two threads is only read *)
Definition disciplined (which : nat -> nat) (progs : nat -> list item) : Prop :=
  forall k k', k <> k' -> which k = which k' -> forall c, ~ In (Do c) (progs k).

(* a program written as calls of the methods of the class *)
Inductive request := Getter (f : string) | Method (c : tcall).
Definition program (junk : nat -> R) (l : list request) : list item :=
  map (fun q => match q with Getter f => Ask f | Method c => Do (t_do junk c) end) l.
Definition getters (l : list request) : list string := flat_map (fun q => match q with Getter f => [f] | Method _ => [] end) l.
Definition methods (l : list request) : list tcall := flat_map (fun q => match q with Getter _ => [] | Method c => [c] end) l.
