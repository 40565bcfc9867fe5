(* Outcomes, string-keyed ordered maps and decimal strings shared by the whole model. *)
From Coq Require Import List String Ascii Bool Arith ZArith.
From Coq Require Import DecimalString Decimal DecimalNat.
Import ListNotations.
Open Scope string_scope.

(* Outcome of a C++ call: normal return, C++ exception, or undefined behaviour
   (out-of-bounds std::vector access or use of an indeterminate value). *)
Inductive res (A : Type) : Type :=
| Ok (a : A)
| Throw (msg : string)
| UB (msg : string).
Arguments Ok {A} a.
Arguments Throw {A} msg.
Arguments UB {A} msg.

Definition bind {A B} (x : res A) (f : A -> res B) : res B :=
  match x with Ok a => f a | Throw m => Throw m | UB m => UB m end.
Notation "x <- e ; f" := (bind e (fun x => f)) (at level 61, e at next level, right associativity).
Notation "' p <- e ; f" := (bind e (fun p => f)) (at level 61, p pattern, e at next level, right associativity).

(* A counting for loop "for (int i = lo; i < lo+k; i++)" over an outcome-returning body. *)
Fixpoint loop {S : Type} (k lo : nat) (body : nat -> S -> res S) (s : S) : res S :=
  match k with
  | O => Ok s
  | S k' => s' <- body lo s ; loop k' (Datatypes.S lo) body s'
  end.

(* A range-for loop over the elements of a sequence. *)
Fixpoint loop_list {A S : Type} (l : list A) (body : A -> S -> res S) (s : S) : res S :=
  match l with
  | [] => Ok s
  | a :: t => s' <- body a s ; loop_list t body s'
  end.

(* std::map<std::string, V>: association list kept in increasing byte order of the keys
   (src/thunder/library/robot.h:75-78,136-137). *)
Definition smap (V : Type) := list (string * V).

Fixpoint mfind {V} (k : string) (m : smap V) : option V :=
  match m with
  | [] => None
  | (k', v) :: t => if String.eqb k k' then Some v else mfind k t
  end.

(* m[k] = v *)
Fixpoint mset {V} (k : string) (v : V) (m : smap V) : smap V :=
  match m with
  | [] => [(k, v)]
  | (k', v') :: t =>
      if String.eqb k k' then (k, v) :: t
      else if String.ltb k k' then (k, v) :: m
      else (k', v') :: mset k v t
  end.

(* m.insert({k, v}): no effect when the key is already there *)
Definition minsert {V} (k : string) (v : V) (m : smap V) : smap V :=
  match mfind k m with Some _ => m | None => mset k v m end.

(* m.count(k) != 0 *)
Definition mcount {V} (k : string) (m : smap V) : bool :=
  match mfind k m with Some _ => true | None => false end.

(* value read by m[k]; a missing key is first inserted with the value-initialised d *)
Definition mget {V} (d : V) (k : string) (m : smap V) : V :=
  match mfind k m with Some v => v | None => d end.

Definition mtouch {V} (d : V) (k : string) (m : smap V) : smap V := minsert k d m.

(* std::to_string of a non-negative int *)
Definition to_string (n : nat) : string := NilEmpty.string_of_uint (Nat.to_uint n).

(* list update l[i] = v; None when i is out of range *)
Fixpoint lset {A} (l : list A) (i : nat) (v : A) : option (list A) :=
  match l, i with
  | [], _ => None
  | _ :: t, O => Some (v :: t)
  | a :: t, S i' => match lset t i' v with Some t' => Some (a :: t') | None => None end
  end.
