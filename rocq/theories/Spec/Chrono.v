(* Vocabulary for the theorems about the timing programs. *)
From Coq Require Import List String Arith ZArith.
Import ListNotations.
Open Scope string_scope.

(* a clock that never goes back *)
Definition steady (clock : nat -> Z) : Prop := forall i, (clock i <= clock (S i))%Z.
(* the time the j-th of a row of calls took, when the clock had been read i times before the first *)
Definition took (clock : nat -> Z) (i j : nat) : Z := (clock (i + 2 * j + 1)%nat - clock (i + 2 * j)%nat)%Z.
(* m is the smallest of the first n numbers d that satisfy P *)
Definition smallest (P : Z -> Prop) (n : nat) (d : nat -> Z) (m : Z) : Prop :=
  (exists j, j < n /\ m = d j) /\ P m /\ forall j, j < n -> P (d j) -> (m <= d j)%Z.
(* just under one second, in nanoseconds *)
Definition second : Z := 999999999.
Definition labels : list string := ["time Kin"; "time Jac"; "time M"; "time C"; "time C_std"; "time G"; "time Yr"].
(* What is printed for the seven functions, each called n times, when the clock had been read i times before: the time of
   the fastest call among those that count (P), if one of them took less than a second; otherwise a second. *)
Definition reports (P : Z -> Prop) (n : nat) (clock : nat -> Z) (i : nat) (l : list (string * Z)) : Prop :=
  map fst l = labels /\
  forall k lbl m, nth_error l k = Some (lbl, m) -> let d := took clock (i + 2 * n * k) in
    ((exists j, j < n /\ P (d j) /\ (d j <= second)%Z) -> smallest P n d m) /\
    ((forall j, j < n -> P (d j) -> (second <= d j)%Z) -> m = second).
