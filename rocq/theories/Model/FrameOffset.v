(* The class FrameOffset: constructors, setters and getters.
   Models src/thunder/src/FrameOffset.cpp; the frame record and the matrices are in Bodies.v. *)
From Coq Require Import Reals String List Arith Bool.
From Verif.Model Require Import Base Inertia Bodies.
Import ListNotations.
Open Scope R_scope.
Open Scope string_scope.

(* the default constructor, FrameOffset.cpp:5-10: three vectors of three zeros *)
Definition empty_frame : frame := mkFrame [0; 0; 0] [0; 0; 0] [0; 0; 0].
(* set_gravity, set_translation, set_ypr, FrameOffset.cpp:120-124: plain copies, no check *)
Definition fo_set_gravity (g : list R) (f : frame) : frame := mkFrame (f_ypr f) (f_tr f) g.
Definition fo_set_translation (t : list R) (f : frame) : frame := mkFrame (f_ypr f) t (f_g f).
Definition fo_set_ypr (a : list R) (f : frame) : frame := mkFrame a (f_tr f) (f_g f).
(* v[0], v[1], v[2] of a std::vector: past the end is undefined *)
Definition read3 (v : list R) : res (list R) :=
  match v with a :: b :: c :: _ => Ok [a; b; c] | _ => UB "vector index out of range" end.
(* get_ypr (44) returns the vector; get_translation (69-78) and get_gravity (111-118) its first three elements *)
Definition fo_get_ypr (f : frame) : list R := f_ypr f.
Definition fo_get_translation (f : frame) : res (list R) := read3 (f_tr f).
Definition fo_get_gravity (f : frame) : res (list R) := read3 (f_g f).
(* get_rotation (46-67) and get_transform (80-109) *)
Definition fo_get_rotation (f : frame) : res m3 :=
  match read3 (f_ypr f) with Ok _ => Ok (get_rotation f) | Throw m => Throw m | UB m => UB m end.
Definition fo_get_transform (f : frame) : res (nat -> nat -> R) :=
  match read3 (f_ypr f), read3 (f_tr f) with
  | Ok _, Ok _ => Ok (get_transform f)
  | UB m, _ | _, UB m => UB m
  | Throw m, _ | _, Throw m => Throw m
  end.
(* hat, FrameOffset.cpp:126-148: a wrong size is only reported on the console *)
Definition fo_hat (v : list R) : res m3 :=
  match read3 v with Ok _ => Ok (hat v) | Throw m => Throw m | UB m => UB m end.
