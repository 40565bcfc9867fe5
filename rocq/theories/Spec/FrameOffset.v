(* Vocabulary for the frame class: histories of setter calls. *)
From Coq Require Import Reals List Arith.
From Verif.Model Require Import Base Bodies FrameOffset.
Import ListNotations.
Open Scope R_scope.

Inductive part := Angles | Translation | Gravity.
Definition part_eqb (a b : part) : bool :=
  match a, b with Angles, Angles | Translation, Translation | Gravity, Gravity => true | _, _ => false end.
(* one setter call: the part that is set, and the vector *)
Definition fo_call (c : part * list R) (f : frame) : frame :=
  match fst c with Angles => fo_set_ypr (snd c) f | Translation => fo_set_translation (snd c) f | Gravity => fo_set_gravity (snd c) f end.
Definition fo_run (h : list (part * list R)) (f : frame) : frame := fold_left (fun f c => fo_call c f) h f.
(* the vector given last for a part *)
Fixpoint given (p : part) (h : list (part * list R)) (v0 : list R) : list R :=
  match h with [] => v0 | (p', v) :: t => given p t (if part_eqb p p' then v else v0) end.
Definition cross (u v : list R) : list R :=
  let x := nth 0 u 0 in let y := nth 1 u 0 in let z := nth 2 u 0 in
  [y * nth 2 v 0 - z * nth 1 v 0; z * nth 0 v 0 - x * nth 2 v 0; x * nth 1 v 0 - y * nth 0 v 0].
