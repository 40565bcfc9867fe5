(* YAML documents as yaml-cpp presents them to the code: a tree of nodes.
   Text parsing and printing are not modelled; None stands for a YAML::Exception. *)
From Coq Require Import Reals String List Bool Arith ZArith.
From Verif.Model Require Import Base.
Import ListNotations.
Open Scope string_scope.

Inductive ynode : Type :=
| YUndef                      (* undefined node returned by the non-const operator[] *)
| YZombie                     (* invalid node returned by the const operator[] *)
| YNull
| YInt (z : Z)
| YDbl (r : R)
| YBool (b : bool)
| YStr (s : string)
| YSeq (l : list ynode)
| YMap (l : list (string * ynode)).

Definition yres (A : Type) := option A.
Definition ybind {A B} (x : yres A) (f : A -> yres B) : yres B :=
  match x with Some a => f a | None => None end.

(* Node::operator[](key), non-const: missing keys (and undefined, null, sequence nodes) give an
   undefined node; scalars raise BadSubscript; invalid nodes raise InvalidNode *)
Definition yidx (n : ynode) (k : string) : yres ynode :=
  match n with
  | YMap l => Some (mget YUndef k l)
  | YUndef | YNull | YSeq _ => Some YUndef
  | YZombie => None
  | _ => None
  end.
(* Node::operator[](key) const: missing keys give an invalid (zombie) node *)
Definition yidx_c (n : ynode) (k : string) : yres ynode :=
  match n with
  | YMap l => Some (mget YZombie k l)
  | YUndef | YNull | YSeq _ => Some YZombie
  | YZombie => None
  | _ => None
  end.
(* Node::operator bool *)
Definition ydef (n : ynode) : bool :=
  match n with YUndef | YZombie => false | _ => true end.

Definition as_int (n : ynode) : yres Z := match n with YInt z => Some z | _ => None end.
Definition as_double (n : ynode) : yres R :=
  match n with YInt z => Some (IZR z) | YDbl r => Some r | _ => None end.
Definition as_bool (n : ynode) : yres bool := match n with YBool b => Some b | _ => None end.
(* as<std::string>: the text of any scalar; only the text of string scalars is kept, which is enough
   because the code only compares such strings with joint type names or copies them *)
Definition as_string (n : ynode) : yres string :=
  match n with
  | YStr s => Some s
  | YInt _ | YDbl _ | YBool _ => Some "<scalar>"
  | _ => None
  end.
Fixpoint ymap {A} (f : ynode -> yres A) (l : list ynode) : yres (list A) :=
  match l with
  | [] => Some []
  | n :: t => ybind (f n) (fun a => ybind (ymap f t) (fun r => Some (a :: r)))
  end.
Definition as_vector {A} (f : ynode -> yres A) (n : ynode) : yres (list A) :=
  match n with YSeq l => ymap f l | _ => None end.

(* children visited by "for (const auto& node : n)" on a map, in document order; other nodes that the
   code iterates over (undefined, null) have none. Iterating a sequence gives entries whose .second is
   invalid: modelled by zombies. *)
Definition ychildren (n : ynode) : list (string * ynode) :=
  match n with
  | YMap l => l
  | YSeq l => map (fun _ => ("", YZombie)) l
  | _ => []
  end.
