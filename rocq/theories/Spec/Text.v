(* Text substitution and generated source text, as a reader of the output sees them. *)
From Coq Require Import String Ascii List Bool Arith ZArith.
From Verif.Model Require Import Base Robot.
Import ListNotations.
Open Scope string_scope.

Definition occurs_in (w s : string) : Prop := exists a b, s = a ++ w ++ b.

(* the leftmost occurrence of from is replaced, then the text after it is treated in the same way; what has been
   written is not looked at again *)
Inductive replaced (from to : string) : string -> string -> Prop :=
| rep_none s : ~ occurs_in from s -> replaced from to s s
| rep_some pre rest rest' :
    (forall a b, pre ++ from ++ rest = a ++ from ++ b -> String.length pre <= String.length a) ->
    replaced from to rest rest' ->
    replaced from to (pre ++ from ++ rest) (pre ++ to ++ rest').

Definition nl : string := String (ascii_of_nat 10) "".
Definition tb : string := String (ascii_of_nat 9) "".
Definition lines (l : list string) : string := String.concat "" (map (fun s => s ++ nl) l).

(* the C++ type of an r x c matrix of doubles *)
Definition matrix_type (r c : nat) : string := "Eigen::Matrix<double," ++ to_string r ++ "," ++ to_string c ++ ">".
(* the array of pointers to the arguments a1, ..., ak *)
Definition pointers (args : list string) : string :=
  match args with
  | [] => "const double** input_ = nullptr;"
  | _ => "const double* input_[] = {" ++ String.concat ", " (map (fun a => a ++ ".data()") args) ++ "};"
  end.
(* the getter of function f with the given arguments and an r x c value: a buffer of r*c doubles, the arguments in
   order, one call of the generated function <robot>_<f>_fun, the buffer read as an r x c matrix *)
Definition getter (robot cls f descr : string) (args : list string) (r c : nat) : string :=
  let callee := robot ++ "_" ++ f ++ "_fun" in
  lines
    ["// - " ++ descr ++ " - //";
     matrix_type r c ++ " thunder_" ++ cls ++ "::get_" ++ f ++ "(){";
     tb ++ "thread_local double buffer[" ++ to_string (r * c) ++ "];";
     tb ++ "thread_local long long p3[" ++ callee ++ "_SZ_IW];";
     tb ++ "thread_local double p4[" ++ callee ++ "_SZ_W];";
     tb ++ pointers args;
     tb ++ "double* output_[] = {buffer};";
     tb ++ "int check = " ++ callee ++ "(input_, output_, p3, p4, 0);";
     tb ++ "return Eigen::Map<" ++ matrix_type r c ++ ">(buffer);";
     "}";
     ""].
(* its declaration *)
Definition declaration (f descr : string) (r c : nat) : string :=
  lines [tb ++ tb ++ "// - " ++ descr ++ " - //"; tb ++ tb ++ matrix_type r c ++ " get_" ++ f ++ "();"; ""].

(* a character of s at position i *)
Definition char_at (s : string) (i : nat) (a : ascii) : Prop := String.get i s = Some a.

(* several substitutions, one after the other *)
Inductive filled : list (string * string) -> string -> string -> Prop :=
| fill_nil s : filled [] s s
| fill_cons from to l s s1 s2 : replaced from to s s1 -> filled l s1 s2 -> filled ((from, to) :: l) s s2.
(* the first occurrence only *)
Definition first_replaced (w t s s' : string) : Prop :=
  exists pre rest, s = pre ++ w ++ rest /\ s' = pre ++ t ++ rest /\
    forall a b, s = a ++ w ++ b -> String.length pre <= String.length a.
(* the python definition of a getter *)
Definition dq : string := String (ascii_of_nat 34) "".
Definition binding (cls f descr : string) : string :=
  tb ++ tb ++ ".def(" ++ dq ++ "get_" ++ f ++ dq ++ ", &thunder_" ++ cls ++ "::get_" ++ f ++ ", " ++ dq ++ descr ++ dq ++ ")".
(* an initialiser {0, 1, ...} *)
Definition flag_list (l : list Z) : string :=
  "{" ++ String.concat ", " (map (fun z => to_string (Z.to_nat z)) l) ++ "}".
