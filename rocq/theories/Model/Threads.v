(* Threads that use objects of the generated class. Models the body of a generated getter, utils.cpp:211-236, step by step:
   the C function computes one entry after the other in its work array p4 and stores it in buffer; then Eigen::Map copies
   the buffer, column by column, into the matrix that is returned. buffer, p3 and p4 are thread_local variables of the
   getter. Other methods are one step.
   Simplifications: one number of p4 stands for the work array; memory is sequentially consistent. *)
From Coq Require Import Reals String List Bool Arith.
From Verif.Model Require Import Base SX Robot Template.
Import ListNotations.
Open Scope nat_scope.
Open Scope string_scope.

(* what a thread does: calls of getters, and of other methods of its object *)
Inductive item := Ask (f : string) | Do (c : tobj -> res tobj).
(* where a thread is: between two calls; in the C function; in the copy; ended by an exception or a crash *)
Inductive place := Between | Compute (f : string) (i : nat) | Store (f : string) (i : nat) | Load (f : string) (l : list R) | Dead.
Record thread := mkThread { todo : list item; here : place; got : list (string * mat) }.
Record memory := mkMemory {
  objects : nat -> tobj; threads : nat -> thread;
  buffers : nat -> string -> nat -> R;      (* buffer of a getter, one per owner *)
  works : nat -> string -> R                (* p4 of a getter, one per owner *)
}.
(* utils.cpp:217-219: thread_local *)
Definition owner (thread : nat) : nat := thread.

Definition set {A} (k : nat) (v : A) (f : nat -> A) : nat -> A := fun j => if Nat.eqb j k then v else f j.
Definition set_work (k : nat) (f : string) (x : R) (w : nat -> string -> R) : nat -> string -> R :=
  fun j g => if Nat.eqb j k && String.eqb g f then x else w j g.
Definition set_buffer (k : nat) (f : string) (i : nat) (x : R) (b : nat -> string -> nat -> R) : nat -> string -> nat -> R :=
  fun j g n => if Nat.eqb j k && String.eqb g f && Nat.eqb n i then x else b j g n.

(* out_size of a getter *)
Definition out_size (r : robot) (f : string) : nat * nat :=
  match find (fun fo => String.eqb (fo_name fo) f) (get_functions r) with Some fo => (fo_rows fo, fo_cols fo) | None => (0, 0) end.
(* Eigen::Map<Matrix<double, rows, cols>>(buffer) *)
Definition mapped (rr cc : nat) (l : list R) : mat := mkMat rr cc (fun i j => nth (j * rr + i) l 0%R).

(* r: the robot the class was generated from; which: the object thread k works with *)
Definition step (r : robot) (which : nat -> nat) (k : nat) (g : memory) : memory :=
  let t := threads g k in let x := objects g (which k) in
  let go p := mkMemory (objects g) (set k p (threads g)) (buffers g) (works g) in
  let at_ p := mkThread (todo t) p (got t) in
  match here t with
  | Dead => g
  | Between =>
      match todo t with
      | [] => g
      | Ask f :: l => go (mkThread l (Compute f 0) (got t))
      | Do c :: l =>
          match c x with
          | Ok x' => mkMemory (set (which k) x' (objects g)) (set k (mkThread l Between (got t)) (threads g)) (buffers g) (works g)
          | Throw _ | UB _ => go (at_ Dead)
          end
      end
  | Compute f i =>
      match t_get r x f with
      | Ok m =>
          if Nat.ltb i (m_rows m * m_cols m)
          then mkMemory (objects g) (set k (at_ (Store f i)) (threads g)) (buffers g)
                 (set_work (owner k) f (m_val m (i mod m_rows m) (i / m_rows m)) (works g))
          else go (at_ (Load f []))
      | Throw _ | UB _ => go (at_ Dead)
      end
  | Store f i =>
      if Nat.ltb i (fst (out_size r f) * snd (out_size r f))
      then mkMemory (objects g) (set k (at_ (Compute f (S i))) (threads g)) (set_buffer (owner k) f i (works g (owner k) f) (buffers g)) (works g)
      else go (at_ Dead)    (* past the end of the buffer *)
  | Load f l =>
      if Nat.ltb (List.length l) (fst (out_size r f) * snd (out_size r f))
      then go (at_ (Load f (l ++ [buffers g (owner k) f (List.length l)])))
      else go (mkThread (todo t) Between (got t ++ [(f, mapped (fst (out_size r f)) (snd (out_size r f)) l)]))
  end.
(* a schedule says which thread makes the next step *)
Definition run_schedule (r : robot) (which : nat -> nat) (s : list nat) (g : memory) : memory :=
  fold_left (fun g k => step r which k g) s g.
