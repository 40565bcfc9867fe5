(* What a user function may use, and what the shipped example promises. *)
From Coq Require Import Reals List String Arith.
From Verif.Model Require Import Base Expr SX Robot Yaml Build UserDefined.
From Verif.Spec Require Import Math Setup.
Import ListNotations.
Open Scope nat_scope.
Open Scope string_scope.

(* s: the robot as the user code finds it *)
Definition handed (name : string) (cfg : ynode) (s : robot) : Prop :=
  exists r0, robot_from_file name cfg false = Ok r0 /\ before_user r0 = Ok s.

(* an argument of a user function: a state or parameter vector of the robot, or a name the robot does not know and
   nobody has stored a value for *)
Definition vector_of (r0 : robot) (k : string) : Prop := exists len, In (k, len) (state_sizes r0 ++ par_sizes r0)%list.
Definition unknown_to (s r' : robot) (k : string) : Prop :=
  mcount k (model s) = false /\ mcount k (symb s) = false /\ get_arg r' k = [].

(* The user functions l are well formed for the robot s: names that can be names of functions, different from each
   other and from the vectors of the robot; arguments without repetition; and no symbol in the expression that is
   not an element of one of the arguments. *)
Record well_formed_users (r0 s r' : robot) (l : list user_fun) : Prop := {
  wu_names : NoDup (map u_name l);
  wu_fun : forall u, In u l ->
    identifier (u_name u) /\ mcount (u_name u) (symb s) = false /\ ok (u_expr u) = true /\ NoDup (u_args u) /\
    (forall k, In k (u_args u) -> ~ In k (map u_name l) /\ (vector_of r0 k \/ unknown_to s r' k)) /\
    (forall i j, i < rows (u_expr u) -> j < cols (u_expr u) -> forall x, occurs x (el (u_expr u) i j) = true ->
       exists k i', In k (u_args u) /\ i' < rows (mdl s k) /\ el (mdl s k) i' 0 = Var x)
}.

(* rho gives every vector of the model its current value and every expression the robot has published its
   current result *)
Record current (r0 s r' : robot) (rho : sym -> R) : Prop := {
  cu_vec : forall k len i, In (k, len) (state_sizes r0 ++ par_sizes r0)%list -> i < len ->
    eval rho (el (mdl s k) i 0) = param r0 r' k i;
  cu_pub : forall fo, In fo (get_functions s) -> exists m, get r' (fo_name fo) = Ok m /\
    m_rows m = rows (mdl s (fo_name fo)) /\ m_cols m = cols (mdl s (fo_name fo)) /\
    forall i j, i < m_rows m -> j < m_cols m -> eval rho (el (mdl s (fo_name fo)) i j) = m_val m i j
}.

(* Euclidean distance of two points of n coordinates *)
Definition distance (n : nat) (x y : nat -> R) : R := sqrt (rsum n (fun i => (x i - y i) * (x i - y i))%R).
