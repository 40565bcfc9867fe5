(* C84, C85: functions added by the user in compute_userDefined, and the example shipped for it. *)
From Coq Require Import Reals Lra Lia Arith List String Bool ZArith.
From Verif.Model Require Import Base Expr SX Robot Yaml Build UserDefined Template.
From Verif.Spec Require Import Math Setup Api State Template UserDefined Sample.
From Verif.Proofs Require Import Load Final Sample UserDefined UserExample TGet.
Import ListNotations.
Open Scope nat_scope.
Open Scope string_scope.

(* User code that adds the well-formed functions l: the construction succeeds, the vectors of the robot keep their
   initial values, exactly the functions of l are published in addition, every other function answers as before, and
   every function of l is listed with its arguments and size and answers with its expression evaluated at the current
   state and parameters, where expressions published by the robot stand for their current results. *)
Theorem C84_extension name cfg r0 r r' s l user : session name cfg r0 r r' -> handed name cfg s -> well_formed_users r0 s r' l ->
  user s = add_all l s -> exists ru, robot_from_file_with user name cfg = Ok ru /\
    (forall k, vector_of r0 k -> get_arg ru k = get_arg r k) /\
    (forall nm, published ru nm <-> In nm (map u_name l) \/ published r nm) /\
    (forall nm, ~ In nm (map u_name l) -> get (with_args ru (args r')) nm = get r' nm) /\
    exists rho, current r0 s r' rho /\ forall u, In u l ->
      In (mkFunObj (u_name u) (u_args u) (rows (u_expr u)) (cols (u_expr u))) (get_functions ru) /\
      exists m, get (with_args ru (args r')) (u_name u) = Ok m /\ m_rows m = rows (u_expr u) /\ m_cols m = cols (u_expr u) /\
        forall i j, i < m_rows m -> j < m_cols m -> m_val m i j = eval rho (el (u_expr u) i j).
Proof. intros Hs Hh Hw Hu. exact (extension name cfg r0 r r' s Hs Hh l user Hw Hu). Qed.
Print Assumptions C84_extension.
(* In the generated class, with members that hold what the Robot object holds, the getter of such a function answers
   the same, provided that its arguments are vectors of the robot. *)
Theorem C84_class name cfg r0 r r' s l user ru t : session name cfg r0 r r' -> handed name cfg s -> well_formed_users r0 s r' l ->
  user s = add_all l s -> robot_from_file_with user name cfg = Ok ru -> sized t -> same_class (new_class r) t ->
  (forall k len, In (k, len) (state_sizes r0) -> arg r' k = member t k) ->
  (forall k len, In (k, len) (par_sizes r0) -> arg r' k = firstn (selected (flags r0 k)) (member t k)) ->
  forall u, In u l -> (forall k, In k (u_args u) -> vector_of r0 k) ->
  t_get ru t (u_name u) = get (with_args ru (args r')) (u_name u).
Proof. intros Hs Hh Hw Hu. exact (extension_class name cfg r0 r r' s Hs Hh l user Hw Hu ru t). Qed.
Print Assumptions C84_class.
(* The body that is shipped adds nothing. *)
Theorem C84_shipped name cfg : robot_from_file_with compute_userDefined name cfg = robot_from_file name cfg true.
Proof. exact (shipped_user name cfg). Qed.
Print Assumptions C84_shipped.

(* The shipped example, with at least one number for every joint under q0: one more function, q0_dist, the Euclidean
   distance of q from q0. Missing from the full claim: shorter lists and the generated class, see the next theorems. *)
Theorem C85_distance_partial name cfg r0 r r' nd v : session name cfg r0 r r' -> yidx cfg "q0" = Some nd ->
  as_vector as_double nd = Some v -> numJoints r0 <= List.length v -> get_arg r' "q0" = [] ->
  exists ru, robot_from_file_with (userDefined_example cfg) name cfg = Ok ru /\
    (forall nm, published ru nm <-> nm = "q0_dist" \/ published r nm) /\
    (forall nm, nm <> "q0_dist" -> get (with_args ru (args r')) nm = get r' nm) /\
    exists m, get (with_args ru (args r')) "q0_dist" = Ok m /\ m_rows m = 1 /\ m_cols m = 1 /\
      m_val m 0 0 = distance (numJoints r0) (state r' "q") (fun i => nth i v 0%R).
Proof. intros Hs Hy Hv. exact (example_distance name cfg r0 r r' Hs nd v Hy Hv). Qed.
Print Assumptions C85_distance_partial.
(* A file without q0 gives the plain robot. *)
Theorem C85_absent name cfg : yidx cfg "q0" = Some YUndef ->
  robot_from_file_with (userDefined_example cfg) name cfg = robot_from_file name cfg true.
Proof. exact (example_absent name cfg). Qed.
Print Assumptions C85_absent.
(* A list with fewer numbers than joints is read past its end. *)
Theorem C85_short_refuted name cfg r0 r r' nd v : session name cfg r0 r r' -> yidx cfg "q0" = Some nd ->
  as_vector as_double nd = Some v -> List.length v < numJoints r0 ->
  robot_from_file_with (userDefined_example cfg) name cfg = UB "q0_vect out of range".
Proof. intros Hs Hy Hv. exact (example_short name cfg r0 r r' Hs nd v Hy Hv). Qed.
Print Assumptions C85_short_refuted.
(* The getter in the generated class reads a data member q0, which no generated class has. *)
Theorem C85_class_refuted name cfg r0 r r' nd v ru : session name cfg r0 r r' -> yidx cfg "q0" = Some nd ->
  as_vector as_double nd = Some v -> numJoints r0 <= List.length v -> get_arg r' "q0" = [] ->
  robot_from_file_with (userDefined_example cfg) name cfg = Ok ru ->
  t_get ru (new_class ru) "q0_dist" = Throw "does not compile: no such member".
Proof. intros Hs Hy Hv. exact (example_class name cfg r0 r r' Hs nd v Hy Hv ru). Qed.
Print Assumptions C85_class_refuted.

(* Non-vacuity: the sample robot with a q0 at distance 3, and with a q0 that is too short. *)
Definition plus_q0 (v : list R) (h : R) : ynode := match toy_cfg h with YMap l => YMap (l ++ [("q0", ys v)]) | n => n end.
Lemma plus_loads v h : robot_from_file "toy" (plus_q0 v h) false = Ok (toy0 h).
Proof. vm_compute. reflexivity. Qed.
Lemma plus_session v h r t : robot_from_file "toy" (toy_cfg h) true = Ok r ->
  session "toy" (plus_q0 v h) (toy0 h) r (toy_rho r h t).
Proof.
  intros Hr. destruct (toy_session h r t Hr) as [[A B C D E F] _]. constructor; [exact (plus_loads v h)|exact B| |exact D|exact E|exact F].
  exact (eq_trans (file_build _ _ _ (plus_loads v h)) (eq_trans (eq_sym (file_build _ _ _ A)) C)).
Qed.
Example C84_met : exists r s e, let r0 := toy0 (PI / 2) in let cfg := plus_q0 [1; 1; 4]%R (PI / 2) in
  session "toy" cfg r0 r (toy_rho r (PI / 2) 1) /\ handed "toy" cfg s /\
  userDefined_example cfg s = add_all [mkUser "q0_dist" e ["q"; "q0"]] s /\
  well_formed_users r0 s (toy_rho r (PI / 2) 1) [mkUser "q0_dist" e ["q"; "q0"]].
Proof.
  destruct (toy_built (PI / 2)) as [r Hr]. pose proof (plus_session [1; 1; 4]%R (PI / 2) r 1%R Hr) as S.
  destruct (example_handed _ _ _ _ _ S) as (s & Hh & _).
  destruct (example_user "toy" (plus_q0 [1; 1; 4]%R (PI / 2)) _ _ _ S (ys [1; 1; 4]%R) [1; 1; 4]%R eq_refl eq_refl s Hh) as (e & A & B & _).
  - vm_compute. lia.
  - reflexivity.
  - exists r, s, e. cbv zeta. split; [exact S|]. split; [exact Hh|]. split; [exact A|exact B].
Qed.
Example C85_met : exists r r', session "toy" (plus_q0 [1; 1; 4]%R (PI / 2)) (toy0 (PI / 2)) r r' /\ get_arg r' "q0" = [] /\
  numJoints (toy0 (PI / 2)) = 3 /\ distance 3 (state r' "q") (fun i => nth i [1; 1; 4]%R 0%R) = 3%R /\
  session "toy" (plus_q0 [1; 1]%R (PI / 2)) (toy0 (PI / 2)) r r'.
Proof.
  destruct (toy_built (PI / 2)) as [r Hr]. exists r, (toy_rho r (PI / 2) 1). split; [exact (plus_session _ _ _ _ Hr)|].
  split; [reflexivity|]. split; [vm_compute; reflexivity|]. split; [|exact (plus_session _ _ _ _ Hr)].
  unfold distance. cbn [rsum]. rewrite !(toy_state _ _ _ "q" 3) by (auto; vm_compute; auto). cbn [toy_args nth].
  replace (_ + _)%R with (3 * 3)%R; [apply sqrt_square; lra|]. cbn. ring.
Qed.
