(* C52: the frame class. *)
From Coq Require Import Reals String List Arith Bool Lra.
From Verif.Model Require Import Base Inertia Bodies FrameOffset.
From Verif.Spec Require Import FrameOffset.
From Verif.Proofs Require Import FrameOffset.
Import ListNotations.
Open Scope R_scope.

(* construction succeeds exactly for three-element vectors, and otherwise raises *)
Theorem C52_constructors :
  (forall ypr tr g f, new_frame ypr tr g = Ok f <->
     (List.length ypr = 3 /\ List.length tr = 3 /\ List.length g = 3)%nat /\ f = mkFrame ypr tr g) /\
  (forall ypr tr f, new_frame2 ypr tr = Ok f <-> (List.length ypr = 3 /\ List.length tr = 3)%nat /\ f = mkFrame ypr tr [0; 0; 0]) /\
  (forall ypr tr g m, new_frame ypr tr g <> UB m /\ new_frame2 ypr tr <> UB m).
Proof. exact (conj new_frame_iff (conj new_frame2_iff new_frame_not_ub)). Qed.
Print Assumptions C52_constructors.
(* the getters return the vectors given last *)
Theorem C52_getters_partial ypr tr g h : (List.length ypr = 3 /\ List.length tr = 3 /\ List.length g = 3)%nat ->
  (forall p v, In (p, v) h -> List.length v = 3%nat) ->
  let f := fo_run h (mkFrame ypr tr g) in
  fo_get_ypr f = given Angles h ypr /\ fo_get_translation f = Ok (given Translation h tr) /\ fo_get_gravity f = Ok (given Gravity h g) /\
  exists R T, fo_get_rotation f = Ok R /\ fo_get_transform f = Ok T /\
    (forall i j, (i < 3)%nat -> (j < 3)%nat -> T i j = R i j) /\
    (forall i, (i < 3)%nat -> T i 3%nat = nth i (given Translation h tr) 0) /\
    (forall j, (j < 3)%nat -> T 3%nat j = 0) /\ T 3%nat 3%nat = 1.
Proof. exact (getters_last ypr tr g h). Qed.
Print Assumptions C52_getters_partial.
(* hat(u) v = u x v, and hat(u) is skew *)
Theorem C52_hat u v : List.length u = 3%nat -> exists H, fo_hat u = Ok H /\
  (forall i, (i < 3)%nat -> sum3 (fun k => H i k * nth k v 0) = nth i (cross u v) 0) /\ (forall i j, (i < 3)%nat -> (j < 3)%nat -> H j i = - H i j).
Proof. exact (hat_cross u v). Qed.
Print Assumptions C52_hat.
(* the setters accept other lengths: a getter then reads past the end *)
Theorem C52_refuted : exists f v m, new_frame2 [0; 0; 0] [0; 0; 0] = Ok f /\ fo_get_translation (fo_set_translation v f) = UB m /\
  fo_get_transform (fo_set_translation v f) = UB m.
Proof. exact short_vector. Qed.
Print Assumptions C52_refuted.
Example C52_met : forall p v, In (p, v) [(Translation, [1; 2; 3]); (Angles, [0; 1; 0]); (Translation, [3; 2; 1])] -> List.length v = 3%nat.
Proof. intros p v H. simpl in H. destruct H as [H|[H|[H|[]]]]; injection H as <- <-; reflexivity. Qed.
