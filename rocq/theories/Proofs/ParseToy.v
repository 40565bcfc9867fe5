(* Configurations on which the parser and the loader leave their buffers, and one on which they do not. *)
From Coq Require Import Reals List Arith String Bool Lia ZArith.
From Verif.Model Require Import Base Expr SX Robot Yaml Inertia Build.
From Verif.Spec Require Import Setup Config State Sample.
From Verif.Proofs Require Import Maps Names Load Sample Types Parse LoadSafe.
Import ListNotations.
Open Scope nat_scope.
Open Scope string_scope.

(* the sample configuration with one section replaced *)
Definition alter (k : string) (v : ynode) (n : ynode) : ynode :=
  match n with YMap l => YMap (map (fun kv => if String.eqb (fst kv) k then (k, v) else kv) l) | _ => n end.

(* one more link than joints: the flags of the fourth link are written past the end *)
Definition four_links (h : R) : ynode :=
  alter "dynamics" (YMap [("link1", toy_link 1); ("link2", toy_link 2); ("link3", toy_link 3); ("link4", toy_link 1)]) (toy_cfg h).
(* fewer joint types than joints: read past the end, before the sizes are compared *)
Definition two_types (h : R) : ynode := alter "type_joints" (YSeq [YStr "R"; YStr "P"]) (toy_cfg h).
(* friction coefficients of a lower order than declared *)
Definition short_friction (h : R) : ynode :=
  alter "dynamics" (YMap [("link1", toy_link 1); ("link2", toy_link 2);
    ("link3", YMap [("inertial", YMap (combine inertial_keys (map YDbl [1; 0; 0; 0; 1; 0; 0; 1; 0; 1]%R))); ("friction", YMap [("Dl", ys [1]%R)])])]) (toy_cfg h).
Lemma four_links_ub (h : R) name : parse_config name (four_links h) = PUB "std::copy past the end of the symbolic flags".
Proof. vm_compute. reflexivity. Qed.
Lemma two_types_ub (h : R) name : parse_config name (two_types h) = PUB "jointsType out of range".
Proof. vm_compute. reflexivity. Qed.
Lemma short_friction_ub (h : R) name : robot_from_file name (short_friction h) false = UB "vector index out of range".
Proof. vm_compute. reflexivity. Qed.

Lemma toy_fits (h : R) : fits (toy_cfg h).
Proof.
  constructor.
  - intros z tj H1 H2. inversion H1; inversion H2; subst. vm_compute. discriminate.
  - intros z d H1 H2. inversion H1; inversion H2; subst. vm_compute. discriminate.
  - intros d k link s H1 H2 H3. inversion H1; subst d. cbn [ychildren In] in H2.
    destruct H2 as [H2|[H2|[H2|[]]]]; apply (f_equal snd) in H2; cbn [snd] in H2; subst link; inversion H3; subst s; cbn; lia.
  - intros z d k link s H0 H1 H2 H3. inversion H0; subst z. inversion H1; subst d. cbn [ychildren In] in H2.
    destruct H2 as [H2|[H2|[H2|[]]]]; apply (f_equal snd) in H2; cbn [snd] in H2; subst link; inversion H3; subst s; cbn; lia.
  - intros sec key v H1 H2. cbn [In] in H1. destruct H1 as [H1|[H1|[H1|[H1|[H1|[]]]]]]; inversion H1; subst; inversion H2; subst; cbn; lia.
Qed.
Lemma toy_fills (h : R) r : reports (toy_cfg h) r -> fills r (toy_cfg h).
Proof.
  intros R. pose proof (rp_Dl _ _ R) as RD. pose proof (rp_ELASTIC _ _ R) as RE. pose proof (rp_orders _ _ R) as RO.
  cbv [entry toy_cfg mfind String.eqb Ascii.eqb Bool.eqb] in RD, RE. rewrite <- RE in RO. destruct RO as (K & D & M).
  inversion K as [K']. inversion D as [D']. inversion M as [M'].
  constructor.
  - intros d k link v H1 H2 H3. inversion H1; subst d. cbn [ychildren In] in H2.
    destruct H2 as [H2|[H2|[H2|[]]]]; apply (f_equal snd) in H2; cbn [snd] in H2; subst link; inversion H3; subst v; cbn; lia.
  - intros js k joint key v H1 H2 H3 H4. inversion H1; subst js. cbn [ychildren In] in H2. destruct H2 as [H2|[]].
    apply (f_equal snd) in H2; cbn [snd] in H2; subst joint. cbn [In] in H3.
    destruct H3 as [<-|[<-|[<-|[]]]]; cbn [fst snd] in *; inversion H4; subst v; cbn [items ys map List.length]; lia.
Qed.

(* an unknown joint type in an otherwise consistent configuration *)
Definition odd_type (h : R) : ynode := alter "type_joints" (YSeq [YStr "R"; YStr "hinge"; YStr "R_SEA"]) (toy_cfg h).
Definition odd0 (h : R) : robot := match robot_from_file "odd" (odd_type h) false with Ok r => r | _ => no_robot end.
Lemma odd_loads (h : R) : robot_from_file "odd" (odd_type h) false = Ok (odd0 h).
Proof. vm_compute. reflexivity. Qed.
Lemma odd_met (h : R) : robot_from_file "odd" (odd_type h) false = Ok (odd0 h) /\ identifier (robotName (odd0 h)) /\ 1 <= numJoints (odd0 h) /\
  (forall k len, In (k, len) (par_sizes (odd0 h)) -> List.length (flags (odd0 h) k) = len /\ List.length (arg (odd0 h) k) = len) /\
  exists t, In t (jointsType (odd0 h)) /\ ~ In t ["R"; "P"; "R_SEA"; "P_SEA"].
Proof.
  split; [apply odd_loads|]. split; [apply identifier_check; reflexivity|]. split; [vm_compute; lia|]. split.
  - intros k len Hk. vm_compute in Hk. decompose [or] Hk; try contradiction;
      match goal with E : _ = _ |- _ => injection E as <- <- end; vm_compute; split; reflexivity.
  - exists "hinge". split; [vm_compute; auto|]. intros H. repeat destruct H as [H|H]; try discriminate. destruct H.
Qed.
