(* The file written by save_par of the generated class, and what load_par of the robot makes of it. *)
From Coq Require Import Reals List String Arith ZArith Bool Lia Lra.
From Verif.Model Require Import Base Expr SX Robot Yaml Inertia Build Template.
From Verif.Spec Require Import Math Setup State Config Template Sample.
From Verif.Proofs Require Import Maps Load State Files Sample TToy.
Import ListNotations.
Open Scope nat_scope.
Open Scope string_scope.

(* the entries whose key is the name of the argument *)
Definition kept_keys : list string := ["par_DYN"; "par_REG"; "par_K"; "par_Dl"; "par_D"; "par_Dm"; "par_Mm"].
(* the entries that are written under a shorter name *)
Definition short_keys : list (string * string) :=
  [("DHtable", "par_DHtable"); ("world2L0", "par_world2L0"); ("Ln2EE", "par_Ln2EE"); ("gravity", "par_gravity")].

Lemma save_par_entries t : forall k, entry (t_save_par t) k =
  match mfind k (short_keys ++ map (fun k => (k, k)) kept_keys)%list with
  | Some m => Some (YSeq (map YDbl (member t m)))
  | None => None
  end.
Proof.
  intros k. unfold t_save_par, entry, short_keys, kept_keys. cbn [app map mfind].
  repeat match goal with |- context [String.eqb k ?x] => destruct (String.eqb k x); [reflexivity|] end. reflexivity.
Qed.
Lemma seq_numbers l : as_vector as_double (YSeq (map YDbl l)) = Some l.
Proof. cbn [as_vector]. apply ymap_dbl. Qed.

Lemma kept_found t k : In k kept_keys -> mfind k (match t_save_par t with YMap l => l | _ => [] end) = Some (YSeq (map YDbl (member t k))).
Proof. intros H. cbn [kept_keys In] in H. repeat destruct H as [<-|H]; try reflexivity. destruct H. Qed.

Theorem saved_loads t r sel : sel <> [] -> incl sel kept_keys ->
  (forall k, In k sel -> List.length (get_arg r k) = List.length (member t k)) ->
  exists r1, load_par r (t_save_par t) sel = Ok (r1, 1) /\ r1 = with_args r (args r1) /\
    forall k, (In k sel -> get_arg r1 k = member t k) /\ (~ In k sel -> get_arg r1 k = get_arg r k).
Proof.
  intros Hs Hi Hl. set (rt := with_args r (t_val t)).
  assert (G : forall k, get_arg rt k = member t k) by reflexivity.
  unfold load_par. destruct sel as [|k0 s0] eqn:Es; [congruence|]. rewrite <- Es in *.
  destruct (load_some_ok rt (t_save_par t) _ eq_refl sel r) as (r1 & E & A & B).
  - intros k Hk. unfold node_of. rewrite G. apply (kept_found t k). now apply Hi.
  - intros k Hk. rewrite G. now apply Hl.
  - exists r1. split; [exact E|]. split; [exact A|]. intros k. rewrite B, G.
    destruct (in_dec string_dec k sel); tauto.
Qed.
(* the four others cannot be loaded under the name of the argument *)
Theorem short_not_found t r k sel : In k (map snd short_keys) -> load_par r (t_save_par t) (k :: sel) = Ok (r, 0).
Proof.
  intros H. cbn [short_keys map snd In] in H. repeat destruct H as [<-|H]; try reflexivity. destruct H.
Qed.
(* and the file as a whole raises an error: there is no argument called DHtable *)
Theorem whole_raises t r : get_arg r "DHtable" = [] -> member t "par_DHtable" <> [] ->
  load_par r (t_save_par t) [] = Throw "casadi: index out of range".
Proof.
  intros H Hm. unfold load_par, t_save_par. cbn [ychildren load_par_all]. rewrite seq_numbers. unfold store_prefix.
  unfold get_arg in H. rewrite H. destruct (member t "par_DHtable"); [congruence|]. reflexivity.
Qed.
Lemma toy_save_par h : let r := toy0 h in let t := new_class r in
  reached r t /\ get_arg r "DHtable" = [] /\ member t "par_DHtable" <> [] /\
  (forall k, In k (kept_keys ++ map snd short_keys) -> List.length (get_arg r k) = List.length (member t k)) /\
  List.length (get_arg r "par_DYN") = 30 /\ member t "par_DYN" <> get_arg r "par_DYN".
Proof.
  cbv zeta. split; [exists (fun _ => 0%R), []; split; [intros c []|reflexivity]|]. split; [vm_compute; reflexivity|].
  split; [vm_compute; discriminate|]. split.
  - intros k Hk. unfold kept_keys, short_keys in Hk. cbn [app map snd In] in Hk.
    repeat destruct Hk as [<-|Hk]; try (vm_compute; reflexivity). destruct Hk.
  - split; [vm_compute; reflexivity|]. intros E. apply (f_equal (fun l => nth 0 l 0%R)) in E. vm_compute in E. lra.
Qed.
