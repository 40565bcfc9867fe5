(* Parameter files: save_par / load_par, save_par_REG / load_par_REG. *)
From Coq Require Import Reals List String Arith ZArith Bool Lia Lra.
From Verif.Model Require Import Base Expr SX Robot Yaml Inertia Build.
From Verif.Spec Require Import Math Setup State.
From Verif.Proofs Require Import Maps Load State InertiaConv.
Import ListNotations.
Open Scope nat_scope.
Open Scope string_scope.

Lemma ymap_dbl l : ymap as_double (map YDbl l) = Some l.
Proof. induction l; cbn; auto. rewrite IHl. reflexivity. Qed.

Definition node_of (r : robot) (k : string) : ynode := YSeq (map YDbl (get_arg r k)).
Lemma yset_find k v l k' : mfind k' (yset k v l) = if String.eqb k' k then Some v else mfind k' l.
Proof.
  induction l as [|[k1 v1] l IH]; simpl; auto.
  destruct (String.eqb_spec k k1) as [->|N]; simpl.
  - destruct (String.eqb k' k1); auto.
  - rewrite IH. destruct (String.eqb_spec k' k1) as [->|N1]; auto.
    destruct (String.eqb_spec k1 k); congruence.
Qed.
Lemma yset_keys k v l k' : In k' (map fst (yset k v l)) <-> k' = k \/ In k' (map fst l).
Proof.
  induction l as [|[k1 v1] l IH]; simpl; [intuition|].
  destruct (String.eqb_spec k k1) as [->|N]; simpl; [intuition|]. rewrite IH. intuition.
Qed.
Lemma yset_nodup k v l : NoDup (map fst l) -> NoDup (map fst (yset k v l)).
Proof.
  induction l as [|[k1 v1] l IH]; simpl; intros H; [repeat constructor; auto|].
  inversion H; subst. destruct (String.eqb_spec k k1) as [->|N]; simpl; constructor; auto.
  rewrite yset_keys. intuition.
Qed.
Definition saved (r : robot) (names : list string) (l : list (string * ynode)) : Prop :=
  NoDup (map fst l) /\ forall k, mfind k l = if in_dec string_dec k names then Some (node_of r k) else None.
Lemma saved_fold r : forall names done l, saved r done l ->
  saved r (done ++ names)%list (fold_left (fun l p => yset p (YSeq (map YDbl (get_arg r p))) l) names l).
Proof.
  induction names as [|n names IH]; intros done l H; cbn [fold_left].
  - now rewrite app_nil_r.
  - replace (done ++ n :: names)%list with ((done ++ [n]) ++ names)%list by now rewrite <- app_assoc.
    apply IH. destruct H as [H1 H2]. split; [now apply yset_nodup|]. intros k. rewrite yset_find, H2.
    destruct (String.eqb_spec k n) as [->|N].
    + destruct (in_dec string_dec n (done ++ [n])) as [_|X]; [reflexivity|]. exfalso. apply X, in_app_iff. simpl; auto.
    + destruct (in_dec string_dec k done) as [A|A], (in_dec string_dec k (done ++ [n])) as [B|B]; auto.
      * exfalso. apply B, in_app_iff; auto.
      * exfalso. apply in_app_iff in B. destruct B as [B|[B|[]]]; auto.
Qed.
Lemma saved_map r names : names <> [] -> exists l, save_par r names = YMap l /\ saved r names l.
Proof.
  intros H. unfold save_par. destruct names as [|n t]; [congruence|]. eexists. split; [reflexivity|].
  apply (saved_fold r (n :: t) [] []). split; [constructor|]. intros k. reflexivity.
Qed.

Lemma store_ok r k v : List.length (get_arg r k) = List.length v ->
  exists r1, store_prefix r k v = Ok r1 /\ get_arg r1 k = v /\ changes_only k r r1.
Proof.
  intros H. unfold store_prefix. rewrite assign_all by exact H. cbn [bind]. eexists. split; [reflexivity|].
  unfold get_arg, arg; cbn [args with_args]. rewrite mget_mset. split; [reflexivity|]. split; [reflexivity|].
  intros k' N. unfold get_arg, arg; cbn [args with_args]. now rewrite mget_mset_ne.
Qed.

Lemma mfind_in_some {V} (l : smap V) k v : In (k, v) l -> mfind k l = None -> False.
Proof.
  induction l as [|[a b] l IH]; simpl; intros Hi Hf; [destruct Hi|].
  destruct (String.eqb_spec k a) as [E|N]; [discriminate|]. destruct Hi as [Hi|Hi]; [congruence|auto].
Qed.
Definition restored (r : robot) (sel : list string) (r2 r3 : robot) : Prop :=
  r3 = with_args r2 (args r3) /\
  forall k, get_arg r3 k = if in_dec string_dec k sel then get_arg r k else get_arg r2 k.

Lemma load_all_ok r : forall l r2, NoDup (map fst l) -> (forall k nd, In (k, nd) l -> nd = node_of r k) ->
  (forall k, In k (map fst l) -> List.length (get_arg r2 k) = List.length (get_arg r k)) ->
  exists r3, load_par_all l r2 = Ok (r3, 1) /\ restored r (map fst l) r2 r3.
Proof.
  induction l as [|[k nd] l IH]; cbn [map fst load_par_all]; intros r2 Hn Hv Hl.
  - exists r2. split; [reflexivity|]. split; [apply with_args_same|]. reflexivity.
  - inversion Hn; subst. rewrite (Hv k nd (or_introl eq_refl)). unfold node_of. cbn [as_vector]. rewrite ymap_dbl.
    destruct (store_ok r2 k (get_arg r k)) as (r1 & -> & E & C1 & C2); [apply Hl; simpl; auto|].
    cbn [bind]. destruct (IH r1) as (r3 & E3 & R1 & R2); auto.
    + intros k' nd' Hi. apply Hv; simpl; auto.
    + intros k' Hk'. rewrite C2; [apply Hl; simpl; auto|]. intros ->. auto.
    + exists r3. split; [exact E3|]. split; [rewrite R1, C1; reflexivity|]. intros k'. rewrite R2.
      destruct (in_dec string_dec k' (map fst l)) as [A|A], (in_dec string_dec k' (k :: map fst l)) as [B|B]; auto.
      * exfalso. apply B. simpl; auto.
      * destruct B as [<-|B]; [exact E|contradiction].
      * apply C2. intros ->. apply B; simpl; auto.
Qed.
Lemma load_some_ok r file l : file = YMap l -> forall sel r2,
  (forall k, In k sel -> mfind k l = Some (node_of r k)) ->
  (forall k, In k sel -> List.length (get_arg r2 k) = List.length (get_arg r k)) ->
  exists r3, load_par_some file sel r2 = Ok (r3, 1) /\ restored r sel r2 r3.
Proof.
  intros ->. induction sel as [|k sel IH]; cbn [load_par_some]; intros r2 Hv Hl.
  - exists r2. split; [reflexivity|]. split; [apply with_args_same|]. reflexivity.
  - cbn [yidx ybind]. unfold mget. rewrite (Hv k (or_introl eq_refl)). unfold node_of. cbn [as_vector]. rewrite ymap_dbl.
    destruct (store_ok r2 k (get_arg r k)) as (r1 & -> & E & C1 & C2); [apply Hl; simpl; auto|].
    cbn [bind]. destruct (IH r1) as (r3 & E3 & R1 & R2); auto.
    + intros k' Hi. apply Hv; simpl; auto.
    + intros k' Hk'. destruct (string_dec k' k) as [->|N]; [now rewrite E|]. rewrite C2 by auto. apply Hl; simpl; auto.
    + exists r3. split; [exact E3|]. split; [rewrite R1, C1; reflexivity|]. intros k'. rewrite R2.
      destruct (in_dec string_dec k' sel) as [A|A], (in_dec string_dec k' (k :: sel)) as [B|B]; auto.
      * exfalso. apply B. simpl; auto.
      * destruct B as [<-|B]; [exact E|contradiction].
      * apply C2. intros ->. apply B; simpl; auto.
Qed.
(* the whole file *)
Theorem save_load_all r r2 names :
  (forall k, In k names -> List.length (get_arg r2 k) = List.length (get_arg r k)) ->
  exists r3, load_par r2 (save_par r names) [] = Ok (r3, 1) /\ restored r names r2 r3.
Proof.
  intros H. destruct names as [|n t].
  - exists r2. split; [reflexivity|]. split; [apply with_args_same|]. reflexivity.
  - destruct (saved_map r (n :: t)) as (l & E & Hn & Hf); [congruence|]. rewrite E. cbn [load_par ychildren].
    assert (Hk : forall k, In k (map fst l) <-> In k (n :: t)).
    { intros k. split; intros Hi.
      - apply in_map_iff in Hi. destruct Hi as ([k' nd] & <- & Hi). cbn [fst].
        destruct (in_dec string_dec k' (n :: t)) as [A|A]; auto. exfalso.
        specialize (Hf k'). destruct (in_dec string_dec k' (n :: t)); [contradiction|].
        exact (mfind_in_some l k' nd Hi Hf).
      - apply mfind_keys. rewrite Hf. destruct (in_dec string_dec k (n :: t)); [discriminate|contradiction]. }
    assert (Hv : forall k nd, In (k, nd) l -> nd = node_of r k).
    { intros k nd Hi. assert (Hfk : mfind k l = Some nd).
      { clear -Hi Hn. induction l as [|[a b] l IH]; [destruct Hi|]. simpl in *. inversion Hn; subst.
        destruct Hi as [Hi|Hi].
        - inversion Hi; subst. now rewrite String.eqb_refl.
        - destruct (String.eqb_spec k a) as [->|N]; auto. exfalso. apply H1. apply in_map_iff. exists (a, nd). auto. }
      rewrite Hf in Hfk. destruct (in_dec string_dec k (n :: t)); congruence. }
    destruct (load_all_ok r l r2 Hn Hv) as (r3 & E3 & R1 & R2).
    + intros k Hi. apply H. now apply Hk.
    + exists r3. split; [exact E3|]. split; [exact R1|]. intros k. rewrite R2.
      destruct (in_dec string_dec k (map fst l)) as [A|A], (in_dec string_dec k (n :: t)) as [B|B]; auto.
      * exfalso. now apply B, Hk.
      * exfalso. now apply A, Hk.
Qed.
(* a selection of the saved names *)
Theorem save_load_some r r2 names sel : sel <> [] -> incl sel names ->
  (forall k, In k sel -> List.length (get_arg r2 k) = List.length (get_arg r k)) ->
  exists r3, load_par r2 (save_par r names) sel = Ok (r3, 1) /\ restored r sel r2 r3.
Proof.
  intros Hs Hi H. destruct (saved_map r names) as (l & E & Hn & Hf).
  { intros ->. destruct sel as [|k t]; [congruence|]. destruct (Hi k (or_introl eq_refl)). }
  unfold load_par. destruct sel as [|k t] eqn:Es; [congruence|]. rewrite <- Es in *.
  apply (load_some_ok r _ l E sel r2); auto. intros k' Hk. rewrite Hf.
  destruct (in_dec string_dec k' names) as [|X]; [reflexivity|]. exfalso. apply X, Hi, Hk.
Qed.
(* a name the file does not hold: nothing after it is read, and 0 is returned *)
Theorem load_missing r2 l k sel : mfind k l = None ->
  exists r3, load_par r2 (YMap l) (k :: sel) = Ok (r3, 0) /\ r3 = r2.
Proof. intros H. exists r2. cbn [load_par load_par_some yidx ybind]. unfold mget. rewrite H. auto. Qed.

(* ---- save_par_REG / load_par_REG ---- *)
Theorem reg_file_lost r : List.length (get_arg r "par_REG") = 10 * numJoints r ->
  exists file r1, save_par_REG r = Ok file /\ load_par_REG r file false = Ok r1 /\
    get_arg r1 "par_REG" = repeat 0%R (10 * numJoints r).
Proof.
  intros H. unfold save_par_REG, STD_PAR_LINK. unfold get_arg in H. rewrite H, Nat.leb_refl.
  eexists. eexists. split; [reflexivity|]. unfold load_par_REG. cbn [yidx]. unfold mget at 1.
  cbn [mfind String.eqb Ascii.eqb Bool.eqb ychildren load_reg_links].
  assert (E : forall r1, (if false then update_inertial_DYN r1 else Ok r1) = Ok r1) by reflexivity.
  split; [apply E|]. unfold get_arg, arg; cbn [args with_args].
  destruct (Nat.ltb 0 (Dl_order r)); [rewrite mget_mset_ne by discriminate|]; rewrite mget_mset; reflexivity.
Qed.
(* with the layout that load_par_REG reads *)
Fixpoint reg_layout (n i : nat) (p : list R) : list (string * ynode) :=
  match n with
  | O => []
  | S k => ("link" ++ to_string (i + 1), YMap (combine reg_keys (map YDbl (firstn 10 p)))) :: reg_layout k (S i) (skipn 10 p)
  end.
Definition reg_file (n : nat) (p : list R) : ynode := YMap [("inertial", YMap (reg_layout n 0 p))].

Lemma upd_app (a : list R) x s v : upd (a ++ x :: s) (List.length a) v = (a ++ v :: s)%list.
Proof. unfold upd. now rewrite lset_app. Qed.
(* the keys of a node hold the values l *)
Fixpoint holds (nd : ynode) (keys : list string) (l : list R) : Prop :=
  match keys, l with
  | [], [] => True
  | k :: keys, v :: l => ybind (yidx nd k) as_double = Some v /\ holds nd keys l
  | _, _ => False
  end.
Lemma read_holds nd : forall keys l a z s, holds nd keys l -> List.length z = List.length l ->
  read_keys nd keys (List.length a) (a ++ z ++ s) = Go (a ++ l ++ s)%list.
Proof.
  induction keys as [|k keys IH]; intros l a z s H Hz; destruct l as [|v l]; cbn [holds] in H; try contradiction.
  - destruct z; [reflexivity|discriminate].
  - destruct z as [|x z]; [discriminate|]. destruct H as [H1 H2]. cbn [read_keys]. rewrite H1.
    cbn [app]. rewrite upd_app.
    replace (a ++ v :: z ++ s)%list with ((a ++ [v]) ++ z ++ s)%list by now rewrite <- app_assoc.
    replace (S (List.length a)) with (List.length (a ++ [v])) by (rewrite app_length; simpl; lia).
    rewrite (IH l); auto. now rewrite <- app_assoc.
Qed.
Lemma reg_holds l : List.length l = 10 -> holds (YMap (combine reg_keys (map YDbl l))) reg_keys l.
Proof. intros H. do 10 (destruct l as [|? l]; [discriminate|]); destruct l; [|discriminate]. cbn. tauto. Qed.
Lemma reg_noDl l : List.length l = 10 -> yidx_c (YMap (combine reg_keys (map YDbl l))) "Dl" = Some YZombie.
Proof. intros H. do 10 (destruct l as [|? l]; [discriminate|]); destruct l; [|discriminate]. reflexivity. Qed.
Lemma load_reg_ok dlO : forall n i p a s, List.length p = 10 * n -> List.length a = 10 * i ->
  p_DYN s = (a ++ repeat 0%R (10 * n))%list ->
  load_reg_links (reg_layout n i p) n i dlO s =
    Go (mkPars (a ++ p)%list (p_Dl s) (p_K s) (p_D s) (p_Dm s) (p_Mm s)).
Proof.
  induction n; intros i p a s Hp Ha Hs.
  - destruct p; [|discriminate]. cbn [reg_layout load_reg_links]. destruct s; cbn in *; subst; reflexivity.
  - cbn [reg_layout load_reg_links].
    assert (Hf : List.length (firstn 10 p) = 10) by (rewrite firstn_length; lia).
    rewrite Hs. replace (10 * S n) with (10 + 10 * n) by lia. rewrite repeat_app.
    unfold STD_PAR_LINK. rewrite <- Ha.
    rewrite (read_holds _ reg_keys (firstn 10 p)); [|now apply reg_holds|now rewrite Hf].
    cbn [lift_DYN gbind]. rewrite reg_noDl by exact Hf. cbn [ydef gbind].
    rewrite app_assoc. rewrite (IHn (S i) (skipn 10 p) (a ++ firstn 10 p)%list); cbn [p_DYN p_Dl p_K p_D p_Dm p_Mm].
    + now rewrite <- app_assoc, firstn_skipn.
    + rewrite skipn_length; lia.
    + rewrite app_length; lia.
    + reflexivity.
Qed.
Theorem reg_file_read r p upd_dyn : List.length p = 10 * numJoints r -> upd_dyn = false ->
  exists r1, load_par_REG r (reg_file (numJoints r) p) upd_dyn = Ok r1 /\ get_arg r1 "par_REG" = p /\
    r1 = with_args r (args r1) /\
    forall k, k <> "par_REG" -> k <> "par_Dl" -> get_arg r1 k = get_arg r k.
Proof.
  intros Hp ->. unfold load_par_REG, reg_file. cbn [yidx]. unfold mget. cbn [mfind String.eqb Ascii.eqb Bool.eqb ychildren].
  rewrite (load_reg_ok (Dl_order r) (numJoints r) 0 p [] (zero_pars r)) by (auto; reflexivity).
  eexists. split; [reflexivity|]. unfold get_arg, arg; cbn [args with_args p_DYN p_Dl app].
  split; [|split; [reflexivity|]].
  - destruct (Nat.ltb 0 (Dl_order r)); [rewrite mget_mset_ne by discriminate|]; apply mget_mset.
  - intros k N1 N2. destruct (Nat.ltb 0 (Dl_order r)); repeat rewrite mget_mset_ne by auto; reflexivity.
Qed.
