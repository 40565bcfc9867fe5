(* Names of published functions: injective, and never the name of an argument. *)
From Coq Require Import List Arith String Ascii Bool Lia.
From Coq Require Import DecimalString Decimal DecimalNat.
From Verif.Model Require Import Base Robot.
From Verif.Spec Require Import Setup.
From Verif.Proofs Require Import Pure.
Import ListNotations.
Open Scope string_scope.

Definition isdig (c : ascii) : bool :=
  let k := nat_of_ascii c in Nat.leb 48 k && Nat.leb k 57.
Fixpoint digits (s : string) : bool :=
  match s with EmptyString => true | String c t => isdig c && digits t end.
Lemma digits_uint d : digits (NilEmpty.string_of_uint d) = true.
Proof. induction d; simpl; auto. Qed.
Lemma digits_to_string n : digits (to_string n) = true.
Proof. apply digits_uint. Qed.
Lemma to_string_inj i j : to_string i = to_string j -> i = j.
Proof.
  unfold to_string. intros H. apply (f_equal NilEmpty.uint_of_string) in H.
  rewrite !NilEmpty.usu in H. inversion H as [H1]. apply Unsigned.to_uint_inj in H1. auto.
Qed.

(* longest prefix that does not end with a digit *)
Fixpoint stem (s : string) : string :=
  match s with
  | EmptyString => EmptyString
  | String c t => match stem t with
                  | EmptyString => if isdig c then EmptyString else String c EmptyString
                  | u => String c u
                  end
  end.
Lemma stem_digits s : digits s = true -> stem s = "".
Proof.
  induction s; simpl; auto. intros H. apply andb_true_iff in H. destruct H as [H1 H2].
  rewrite IHs by auto. now rewrite H1.
Qed.
Lemma stem_app p s : digits s = true -> stem (p ++ s) = stem p.
Proof.
  intros H. induction p; simpl; [apply stem_digits; auto|]. now rewrite IHp.
Qed.
Lemma app_cancel p s t : p ++ s = p ++ t -> s = t.
Proof. induction p; simpl; intros H; auto. inversion H; auto. Qed.

Definition pre_of (f : fn) : string := stem (name_of f).
Definition idx_of (f : fn) : option nat :=
  match f with
  | fT i | fT0 i | fJ i | fJcm i | fDl i | fK i | fD i | fDm i => Some i
  | _ => None
  end.
Definition base_of (f : fn) : string :=
  match f with
  | fT i => "T_" | fT0 i => "T_0_" | fTb => "T_" | fTee => "T_0_ee"
  | fJ i => "J_" | fJee => "J_ee" | fJeed => "J_ee_dot" | fJeedd => "J_ee_ddot"
  | fJeepinv => "J_ee_pinv" | fJcm i => "J_cm_"
  | fM => "M" | fC => "C" | fCstd => "C_std" | fG => "G"
  | fMd => "M_dot" | fMdd => "M_ddot" | fCd => "C_dot" | fCdd => "C_ddot" | fGd => "G_dot" | fGdd => "G_ddot"
  | fYr => "Yr" | fRM => "reg_M" | fRC => "reg_C" | fRG => "reg_G"
  | fdl => "dl" | fDl i => "Dl" | fk => "k" | fK i => "K"
  | fd => "d" | fD i => "D" | fdm => "dm" | fDm i => "Dm" | fMm => "Mm"
  | frdl => "reg_dl" | frk => "reg_k" | frd => "reg_d" | frdm => "reg_dm" | frMm => "reg_Mm"
  | frJdq => "reg_Jdq" | frJTw => "reg_JTw"
  end.
Lemma stem_name f : stem (name_of f) = base_of f.
Proof.
  destruct f; cbn [name_of base_of]; try reflexivity; rewrite stem_app by apply digits_to_string; reflexivity.
Qed.

(* T_1, T_2, ... are numbered from one; T_0 is the base frame *)
Definition proper (f : fn) : Prop := match f with fT i => i <> 0 | _ => True end.
Lemma name_inj f g : proper f -> proper g -> name_of f = name_of g -> f = g.
Proof.
  intros Pf Pg H.
  assert (Hs := f_equal stem H). rewrite !stem_name in Hs.
  destruct f, g; cbn [base_of] in Hs; try discriminate Hs; auto; cbn [name_of proper] in *.
  all: try (apply app_cancel in H; apply to_string_inj in H; subst; reflexivity).
  - exfalso. apply (app_cancel "T_" (to_string i) (to_string 0)) in H. apply to_string_inj in H. auto.
  - exfalso. apply (app_cancel "T_" (to_string 0) (to_string i)) in H. apply to_string_inj in H. auto.
Qed.

(* names of arguments *)
Definition arg_keys : list string :=
  ["q"; "dq"; "ddq"; "d3q"; "d4q"; "dqr"; "ddqr"; "w"; "x"; "dx"; "ddx"; "ddxr";
   "par_DYN"; "par_REG"; "par_Dl"; "par_K"; "par_D"; "par_Dm"; "par_Mm";
   "par_DHtable"; "par_world2L0"; "par_Ln2EE"; "par_gravity"].
Lemma name_not_arg f k : In k arg_keys -> name_of f <> k.
Proof.
  intros Hk H. apply (f_equal stem) in H. rewrite stem_name in H.
  simpl in Hk. repeat (destruct Hk as [<- | Hk]; [destruct f; discriminate H|]). destruct Hk.
Qed.

(* ---- names CasADi accepts ---- *)
(* a stretch of a name that does not end with an underscore *)
Fixpoint solid (s : string) : bool :=
  match s with
  | EmptyString => true
  | String a t =>
      if Ascii.eqb a "_" then match t with String b _ => negb (Ascii.eqb b "_") && solid t | EmptyString => false end
      else is_alnum a && solid t
  end.
Lemma solid_tail s t : solid s = true -> name_tail t = true -> name_tail (s ++ t) = true.
Proof.
  intros Hs Ht. induction s as [|a s IH]; [exact Ht|]. cbn [solid] in Hs. cbn [append name_tail].
  destruct (Ascii.eqb a "_").
  - destruct s as [|b s]; [discriminate|]. apply andb_true_iff in Hs. destruct Hs as [H1 Hs].
    change (String b s ++ t) with (String b (s ++ t)) in *. cbv iota beta. rewrite H1. apply IH. exact Hs.
  - apply andb_true_iff in Hs. destruct Hs as [-> Hs]. apply IH. exact Hs.
Qed.
Definition starts (s : string) : bool := match s with String a _ => is_alpha a | EmptyString => false end.
Lemma alpha_not_under a : is_alpha a = true -> Ascii.eqb a "_" = false.
Proof. intros H. destruct (Ascii.eqb_spec a "_") as [->|]; [discriminate|reflexivity]. Qed.
Lemma under_tail s : starts s = true -> name_tail s = true -> name_tail ("_" ++ s) = true.
Proof.
  intros H Hs. destruct s as [|a s]; [discriminate|]. cbn [starts] in H.
  change (negb (Ascii.eqb a "_") && name_tail (String a s) = true). rewrite (alpha_not_under a H), Hs. reflexivity.
Qed.
Lemma starts_app s t : starts s = true -> starts (s ++ t) = true.
Proof. destruct s; [discriminate|auto]. Qed.
Lemma letter_alpha a : letter a -> is_alpha a = true.
Proof.
  unfold letter, is_alpha. intros [[A B]|[A B]]; apply Nat.leb_le in A, B; rewrite A, B; [reflexivity|apply orb_true_r].
Qed.
Lemma alnum_of a : letter a \/ digit a -> is_alnum a = true.
Proof.
  unfold is_alnum. intros [H|[A B]]; [now rewrite letter_alpha|]. apply Nat.leb_le in A, B. rewrite A, B. apply orb_true_r.
Qed.
Lemma solid_of s : (forall i a, String.get i s = Some a -> letter a \/ digit a \/ a = "_"%char) ->
  (forall i, String.get i s = Some "_"%char -> exists a, String.get (S i) s = Some a /\ a <> "_"%char) -> solid s = true.
Proof.
  induction s as [|a s IH]; intros Hc Hu; [reflexivity|].
  assert (S1 : solid s = true).
  { apply IH; [intros i b Hb; apply (Hc (S i) b Hb)|intros i Hi; destruct (Hu (S i) Hi) as (b & E & N); exists b; auto]. }
  cbn [solid]. destruct (Ascii.eqb_spec a "_") as [->|N].
  - destruct (Hu 0 eq_refl) as (b & E & Nb). destruct s as [|b' s]; [discriminate|]. cbn in E. injection E as ->.
    rewrite S1. destruct (Ascii.eqb_spec b "_"); [contradiction|reflexivity].
  - rewrite S1, alnum_of; [reflexivity|]. destruct (Hc 0 a eq_refl) as [?|[?|?]]; auto. contradiction.
Qed.
Lemma identifier_solid s : identifier s -> starts s = true /\ solid s = true.
Proof.
  intros [(a & E & L) Hc Hu]. split; [|apply solid_of; auto]. destruct s; [discriminate|]. cbn in *. injection E as ->.
  now apply letter_alpha.
Qed.
Lemma length_append s t : String.length (s ++ t) = String.length s + String.length t.
Proof. induction s; cbn; auto. Qed.
Lemma long_name s : 5 <= String.length s -> existsb (String.eqb s) ["null"; "jac"; "hess"] = false.
Proof.
  intros H. cbn [existsb]. repeat match goal with |- context [String.eqb s ?c] =>
    destruct (String.eqb_spec s c) as [->|_]; [cbn in H; lia|] end. reflexivity.
Qed.
Lemma fun_name_ok nm f : starts nm = true -> solid nm = true -> starts f = true -> solid f = true ->
  check_name (nm ++ "_" ++ f ++ "_fun") = true.
Proof.
  intros A B C D. assert (T : name_tail (nm ++ "_" ++ f ++ "_fun") = true).
  { apply solid_tail; [exact B|]. apply under_tail; [now apply starts_app|]. apply solid_tail; [exact D|reflexivity]. }
  pose proof (starts_app nm ("_" ++ f ++ "_fun") A) as S1.
  assert (L : 5 <= String.length (nm ++ "_" ++ f ++ "_fun")).
  { rewrite length_append. cbn [append String.length]. rewrite length_append. cbn [String.length]. lia. }
  apply long_name in L. destruct (nm ++ "_" ++ f ++ "_fun") as [|a s]; [discriminate|]. unfold check_name. rewrite L.
  cbn [starts] in S1. rewrite S1. cbn [name_tail] in T. rewrite (alpha_not_under a S1) in T.
  apply andb_true_iff in T. now rewrite (proj2 T).
Qed.
Lemma isdig_alnum c : isdig c = true -> is_alnum c = true /\ Ascii.eqb c "_" = false.
Proof.
  intros H. split; [unfold is_alnum; unfold isdig in H; rewrite H; apply orb_true_r|].
  destruct (Ascii.eqb_spec c "_") as [->|]; [discriminate|reflexivity].
Qed.
Lemma digits_solid d : digits d = true -> solid d = true.
Proof.
  induction d as [|c d IH]; intros H; [reflexivity|]. cbn [digits] in H. apply andb_true_iff in H. destruct H as [H1 H2].
  cbn [solid]. destruct (isdig_alnum c H1) as [-> ->]. now rewrite IH.
Qed.
Lemma to_string_some n : exists c t, to_string n = String c t /\ isdig c = true /\ digits t = true.
Proof.
  pose proof (digits_to_string n) as D. destruct (to_string n) as [|c t] eqn:E.
  - exfalso. unfold to_string in E. destruct (Nat.to_uint n) eqn:U; try discriminate E.
    pose proof (Unsigned.of_to n) as N. rewrite U in N. cbn in N. subst n. discriminate U.
  - cbn [digits] in D. apply andb_true_iff in D. eauto.
Qed.
Lemma numbered_solid p n : starts p = true -> (forall c t, isdig c = true -> solid (String c t) = true -> solid (p ++ String c t) = true) ->
  starts (p ++ to_string n) = true /\ solid (p ++ to_string n) = true.
Proof.
  intros A H. split; [now apply starts_app|]. destruct (to_string_some n) as (c & t & -> & Hc & Ht). apply H; [exact Hc|].
  apply digits_solid. cbn [digits]. now rewrite Hc.
Qed.
Lemma name_of_solid f : starts (name_of f) = true /\ solid (name_of f) = true.
Proof.
  destruct f; try (split; reflexivity); cbn [name_of]; apply numbered_solid; try reflexivity; intros c t Hc Hs;
    destruct (isdig_alnum c Hc) as [_ E]; cbn [append solid Ascii.eqb Bool.eqb andb is_alnum is_alpha nat_of_ascii] in *;
    change (solid (String c t)) with (solid (String c t)); rewrite ?E in *; simpl; rewrite ?E in *; auto.
Qed.
Lemma published_name_ok nm f : identifier nm -> check_name (nm ++ "_" ++ name_of f ++ "_fun") = true.
Proof.
  intros H. destruct (identifier_solid nm H) as [A B]. destruct (name_of_solid f) as [C D]. now apply fun_name_ok.
Qed.
Lemma alpha_letter a : is_alpha a = true -> letter a.
Proof.
  unfold letter, is_alpha. intros H. apply orb_true_iff in H. destruct H as [H|H]; apply andb_true_iff in H; destruct H as [A B];
    apply Nat.leb_le in A, B; auto.
Qed.
Lemma alnum_inv a : is_alnum a = true -> letter a \/ digit a.
Proof.
  unfold is_alnum. intros H. apply orb_true_iff in H. destruct H as [H|H]; [left; now apply alpha_letter|right].
  apply andb_true_iff in H. destruct H as [A B]. apply Nat.leb_le in A, B. split; auto.
Qed.
Lemma solid_inv s : solid s = true -> (forall i a, String.get i s = Some a -> letter a \/ digit a \/ a = "_"%char) /\
  (forall i, String.get i s = Some "_"%char -> exists a, String.get (S i) s = Some a /\ a <> "_"%char).
Proof.
  induction s as [|c s IH]; [split; intros; discriminate|]. cbn [solid]. intros H.
  assert (Hs : solid s = true).
  { destruct (Ascii.eqb c "_"); [destruct s; [discriminate|]|]; apply andb_true_iff in H; apply H. }
  destruct (IH Hs) as [I1 I2]. split.
  - intros [|i] a; cbn [String.get]; [|apply I1]. intros E. injection E as <-.
    destruct (Ascii.eqb_spec c "_") as [->|N]; auto. apply andb_true_iff in H. destruct (alnum_inv c (proj1 H)); auto.
  - intros [|i]; cbn [String.get]; [|apply I2]. intros E. injection E as ->. cbn in H. destruct s as [|b s]; [discriminate|].
    exists b. split; [reflexivity|]. apply andb_true_iff in H. destruct H as [H _]. destruct (Ascii.eqb_spec b "_"); [discriminate|auto].
Qed.
Lemma identifier_check s : starts s && solid s = true -> identifier s.
Proof.
  intros H. apply andb_true_iff in H. destruct H as [A B]. destruct (solid_inv s B) as [I1 I2]. constructor; auto.
  destruct s as [|a s]; [discriminate|]. exists a. split; [reflexivity|]. now apply alpha_letter.
Qed.
