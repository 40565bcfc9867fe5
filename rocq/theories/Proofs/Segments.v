(* Substitution in a text with holes: an occurrence of the pattern never touches a hole whose characters the pattern
   does not have, so only the fixed parts of the text have to be searched. *)
From Coq Require Import String Ascii List Bool Arith Lia.
From Verif.Model Require Import Base Text.
From Verif.Spec Require Import Text.
From Verif.Proofs Require Import Text.
Import ListNotations.
Open Scope nat_scope.
Open Scope string_scope.

(* s does not end with the beginning of an occurrence *)
Definition closed (from s : string) : Prop := forall x p q, s = x ++ p -> from = p ++ q -> p = "" \/ q = "".
(* what may stand in a hole *)
Definition inert (from v : string) : Prop := closed from v /\ ~ occurs_in from v.

(* an occurrence in a ++ b is in a or in b when a is closed *)
Lemma occ_prefix from : forall a b y, from ++ y = a ++ b -> (exists y', a = from ++ y' /\ y = y' ++ b) \/ (exists q, from = a ++ q /\ q <> "").
Proof.
  induction from as [|c f IH]; intros a b y E; [left; exists a; auto|]. destruct a as [|c' a].
  - right. exists (String c f). split; [reflexivity|discriminate].
  - cbn in E. injection E as -> E. apply IH in E. destruct E as [(y' & -> & ->)|(q & -> & N)]; [left; exists y'; auto|right; exists q; auto].
Qed.
Lemma occ_split2 from a b : closed from a -> forall x y, a ++ b = x ++ from ++ y ->
  (exists y', a = x ++ from ++ y' /\ y = y' ++ b) \/ (exists x', b = x' ++ from ++ y /\ x = a ++ x').
Proof.
  induction a as [|c a IH]; intros C x y E; [right; exists x; auto|]. destruct x as [|c' x].
  - cbn [append] in E. symmetry in E. apply (occ_prefix from (String c a) b y) in E. destruct E as [(y' & E & ->)|(q & E & N)].
    + left. exists y'. auto.
    + exfalso. destruct (C "" (String c a) q eq_refl E); [discriminate|contradiction].
  - cbn in E. injection E as -> E. apply IH in E.
    + destruct E as [(y' & -> & ->)|(x' & -> & ->)]; [left; exists y'; auto|right; exists x'; auto].
    + intros x0 p q E0 Ef. apply (C (String c' x0) p q); [cbn; now rewrite E0|exact Ef].
Qed.
Lemma occ_split from a v b : closed from a -> inert from v -> forall x y, a ++ v ++ b = x ++ from ++ y ->
  (exists y', a = x ++ from ++ y' /\ y = y' ++ v ++ b) \/ (exists x', b = x' ++ from ++ y /\ x = a ++ v ++ x').
Proof.
  intros Ca [Cv Nv] x y E. apply (occ_split2 from a (v ++ b) Ca) in E. destruct E as [E|(x' & E & ->)]; [left; exact E|].
  apply (occ_split2 from v b Cv) in E. destruct E as [(y' & E & _)|(x2 & -> & ->)].
  - exfalso. apply Nv. exists x', y'. exact E.
  - right. exists x2. auto.
Qed.

Theorem replaced_split from to v : from <> "" -> inert from v -> forall a a' b b', closed from a ->
  replaced from to a a' -> replaced from to b b' -> replaced from to (a ++ v ++ b) (a' ++ v ++ b').
Proof.
  intros Hf V a a' b b' C Ha Hb. revert C. induction Ha as [a N|pre rest rest' M Ha IH]; intros C.
  - destruct Hb as [b Nb|pre rest rest' M Hb].
    + apply rep_none. intros (x & y & E). apply (occ_split from a v b C V) in E. destruct E as [(y' & E & _)|(x' & E & _)]; [apply N|apply Nb]; eexists _, _; exact E.
    + replace (a ++ v ++ pre ++ from ++ rest) with ((a ++ v ++ pre) ++ from ++ rest) by now rewrite !app_assoc_s.
      replace (a ++ v ++ pre ++ to ++ rest') with ((a ++ v ++ pre) ++ to ++ rest') by now rewrite !app_assoc_s.
      apply rep_some; [|exact Hb]. intros x y E. rewrite !app_assoc_s in E. apply (occ_split from a v _ C V) in E.
      destruct E as [(y' & E & _)|(x' & E & ->)]; [exfalso; apply N; eexists _, _; exact E|].
      apply M in E. rewrite !length_app. lia.
  - rewrite !app_assoc_s. apply rep_some.
    + intros x y E.
      replace (pre ++ from ++ rest ++ v ++ b) with ((pre ++ from ++ rest) ++ v ++ b) in E by now rewrite !app_assoc_s.
      apply (occ_split from _ v b C V) in E. destruct E as [(y' & E & _)|(x' & E & ->)]; [now apply M in E|].
      rewrite !length_app. lia.
    + apply IH. intros x p q E Ef. apply (C (pre ++ from ++ x) p q); [|exact Ef]. rewrite E. now rewrite !app_assoc_s.
Qed.
Lemma replace_split from to v a b : from <> "" -> closed from a -> inert from v ->
  replace_all (a ++ v ++ b) from to = replace_all a from to ++ v ++ replace_all b from to.
Proof.
  intros Hf A V. apply (replaced_fun from to (a ++ v ++ b)); [exact Hf|apply replace_all_ok; exact Hf|].
  apply replaced_split; auto; apply replace_all_ok; exact Hf.
Qed.
Lemma replace_all_none from to s : from <> "" -> ~ occurs_in from s -> replace_all s from to = s.
Proof.
  intros Hf N. apply (replaced_fun from to s); [exact Hf|apply replace_all_ok; exact Hf|]. now apply rep_none.
Qed.

(* the parts of a text around the occurrences of a pattern *)
Fixpoint pieces_f (fuel : nat) (from s : string) : list string :=
  match fuel with
  | O => [s]
  | S k =>
      match String.index 0 from s with
      | None => [s]
      | Some m => substring 0 m s :: pieces_f k from (substring (m + String.length from) (String.length s - (m + String.length from)) s)
      end
  end.
Definition pieces (from s : string) : list string := pieces_f (S (String.length s)) from s.
Lemma pieces_f_cons k from s : exists p l, pieces_f k from s = p :: l.
Proof. destruct k; cbn; [eauto|]. destruct (String.index 0 from s); eauto. Qed.
Lemma pieces_f_ok from to : from <> "" -> forall k s, String.length s < k -> replaced from to s (String.concat to (pieces_f k from s)).
Proof.
  intros Hf. assert (Hl : 0 < String.length from) by (destruct from; [congruence|cbn; lia]).
  induction k as [|k IH]; intros s Hs; [lia|]. cbn [pieces_f]. pose proof (index_0 from s) as H.
  destruct (String.index 0 from s) as [m|].
  - destruct H as (pre & post & -> & <- & M). rewrite substring_pre.
    replace (substring (String.length pre + String.length from) _ (pre ++ from ++ post)) with post.
    + assert (IH' : replaced from to post (String.concat to (pieces_f k from post))).
      { apply IH. rewrite !length_app in Hs. lia. }
      destruct (pieces_f_cons k from post) as (p & l & E). rewrite E in *. rewrite concat_cons'. apply rep_some; auto.
    + rewrite <- app_assoc_s. rewrite substring_drop' by now rewrite length_app. rewrite substring_all'; [reflexivity|].
      rewrite !length_app. lia.
  - cbn [String.concat]. now apply rep_none.
Qed.
Theorem replace_pieces from to s : from <> "" -> replace_all s from to = String.concat to (pieces from s).
Proof.
  intros Hf. apply (replaced_fun from to s); [exact Hf|apply replace_all_ok; exact Hf|]. apply pieces_f_ok; [exact Hf|lia].
Qed.

(* a text: fixed parts separated by holes *)
Definition text : Type := (string * list (string * string))%type.
Fixpoint render_tail (l : list (string * string)) : string :=
  match l with [] => "" | (v, s) :: t => v ++ s ++ render_tail t end.
Definition render (x : text) : string := fst x ++ render_tail (snd x).
Definition holes_of (to : string) (l : list string) : list (string * string) := map (fun p => (to, p)) l.
Fixpoint step_tail (from to : string) (l : list (string * string)) : list (string * string) :=
  match l with
  | [] => []
  | (v, s) :: t =>
      match pieces from s with
      | [] => (v, "") :: step_tail from to t
      | p :: q => (v, p) :: holes_of to q ++ step_tail from to t
      end
  end.
Definition step (from to : string) (x : text) : text :=
  match pieces from (fst x) with
  | [] => ("", step_tail from to (snd x))
  | p :: q => (p, holes_of to q ++ step_tail from to (snd x))%list
  end.
Lemma render_tail_app a b : render_tail (a ++ b)%list = render_tail a ++ render_tail b.
Proof. induction a as [|[v s] a IH]; [reflexivity|]. cbn [app render_tail]. rewrite IH. now rewrite !app_assoc_s. Qed.
Lemma concat_holes to p q : String.concat to (p :: q) = p ++ render_tail (holes_of to q).
Proof.
  revert p. induction q as [|a q IH]; intros p; [cbn; now rewrite app_nil_s|].
  rewrite concat_cons', IH. reflexivity.
Qed.
Lemma pieces_cons from s : exists p l, pieces from s = p :: l.
Proof. apply pieces_f_cons. Qed.
Fixpoint fits_tail (from s : string) (l : list (string * string)) : Prop :=
  match l with [] => True | (v, s') :: t => closed from s /\ inert from v /\ fits_tail from s' t end.
Definition fits (from : string) (x : text) : Prop := fits_tail from (fst x) (snd x).
Theorem step_ok from to x : from <> "" -> fits from x -> replace_all (render x) from to = render (step from to x).
Proof.
  intros Hf. destruct x as [s0 l]. unfold fits, render, step. cbn [fst snd].
  revert s0. induction l as [|[v s] l IH]; intros s0 F.
  - cbn [render_tail step_tail]. rewrite app_nil_s, replace_pieces by exact Hf.
    destruct (pieces_cons from s0) as (p & q & ->). cbn [fst snd]. now rewrite app_nil_r, concat_holes.
  - cbn [fits_tail] in F. destruct F as (F1 & F2 & F3). cbn [render_tail].
    rewrite replace_split by auto. specialize (IH s F3). rewrite IH. rewrite (replace_pieces from to s0) by exact Hf.
    destruct (pieces_cons from s0) as (p & q & ->). cbn [fst snd step_tail].
    destruct (pieces_cons from s) as (p' & q' & ->). cbn [fst snd]. rewrite concat_holes, !render_tail_app.
    cbn [render_tail]. rewrite render_tail_app. now rewrite !app_assoc_s.
Qed.

(* deciding that a fixed part is closed: no suffix of s is a proper beginning of from *)
Fixpoint closedb (from s : string) : bool :=
  match s with
  | EmptyString => true
  | String _ t => (negb (prefix s from) || String.eqb s from) && closedb from t
  end.
Lemma closedb_ok from s : closedb from s = true -> closed from s.
Proof.
  induction s as [|c s IH]; intros H x p q E Ef.
  - destruct x; [|discriminate]. cbn in E. subst p. auto.
  - cbn [closedb] in H. apply andb_true_iff in H. destruct H as [H1 H2]. destruct x as [|c' x].
    + cbn in E. subst p. right. apply orb_true_iff in H1. destruct H1 as [H1|H1].
      * exfalso. apply negb_true_iff in H1. assert (X : prefix (String c s) from = true) by (apply prefix_app; exists q; exact Ef). congruence.
      * apply String.eqb_eq in H1. rewrite H1 in Ef. rewrite <- (app_nil_s from) in Ef at 1. now apply app_inj_s in Ef.
    + cbn in E. injection E as _ E. exact (IH H2 x p q E Ef).
Qed.
(* a text without the first character of the pattern *)
Fixpoint hasb (c : ascii) (s : string) : bool := match s with EmptyString => false | String a t => Ascii.eqb a c || hasb c t end.
Lemma hasb_app c a b : hasb c (a ++ b) = hasb c a || hasb c b.
Proof. induction a as [|x a IH]; [reflexivity|]. cbn. rewrite IH. now rewrite orb_assoc. Qed.
Lemma inert_head c f v : hasb c v = false -> inert (String c f) v.
Proof.
  intros H. split.
  - intros x p q -> E. destruct p as [|c' p]; [auto|]. exfalso. cbn in E. injection E as <- _.
    rewrite hasb_app in H. cbn in H. rewrite Ascii.eqb_refl in H. cbn in H. now rewrite orb_true_r in H.
  - intros (a & b & ->). rewrite !hasb_app in H. cbn in H. rewrite Ascii.eqb_refl in H. cbn in H. now rewrite orb_true_r in H.
Qed.

(* a separator that shares no character with the pattern *)
Definition chars (s : string) : list ascii := list_ascii_of_string s.
Definition apart (v from : string) : Prop := forall c, In c (chars v) -> ~ In c (chars from).
Lemma apart_suffix from : from <> "" -> forall v b x y, apart v from -> v ++ b = x ++ from ++ y -> exists x', x = v ++ x' /\ b = x' ++ from ++ y.
Proof.
  intros Hf. induction v as [|c v IH]; intros b x y A E; [exists x; auto|].
  destruct x as [|c' x].
  - exfalso. destruct from as [|f0 from]; [congruence|]. cbn in E. injection E as -> _. apply (A f0); cbn; auto.
  - cbn in E. injection E as -> E. apply IH in E; [|intros d Hd; apply A; cbn; auto]. destruct E as (x' & -> & ->). exists x'. auto.
Qed.
Lemma apart_prefix v b : v <> "" -> forall f a y, apart v f -> a ++ v ++ b = f ++ y -> exists y', a = f ++ y' /\ y = y' ++ v ++ b.
Proof.
  intros Hv. induction f as [|c f IH]; intros a y A E; [exists a; auto|].
  destruct a as [|c' a].
  - exfalso. destruct v as [|v0 v]; [congruence|]. cbn in E. injection E as -> _. apply (A c); cbn; auto.
  - cbn in E. injection E as -> E. apply IH in E; [|intros d Hd X; apply (A d Hd); cbn; auto]. destruct E as (y' & -> & ->). exists y'. auto.
Qed.
Lemma apart_split from v b : from <> "" -> v <> "" -> apart v from -> forall a x y, a ++ v ++ b = x ++ from ++ y ->
  (exists y', a = x ++ from ++ y' /\ y = y' ++ v ++ b) \/ (exists x', b = x' ++ from ++ y /\ x = a ++ v ++ x').
Proof.
  intros Hf Hv A. induction a as [|c a IH]; intros x y E.
  - right. destruct (apart_suffix from Hf v b x y A E) as (x' & -> & ->). exists x'. auto.
  - destruct x as [|c' x].
    + left. apply (apart_prefix v b Hv from (String c a) y) in E; auto.
    + cbn in E. injection E as -> E. apply IH in E. destruct E as [(y' & -> & ->)|(x' & -> & ->)]; [left; exists y'; auto|right; exists x'; auto].
Qed.
Theorem replaced_apart from to v : from <> "" -> v <> "" -> apart v from -> forall a a' b b',
  replaced from to a a' -> replaced from to b b' -> replaced from to (a ++ v ++ b) (a' ++ v ++ b').
Proof.
  intros Hf Hv A a a' b b' Ha Hb. induction Ha as [a N|pre rest rest' M Ha IH].
  - destruct Hb as [b Nb|pre rest rest' M Hb].
    + apply rep_none. intros (x & y & E). apply apart_split in E; auto. destruct E as [(y' & E & _)|(x' & E & _)]; [apply N|apply Nb]; eexists _, _; exact E.
    + replace (a ++ v ++ pre ++ from ++ rest) with ((a ++ v ++ pre) ++ from ++ rest) by now rewrite !app_assoc_s.
      replace (a ++ v ++ pre ++ to ++ rest') with ((a ++ v ++ pre) ++ to ++ rest') by now rewrite !app_assoc_s.
      apply rep_some; [|exact Hb]. intros x y E. rewrite !app_assoc_s in E. apply apart_split in E; auto.
      destruct E as [(y' & E & _)|(x' & E & ->)]; [exfalso; apply N; eexists _, _; exact E|].
      apply M in E. rewrite !length_app. lia.
  - rewrite !app_assoc_s. apply rep_some; [|exact IH]. intros x y E.
    replace (pre ++ from ++ rest ++ v ++ b) with ((pre ++ from ++ rest) ++ v ++ b) in E by now rewrite !app_assoc_s.
    apply apart_split in E; auto. destruct E as [(y' & E & _)|(x' & E & ->)]; [now apply M in E|].
    rewrite !length_app. lia.
Qed.
Lemma replace_apart from to v a b : from <> "" -> v <> "" -> apart v from ->
  replace_all (a ++ v ++ b) from to = replace_all a from to ++ v ++ replace_all b from to.
Proof.
  intros Hf Hv A. apply (replaced_fun from to (a ++ v ++ b)); [exact Hf|apply replace_all_ok; exact Hf|].
  apply replaced_apart; auto; apply replace_all_ok; exact Hf.
Qed.

(* several substitutions *)
Definition holes (x : text) : list string := map fst (snd x).
Fixpoint replace_list (l : list (string * string)) (s : string) : string :=
  match l with [] => s | (f, t) :: l => replace_list l (replace_all s f t) end.
Fixpoint chain (l : list (string * string)) (x : text) : text := match l with [] => x | (f, t) :: l => chain l (step f t x) end.
Fixpoint lits_tail (from s : string) (l : list (string * string)) : bool :=
  match l with [] => true | (_, s') :: t => closedb from s && lits_tail from s' t end.
Fixpoint lits_ok (l : list (string * string)) (x : text) : bool :=
  match l with [] => true | (f, t) :: l => lits_tail f (fst x) (snd x) && lits_ok l (step f t x) end.
Lemma holes_of_fst to q : map fst (holes_of to q) = repeat to (List.length q).
Proof. induction q; cbn; [reflexivity|]. now f_equal. Qed.
Lemma holes_step from to x v : In v (holes (step from to x)) -> v = to \/ In v (holes x).
Proof.
  destruct x as [s l]. unfold holes, step. cbn [fst snd].
  assert (T : In v (map fst (step_tail from to l)) -> v = to \/ In v (map fst l)).
  { induction l as [|[w s'] l IH]; cbn [step_tail map fst In]; auto. destruct (pieces_cons from s') as (p & q & ->).
    cbn [map fst In]. rewrite map_app, in_app_iff, holes_of_fst. intros [->|[H|H]]; auto.
    - left. eapply repeat_spec; exact H.
    - destruct (IH H); auto. }
  destruct (pieces_cons from s) as (p & q & ->). cbn [snd]. rewrite map_app, in_app_iff, holes_of_fst. intros [H|H]; auto.
  left. eapply repeat_spec; exact H.
Qed.
Lemma fits_of c f s l : lits_tail (String c f) s l = true -> (forall v, In v (map fst l) -> hasb c v = false) -> fits_tail (String c f) s l.
Proof.
  revert s. induction l as [|[v s'] l IH]; intros s H Hv; [exact I|]. cbn [lits_tail] in H. apply andb_true_iff in H. destruct H as [H1 H2].
  cbn [fits_tail]. split; [now apply closedb_ok|]. split; [apply inert_head, Hv; cbn; auto|]. apply IH; [exact H2|]. intros w Hw. apply Hv. cbn; auto.
Qed.
Theorem chain_ok c l : forall x, lits_ok l x = true -> (forall f, In f (map fst l) -> exists f', f = String c f') ->
  (forall v, In v (holes x) -> hasb c v = false) -> (forall v, In v (map snd (removelast l)) -> hasb c v = false) ->
  replace_list l (render x) = render (chain l x).
Proof.
  induction l as [|[f t] l IH]; intros x H Hc Hx Ht; [reflexivity|]. cbn [replace_list chain]. cbn [lits_ok] in H.
  apply andb_true_iff in H. destruct H as [H1 H2]. destruct (Hc f) as [f' ->]; [cbn; auto|].
  rewrite step_ok; [|discriminate|]; [|destruct x; now apply fits_of].
  destruct l as [|ft l]; [reflexivity|]. apply IH; [exact H2| | |].
  - intros g Hg. apply Hc. cbn; auto.
  - intros v Hv. apply holes_step in Hv. destruct Hv as [->|Hv]; [|auto]. apply Ht. cbn; auto.
  - intros v Hv. apply Ht. cbn [removelast map snd In]. right. exact Hv.
Qed.
