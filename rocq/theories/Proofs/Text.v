(* replace_all and the generated source text *)
From Coq Require Import String Ascii List Bool Arith Lia ZArith.
From Verif.Model Require Import Base Robot Text.
From Verif.Spec Require Import Text.
Import ListNotations.
Open Scope nat_scope.
Open Scope string_scope.

Lemma app_nil_s s : s ++ "" = s.
Proof. induction s; simpl; congruence. Qed.
Lemma app_assoc_s a b c : (a ++ b) ++ c = a ++ b ++ c.
Proof. induction a; simpl; congruence. Qed.
Lemma length_app a b : String.length (a ++ b) = String.length a + String.length b.
Proof. induction a; simpl; congruence. Qed.
Lemma app_inj_s a b c : a ++ b = a ++ c -> b = c.
Proof. induction a; simpl; intros H; auto. injection H; auto. Qed.
Lemma app_len_inj a b c d : String.length a = String.length b -> a ++ c = b ++ d -> a = b /\ c = d.
Proof.
  revert b. induction a as [|x a IH]; intros [|y b] L E; simpl in *; try discriminate; auto.
  injection E as -> E. injection L as L. destruct (IH b L E). subst. auto.
Qed.

Lemma substring_0 s k : substring 0 k s ++ substring k (String.length s - k) s = s /\
  String.length (substring 0 k s) = Nat.min k (String.length s).
Proof.
  revert k. induction s as [|a s IH]; intros [|k]; simpl; auto.
  - split; auto. clear IH. f_equal. induction s; simpl; congruence.
  - destruct (IH k) as [A B]. rewrite A, B. auto.
Qed.
Lemma substring_all s : substring 0 (String.length s) s = s.
Proof. induction s; simpl; congruence. Qed.
Lemma substring_drop d s k : substring (String.length d) k (d ++ s) = substring 0 k s.
Proof. induction d; simpl; auto. Qed.
Lemma substring_pre a b : substring 0 (String.length a) (a ++ b) = a.
Proof. induction a as [|x a IH]; simpl; [destruct b; auto|]. rewrite IH. auto. Qed.
Lemma substring_drop' d s k n : n = String.length d -> substring n k (d ++ s) = substring 0 k s.
Proof. intros ->. apply substring_drop. Qed.
Lemma substring_pre' a b n : n = String.length a -> substring 0 n (a ++ b) = a.
Proof. intros ->. apply substring_pre. Qed.
Lemma substring_all' s n : n = String.length s -> substring 0 n s = s.
Proof. intros ->. apply substring_all. Qed.

Lemma prefix_app w s : prefix w s = true <-> exists b, s = w ++ b.
Proof.
  revert s. induction w as [|a w IH]; intros s; simpl.
  { split; [eauto|]. intros _. destruct s; auto. }
  destruct s as [|b s].
  { simpl. split; [intros H; discriminate H|]. intros [x H]. discriminate H. }
  cbn [prefix]. destruct (ascii_dec a b) as [->|N].
  - rewrite IH. split; intros [x H]; exists x; [congruence|injection H; auto].
  - split; [intros H; discriminate H|]. intros [x H]. injection H. congruence.
Qed.

Lemma index_0 w s :
  match String.index 0 w s with
  | Some m => exists pre post, s = pre ++ w ++ post /\ String.length pre = m /\
      forall a b, s = a ++ w ++ b -> m <= String.length a
  | None => ~ occurs_in w s
  end.
Proof.
  induction s as [|c s IH].
  - simpl. destruct w as [|a w].
    + exists "", "". repeat split; auto. intros; lia.
    + intros (x & y & H). destruct x; discriminate.
  - change (String.index 0 w (String c s)) with
      (if prefix w (String c s) then Some 0 else match String.index 0 w s with Some n => Some (S n) | None => None end).
    destruct (prefix w (String c s)) eqn:P.
    + apply prefix_app in P. destruct P as [b P]. exists "", b. repeat split; auto. intros; lia.
    + assert (N : forall b, String c s <> w ++ b).
      { intros b E. assert (Q : prefix w (String c s) = true) by (apply prefix_app; eauto). congruence. }
      destruct (String.index 0 w s) as [m|].
      * destruct IH as (pre & post & E & L & M). exists (String c pre), post. simpl. rewrite E, L. repeat split; auto.
        intros [|a' a] b H; simpl in *; [exfalso; eapply N; rewrite E; eauto|].
        injection H as _ H. apply le_n_S. apply (M a b). congruence.
      * intros (a & b & H). destruct a as [|a' a]; simpl in H; [eapply N; eauto|].
        injection H as _ H. apply IH. exists a, b. auto.
Qed.
Lemma index_shift w d s : String.index (String.length d) w (d ++ s) =
  match String.index 0 w s with Some m => Some (String.length d + m) | None => None end.
Proof.
  induction d as [|c d IH]; simpl.
  - destruct (String.index 0 w s); auto.
  - rewrite IH. destruct (String.index 0 w s); auto.
Qed.

Lemma loop_spec from to : from <> "" -> forall fuel d s acc, String.length s < fuel ->
  exists s', replace_loop fuel (d ++ s) from to (String.length d) acc = Some (acc ++ s') /\ replaced from to s s'.
Proof.
  intros Hne. assert (Hl : 0 < String.length from) by (destruct from; simpl; [congruence|lia]).
  induction fuel as [|fuel IH]; intros d s acc Hf; [lia|].
  simpl. unfold find_from. rewrite index_shift. pose proof (index_0 from s) as H.
  destruct (String.index 0 from s) as [m|].
  - destruct H as (pre & post & E & L & M).
    assert (E2 : d ++ s = (d ++ pre ++ from) ++ post) by (rewrite E, !app_assoc_s; auto).
    replace (String.length d + m + String.length from) with (String.length (d ++ pre ++ from)) by (rewrite !length_app; lia).
    replace (String.length d + m - String.length d) with (String.length pre) by lia.
    rewrite substring_drop. replace (substring 0 (String.length pre) s) with pre by (rewrite E, substring_pre; auto). rewrite E2.
    destruct (IH (d ++ pre ++ from) post (acc ++ pre ++ to)) as (s' & R1 & R2).
    { rewrite E, !length_app in Hf. lia. }
    exists (pre ++ to ++ s'). split; [rewrite R1; f_equal; rewrite !app_assoc_s; auto|].
    rewrite E. apply rep_some; auto. intros a b Q. rewrite L. apply (M a b). congruence.
  - exists s. split; [|apply rep_none; auto]. rewrite length_app.
    rewrite substring_drop, substring_all'; auto. lia.
Qed.
Lemma loop_more from to : forall f source p acc x, replace_loop f source from to p acc = Some x ->
  forall g, f <= g -> replace_loop g source from to p acc = Some x.
Proof.
  induction f; simpl; intros; [discriminate|]. destruct g; [lia|]. simpl.
  destruct (find_from from source p); auto. eapply IHf; eauto. lia.
Qed.

Lemma returns_fun source from to x y :
  replace_all_returns source from to x -> replace_all_returns source from to y -> x = y.
Proof.
  intros [f F] [g G]. pose proof (loop_more _ _ _ _ _ _ _ F (f + g) ltac:(lia)) as A.
  pose proof (loop_more _ _ _ _ _ _ _ G (f + g) ltac:(lia)) as B. congruence.
Qed.
Theorem replace_all_ok source from to : from <> "" ->
  replace_all_returns source from to (replace_all source from to) /\ replaced from to source (replace_all source from to).
Proof.
  intros H. destruct (loop_spec from to H (S (String.length source)) "" source "") as (s' & A & B); [lia|].
  simpl (_ ++ _) in A. change (String.length "") with 0 in A. unfold replace_all. rewrite A. split; auto. exists (S (String.length source)). exact A.
Qed.
Theorem replace_all_empty source to : ~ exists x, replace_all_returns source "" to x.
Proof.
  intros (x & f & F). assert (G : forall d s acc, replace_loop f (d ++ s) "" to (String.length d) acc = None).
  { clear F. induction f as [|f IH]; intros; simpl; auto. unfold find_from. rewrite index_shift.
    replace (String.index 0 "" s) with (Some 0) by (destruct s; auto).
    rewrite Nat.add_0_r, Nat.add_0_r. apply IH. }
  specialize (G "" source ""). simpl in G. congruence.
Qed.

(* the specification determines the result *)
Theorem replaced_fun from to s x y : from <> "" -> replaced from to s x -> replaced from to s y -> x = y.
Proof.
  intros Hne A. revert y. induction A as [s N|pre rest rest' M A IH]; intros y B.
  - inversion B as [t Nt|p r r' M B' E]; subst; auto. exfalso. apply N. exists p, r. auto.
  - remember (pre ++ from ++ rest) as s eqn:E. destruct B as [s N|p r r' M' B'].
    + exfalso. apply N. exists pre, rest. auto.
    + assert (L : String.length p = String.length pre).
      { apply Nat.le_antisymm; [eapply M'; eauto|eapply M; eauto]. }
      destruct (app_len_inj _ _ _ _ L E) as [-> E']. apply app_inj_s in E'. subst r. f_equal. f_equal. auto.
Qed.

Lemma concat_cons' sep a b l : String.concat sep (a :: b :: l) = a ++ sep ++ String.concat sep (b :: l).
Proof. reflexivity. Qed.
Lemma more_args_spec l : forall a acc, more_args l (acc ++ a) = acc ++ String.concat ", " (a :: map (fun a => a ++ ".data()") l).
Proof.
  induction l as [|b l IH]; intros a acc; [reflexivity|].
  simpl map. rewrite concat_cons'. cbn [more_args].
  replace ((acc ++ a) ++ ", " ++ b ++ ".data()") with ((acc ++ a ++ ", ") ++ (b ++ ".data()")) by (rewrite !app_assoc_s; auto).
  rewrite (IH (b ++ ".data()") (acc ++ a ++ ", ")). rewrite !app_assoc_s. reflexivity.
Qed.

Ltac sa := repeat rewrite app_assoc_s; repeat rewrite app_nil_s.
Lemma lines_cons a l : lines (a :: l) = a ++ nl ++ lines l.
Proof. unfold lines. simpl. destruct l; simpl; sa; auto. Qed.
Lemma lines_nil : lines [] = "".
Proof. reflexivity. Qed.

Lemma append_getter_spec rn cls descr acc fo :
  append_getter rn cls descr acc fo =
  acc ++ getter rn cls (fo_name fo) (descr (fo_name fo)) (fo_args fo) (fo_rows fo) (fo_cols fo).
Proof.
  unfold append_getter, getter. rewrite !lines_cons, lines_nil. change newline with nl. change tab with tb.
  unfold get_ret_type, matrix_type.
  destruct (fo_args fo) as [|a l].
  - cbn [pointers]. sa. reflexivity.
  - cbn [pointers map]. match goal with |- context [more_args l ?x] => replace x with
      (((((((acc ++ "// - " ++ descr (fo_name fo) ++ " - //" ++ nl) ++
        ("Eigen::Matrix<double," ++ to_string (fo_rows fo) ++ "," ++ to_string (fo_cols fo) ++ ">") ++
        " thunder_" ++ cls ++ "::" ++ ("get_" ++ fo_name fo) ++ "(){" ++ nl) ++
        tb ++ "thread_local double buffer[" ++ to_string (fo_rows fo * fo_cols fo) ++ "];" ++ nl) ++
        tb ++ "thread_local long long p3[" ++ (rn ++ "_" ++ fo_name fo) ++ "_fun_SZ_IW];" ++ nl) ++
        tb ++ "thread_local double p4[" ++ (rn ++ "_" ++ fo_name fo) ++ "_fun_SZ_W];" ++ nl) ++
        tb ++ "const double* input_[] = {") ++ (a ++ ".data()")) by (sa; reflexivity) end.
    rewrite more_args_spec. sa. reflexivity.
Qed.
Lemma append_decl_spec descr acc fo :
  append_decl descr acc fo = acc ++ declaration (fo_name fo) (descr (fo_name fo)) (fo_rows fo) (fo_cols fo).
Proof.
  unfold append_decl, declaration. rewrite !lines_cons, lines_nil. unfold get_ret_type, matrix_type.
  change newline with nl. change tab with tb. sa. reflexivity.
Qed.
Lemma fold_append {A} (f : string -> A -> string) (g : A -> string) l :
  (forall acc a, f acc a = acc ++ g a) -> forall acc, fold_left f l acc = acc ++ String.concat "" (map g l).
Proof.
  intros H. induction l as [|a l IH]; intros acc; simpl; [sa; auto|]. rewrite IH, H.
  destruct l; simpl; sa; auto.
Qed.
Theorem functions_cpp_ok rn cls descr fs :
  functions_cpp rn cls descr fs = nl ++ String.concat "" (map (fun fo =>
    getter rn cls (fo_name fo) (descr (fo_name fo)) (fo_args fo) (fo_rows fo) (fo_cols fo)) fs).
Proof. apply (fold_append _ (fun fo => getter rn cls (fo_name fo) (descr (fo_name fo)) (fo_args fo) (fo_rows fo) (fo_cols fo))), append_getter_spec. Qed.
Theorem functions_h_ok descr fs :
  functions_h descr fs = nl ++ String.concat "" (map (fun fo =>
    declaration (fo_name fo) (descr (fo_name fo)) (fo_rows fo) (fo_cols fo)) fs).
Proof. apply (fold_append _ (fun fo => declaration (fo_name fo) (descr (fo_name fo)) (fo_rows fo) (fo_cols fo))), append_decl_spec. Qed.
