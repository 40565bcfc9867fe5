(* What the generator makes of the template files. *)
From Coq Require Import String Ascii List Bool Arith Lia.
From Verif.Model Require Import Base SX Robot Text TemplateText Main.
From Verif.Spec Require Import Text Setup Generated.
From Verif.Proofs Require Import Text Header Segments.
Import ListNotations.
Open Scope nat_scope.
Open Scope string_scope.

(* ---- replacing the first occurrence ---- *)
Lemma app_inv_length : forall a a' b b', String.length a = String.length a' -> a ++ b = a' ++ b' -> a = a' /\ b = b'.
Proof.
  induction a as [|c a IH]; intros [|c' a'] b b' L E; try discriminate; [auto|]. cbn in *. injection E as -> E.
  apply IH in E; [|lia]. destruct E as [-> ->]. auto.
Qed.
Lemma replace_first_at a w b t : (forall x y, a ++ w ++ b = x ++ w ++ y -> String.length a <= String.length x) ->
  replace_first (a ++ w ++ b) w t = Ok (a ++ t ++ b).
Proof.
  intros M. destruct (replace_first (a ++ w ++ b) w t) as [s|m|m] eqn:E.
  - apply replace_first_ok in E. destruct E as (pre & post & E & E' & Mp).
    assert (L : String.length pre = String.length a).
    { apply Nat.le_antisymm; [apply (Mp a b eq_refl)|apply (M pre post E)]. }
    symmetry in E. apply app_inv_length in E; [|exact L]. destruct E as [-> E]. apply app_inv_length in E; [|reflexivity]. destruct E as [_ ->].
    now rewrite E'.
  - exfalso. unfold replace_first, find_from in E. pose proof (index_0 w (a ++ w ++ b)) as I. destruct (String.index 0 w (a ++ w ++ b)); [discriminate|].
    apply I. exists a, b. reflexivity.
  - exfalso. unfold replace_first, find_from in E. destruct (String.index 0 w (a ++ w ++ b)); discriminate.
Qed.

Lemma sep_apart c f : hasb c f = false -> apart (String c "") f.
Proof.
  intros H d [<-|[]] X. revert H X. induction f as [|a f IH]; cbn [hasb chars list_ascii_of_string In]; [tauto|]. intros H [E|X].
  - subst. rewrite Ascii.eqb_refl in H. discriminate H.
  - apply orb_false_iff in H. destruct H as [_ H]. exact (IH H X).
Qed.

(* ---- the header ---- *)
Definition guards := pieces "THUNDERROBOT" template_h.
Definition body_h : string := Eval vm_compute in match guards with [_; _; String _ s] => s | _ => "" end.
Lemma template_h_split : template_h = "#ifndef " ++ "THUNDERROBOT" ++ "_H" ++ nl ++ "#define " ++ "THUNDERROBOT" ++ "_" ++ body_h.
Proof. vm_compute. reflexivity. Qed.
Lemma none_in w s : String.index 0 w s = None -> ~ occurs_in w s.
Proof. intros H. pose proof (index_0 w s) as I. now rewrite H in I. Qed.
Lemma guard1 name : replace_first template_h "THUNDERROBOT" ("THUNDER_" ++ name) =
  Ok ("#ifndef THUNDER_" ++ name ++ "_H" ++ nl ++ "#define " ++ "THUNDERROBOT" ++ "_" ++ body_h).
Proof.
  pose proof (index_0 "THUNDERROBOT" template_h) as I. replace (String.index 0 "THUNDERROBOT" template_h) with (Some 8) in I by (vm_compute; reflexivity).
  destruct I as (_ & _ & _ & _ & M). rewrite template_h_split in M |- *. rewrite (replace_first_at "#ifndef " "THUNDERROBOT"); [reflexivity|].
  intros x y E. apply M in E. exact E.
Qed.
Lemma guard2 name : ~ occurs_in "THUNDERROBOT" name ->
  replace_first ("#ifndef THUNDER_" ++ name ++ "_H" ++ nl ++ "#define " ++ "THUNDERROBOT" ++ "_" ++ body_h) "THUNDERROBOT" ("THUNDER_" ++ name) =
  Ok ("#ifndef THUNDER_" ++ name ++ "_H" ++ nl ++ "#define THUNDER_" ++ name ++ "_" ++ body_h).
Proof.
  intros N.
  replace ("#ifndef THUNDER_" ++ name ++ "_H" ++ nl ++ "#define " ++ "THUNDERROBOT" ++ "_" ++ body_h)
    with (("#ifndef THUNDER_" ++ name ++ "_H" ++ nl ++ "#define ") ++ "THUNDERROBOT" ++ "_" ++ body_h) by now rewrite !app_assoc_s.
  rewrite replace_first_at; [now rewrite !app_assoc_s|]. intros x y E. rewrite !app_assoc_s in E.
  change ("#ifndef THUNDER_" ++ ?s) with ("#ifndef THUNDER" ++ "_" ++ s) in E.
  assert (A : forall c, hasb c "THUNDERROBOT" = false -> apart (String c "") "THUNDERROBOT") by (intros; now apply sep_apart).
  apply apart_split in E; [|discriminate|discriminate|now apply A].
  destruct E as [(y' & E & _)|(x' & E & ->)]; [exfalso; apply (none_in "THUNDERROBOT" "#ifndef THUNDER" eq_refl); exists x, y'; exact E|].
  change ("_H" ++ ?s) with ("_" ++ "H" ++ s) in E.
  apply apart_split in E; [|discriminate|discriminate|now apply A].
  destruct E as [(y' & E & _)|(x2 & E & ->)]; [exfalso; apply N; exists x', y'; exact E|].
  change ("H" ++ nl ++ "#define " ++ ?s) with (("H" ++ nl ++ "#define") ++ " " ++ s) in E.
  apply apart_split in E; [|discriminate|discriminate|now apply A].
  destruct E as [(y' & E & _)|(x3 & E & ->)]; [exfalso; apply (none_in "THUNDERROBOT" ("H" ++ nl ++ "#define") eq_refl); exists x2, y'; exact E|].
  rewrite !length_app. cbn [String.length]. unfold nl. cbn [String.length]. lia.
Qed.

(* the include guard: the class name, with the word "robot" in it replaced again *)
Definition robot_pieces : list string := Eval vm_compute in pieces "robot" body_h.
Definition text_h (g name : string) : text :=
  match robot_pieces with
  | p :: q => ("#ifndef THUNDER_", (g, "_H" ++ nl ++ "#define THUNDER_") :: (g, "_" ++ p) :: holes_of name q)
  | [] => ("", [])
  end.
Lemma robot_h name : replace_all ("#ifndef THUNDER_" ++ name ++ "_H" ++ nl ++ "#define THUNDER_" ++ name ++ "_" ++ body_h) "robot" name =
  render (text_h (replace_all name "robot" name) name).
Proof.
  change ("#ifndef THUNDER_" ++ ?s) with ("#ifndef THUNDER" ++ "_" ++ s).
  replace ("_H" ++ nl ++ "#define THUNDER_" ++ name ++ "_" ++ body_h) with ("_" ++ ("H" ++ nl ++ "#define THUNDER") ++ "_" ++ name ++ "_" ++ body_h) by (rewrite !app_assoc_s; reflexivity).
  assert (A : apart "_" "robot") by (apply sep_apart; reflexivity).
  rewrite (replace_apart "robot" name "_" "#ifndef THUNDER") by (auto; discriminate).
  rewrite (replace_apart "robot" name "_" name) by (auto; discriminate).
  rewrite (replace_apart "robot" name "_" ("H" ++ nl ++ "#define THUNDER")) by (auto; discriminate).
  rewrite (replace_apart "robot" name "_" name body_h) by (auto; discriminate).
  rewrite (replace_all_none "robot" name "#ifndef THUNDER") by (try discriminate; apply none_in; reflexivity).
  rewrite (replace_all_none "robot" name ("H" ++ nl ++ "#define THUNDER")) by (try discriminate; apply none_in; reflexivity).
  rewrite (replace_pieces "robot" name body_h) by discriminate.
  replace (pieces "robot" body_h) with robot_pieces by (vm_compute; reflexivity).
  unfold text_h. destruct robot_pieces as [|p q] eqn:R; [discriminate R|]. rewrite concat_holes. unfold render. cbn [fst snd render_tail].
  now rewrite !app_assoc_s.
Qed.

Section Fill.
Variables (g name rname n ela e kO dO dlO dmO el decls : string).
Definition fillings : list (string * string) :=
  [("/*#-ROBOT_NAME-#*/", rname); ("/*#-n_joints-#*/", n); ("/*#-ELASTIC-#*/", ela); ("/*#-numElasticJoints-#*/", e);
   ("/*#-K_order-#*/", kO); ("/*#-D_order-#*/", dO); ("/*#-Dl_order-#*/", dlO); ("/*#-Dm_order-#*/", dmO);
   ("/*#-isElasticJoint-#*/", el); ("/*#-FUNCTIONS_H-#*/", decls)].
Hypothesis no_slash : forall v, In v [g; name; rname; n; ela; e; kO; dO; dlO; dmO; el] -> hasb "/" v = false.
Lemma fill_h : replace_list fillings (render (text_h g name)) = header_text ("THUNDER_" ++ g) name rname n ela e kO dO dlO dmO el decls.
Proof.
  rewrite (chain_ok "/").
  - vm_compute. reflexivity.
  - vm_compute. reflexivity.
  - intros f Hf. unfold fillings in Hf. cbn [map fst In] in Hf. intuition (subst; eexists; reflexivity).
  - intros v Hv. apply no_slash. unfold text_h, holes in Hv. destruct robot_pieces as [|p q]; cbn [snd map fst In] in Hv |- *; [tauto|].
    rewrite holes_of_fst in Hv. destruct Hv as [->|[->|Hv]]; auto. apply repeat_spec in Hv. subst. auto.
  - intros v Hv. apply no_slash. unfold fillings in Hv. cbn [removelast map snd In] in Hv |- *. tauto.
Qed.
End Fill.

(* ---- the source ---- *)
Definition cut (w s : string) : string * string :=
  match pieces w s with p :: q => (p, String.concat w q) | [] => ("", "") end.
Definition include_point := "/*OPTIONAL PYBIND11 INCLUDE POINT*/".
Definition functions_point := "/*#-FUNCTIONS_CPP-#*/".
Definition module_point := "/*#-OPTIONAL SPACE FOR PYTHON BINDINGS-#*/".
Definition bindings_point := "/*#-GENERATED_PYTHON_BINDINGS-#*/".
Definition top_cpp : string := Eval vm_compute in fst (cut include_point (snd (cut ("robot_gen.h" ++ dq ++ nl) template_cpp))).
Definition body_cpp : string := Eval vm_compute in fst (cut functions_point (snd (cut include_point template_cpp))).
Definition gap_cpp : string := Eval vm_compute in fst (cut module_point (snd (cut functions_point template_cpp))).
Definition end_cpp : string := Eval vm_compute in snd (cut module_point template_cpp).
Lemma template_cpp_split : template_cpp = includes_text "robot" ++ top_cpp ++ include_point ++ body_cpp ++ functions_point ++ gap_cpp ++ module_point ++ end_cpp.
Proof. vm_compute. reflexivity. Qed.
Definition body_pieces : list string := Eval vm_compute in pieces "robot" body_cpp.
Definition template_py : string := Eval vm_compute in add_bindings template_cpp.
Lemma template_py_ok : add_bindings template_cpp = template_py.
Proof. vm_compute. reflexivity. Qed.

Lemma render_source s0 nm s1 a m i qs F t rest : qs <> [] ->
  render (s0, (nm, s1) :: (nm, a ++ m ++ i ++ hd "" qs) :: (holes_of nm (tl qs) ++ (F, t) :: rest)%list) =
  (s0 ++ nm ++ s1 ++ nm ++ a) ++ m ++ i ++ String.concat nm qs ++ F ++ t ++ render_tail rest.
Proof.
  destruct qs as [|q qs]; [congruence|]. intros _. cbn [hd tl]. rewrite concat_holes. unfold render. cbn [fst snd render_tail].
  rewrite render_tail_app. cbn [render_tail]. now rewrite !app_assoc_s.
Qed.
Lemma includes_eq cls : includes_text cls = ("#include " ++ dq ++ "thunder_") ++ cls ++ (".h" ++ dq ++ nl ++ "#include " ++ dq) ++ cls ++ ("_gen.h" ++ dq ++ nl).
Proof.
  unfold includes_text, lines. cbn [map]. rewrite concat_cons'. cbn [String.concat].
  rewrite !app_assoc_s. reflexivity.
Qed.
Definition body_of (name : string) : string := String.concat name body_pieces.
Lemma robot_text name s : replace_all s "robot" name = render (step "robot" name (s, [])).
Proof.
  rewrite <- step_ok; [|discriminate|exact I]. unfold render. cbn [fst snd render_tail]. now rewrite app_nil_s.
Qed.
Lemma step_once c f t x : lits_ok [(String c f, t)] x = true -> (forall v, In v (holes x) -> hasb c v = false) ->
  replace_all (render x) (String c f) t = render (step (String c f) t x).
Proof.
  intros H Hx. pose proof (chain_ok c [(String c f, t)] x H) as E. cbn [replace_list chain] in E. apply E; auto.
  - intros g [<-|[]]. eexists. reflexivity.
  - intros v [].
Qed.
Lemma holes_robot name s v : In v (holes (step "robot" name (s, []))) -> v = name.
Proof. intros H. apply holes_step in H. destruct H as [H|[]]. exact H. Qed.

Theorem source_plain name F : hasb "/" name = false ->
  replace_all (replace_all template_cpp "robot" name) functions_point F =
  includes_text name ++ top_cpp ++ include_point ++ body_of name ++ F ++ gap_cpp ++ module_point ++ end_cpp.
Proof.
  intros N. rewrite robot_text. unfold functions_point. rewrite step_once.
  - match goal with |- render ?x = _ =>
      replace x with ("#include " ++ dq ++ "thunder_", (name, ".h" ++ dq ++ nl ++ "#include " ++ dq) ::
        (name, ("_gen.h" ++ dq ++ nl) ++ top_cpp ++ include_point ++ hd "" body_pieces) ::
        (holes_of name (tl body_pieces) ++ [(F, (gap_cpp ++ module_point ++ end_cpp)%string)])%list) by (vm_compute; reflexivity) end.
    rewrite render_source by discriminate. rewrite includes_eq. cbn [render_tail]. rewrite app_nil_s. reflexivity.
  - vm_compute. reflexivity.
  - intros v Hv. apply holes_robot in Hv. now subst.
Qed.

(* text that ends a line and has no sharp sign is not touched *)
Lemma inert_line F : hasb "#" F = false -> (exists F', F = F' ++ nl) -> inert bindings_point F.
Proof.
  intros H [F' E]. split.
  - intros x p q -> Ef. destruct (String.eqb_spec p "") as [->|Np]; [auto|]. exfalso.
    assert (X : exists p', p = p' ++ nl).
    { clear -E Np. revert F' E. induction x as [|c x IH]; intros F' E; [exists F'; exact E|]. destruct F' as [|d F'].
      - cbn in E. injection E as _ E. destruct x; [|discriminate]. cbn in E. congruence.
      - cbn in E. injection E as _ E. exact (IH F' E). }
    destruct X as [p' ->]. assert (B : hasb (ascii_of_nat 10) bindings_point = true).
    { rewrite Ef, !hasb_app. cbn. now rewrite orb_true_r. }
    vm_compute in B. discriminate.
  - intros (a & b & ->). rewrite !hasb_app in H. change (hasb "#" bindings_point) with true in H. cbn in H. now rewrite orb_true_r in H.
Qed.
(* adding text at the end *)
Fixpoint ext (e s : string) (l : list (string * string)) : string * list (string * string) :=
  match l with
  | [] => (s ++ e, [])
  | (v, s') :: t => let (s1, t1) := ext e s' t in (s, (v, s1) :: t1)
  end.
Lemma render_ext x e : render x ++ e = render (ext e (fst x) (snd x)).
Proof.
  destruct x as [s l]. unfold render. cbn [fst snd]. revert s. induction l as [|[v s'] l IH]; intros s.
  - cbn [ext render_tail fst snd]. now rewrite !app_nil_s.
  - cbn [ext render_tail]. specialize (IH s'). destruct (ext e s' l) as [s1 t1]. cbn [fst snd render_tail] in *.
    rewrite <- IH. now rewrite !app_assoc_s.
Qed.
Lemma module_eq name defs : module_text name defs = render (step bindings_point defs (step "robot" name (bindings_template, []))).
Proof. vm_compute. reflexivity. Qed.
Theorem source_python name F defs : hasb "/" name = false -> hasb "#" F = false -> (exists F', F = F' ++ nl) ->
  replace_all (replace_all (replace_all (add_bindings template_cpp) "robot" name) functions_point F) bindings_point defs =
  includes_text name ++ top_cpp ++ pybind_includes ++ body_of name ++ F ++ gap_cpp ++ module_text name defs ++ end_cpp.
Proof.
  intros N Hs He. rewrite template_py_ok, robot_text. unfold functions_point. rewrite step_once.
  2:{ vm_compute. reflexivity. }
  2:{ intros v Hv. apply holes_robot in Hv. now subst. }
  rewrite step_ok; [|discriminate|].
  - match goal with |- render ?x = _ => set (X := x) end.
    pose (tailx := snd (step bindings_point defs (step functions_point F (step "robot" name (snd (cut functions_point template_py), []))))).
    replace X with ("#include " ++ dq ++ "thunder_", (name, ".h" ++ dq ++ nl ++ "#include " ++ dq) ::
        (name, ("_gen.h" ++ dq ++ nl) ++ top_cpp ++ pybind_includes ++ hd "" body_pieces) ::
        (holes_of name (tl body_pieces) ++ (F, fst (cut "robot" (snd (cut functions_point template_py)))) :: tailx)%list) by (vm_compute; reflexivity).
    rewrite render_source by discriminate. rewrite includes_eq.
    replace (gap_cpp ++ module_text name defs ++ end_cpp) with (fst (cut "robot" (snd (cut functions_point template_py))) ++ render_tail tailx); [reflexivity|].
    rewrite module_eq, render_ext. vm_compute. reflexivity.
  - match goal with |- fits _ ?x => assert (L : lits_ok [(bindings_point, defs)] x = true) by (vm_compute; reflexivity);
      assert (H : forall v, In v (holes x) -> v = F \/ v = name) end.
    { intros v Hv. apply holes_step in Hv. destruct Hv as [->|Hv]; [auto|]. apply holes_robot in Hv. auto. }
    revert L H. generalize (step "/*#-FUNCTIONS_CPP-#*/" F (step "robot" name (template_py, []))). intros [s l]. unfold fits, lits_ok, holes.
    cbn [fst snd]. rewrite andb_true_r. intros L H. clear -L H N Hs He. revert s L. induction l as [|[v s'] l IH]; intros s L; [exact I|].
    cbn [lits_tail] in L. apply andb_true_iff in L. destruct L as [L1 L2]. cbn [fits_tail]. split; [now apply closedb_ok|]. split.
    + destruct (H v) as [->| ->]; [now left|now apply inert_line|now apply inert_head].
    + apply IH; [|exact L2]. intros w Hw. apply H. now right.
Qed.

(* ---- CMakeLists.txt ---- *)
Theorem cmake_ok name : update_cmake "robot" name template_cmake = cmake_text name.
Proof. unfold update_cmake. rewrite robot_text. vm_compute. reflexivity. Qed.
