(* Vocabulary for the theorems about the generated class. *)
From Coq Require Import Reals List String Arith ZArith Bool.
From Verif.Model Require Import Base Robot Yaml Build Template.
From Verif.Spec Require Import Math Setup State Config.
Import ListNotations.
Open Scope nat_scope.
Open Scope string_scope.

(* a setter of the generated class: the member it writes, the length it accepts, the call *)
Record tsetter := mkTS { ts_mem : string; ts_len : tobj -> nat; ts_call : list R -> tobj -> tobj }.
Definition joint_tsetters : list tsetter :=
  [mkTS "q" t_n t_set_q; mkTS "dq" t_n t_set_dq; mkTS "ddq" t_n t_set_ddq; mkTS "d3q" t_n t_set_d3q; mkTS "d4q" t_n t_set_d4q;
   mkTS "dqr" t_n t_set_dqr; mkTS "ddqr" t_n t_set_ddqr].
Definition motor_tsetters : list tsetter :=
  [mkTS "x" t_e t_set_x; mkTS "dx" t_e t_set_dx; mkTS "ddx" t_e t_set_ddx; mkTS "ddxr" t_e t_set_ddxr].
Definition state_tsetters : list tsetter := (joint_tsetters ++ motor_tsetters ++ [mkTS "w" (fun _ => 6) t_set_w])%list.
(* parameters: the length of the vector stored at that moment *)
Definition now (k : string) (t : tobj) : nat := List.length (member t k).
Definition par_tsetters : list tsetter :=
  [mkTS "par_K" (now "par_K") t_set_par_K; mkTS "par_D" (now "par_D") t_set_par_D; mkTS "par_Dm" (now "par_Dm") t_set_par_Dm;
   mkTS "par_Mm" (now "par_Mm") t_set_par_Mm; mkTS "par_Dl" (now "par_Dl") t_set_par_Dl;
   mkTS "par_gravity" (now "par_gravity") t_set_par_gravity; mkTS "par_world2L0" (now "par_world2L0") t_set_par_world2L0;
   mkTS "par_Ln2EE" (now "par_Ln2EE") t_set_par_Ln2EE].
Definition tsetters : list tsetter := (state_tsetters ++ par_tsetters)%list.

(* the constants and the flag members are equal *)
Definition same_class (t t1 : tobj) : Prop :=
  (t_name t1, t_n t1, t_e t1, t_ela t1) = (t_name t, t_n t, t_e t, t_ela t) /\
  (t_K t1, t_D t1, t_Dl t1, t_Dm t1) = (t_K t, t_D t, t_Dl t, t_Dm t).
Definition t_changes (ks : list string) (t t1 : tobj) : Prop :=
  same_class t t1 /\ t_symb t1 = t_symb t /\ forall k, ~ In k ks -> member t1 k = member t k.

(* histories of plain setter calls *)
Definition t_run (h : list (tsetter * list R)) (t : tobj) : tobj := fold_left (fun t c => ts_call (fst c) (snd c) t) h t.
Fixpoint t_last (t : tobj) (k : string) (h : list (tsetter * list R)) (v0 : list R) : list R :=
  match h with
  | [] => v0
  | (s, v) :: l => t_last t k l (if String.eqb (ts_mem s) k && Nat.eqb (List.length v) (ts_len s t) then v else v0)
  end.

(* any method that writes the object *)
Inductive tcall :=
| CSet (s : tsetter) (v : list R)
| CArgs (q dq dqr ddqr : list R)
| CDH (cols : nat) (v : list R)
| CDYN (v : list R) (upd : bool)
| CREG (v : list R) (upd : bool)
| CLoadREG (file : option ynode) (upd : bool)
| CLoadConf (file : option ynode) (upd : bool).
Definition t_do (junk : nat -> R) (c : tcall) (t : tobj) : res tobj :=
  match c with
  | CSet s v => Ok (ts_call s v t)
  | CArgs a b c d => Ok (t_setArguments a b c d t)
  | CDH cols v => t_set_par_DHtable cols v t
  | CDYN v b => t_set_par_DYN v b t
  | CREG v b => t_set_par_REG v b t
  | CLoadREG f b => x <- t_load_par_REG t f b ; Ok (fst x)
  | CLoadConf f b => t_load_conf junk t f b
  end.
Fixpoint t_do_all (junk : nat -> R) (h : list tcall) (t : tobj) : res tobj :=
  match h with [] => Ok t | c :: l => t1 <- t_do junk c t ; t_do_all junk l t1 end.
Definition known (c : tcall) : Prop := match c with CSet s _ => In s tsetters | _ => True end.

(* every member exists; all but the four that load_conf compacts keep the size of the constructor *)
Definition compacted : list string := ["par_DHtable"; "par_world2L0"; "par_Ln2EE"; "par_gravity"].
Definition sized (t : tobj) : Prop :=
  forall k len, In (k, len) (member_sizes (t_n t) (t_e t) (t_K t) (t_D t) (t_Dl t) (t_Dm t)) ->
  mcount k (t_val t) = true /\ (~ In k compacted -> List.length (member t k) = len).
(* the two inertial vectors describe the same links *)
Definition t_sync (t : tobj) : Prop := same_links (t_n t) (member t "par_DYN") (member t "par_REG").

(* A link entry whose ten inertial numbers can be read, with no friction entry or a readable one *)
Definition number_at (nd : ynode) (k : string) : Prop := exists v x, entry nd k = Some v /\ as_double v = Some x.
Definition complete_link (keys : list string) (nd : ynode) : Prop :=
  (exists inertial, entry nd "inertial" = Some inertial /\ forall k, In k keys -> number_at inertial k) /\
  (entry nd "friction" = None \/ exists fr dl v, entry nd "friction" = Some fr /\ entry fr "Dl" = Some dl /\ as_vector as_double dl = Some v).
Definition complete_links (keys : list string) (n : nat) (cfg : ynode) : Prop :=
  forall dyn, entry cfg "dynamics" = Some dyn -> forall k nd, In (k, nd) (firstn n (ychildren dyn)) -> complete_link keys nd.

(* all flags equal *)
Definition uniform (fl : list Z) : Prop := (forall z, In z fl -> z = 1%Z) \/ (forall z, In z fl -> z = 0%Z).

(* Calls after which the two inertial vectors should still describe the same links: updates are requested, the masses
   given in the par_REG form are not zero, and the file has the numbers it should have. *)
Definition massive_link (nd : ynode) : Prop :=
  exists m x, entry2 nd "inertial" "mass" = Some m /\ as_double m = Some x /\ x <> 0%R.
Definition massive_links (n : nat) (cfg : ynode) : Prop :=
  forall dyn, entry cfg "dynamics" = Some dyn -> n <= List.length (ychildren dyn) /\
  forall k nd, In (k, nd) (firstn n (ychildren dyn)) -> massive_link nd.
Definition careful (n : nat) (c : tcall) : Prop :=
  match c with
  | CSet s _ => In s tsetters
  | CArgs _ _ _ _ | CDH _ _ => True
  | CDYN _ upd => upd = true
  | CREG v upd => upd = true /\ List.length v = 10 * n /\ massive n v
  | CLoadREG f upd => upd = true /\ forall cfg, f = Some cfg -> complete_links reg_keys n cfg /\ massive_links n cfg
  | CLoadConf f upd => upd = true /\ forall cfg, f = Some cfg -> complete_links inertial_keys n cfg
  end.

(* an object of the class generated for r, after any calls of its methods that return normally *)
Definition reached (r : robot) (t : tobj) : Prop :=
  exists junk h, (forall c, In c h -> known c) /\ t_do_all junk h (new_class r) = Ok t.
