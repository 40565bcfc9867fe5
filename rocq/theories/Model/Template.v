(* The generated class: src/thunder/thunder_robot_template/thunder_robot.{h,cpp} after change_to_robot.
   Vectors are lists of reals; a file is the YAML tree it contains, or None when YAML::LoadFile raises.
   Members are kept in a map under their C++ names. *)
From Coq Require Import Reals String List Bool Arith ZArith.
From Verif.Model Require Import Base Expr SX Robot Yaml Inertia Build.
Import ListNotations.
Open Scope nat_scope.
Open Scope string_scope.

Record tobj := mkT {
  t_name : string; t_n : nat; t_e : nat; t_ela : bool;
  t_K : nat; t_D : nat; t_Dl : nat; t_Dm : nat;
  t_val : smap (list R);     (* q, ..., par_gravity *)
  t_symb : smap (list Z)     (* DHtable_symb, gravity_symb, world2L0_symb, Ln2EE_symb *)
}.
Definition with_val (t : tobj) (m : smap (list R)) : tobj :=
  mkT (t_name t) (t_n t) (t_e t) (t_ela t) (t_K t) (t_D t) (t_Dl t) (t_Dm t) m (t_symb t).
Definition with_tsymb (t : tobj) (m : smap (list Z)) : tobj :=
  mkT (t_name t) (t_n t) (t_e t) (t_ela t) (t_K t) (t_D t) (t_Dl t) (t_Dm t) (t_val t) m.
Definition member (t : tobj) (k : string) : list R := mget [] k (t_val t).
Definition tflags (t : tobj) (k : string) : list Z := mget [] k (t_symb t).
Definition tput (k : string) (v : list R) (t : tobj) : tobj := with_val t (mset k v (t_val t)).
Definition tput_symb (k : string) (v : list Z) (t : tobj) : tobj := with_tsymb t (mset k v (t_symb t)).

(* the data members, thunder_robot.h:21-25, with the sizes given by resizeVariables, thunder_robot.cpp:12-46 *)
Definition member_sizes (n e kO dO dlO dmO : nat) : list (string * nat) :=
  [("q", n); ("dq", n); ("ddq", n); ("d3q", n); ("d4q", n); ("dqr", n); ("ddqr", n);
   ("x", e); ("dx", e); ("ddx", e); ("ddxr", e); ("w", 6);
   ("par_REG", STD_PAR_LINK * n); ("par_DYN", STD_PAR_LINK * n); ("par_Dl", dlO * n);
   ("par_K", kO * e); ("par_D", dO * e); ("par_Dm", dmO * e); ("par_Mm", e);
   ("par_DHtable", n * 4); ("par_world2L0", 6); ("par_Ln2EE", 6); ("par_gravity", 3)].
Definition symb_sizes (n : nat) : list (string * nat) :=
  [("DHtable_symb", n * 4); ("gravity_symb", 3); ("world2L0_symb", 6); ("Ln2EE_symb", 6)].
(* the constructor, thunder_robot.cpp:8-46, of the class generated for r: the constants are those written in the
   header by change_to_robot (utils.cpp:122-168) *)
Definition new_class (r : robot) : tobj :=
  let n := numJoints r in let e := numElasticJoints r in
  mkT (robotName r) n e (ELASTIC r) (K_order r) (D_order r) (Dl_order r) (Dm_order r)
    (fold_left (fun m kn => mset (fst kn) (repeat 0%R (snd kn)) m)
       (member_sizes n e (K_order r) (D_order r) (Dl_order r) (Dm_order r)) [])
    (fold_left (fun m kn => mset (fst kn) (repeat 0%Z (snd kn)) m) (symb_sizes n) []).

(* if (v.size() == len) k = v; lines 65-159 and 210-280 *)
Definition tstore (k : string) (len : nat) (v : list R) (t : tobj) : tobj :=
  if Nat.eqb (List.length v) len then tput k v t else t.
(* setArguments, lines 54-63 *)
Definition t_setArguments (q dq dqr ddqr : list R) (t : tobj) : tobj :=
  let n := t_n t in
  if Nat.eqb (List.length q) n && Nat.eqb (List.length dq) n && Nat.eqb (List.length dqr) n && Nat.eqb (List.length ddqr) n
  then tput "ddqr" ddqr (tput "dqr" dqr (tput "dq" dq (tput "q" q t)))
  else t.
(* lines 65-159 *)
Definition t_set_q (v : list R) (t : tobj) : tobj := tstore "q" (t_n t) v t.
Definition t_set_dq (v : list R) (t : tobj) : tobj := tstore "dq" (t_n t) v t.
Definition t_set_ddq (v : list R) (t : tobj) : tobj := tstore "ddq" (t_n t) v t.
Definition t_set_d3q (v : list R) (t : tobj) : tobj := tstore "d3q" (t_n t) v t.
Definition t_set_d4q (v : list R) (t : tobj) : tobj := tstore "d4q" (t_n t) v t.
Definition t_set_dqr (v : list R) (t : tobj) : tobj := tstore "dqr" (t_n t) v t.
Definition t_set_ddqr (v : list R) (t : tobj) : tobj := tstore "ddqr" (t_n t) v t.
Definition t_set_x (v : list R) (t : tobj) : tobj := tstore "x" (t_e t) v t.
Definition t_set_dx (v : list R) (t : tobj) : tobj := tstore "dx" (t_e t) v t.
Definition t_set_ddx (v : list R) (t : tobj) : tobj := tstore "ddx" (t_e t) v t.
Definition t_set_ddxr (v : list R) (t : tobj) : tobj := tstore "ddxr" (t_e t) v t.
Definition t_set_w (v : list R) (t : tobj) : tobj := tstore "w" 6 v t.
(* lines 210-280: the new vector is compared with the current one *)
Definition t_set_par (k : string) (v : list R) (t : tobj) : tobj := tstore k (List.length (member t k)) v t.
Definition t_set_par_K := t_set_par "par_K".
Definition t_set_par_D := t_set_par "par_D".
Definition t_set_par_Dm := t_set_par "par_Dm".
Definition t_set_par_Mm := t_set_par "par_Mm".
Definition t_set_par_Dl := t_set_par "par_Dl".
Definition t_set_par_gravity := t_set_par "par_gravity".
Definition t_set_par_world2L0 := t_set_par "par_world2L0".
Definition t_set_par_Ln2EE := t_set_par "par_Ln2EE".
(* set_par_DHtable(MatrixXd), lines 250-256: only the number of elements is compared; assigning a matrix that is not a
   column to a VectorXd violates an Eigen assertion. v: the elements, column by column *)
Definition t_set_par_DHtable (cols : nat) (v : list R) (t : tobj) : res tobj :=
  if Nat.eqb (List.length v) (List.length (member t "par_DHtable")) then
    if Nat.eqb cols 1 || Nat.eqb (List.length v) 0 then Ok (tput "par_DHtable" v t)
    else UB "Eigen: assignment of a matrix to a vector"
  else Ok t.

(* one link of update_inertial_DYN, lines 163-171, and of update_inertial_REG, lines 177-186 *)
Definition t_dyn_of_reg (p : list R) : list R :=
  let m := p_at p 0 in
  let x := (p_at p 1 / m)%R in let y := (p_at p 2 / m)%R in let z := (p_at p 3 / m)%R in
  let I := hhT m x y z in
  [m; x; y; z; p_at p 4 - I 0%nat 0%nat; p_at p 5 - I 0%nat 1%nat; p_at p 6 - I 0%nat 2%nat; p_at p 7 - I 1%nat 1%nat; p_at p 8 - I 1%nat 2%nat; p_at p 9 - I 2%nat 2%nat]%R.
Definition t_reg_of_dyn (p : list R) : list R :=
  let m := p_at p 0 in let x := p_at p 1 in let y := p_at p 2 in let z := p_at p 3 in
  let I := hhT m x y z in
  [m; m * x; m * y; m * z; p_at p 4 + I 0%nat 0%nat; p_at p 5 + I 0%nat 1%nat; p_at p 6 + I 0%nat 2%nat; p_at p 7 + I 1%nat 1%nat; p_at p 8 + I 1%nat 2%nat; p_at p 9 + I 2%nat 2%nat]%R.
(* lines 161-188; segment(10 i, 10) outside the vector violates an Eigen assertion *)
Definition t_convert (f : list R -> list R) (from to : string) (t : tobj) : res tobj :=
  let k := STD_PAR_LINK * t_n t in
  if Nat.leb k (List.length (member t from)) && Nat.leb k (List.length (member t to)) then
    Ok (tput to (map_links (t_n t) f (member t from) ++ skipn k (member t to))%list t)
  else UB "Eigen: segment out of range".
Definition t_update_DYN : tobj -> res tobj := t_convert t_dyn_of_reg "par_REG" "par_DYN".
Definition t_update_REG : tobj -> res tobj := t_convert t_reg_of_dyn "par_DYN" "par_REG".
(* lines 190-208 *)
Definition t_set_par_DYN (v : list R) (update_REG : bool) (t : tobj) : res tobj :=
  let t := tstore "par_DYN" (List.length (member t "par_DYN")) v t in
  if update_REG then t_update_REG t else Ok t.
Definition t_set_par_REG (v : list R) (update_DYN : bool) (t : tobj) : res tobj :=
  let t := tstore "par_REG" (List.length (member t "par_REG")) v t in
  if update_DYN then t_update_DYN t else Ok t.

(* the ten numbers under the given keys *)
Fixpoint read_list (nd : ynode) (keys : list string) : yres (list R) :=
  match keys with
  | [] => Some []
  | k :: t => ybind (ybind (yidx nd k) as_double) (fun v => ybind (read_list nd t) (fun l => Some (v :: l)))
  end.
(* p.segment(off, len(v)) << v *)
Definition splice (p : list R) (off : nat) (v : list R) : option (list R) :=
  if Nat.leb (off + List.length v) (List.length p) then
    Some (firstn off p ++ v ++ skipn (off + List.length v) p)%list
  else None.
Definition to_prog (x : res tobj) (t : tobj) : prog tobj :=
  match x with Ok t' => Go t' | Throw m => Caught t | UB m => Bad m end.

(* the loop of load_par_REG, lines 336-352. node.second is const: a missing "inertial" gives an invalid node. *)
Fixpoint t_reg_links (l : list (string * ynode)) (left i : nat) (p : list R) : prog (list R) :=
  match l, left with
  | [], _ | _, O => Go p                                 (* if (i==n_joints) break *)
  | (_, nd) :: rest, S left' =>
      match ybind (yidx_c nd "inertial") (fun inertial => read_list inertial reg_keys) with
      | None => Caught p
      | Some v =>
          match splice p (STD_PAR_LINK * i) v with
          | None => Bad "Eigen: segment out of range"
          | Some p => t_reg_links rest left' (S i) p
          end
      end
  end.
(* load_par_REG, lines 326-360: returns par_REG *)
Definition t_load_par_REG (t : tobj) (file : option ynode) (update_DYN : bool) : res (tobj * list R) :=
  let done (t : tobj) := Ok (t, member t "par_REG") in
  match file with
  | None => done t
  | Some config =>
      match yidx config "dynamics" with
      | None => done t
      | Some dyn =>
          if ydef dyn then
            match t_reg_links (ychildren dyn) (t_n t) 0 (member t "par_REG") with
            | Bad m => UB m
            | Caught p => done (tput "par_REG" p t)
            | Go p =>
                let t := tput "par_REG" p t in
                if update_DYN then t <- t_update_DYN t ; done t else done t
            end
          else done t
      end
  end.

(* v.resize(k): contents are kept when the size does not change and indeterminate (junk) otherwise *)
Definition vresize (junk : nat -> R) (k : nat) (v : list R) : list R :=
  if Nat.eqb (List.length v) k then v else map junk (seq 0 k).
(* for (i < k) if (fl[i]) out.push(v[i]): None when an index is outside fl or v *)
Fixpoint picked (k : nat) (fl : list Z) (v : list R) : option (list R) :=
  match k with
  | O => Some []
  | S k' =>
      match fl with
      | [] => None
      | z :: fl' =>
          match picked k' fl' (tl v) with
          | None => None
          | Some l => if flag_set z then match v with [] => None | x :: _ => Some (x :: l) end else Some l
          end
      end
  end.
(* if (sec["symb"]) flags = sec["symb"].as<std::vector<int>>() *)
Definition new_flags (sec : ynode) (cur : list Z) : yres (list Z) :=
  ybind (yidx sec "symb") (fun s => if ydef s then as_vector as_int s else Some cur).

Section Junk.
  Variable junk : nat -> R.

  (* lines 367-394 *)
  Definition t_kinematics (config : ynode) (t : tobj) : prog tobj :=
    match yidx config "kinematics" with
    | None => Caught t
    | Some kin =>
        if ydef kin then
          let t := tput "par_DHtable" (vresize junk (t_n t * 4) (member t "par_DHtable")) t in
          match ybind (yidx kin "DH") (as_vector as_double) with
          | None => Caught t
          | Some dh =>
              match new_flags kin (tflags t "DHtable_symb") with
              | None => Caught t
              | Some fl =>
                  let t := tput_symb "DHtable_symb" fl t in
                  match picked (List.length dh) fl dh with
                  | None => Bad "DHtable_symb out of range"
                  | Some l => if Nat.leb (List.length l) (t_n t * 4) then Go (tput "par_DHtable" l t)
                              else Bad "Eigen: index out of range"
                  end
              end
          end
        else Go t
    end.
  (* lines 396-424 (Base_to_L0, par_world2L0, world2L0_symb) and 426-454 (Ln_to_EE, par_Ln2EE, Ln2EE_symb) *)
  Definition t_frame (sec par sy : string) (config : ynode) (t : tobj) : prog tobj :=
    match yidx config sec with
    | None => Caught t
    | Some fr =>
        if ydef fr then
          let t := tput par (vresize junk 6 (member t par)) t in
          match new_flags fr (tflags t sy) with
          | None => Caught t
          | Some fl =>
              let t := tput_symb sy fl t in
              match ybind (yidx fr "tr") (as_vector as_double) with
              | None => Caught t
              | Some tr =>
                  match ybind (yidx fr "ypr") (as_vector as_double) with
                  | None => Caught t
                  | Some ypr =>
                      match picked 3 fl tr, picked 3 (skipn 3 fl) ypr with
                      | Some a, Some b => Go (tput par (a ++ b)%list t)
                      | _, _ => Bad "vector index out of range"
                      end
                  end
              end
          end
        else Go t
    end.
  (* the loop of lines 461-488: the ten numbers are read before the segment is written *)
  Fixpoint t_links (l : list (string * ynode)) (left i dlO : nat) (s : pars) : prog pars :=
    match l, left with
    | [], _ | _, O => Go s
    | (_, nd) :: rest, S left' =>
        match ybind (yidx_c nd "inertial") (fun inertial => read_list inertial inertial_keys) with
        | None => Caught s
        | Some v =>
            match splice (p_DYN s) (STD_PAR_LINK * i) v with
            | None => Bad "Eigen: segment out of range"
            | Some p =>
                let s := mkPars p (p_Dl s) (p_K s) (p_D s) (p_Dm s) (p_Mm s) in
                match yidx_c nd "friction" with
                | None => Caught s
                | Some fr =>
                    gbind
                      (if ydef fr then
                         match ybind (yidx_c fr "Dl") (as_vector as_double) with
                         | None => Caught s
                         | Some v => lift_Dl s (read_vec v dlO 0 (dlO * i) (p_Dl s))
                         end
                       else Go s)
                      (fun s => t_links rest left' (S i) dlO s)
                end
            end
        end
    end.
  Definition pars_of (t : tobj) : pars :=
    mkPars (member t "par_DYN") (member t "par_Dl") (member t "par_K") (member t "par_D") (member t "par_Dm") (member t "par_Mm").
  Definition put_pars (t : tobj) (s : pars) : tobj :=
    tput "par_Mm" (p_Mm s) (tput "par_Dm" (p_Dm s) (tput "par_D" (p_D s) (tput "par_K" (p_K s)
      (tput "par_Dl" (p_Dl s) (tput "par_DYN" (p_DYN s) t))))).
  Definition on_pars (x : prog pars) (t : tobj) : prog tobj :=
    match x with Go s => Go (put_pars t s) | Caught s => Caught (put_pars t s) | Bad m => Bad m end.
  (* lines 456-490 *)
  Definition t_dynamics (update_REG : bool) (config : ynode) (t : tobj) : prog tobj :=
    match yidx config "dynamics" with
    | None => Caught t
    | Some dyn =>
        if ydef dyn then
          gbind (on_pars (t_links (ychildren dyn) (t_n t) 0 (t_Dl t) (pars_of t)) t) (fun t =>
          if update_REG then to_prog (t_update_REG t) t else Go t)
        else Go t
    end.
  (* lines 492-514 *)
  Definition t_gravity (config : ynode) (t : tobj) : prog tobj :=
    match yidx config "gravity" with
    | None => Caught t
    | Some g =>
        if ydef g then
          let t := tput "par_gravity" (vresize junk 3 (member t "par_gravity")) t in
          match new_flags g (tflags t "gravity_symb") with
          | None => Caught t
          | Some fl =>
              let t := tput_symb "gravity_symb" fl t in
              match ybind (yidx g "value") (as_vector as_double) with
              | None => Caught t
              | Some grav =>
                  match picked 3 fl grav with
                  | None => Bad "vector index out of range"
                  | Some l => Go (tput "par_gravity" l t)
                  end
              end
          end
        else Go t
    end.
  (* lines 516-545: the loop is the one of Robot::load_conf_par *)
  Definition t_elastic (config : ynode) (t : tobj) : prog tobj :=
    match yidx config "elastic" with
    | None => Caught t
    | Some e =>
        if ydef e then
          match yidx e "joints" with
          | None => Caught t
          | Some js => on_pars (load_elastic (ychildren js) (t_e t) 0 (t_K t) (t_D t) (t_Dm t) (pars_of t)) t
          end
        else Go t
    end.
  (* load_conf, lines 362-549: one try block *)
  Definition t_load_conf (t : tobj) (file : option ynode) (update_REG : bool) : res tobj :=
    match file with
    | None => Ok t
    | Some config =>
        match
          gbind (t_kinematics config t) (fun t =>
          gbind (t_frame "Base_to_L0" "par_world2L0" "world2L0_symb" config t) (fun t =>
          gbind (t_frame "Ln_to_EE" "par_Ln2EE" "Ln2EE_symb" config t) (fun t =>
          gbind (t_dynamics update_REG config t) (fun t =>
          gbind (t_gravity config t) (fun t => t_elastic config t)))))
        with
        | Go t | Caught t => Ok t
        | Bad m => UB m
        end
    end.
End Junk.

(* fillInertialYaml, lines 729-767, and save_par_REG / save_par_DYN, lines 590-662: the file as a tree *)
Definition t_link_node (keys : list string) (vals dl : list R) : ynode :=
  YMap [("inertial", YMap (combine keys (map YDbl vals))); ("friction", YMap [("Dl", YSeq (map YDbl dl))])].
Fixpoint t_save_links (keys : list string) (n i dlO : nat) (p dl : list R) : list (string * ynode) :=
  match n with
  | O => []
  | S k => ("link" ++ to_string (i + 1), t_link_node keys (firstn 10 p) (firstn dlO dl))
             :: t_save_links keys k (S i) dlO (skipn 10 p) (skipn dlO dl)
  end.
Definition t_save (keys : list string) (k : string) (t : tobj) : res ynode :=
  let p := member t k in let dl := member t "par_Dl" in
  if Nat.leb (STD_PAR_LINK * t_n t) (List.length p) && Nat.leb (t_Dl t * t_n t) (List.length dl) then
    Ok (YMap [("dynamics", match t_save_links keys (t_n t) 0 (t_Dl t) p dl with [] => YNull | l => YMap l end)])
  else UB "Eigen: index out of range".
Definition t_save_par_REG : tobj -> res ynode := t_save reg_keys "par_REG".
Definition t_save_par_DYN : tobj -> res ynode := t_save inertial_keys "par_DYN".
(* save_par, lines 664-726: the tree it writes; it always returns 1. The members are column vectors, so data() is the
   vector. An empty vector is written as an empty sequence. *)
Definition t_save_par (t : tobj) : ynode :=
  let v k := YSeq (map YDbl (member t k)) in
  YMap [("DHtable", v "par_DHtable"); ("world2L0", v "par_world2L0"); ("Ln2EE", v "par_Ln2EE"); ("gravity", v "par_gravity");
        ("par_DYN", v "par_DYN"); ("par_REG", v "par_REG"); ("par_K", v "par_K"); ("par_Dl", v "par_Dl"); ("par_D", v "par_D");
        ("par_Dm", v "par_Dm"); ("par_Mm", v "par_Mm")].

(* A generated getter (utils.cpp:197-239): the members named by the arguments are passed as pointers; the generated C
   function reads as many doubles from each pointer as its input has elements. A name that is not a member does not
   compile: Throw. r: the robot the class was generated from. *)
Fixpoint read_inputs (ins : list sx) (al : list string) (t : tobj) : res (list (list R)) :=
  match ins, al with
  | [], _ => Ok []
  | _ :: _, [] => UB "input pointer missing"
  | x :: ins', a :: al' =>
      match mfind a (t_val t) with
      | None => Throw "does not compile: no such member"
      | Some v =>
          if Nat.leb (rows x) (List.length v) then
            rest <- read_inputs ins' al' t ; Ok (firstn (rows x) v :: rest)
          else UB "read past the end of a member"
      end
  end.
Definition t_get (r : robot) (t : tobj) (name : string) : res mat :=
  match mfind name (casadi_fun r) with
  | None => Throw "does not compile: no such getter"
  | Some f =>
      vals <- read_inputs (f_inputs f) (mget [] name (fun_args r)) t ;
      call f vals
  end.
