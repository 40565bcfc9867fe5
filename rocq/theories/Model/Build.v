(* Construction of a Robot from a configuration; parameter files.
   Models src/thunder/src/robot.cpp. *)
From Coq Require Import Reals String List Bool Arith ZArith.
From Verif.Model Require Import Base Expr SX Robot Kinematics Dynamics Regressors Yaml Inertia.
Import ListNotations.
Open Scope nat_scope.
Open Scope string_scope.

(* Outcome of parse_config: success, "return 0" after a YAML::Exception, another exception, UB *)
Inductive pres (A : Type) : Type :=
| POk (a : A) | PFail | PThrow (m : string) | PUB (m : string).
Arguments POk {A}. Arguments PFail {A}. Arguments PThrow {A}. Arguments PUB {A}.
Definition pbind {A B} (x : pres A) (f : A -> pres B) : pres B :=
  match x with POk a => f a | PFail => PFail | PThrow m => PThrow m | PUB m => PUB m end.
Definition ofy {A} (x : yres A) : pres A := match x with Some a => POk a | None => PFail end.
Notation "x <~ e ; f" := (pbind e (fun x => f)) (at level 61, e at next level, right associativity).

Definition nonneg (z : Z) : pres nat :=
  if Z.ltb z 0 then PThrow "negative size" else POk (Z.to_nat z).

Definition is_sea (t : string) : bool := String.eqb t "R_SEA" || String.eqb t "P_SEA".

(* lines 75-85: jointsType[i] for i < num_joints is unchecked *)
Definition elastic_flags (n : nat) (jt : list string) : pres (list Z) :=
  if Nat.leb n (List.length jt) then
    POk (map (fun t => if is_sea t then 1%Z else 0%Z) (firstn n jt))
  else PUB "jointsType out of range".
Definition count_elastic (l : list Z) : nat := List.length (filter (Z.eqb 1) l).

(* std::copy(v.begin(), v.end(), dst.begin() + off) *)
Definition copy_at (dst : list Z) (off : nat) (v : list Z) : pres (list Z) :=
  if Nat.leb (off + List.length v) (List.length dst) then
    POk (firstn off dst ++ v ++ skipn (off + List.length v) dst)%list
  else PUB "std::copy past the end of the symbolic flags".

(* lines 117-130 (key "inertial", width 10) and 133-148 (key "friction", width Dl_order).
   node.second is const, so a missing key gives an invalid node and ["symb"] on it raises. *)
Fixpoint link_flags (key : string) (width : nat) (l : list (string * ynode)) (i : nat) (acc : list Z)
  : pres (list Z) :=
  match l with
  | [] => POk acc
  | (_, nd) :: t =>
      sub <~ ofy (yidx_c nd key) ;
      s <~ ofy (yidx sub "symb") ;
      v <~ (if ydef s then ofy (as_vector as_int s) else POk (repeat 0%Z width)) ;
      acc <~ copy_at acc (i * width) v ;
      link_flags key width t (S i) acc
  end.

(* lines 158-165: vec.resize(order) truncates or pads with zeros *)
Definition resizeZ (v : list Z) (n : nat) : list Z := (firstn n v ++ repeat 0%Z (n - List.length v))%list.
Definition symb_vector (nd : ynode) (key : string) (order : nat) : pres (list Z) :=
  s <~ ofy (yidx_c nd key) ;
  if ydef s then v <~ ofy (as_vector as_int s) ; POk (resizeZ v order)
  else POk (repeat 0%Z order).

(* lines 150-181 *)
Fixpoint elastic_symb (l : list (string * ynode)) (left kO dO dmO : nat)
  : pres (list Z * list Z * list Z * list Z) :=
  match l, left with
  | [], _ | _, O => POk ([], [], [], [])
  | (_, nd) :: t, S left' =>
      ks <~ symb_vector nd "K_symb" kO ;
      ds <~ symb_vector nd "D_symb" dO ;
      dms <~ symb_vector nd "Dm_symb" dmO ;
      ms <~ ofy (yidx_c nd "Mm_symb") ;
      m <~ (if ydef ms then ofy (as_int ms) else POk 0%Z) ;
      rest <~ elastic_symb t left' kO dO dmO ;
      let '(rk, rd, rdm, rm) := rest in
      POk ((ks ++ rk)%list, (ds ++ rd)%list, (dms ++ rdm)%list, m :: rm)
  end.

(* v[i] on a std::vector *)
Definition vec_at (v : list R) (i : nat) : pres R :=
  match nth_error v i with Some x => POk x | None => PUB "vector index out of range" end.
Definition three (v : list R) : pres (list R) :=
  a <~ vec_at v 0 ; b <~ vec_at v 1 ; c <~ vec_at v 2 ; POk [a; b; c].

(* "symb" entry of a section or a default of n zeros (lines 191-201) *)
Definition section_symb (sec : ynode) (n : nat) : pres (list Z) :=
  s <~ ofy (yidx sec "symb") ;
  if ydef s then ofy (as_vector as_int s) else POk (repeat 0%Z n).

Definition order_of (z : Z) : pres nat := nonneg z.

(* parse_config, robot.cpp:44-242. On PFail the C++ object is left partially initialised. *)
Definition parse_config (name : string) (cfg : ynode) : pres robot :=
  njN <~ ofy (yidx cfg "num_joints") ;
  njZ <~ ofy (as_int njN) ;
  tjN <~ ofy (yidx cfg "type_joints") ;
  jt <~ ofy (as_vector as_string tjN) ;
  dlN <~ ofy (yidx cfg "Dl_order") ;
  dlZ <~ (if ydef dlN then ofy (as_int dlN) else POk 0%Z) ;
  elN <~ ofy (yidx cfg "ELASTIC_MODEL") ;
  ela <~ (if ydef elN then ofy (as_bool elN) else POk false) ;
  ords <~ (if ela then
             e <~ ofy (yidx cfg "elastic") ;
             kn <~ ofy (yidx e "K_order") ; kz <~ ofy (as_int kn) ;
             dn <~ ofy (yidx e "D_order") ; dz <~ ofy (as_int dn) ;
             mn <~ ofy (yidx e "Dm_order") ; mz <~ ofy (as_int mn) ;
             POk (kz, dz, mz)
           else POk (0%Z, 0%Z, 0%Z)) ;
  (* negative sizes and orders end in an exception of std::vector::resize or casadi::SX::sym *)
  nj <~ nonneg njZ ;
  dlO <~ order_of dlZ ;
  kO <~ order_of (fst (fst ords)) ;
  dO <~ order_of (snd (fst ords)) ;
  dmO <~ order_of (snd ords) ;
  isel <~ elastic_flags nj jt ;
  let nej := count_elastic isel in
  kin <~ ofy (yidx cfg "kinematics") ;
  dhN <~ ofy (yidx kin "DH") ;
  dh <~ ofy (as_vector as_double dhN) ;
  grN <~ ofy (yidx cfg "gravity") ;
  grav <~ (if ydef grN then v <~ ofy (yidx grN "value") ; ofy (as_vector as_double v)
           else POk [0; 0; 0]%R) ;
  fb <~ ofy (yidx cfg "Base_to_L0") ;
  fbt <~ ofy (yidx fb "tr") ; fbtr <~ ofy (as_vector as_double fbt) ;
  fby <~ ofy (yidx fb "ypr") ; fbypr <~ ofy (as_vector as_double fby) ;
  fe <~ ofy (yidx cfg "Ln_to_EE") ;
  fet <~ ofy (yidx fe "tr") ; fetr <~ ofy (as_vector as_double fet) ;
  fey <~ ofy (yidx fe "ypr") ; feypr <~ ofy (as_vector as_double fey) ;
  dyn <~ ofy (yidx cfg "dynamics") ;
  sDYN <~ link_flags "inertial" STD_PAR_LINK (ychildren dyn) 0 (repeat 0%Z (STD_PAR_LINK * nj)) ;
  sDl <~ (if Nat.ltb 0 dlO then link_flags "friction" dlO (ychildren dyn) 0 (repeat 0%Z (dlO * nj))
          else POk []) ;
  sEl <~ (if ela then
            e <~ ofy (yidx cfg "elastic") ;
            ej <~ ofy (yidx e "joints") ;
            elastic_symb (ychildren ej) nej kO dO dmO
          else POk ([], [], [], [])) ;
  let '(sK, sD, sDm, sMm) := sEl in
  sDH <~ section_symb kin (List.length dh) ;
  sW <~ section_symb fb 6 ;
  sE <~ section_symb fe 6 ;
  gs <~ ofy (yidx cfg "gravity") ;
  sG <~ section_symb gs 3 ;
  if negb (Nat.eqb (List.length jt) nj) then
    PThrow "Mismatch between 'num_joints' and the size of 'type_joints' vector."
  else
  bt <~ three fbtr ; by_ <~ three fbypr ; et <~ three fetr ; ey <~ three feypr ; g3 <~ three grav ;
  let symb0 := mset "par_gravity" sG (mset "par_Ln2EE" sE (mset "par_world2L0" sW (mset "par_DHtable" sDH
     (mset "par_Mm" sMm (mset "par_Dm" sDm (mset "par_D" sD (mset "par_K" sK (mset "par_Dl" sDl
     (mset "par_DYN" sDYN []))))))))) in
  let model0 := mset "par_gravity" (sym_vec "gravity" 3) (mset "par_Ln2EE" (sym_vec "Ln2EE" 6)
     (mset "par_world2L0" (sym_vec "world2L0" 6) (mset "par_DHtable" (sym_vec "DHtable" (nj * 4)) []))) in
  let args0 := mset "par_gravity" g3 (mset "par_Ln2EE" (et ++ ey)%list
     (mset "par_world2L0" (bt ++ by_)%list (mset "par_DHtable" dh []))) in
  POk (mkRobot name nj nej ela jt isel kO dO dlO dmO model0 args0 symb0 [] []).

(* initVarsFuns, robot.cpp:244-354 *)
Definition ins_model (l : list (string * sx)) (m : smap sx) : smap sx :=
  fold_left (fun m kv => minsert (fst kv) (snd kv) m) l m.
Definition ins_args (l : list (string * list R)) (m : smap (list R)) : smap (list R) :=
  fold_left (fun m kv => minsert (fst kv) (snd kv) m) l m.
Definition ins_symb (l : list (string * list Z)) (m : smap (list Z)) : smap (list Z) :=
  fold_left (fun m kv => minsert (fst kv) (snd kv) m) l m.
Definition vs (name : string) (n : nat) : string * sx := (name, sym_vec name n).
Definition zs (name : string) (n : nat) : string * list R := (name, repeat 0%R n).
Definition os (name : string) (n : nat) : string * list Z := (name, repeat 1%Z n).

Definition init_vars_list (r : robot) : list (string * nat) :=
  let n := numJoints r in let e := numElasticJoints r in
  ([("q", n); ("dq", n); ("ddq", n); ("d3q", n); ("d4q", n); ("dqr", n); ("ddqr", n); ("w", 6)])%list.
Definition init_ela_vars (r : robot) : list (string * nat) :=
  let e := numElasticJoints r in
  if ELASTIC r then [("x", e); ("dx", e); ("ddx", e); ("ddxr", e)] else [].
Definition init_pars (r : robot) : list (string * nat) :=
  let n := numJoints r in let e := numElasticJoints r in
  ([("par_DYN", STD_PAR_LINK * n); ("par_REG", STD_PAR_LINK * n)]
   ++ (if Nat.ltb 0 (Dl_order r) then [("par_Dl", n * Dl_order r)] else [])
   ++ (if ELASTIC r then [("par_K", e * K_order r); ("par_D", e * D_order r);
                          ("par_Dm", e * Dm_order r); ("par_Mm", e)] else []))%list.

Definition initVarsFuns (r : robot) : res robot :=
  if negb (Nat.eqb (List.length (jointsType r)) (numJoints r)) then
    Throw "DHFwkinJoints: Error size of joints string"
  else
    let names := (init_vars_list r ++ init_ela_vars r ++ init_pars r)%list in
    let m := ins_model (map (fun kn => vs (fst kn) (snd kn)) names) (model r) in
    let a := ins_args (map (fun kn => zs (fst kn) (snd kn)) names) (args r) in
    let s := ins_symb (map (fun kn => os (fst kn) (snd kn)) (init_vars_list r ++ init_ela_vars r)) (symb r) in
    Ok (with_symb (with_args (with_model r m) a) s).

(* Robot::Robot, robot.cpp:17-25, 28-42. When parse_config returns 0 the constructors go on with a
   partially initialised object (for a missing num_joints even with an indeterminate numJoints); the
   first symbolic computation then raises. The model reports an exception at once. *)
Definition new_robot (name : string) (cfg : ynode) : res robot :=
  match parse_config name cfg with
  | POk r => initVarsFuns r
  | PFail => Throw "configuration could not be parsed"
  | PThrow m => Throw m
  | PUB m => UB m
  end.

(* ---- inertial parameter conversions on the robot ---- *)

(* update_inertial_REG, robot.cpp:942-973. Reading the indeterminate tail of get_par_DYN is UB. *)
Fixpoint all_some (l : list (option R)) : option (list R) :=
  match l with
  | [] => Some []
  | Some x :: t => match all_some t with Some r => Some (x :: r) | None => None end
  | None :: _ => None
  end.
Definition update_inertial_REG (r : robot) : res robot :=
  p <- get_par_DYN r ;
  match all_some p with
  | None => UB "indeterminate inertial parameters"
  | Some v => '(r', _) <- set_par_REG r (map_links (numJoints r) reg_of_dyn v) ; Ok r'
  end.
(* update_inertial_DYN, robot.cpp:918-940 *)
Definition update_inertial_DYN (r : robot) : res robot :=
  p <- get_par_REG r ;
  match all_some p with
  | None => UB "indeterminate inertial parameters"
  | Some v => '(r', _) <- set_par_DYN r (map_links (numJoints r) dyn_of_reg v) ; Ok r'
  end.

(* ---- parameter loading ---- *)

Definition inertial_keys : list string :=
  ["mass"; "CoM_x"; "CoM_y"; "CoM_z"; "Ixx"; "Ixy"; "Ixz"; "Iyy"; "Iyz"; "Izz"].
Definition reg_keys : list string :=
  ["mass"; "m_CoM_x"; "m_CoM_y"; "m_CoM_z"; "Ixx"; "Ixy"; "Ixz"; "Iyy"; "Iyz"; "Izz"].

(* Progress of a loader: [Go s] continues, [Caught s] means that a YAML::Exception left the try block
   with the parameters written so far, [Bad m] is an out-of-bounds read of a std::vector *)
Inductive prog (S : Type) : Type := Go (s : S) | Caught (s : S) | Bad (m : string).
Arguments Go {S}. Arguments Caught {S}. Arguments Bad {S}.
Definition gbind {S} (x : prog S) (f : S -> prog S) : prog S :=
  match x with Go s => f s | Caught s => Caught s | Bad m => Bad m end.

Definition upd (l : list R) (i : nat) (v : R) : list R := match lset l i v with Some l' => l' | None => l end.

(* param(base + j) = node[key_j].as<double>() *)
Fixpoint read_keys (nd : ynode) (keys : list string) (pos : nat) (p : list R) : prog (list R) :=
  match keys with
  | [] => Go p
  | k :: t =>
      match ybind (yidx nd k) as_double with
      | None => Caught p
      | Some v => read_keys nd t (S pos) (upd p pos v)
      end
  end.
(* for (j < order) param(base + j) = v[j] *)
Fixpoint read_vec (v : list R) (order j base : nat) (p : list R) : prog (list R) :=
  match order with
  | O => Go p
  | S o =>
      match nth_error v j with
      | None => Bad "vector index out of range"
      | Some x => read_vec v o (S j) base (upd p (base + j) x)
      end
  end.

Record pars := mkPars { p_DYN : list R; p_Dl : list R; p_K : list R; p_D : list R; p_Dm : list R; p_Mm : list R }.
Definition lift_DYN (s : pars) (x : prog (list R)) : prog pars :=
  match x with
  | Go p => Go (mkPars p (p_Dl s) (p_K s) (p_D s) (p_Dm s) (p_Mm s))
  | Caught p => Caught (mkPars p (p_Dl s) (p_K s) (p_D s) (p_Dm s) (p_Mm s))
  | Bad m => Bad m end.
Definition lift_Dl (s : pars) (x : prog (list R)) : prog pars :=
  match x with
  | Go p => Go (mkPars (p_DYN s) p (p_K s) (p_D s) (p_Dm s) (p_Mm s))
  | Caught p => Caught (mkPars (p_DYN s) p (p_K s) (p_D s) (p_Dm s) (p_Mm s))
  | Bad m => Bad m end.
Definition lift_K (s : pars) (x : prog (list R)) : prog pars :=
  match x with
  | Go p => Go (mkPars (p_DYN s) (p_Dl s) p (p_D s) (p_Dm s) (p_Mm s))
  | Caught p => Caught (mkPars (p_DYN s) (p_Dl s) p (p_D s) (p_Dm s) (p_Mm s))
  | Bad m => Bad m end.
Definition lift_D (s : pars) (x : prog (list R)) : prog pars :=
  match x with
  | Go p => Go (mkPars (p_DYN s) (p_Dl s) (p_K s) p (p_Dm s) (p_Mm s))
  | Caught p => Caught (mkPars (p_DYN s) (p_Dl s) (p_K s) p (p_Dm s) (p_Mm s))
  | Bad m => Bad m end.
Definition lift_Dm (s : pars) (x : prog (list R)) : prog pars :=
  match x with
  | Go p => Go (mkPars (p_DYN s) (p_Dl s) (p_K s) (p_D s) p (p_Mm s))
  | Caught p => Caught (mkPars (p_DYN s) (p_Dl s) (p_K s) (p_D s) p (p_Mm s))
  | Bad m => Bad m end.
Definition lift_Mm (s : pars) (x : prog (list R)) : prog pars :=
  match x with
  | Go p => Go (mkPars (p_DYN s) (p_Dl s) (p_K s) (p_D s) (p_Dm s) p)
  | Caught p => Caught (mkPars (p_DYN s) (p_Dl s) (p_K s) (p_D s) (p_Dm s) p)
  | Bad m => Bad m end.

(* vector of doubles under node[key], node const *)
Definition read_vector_key (nd : ynode) (key : string) : yres (list R) :=
  ybind (yidx_c nd key) (as_vector as_double).

(* lines 652-679 *)
Fixpoint load_links (l : list (string * ynode)) (left i dlO : nat) (s : pars) : prog pars :=
  match l, left with
  | [], _ => Go s
  | (_, nd) :: t, _ =>
      match yidx_c nd "inertial" with
      | None => Caught s
      | Some inertial =>
          match left with
          | O => Go s                                      (* if (i==numJoints) break *)
          | S left' =>
              gbind (lift_DYN s (read_keys inertial inertial_keys (STD_PAR_LINK * i) (p_DYN s))) (fun s =>
              match yidx_c nd "friction" with
              | None => Caught s
              | Some fr =>
                  gbind
                    (if ydef fr then
                       match ybind (yidx_c fr "Dl") (as_vector as_double) with
                       | None => Caught s
                       | Some v => lift_Dl s (read_vec v dlO 0 (dlO * i) (p_Dl s))
                       end
                     else Go s)
                    (fun s => load_links t left' (S i) dlO s)
              end)
          end
      end
  end.

(* lines 685-708 *)
Definition load_order (nd : ynode) (key : string) (order base : nat) (p : list R) : prog (list R) :=
  if Nat.ltb 0 order then
    match read_vector_key nd key with
    | None => Caught p
    | Some v => read_vec v order 0 base p
    end
  else Go p.
Fixpoint load_elastic (l : list (string * ynode)) (left i kO dO dmO : nat) (s : pars) : prog pars :=
  match l, left with
  | [], _ | _, O => Go s
  | (_, nd) :: t, S left' =>
      gbind (lift_K s (load_order nd "K" kO (kO * i) (p_K s))) (fun s =>
      gbind (lift_D s (load_order nd "D" dO (dO * i) (p_D s))) (fun s =>
      gbind (lift_Dm s (load_order nd "Dm" dmO (dmO * i) (p_Dm s))) (fun s =>
      match ybind (yidx_c nd "Mm") as_double with
      | None => Caught s
      | Some v => load_elastic t left' (S i) kO dO dmO
                    (mkPars (p_DYN s) (p_Dl s) (p_K s) (p_D s) (p_Dm s) (upd (p_Mm s) i v))
      end)))
  end.

Definition set_pars (r : robot) (s : pars) : robot :=
  let a := mset "par_DYN" (p_DYN s) (args r) in
  let a := if Nat.ltb 0 (Dl_order r) then mset "par_Dl" (p_Dl s) a else a in
  let a := if Nat.ltb 0 (K_order r) then mset "par_K" (p_K s) a else a in
  let a := if Nat.ltb 0 (D_order r) then mset "par_D" (p_D s) a else a in
  let a := if Nat.ltb 0 (Dm_order r) then mset "par_Dm" (p_Dm s) a else a in
  let a := if ELASTIC r then mset "par_Mm" (p_Mm s) a else a in
  with_args r a.

Definition zero_pars (r : robot) : pars :=
  let n := numJoints r in let e := numElasticJoints r in
  mkPars (repeat 0%R (STD_PAR_LINK * n)) (repeat 0%R (Dl_order r * n)) (repeat 0%R (e * K_order r))
    (repeat 0%R (e * D_order r)) (repeat 0%R (e * Dm_order r)) (repeat 0%R e).

Definition load_conf_tree (r : robot) (file : ynode) : prog pars :=
  match yidx file "dynamics" with
  | None => Caught (zero_pars r)
  | Some dyn =>
      gbind (load_links (ychildren dyn) (numJoints r) 0 (Dl_order r) (zero_pars r)) (fun s =>
      if ELASTIC r then
        match yidx file "elastic" with
        | None => Caught s
        | Some e =>
            if ydef e then
              match yidx e "joints" with
              | None => Caught s
              | Some js => load_elastic (ychildren js) (numElasticJoints r) 0 (K_order r) (D_order r) (Dm_order r) s
              end
            else Go s
        end
      else Go s)
  end.

(* load_conf_par, robot.cpp:637-723 *)
Definition load_conf_par (r : robot) (file : ynode) (update_REG : bool) : res robot :=
  match load_conf_tree r file with
  | Bad m => UB m
  | Go s | Caught s =>
      let r := set_pars r s in
      if update_REG then update_inertial_REG r else Ok r
  end.

(* load_par_REG, robot.cpp:725-773: reads file["inertial"][link][key] *)
Fixpoint load_reg_links (l : list (string * ynode)) (left i dlO : nat) (s : pars) : prog pars :=
  match l, left with
  | [], _ | _, O => Go s
  | (_, nd) :: t, S left' =>
      gbind (lift_DYN s (read_keys nd reg_keys (STD_PAR_LINK * i) (p_DYN s))) (fun s =>
      match yidx_c nd "Dl" with
      | None => Caught s
      | Some dl =>
          gbind
            (if ydef dl then
               match as_vector as_double dl with
               | None => Caught s
               | Some v => lift_Dl s (read_vec v dlO 0 (dlO * i) (p_Dl s))
               end
             else Go s)
            (fun s => load_reg_links t left' (S i) dlO s)
      end)
  end.
Definition load_par_REG (r : robot) (file : ynode) (update_DYN : bool) : res robot :=
  let p :=
    match yidx file "inertial" with
    | None => Caught (zero_pars r)
    | Some nd => load_reg_links (ychildren nd) (numJoints r) 0 (Dl_order r) (zero_pars r)
    end in
  match p with
  | Bad m => UB m
  | Go s | Caught s =>
      let a := mset "par_REG" (p_DYN s) (args r) in
      let a := if Nat.ltb 0 (Dl_order r) then mset "par_Dl" (p_Dl s) a else a in
      let r := with_args r a in
      if update_DYN then update_inertial_DYN r else Ok r
  end.

(* save_par_REG, robot.cpp:831-883: the file written, as a tree. (double)par_REG(i) raises when the
   stored vector is shorter than 10 n. *)
Definition link_node (keys : list string) (vals : list R) : ynode :=
  YMap [("inertial", YMap (combine keys (map YDbl vals)))].
Fixpoint save_links (keys : list string) (n i : nat) (p : list R) : list (string * ynode) :=
  match n with
  | O => []
  | S k => ("link" ++ to_string (i + 1), link_node keys (firstn 10 p)) :: save_links keys k (S i) (skipn 10 p)
  end.
Definition save_par_REG (r : robot) : res ynode :=
  let p := arg r "par_REG" in
  if Nat.leb (STD_PAR_LINK * numJoints r) (List.length p) then
    Ok (YMap [("dynamics", YMap (save_links reg_keys (numJoints r) 0 p))])
  else Throw "casadi: index out of range".

(* save_par, robot.cpp:885-916: yamlFile[par] = vector; operator[] on a yaml map appends new keys at
   the end and overwrites existing ones in place *)
Fixpoint yset (k : string) (v : ynode) (l : list (string * ynode)) : list (string * ynode) :=
  match l with
  | [] => [(k, v)]
  | (k', v') :: t => if String.eqb k k' then (k', v) :: t else (k', v') :: yset k v t
  end.
Definition save_par (r : robot) (names : list string) : ynode :=
  match names with
  | [] => YNull
  | _ => YMap (fold_left (fun l p => yset p (YSeq (map YDbl (get_arg r p))) l) names [])
  end.

(* load_par, robot.cpp:775-801: par(i) = par_vect[i] raises a CasADi error (not caught) when the file
   has more values than the stored vector; a YAML::Exception returns 0 *)
Definition store_prefix (r : robot) (name : string) (v : list R) : res robot :=
  a <- assign_loop (List.length v) 0 v (arg r name) ;
  Ok (with_args r (mset name a (args r))).
Fixpoint load_par_all (l : list (string * ynode)) (r : robot) : res (robot * nat) :=
  match l with
  | [] => Ok (r, 1)
  | (k, nd) :: t =>
      match as_vector as_double nd with
      | None => Ok (r, 0)
      | Some v => r <- store_prefix r k v ; load_par_all t r
      end
  end.
Fixpoint load_par_some (file : ynode) (names : list string) (r : robot) : res (robot * nat) :=
  match names with
  | [] => Ok (r, 1)
  | k :: t =>
      match ybind (yidx file k) (as_vector as_double) with
      | None => Ok (r, 0)
      | Some v => r <- store_prefix r k v ; load_par_some file t r
      end
  end.
Definition load_par (r : robot) (file : ynode) (names : list string) : res (robot * nat) :=
  match names with
  | [] => load_par_all (ychildren file) r
  | _ => load_par_some file names r
  end.

(* robot_from_file, robot.cpp:1126-1159 (compute = true). compute_userDefined adds nothing
   (userDefined.cpp: example code is commented out). *)
Definition compute_all (r : robot) : res robot :=
  r <- init_symb_parameters r ;
  r <- compute_kinematics r true ;
  r <- compute_dynamics r true ;
  r <- compute_regressors r ;
  update_symb_parameters r.
Definition robot_from_file (name : string) (file : ynode) (compute : bool) : res robot :=
  r <- new_robot name file ;
  r <- load_conf_par r file true ;
  if compute then compute_all r else Ok r.
