(* The two tools that write inertial parameter files:
   genInertial_files (src/thunder/src/genYaml.cpp) and the URDF to Denavit-Hartenberg converter (src/genYAML).
   Simplifications: a file is a YAML tree; output files can always be written; comments in the files are dropped. *)
From Coq Require Import Reals String List Bool Arith ZArith.
From Verif.Model Require Import Base Robot Yaml Inertia Bodies Build Template.
Import ListNotations.
Open Scope nat_scope.
Open Scope string_scope.

(* node[k] = v on a YAML map under construction: an existing entry is rebound in place, a new one is appended *)
Fixpoint yput (k : string) (v : ynode) (l : list (string * ynode)) : list (string * ynode) :=
  match l with
  | [] => [(k, v)]
  | (k', v') :: t => if String.eqb k k' then (k, v) :: t else (k', v') :: yput k v t
  end.
(* a default constructed YAML::Node that never received an entry is null *)
Definition ymap_of (l : list (string * ynode)) : ynode := match l with [] => YNull | _ => YMap l end.

(* LinkProp, library/utils.h:13-20: value-initialised by std::vector::resize *)
Definition new_link : body := mkBody "" 0 [0; 0; 0; 0; 0; 0]%R [0; 0; 0]%R [0; 0; 0]%R [0]%R.

(* fillInertialYaml, genYaml.cpp:163-204: one link. keys: keys_[0], keys_[1]+"x", ..., keys_[2]+"zz" *)
Definition link_numbers (b : body) : list R :=
  [b_mass b; p_at (b_xyz b) 0; p_at (b_xyz b) 1; p_at (b_xyz b) 2;
   p_at (b_I b) 0; p_at (b_I b) 1; p_at (b_I b) 2; p_at (b_I b) 3; p_at (b_I b) 4; p_at (b_I b) 5].
Definition fill_link (keys : list string) (b : body) : ynode :=
  YMap [("inertial", YMap (combine keys (map YDbl (link_numbers b)))); ("friction", YMap [("Dl", YSeq (map YDbl (b_Dl b)))])].
Definition fillInertialYaml (keys : list string) (links : list body) : ynode :=
  YMap [("dynamics", ymap_of (fold_left (fun l b => yput (b_name b) (fill_link keys b) l) links []))].

(* the ten numbers of one entry, genYaml.cpp:55-73, in this order; node.second is const. None: YAML::Exception *)
Definition read_ten (nd : ynode) : yres (list R) :=
  ybind (yidx_c nd "inertial") (fun inertial => read_list inertial inertial_keys).
(* lines 75-84. The coefficients are looked up as node.second["Dl"] (line 78), not below "friction". A negative order
   makes Dl.resize throw std::length_error, which is not caught *)
Definition read_Dl (Dl_order : Z) (nd : ynode) : res (yres (list R)) :=
  if Z.eqb Dl_order 0 then Ok (Some [0]%R)
  else if Z.ltb Dl_order 0 then Throw "std::length_error"
  else Ok (ybind (yidx_c nd "friction") (fun _ => ybind (yidx_c nd "Dl") (as_vector as_double))).
(* the reading loop, lines 52-95: links_prop_DH[link_index] = properties. None: a YAML::Exception left the loop *)
Fixpoint read_links (Dl_order : Z) (l : list (string * ynode)) (i : nat) (links : list body) : res (yres (list body)) :=
  match l with
  | [] => Ok (Some links)
  | (name, nd) :: t =>
      match read_ten nd with
      | None => Ok None
      | Some v =>
          dl <- read_Dl Dl_order nd ;
          match dl with
          | None => Ok None
          | Some dl =>
              match lset links i (mkBody name (p_at v 0) (skipn 4 v) (firstn 3 (skipn 1 v)) [0; 0; 0]%R dl) with
              | None => UB "links_prop_DH: index out of range"
              | Some links => read_links Dl_order t (S i) links
              end
          end
      end
  end.
(* lines 98-118; rpy of the new link stays zero *)
Definition reg_link (b : body) : body :=
  let m := b_mass b in
  let IG := createI (b_I b) in
  let I0 := fun i j => (IG i j + hTh m (p_at (b_xyz b) 0) (p_at (b_xyz b) 1) (p_at (b_xyz b) 2) i j)%R in
  mkBody (b_name b) m (upper I0) (v3sc m (b_xyz b)) [0; 0; 0]%R (b_Dl b).

(* genInertial_files, lines 26-148. Some (reg, dyn): returned 1 after writing the two files; None: returned 0 with no
   file written. num_joints >= 0. *)
Definition genInertial_files (num_joints : nat) (config : option ynode) : res (option (ynode * ynode)) :=
  match config with
  | None => Ok None
  | Some cfg =>
      match yidx cfg "dynamics", ybind (yidx cfg "Dl_order") (fun d => if ydef d then as_int d else Some 0%Z) with
      | Some dyn, Some z =>
          x <- read_links z (ychildren dyn) 0 (repeat new_link num_joints) ;
          match x with
          | None => Ok None
          | Some links => Ok (Some (fillInertialYaml reg_keys (map reg_link links), fillInertialYaml inertial_keys links))
          end
      | _, _ => Ok None
      end
  end.

(* ---- src/genYAML/main_YAML.cpp ---- *)
Section Urdf.
  (* std::istringstream(s) >> v[0] >> v[1] >> v[2] *)
  Variable scan : string -> list R.
  (* one entry of inertial.yaml, main_YAML.cpp:119-156. Some None: "Missing 'xyz'/'rpy'", the entry is skipped *)
  Definition urdf_link (name : string) (nd : ynode) : yres (option body) :=
    ybind (yidx_c nd "mass") (fun mass =>
    ybind (yidx_c nd "inertia") (fun parI =>
    ybind (yidx_c nd "origin") (fun origin =>
    ybind (as_double mass) (fun m =>
    ybind (read_list parI ["xx"; "xy"; "xz"; "yy"; "yz"; "zz"]) (fun I =>
    ybind (yidx origin "xyz") (fun x =>
    if ydef x then ybind (as_string x) (fun xs =>
      ybind (yidx origin "rpy") (fun y =>
      if ydef y then ybind (as_string y) (fun ys => Some (Some (mkBody name m I (scan xs) (scan ys) [0]%R)))
      else Some None))
    else Some None)))))).
  (* the loop 119-156; an exception ends it and the links read so far are kept (158-160) *)
  Fixpoint urdf_links (l : list (string * ynode)) : list body :=
    match l with
    | [] => []
    | (name, nd) :: t =>
        match urdf_link name nd with
        | None => []
        | Some None => urdf_links t
        | Some (Some b) => b :: urdf_links t
        end
    end.
  (* transform[i], lines 89-112: rpy and xyz *)
  Definition NUMLINKS : nat := 7.
  Definition transforms (use_gripper : bool) : list (list R * list R) :=
    [([PI / 2; 0; 0], [0; 0; 0]); ([- (PI / 2); 0; 0], [0; 0; 0]); ([- (PI / 2); 0; 0], [- (825 / 10000); 0; 0]);
     ([PI / 2; 0; 0], [825 / 10000; 0; 0]); ([- (PI / 2); 0; 0], [0; 0; 0]); ([- (PI / 2); 0; 0], [- (88 / 1000); 0; 0])]%R
    ++ (if use_gripper then [([0; 0; PI / 4], [0; 0; - (107 / 1000) - 1034 / 10000]); ([0; 0; 0], [0; 0; 0])]
        else [([0; 0; 0], [0; 0; - (107 / 1000)])])%R.
  (* lines 164-166: entry i of the file goes to place i-1, entry 0 (the base) is not used *)
  Fixpoint move_links (tr : list (list R * list R)) (i : nat) (links : list body) : res (list body) :=
    match tr with
    | [] => Ok []
    | (rpy, xyz) :: t =>
        match nth_error links i with
        | None => UB "links_prop: index out of range"
        | Some b => rest <- move_links t (S i) links ; Ok (transformBodyInertial xyz rpy b new_link :: rest)
        end
    end.
  (* lines 168-179: the hand is merged into link 7 *)
  Definition merge_hand (use_gripper : bool) (links : list body) : list body :=
    if use_gripper then
      match skipn 6 links with
      | link_7 :: link_hand :: _ =>
          let n := mergeBodyInertial link_7 link_hand new_link in
          firstn 6 links ++ [mkBody (b_name link_7) (b_mass n) (b_I n) (b_xyz n) (b_rpy n) (b_Dl n)] ++ skipn 7 links
      | _ => links
      end
    else links.
  (* fillInertialYaml, lines 300-333: one map per link, without a "dynamics" level and without friction *)
  Definition fill_urdf (keys : list string) (links : list body) : list (string * ynode) :=
    map (fun b => (b_name b, YMap (combine keys (map YDbl (link_numbers b))))) (firstn NUMLINKS links).
  (* perturbateLinkProp, lines 281-298. e: the ten numbers drawn from the normal distribution *)
  Definition perturbateLinkProp (b : body) (e : list R) : body :=
    mkBody (b_name b) (b_mass b * (1 + p_at e 0))
      (map (fun k => p_at (b_I b) k * (1 + p_at e (4 + k)))%R [0; 1; 2; 3; 4; 5])
      (map (fun k => p_at (b_xyz b) k * (1 + p_at e (1 + k)))%R [0; 1; 2]) [0; 0; 0]%R [0]%R.
  (* lines 229-246: hat * hat.transpose() *)
  Definition urdf_reg_link (b : body) : body :=
    let m := b_mass b in
    let IG := createI (b_I b) in
    let I0 := fun i j => (IG i j + hhT m (p_at (b_xyz b) 0) (p_at (b_xyz b) 1) (p_at (b_xyz b) 2) i j)%R in
    mkBody (b_name b) m (upper I0) (v3sc m (b_xyz b)) [0; 0; 0]%R [0]%R.

  (* coeff_p, lines 222-223, in percent; the file of the first one has no suffix (253-254) *)
  Definition coeff_p : list nat := [0; 2; 5; 10; 20].
  Definition reg_file (pct : nat) : string := "inertial_DH_REG" ++ (if Nat.eqb pct 0 then "" else "_p" ++ to_string pct) ++ ".yaml".
  (* noise pct i: ten draws for link i from the normal distribution of standard deviation pct/100; for pct = 0 every
     draw is zero (the standard requires a positive deviation; libstdc++ returns the mean) *)
  Variable noise : nat -> nat -> list R.
  Definition draws (pct i : nat) : list R := if Nat.eqb pct 0 then repeat 0%R 10 else noise pct i.
  Definition noisy_links (pct : nat) (links : list body) : list body :=
    map (fun ib => urdf_reg_link (perturbateLinkProp (snd ib) (draws pct (fst ib)))) (combine (seq 0 NUMLINKS) links).
  (* main, lines 64-279: the files written, in order. config: yaml/inertial.yaml, None when it cannot be read.
     links_prop_DH has at least seven elements. The optional copy (266-275) is switched off in the code. *)
  Definition gen_yaml_main (use_gripper : bool) (config : option ynode) : res (list (string * list (string * ynode))) :=
    let links_prop := match config with None => [] | Some cfg => urdf_links (ychildren cfg) end in
    links <- move_links (transforms use_gripper) 1 links_prop ;
    let links := merge_hand use_gripper links in
    Ok ([("inertial_DH.yaml", fill_urdf inertial_keys links); ("inertial_DH_DYN.yaml", fill_urdf inertial_keys links)]
        ++ map (fun pct => (reg_file pct, fill_urdf reg_keys (noisy_links pct links))) coeff_p)%list.
End Urdf.
