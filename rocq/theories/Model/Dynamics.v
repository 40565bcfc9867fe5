(* Models src/thunder/src/dynamics.cpp *)
From Coq Require Import Reals String List Bool Arith ZArith.
From Verif.Model Require Import Base Expr SX Robot Kinematics.
Import ListNotations.
Open Scope nat_scope.
Open Scope string_scope.

(* createInertialParameters, dynamics.cpp:8-43: mass, CoM and inertia tensor of link i *)
Definition par_mass (p : sx) (i : nat) : sx := mat_at p (i * STD_PAR_LINK) 0.
Definition par_com (p : sx) (i : nat) : sx :=
  let at_ j := mat_at p (i * STD_PAR_LINK + j + 1) 0 in
  set_at (set_at (set_at (zeros 3 1) 0 0 (at_ 0)) 1 0 (at_ 1)) 2 0 (at_ 2).
Definition par_inertia (p : sx) (i : nat) : sx :=
  let at_ j := mat_at p (i * STD_PAR_LINK + j) 0 in
  let t := set_at (zeros 3 3) 0 0 (at_ 4) in
  let t := set_at t 0 1 (at_ 5) in
  let t := set_at t 0 2 (at_ 6) in
  let t := set_at t 1 0 (mat_at t 0 1) in
  let t := set_at t 1 1 (at_ 7) in
  let t := set_at t 1 2 (at_ 8) in
  let t := set_at t 2 0 (mat_at t 0 2) in
  let t := set_at t 2 1 (mat_at t 1 2) in
  set_at t 2 2 (at_ 9).

(* dq_select, dynamics.cpp:45-56 *)
Fixpoint dq_select_loop (k i n : nat) (dq m : sx) : sx :=
  match k with
  | O => m
  | S k' => dq_select_loop k' (S i) n dq (set_block m 0 (i * n) (scale_r (eye n) (vat dq i)))
  end.
Definition dq_select (dq : sx) : sx :=
  let n := rows dq in dq_select_loop n 0 n dq (zeros n (n * n)).

(* stdCmatrix, dynamics.cpp:58-71 *)
Definition stdCmatrix (M q dq dq_sel : sx) : sx :=
  let n := rows q in
  let jac_M := jacobian M q in
  let C123 := reshape (mtimes jac_M dq) n n in
  let C132 := mtimes dq_sel jac_M in
  let C231 := mT C132 in
  mdivc (msub (madd C123 C132) C231) 2.

(* stdCmatrix_classic, dynamics.cpp:73-98 *)
Definition classic_term (M q dq : sx) (h j k : nat) (st : sx * sx) : sx * sx :=
  let (C123, C132) := st in
  let dbhj := jacobian (mat_at M h j) (vat q k) in
  let dbhk := jacobian (mat_at M h k) (vat q j) in
  let half := scal (Cst (1 / 2)%R) in
  (set_at C123 h j (madd (mat_at C123 h j) (scale (scale half dbhj) (vat dq k))),
   set_at C132 h j (madd (mat_at C132 h j) (scale (scale half dbhk) (vat dq k)))).
Fixpoint for_ {A} (k lo : nat) (f : nat -> A -> A) (a : A) : A :=
  match k with O => a | S k' => for_ k' (S lo) f (f lo a) end.
Definition stdCmatrix_classic (M q dq dq_sel : sx) : sx :=
  let n := rows q in
  let (C123, C132) :=
    for_ n 0 (fun h => for_ n 0 (fun j => for_ n 0 (fun k => classic_term M q dq h j k)))
      (zeros n n, zeros n n) in
  msub (madd C123 C132) (mT C132).

(* DHJacCM, dynamics.cpp:100-189; returns the vectors Ji_v and Ji_w (lists, link 0 first) *)
Definition jac_cm_body (i : nat) (st : robot * (sx * sx) * (list sx * list sx))
  : res (robot * (sx * sx) * (list sx * list sx)) :=
  let '(r, J, (lv, lw)) := st in
  let T0i := mdl r ("T_0_" ++ to_string (i + 1)) in
  let OC := madd (tra_of T0i) (mtimes (rot_of T0i) (par_com (mdl r "par_DYN") i)) in
  '(Jp, Jo) <- loop (i + 1) 0 (jac_col r OC) J ;
  r <- addf r ("J_cm_" ++ to_string (i + 1)) (vertcat2 Jp Jo)
         (obtain_symb_parameters r ["q"] ["par_DHtable"; "par_world2L0"; "par_DYN"]) ;
  Ok (r, (Jp, Jo), ((lv ++ [Jp])%list, (lw ++ [Jo])%list)).
Definition DHJacCM (r : robot) : res (robot * (list sx * list sx)) :=
  let n := numJoints r in
  r <- ensure "T_0_0" compute_chain r ;
  '(r, _, J) <- loop n 0 jac_cm_body (r, (zeros 3 n, zeros 3 n), ([], [])) ;
  Ok (r, J).

(* one iteration of the loop of compute_MCG, dynamics.cpp:232-249 *)
Definition MG_body (r : robot) (Jv Jw : list sx) (i : nat) (st : sx * sx) : sx * sx :=
  let (M, G) := st in
  let R0i := rot_of (mdl r ("T_0_" ++ to_string (i + 1))) in
  let par_DYN := mdl r "par_DYN" in
  let g := mdl r "par_gravity" in
  let mi := par_mass par_DYN i in
  let Ii := par_inertia par_DYN i in
  let Jc := nth i Jv empty_sx in
  let Jwi := nth i Jw empty_sx in
  let Mi := madd (scale mi (mtimes (mT Jc) Jc)) (mtimes5 (mT Jwi) R0i Ii (mT R0i) Jwi) in
  let Gi := scale (mneg mi) (mtimes (mT g) Jc) in
  (madd M Mi, madd G (mT Gi)).

(* compute_MCG, dynamics.cpp:191-265 *)
Definition compute_MCG (r : robot) : res robot :=
  let n := numJoints r in
  r <- ensure "T_0_0" compute_chain r ;
  let q := mdl r "q" in
  let dq := mdl r "dq" in
  let dq_sel := dq_select dq in
  '(r, (Jv, Jw)) <- DHJacCM r ;
  let (M, G) := for_ n 0 (MG_body r Jv Jw) (zeros n n, zeros n 1) in
  let C := stdCmatrix M q dq dq_sel in
  let C_std := stdCmatrix_classic M q dq dq_sel in
  r <- addf r "M" M (obtain_symb_parameters r ["q"] ["par_DHtable"; "par_world2L0"; "par_DYN"]) ;
  r <- addf r "C" C (obtain_symb_parameters r ["q"; "dq"] ["par_DHtable"; "par_world2L0"; "par_DYN"]) ;
  r <- addf r "C_std" C_std
         (obtain_symb_parameters r ["q"; "dq"] ["par_DHtable"; "par_world2L0"; "par_DYN"]) ;
  addf r "G" G
    (obtain_symb_parameters r ["q"] ["par_DHtable"; "par_world2L0"; "par_gravity"; "par_DYN"]).

(* friction-like term of order ord (0-based) in the velocity v:
   even: pow(v, ord+1) * p, odd: sqrt(pow(v,2)) * pow(v, ord) * p
   (dynamics.cpp:321-325, 330-334, 385-389) *)
Definition fric_term (v p : expr) (ord : nat) : expr :=
  if Nat.even ord then Mul (Pow v (ord + 1)) p
  else Mul (Mul (Sqrt (Pow v 2)) (Pow v ord)) p.
Definition fric_sum (v : expr) (p : sx) (base order : nat) : expr :=
  for_ order 0 (fun ord acc => Add acc (fric_term v (el p (base + ord) 0) ord)) (Cst 0).
(* pow(dx, 2*ord+1) * par_K  (dynamics.cpp:316) *)
Definition spring_sum (v : expr) (p : sx) (base order : nat) : expr :=
  for_ order 0 (fun ord acc => Add acc (Mul (Pow v (2 * ord + 1)) (el p (base + ord) 0))) (Cst 0).
(* X_vec[ord]: n x n diagonal matrix of the coefficients of that order *)
Definition coef_diag (n order ord : nat) (p : sx) (okf : bool) : sx :=
  mkSX n n okf (fun i j => if Nat.eqb i j then el p (i * order + ord) 0 else Cst 0).
(* every index i*order+ord (i < n, ord < order) lies in the column vector p *)
Definition par_fits (p : sx) (n order : nat) : bool :=
  ok p && Nat.leb (n * order) (rows p) && (Nat.eqb (cols p) 1 || Nat.eqb (n * order) 0).
Definition vec_fits (v : sx) (n : nat) : bool := ok v && Nat.leb n (rows v) && (Nat.eqb (cols v) 1 || Nat.eqb n 0).

(* compute_elastic, dynamics.cpp:267-370. Element i of x is paired with element i of q. *)
Definition el_k (r : robot) : sx :=
  let n := numElasticJoints r in
  let q := mdl r "q" in let x := mdl r "x" in let p := mdl r "par_K" in
  mkSX n 1 (par_fits p n (K_order r) && vec_fits x n && vec_fits q n)
    (fun i _ => spring_sum (Sub (el x i 0) (el q i 0)) p (i * K_order r) (K_order r)).
Definition el_d (r : robot) : sx :=
  let n := numElasticJoints r in
  let dq := mdl r "dq" in let dx := mdl r "dx" in let p := mdl r "par_D" in
  mkSX n 1 (par_fits p n (D_order r) && vec_fits dx n && vec_fits dq n)
    (fun i _ => fric_sum (Sub (el dx i 0) (el dq i 0)) p (i * D_order r) (D_order r)).
Definition el_dm (r : robot) : sx :=
  let n := numElasticJoints r in
  let dx := mdl r "dx" in let p := mdl r "par_Dm" in
  mkSX n 1 (par_fits p n (Dm_order r) && vec_fits dx n)
    (fun i _ => fric_sum (el dx i 0) p (i * Dm_order r) (Dm_order r)).
Definition el_Mm (r : robot) : sx :=
  let n := numElasticJoints r in
  let p := mdl r "par_Mm" in
  mkSX n n (vec_fits p n) (fun i j => if Nat.eqb i j then el p i 0 else Cst 0).

Definition add_orders (pre : string) (name_of : nat -> nat) (n order : nat) (par : string) (r : robot) : res robot :=
  let p := mdl r par in
  let al := obtain_symb_parameters r [] [par] in
  loop order 0 (fun ord r' => addf r' (pre ++ to_string (name_of ord))
                                (coef_diag n order ord p (par_fits p n order)) al) r.

Definition compute_elastic (r : robot) : res robot :=
  if ELASTIC r then
    let n := numElasticJoints r in
    let k := el_k r in let d := el_d r in let dm := el_dm r in let Mm := el_Mm r in
    r <- (if Nat.ltb 0 (K_order r) then
            r <- addf r "k" k (obtain_symb_parameters r ["q"; "x"] ["par_K"]) ;
            add_orders "K" (fun ord => 2 * ord + 1) n (K_order r) "par_K" r
          else Ok r) ;
    r <- (if Nat.ltb 0 (D_order r) then
            r <- addf r "d" d (obtain_symb_parameters r ["dq"; "dx"] ["par_D"]) ;
            add_orders "D" (fun ord => ord + 1) n (D_order r) "par_D" r
          else Ok r) ;
    r <- (if Nat.ltb 0 (Dm_order r) then
            r <- addf r "dm" dm (obtain_symb_parameters r ["dx"] ["par_Dm"]) ;
            add_orders "Dm" (fun ord => ord + 1) n (Dm_order r) "par_Dm" r
          else Ok r) ;
    addf r "Mm" Mm (obtain_symb_parameters r [] ["par_Mm"])
  else Ok r.

(* compute_Dl, dynamics.cpp:372-403 *)
Definition link_dl (r : robot) : sx :=
  let n := numJoints r in
  let dq := mdl r "dq" in let p := mdl r "par_Dl" in
  mkSX n 1 (par_fits p n (Dl_order r) && vec_fits dq n)
    (fun i _ => fric_sum (el dq i 0) p (i * Dl_order r) (Dl_order r)).
Definition compute_Dl (r : robot) : res robot :=
  if Nat.ltb 0 (Dl_order r) then
    r <- addf r "dl" (link_dl r) (obtain_symb_parameters r ["dq"] ["par_Dl"]) ;
    add_orders "Dl" (fun ord => ord + 1) (numJoints r) (Dl_order r) "par_Dl" r
  else Ok r.

(* compute_dyn_derivatives, dynamics.cpp:405-443 *)
Definition compute_dyn_derivatives (r : robot) : res robot :=
  r <- ensure "M" compute_MCG r ;
  let q := mdl r "q" in let dq := mdl r "dq" in
  let ddq := mdl r "ddq" in let d3q := mdl r "d3q" in
  let M := mdl r "M" in let C := mdl r "C" in let G := mdl r "G" in
  let kin := ["par_DHtable"; "par_world2L0"; "par_DYN"] in
  let kin_g := ["par_DHtable"; "par_world2L0"; "par_gravity"; "par_DYN"] in
  let dM := jtimes M q dq in
  let ddM := madd (jtimes dM q dq) (jtimes dM dq ddq) in
  r <- addf r "M_dot" dM (obtain_symb_parameters r ["q"; "dq"] kin) ;
  r <- addf r "M_ddot" ddM (obtain_symb_parameters r ["q"; "dq"; "ddq"] kin) ;
  let dC := madd (jtimes C q dq) (jtimes C dq ddq) in
  let ddC := madd (madd (jtimes dC q dq) (jtimes dC dq ddq)) (jtimes dC ddq d3q) in
  r <- addf r "C_dot" dC (obtain_symb_parameters r ["q"; "dq"; "ddq"] kin) ;
  r <- addf r "C_ddot" ddC (obtain_symb_parameters r ["q"; "dq"; "ddq"; "d3q"] kin) ;
  let dG := jtimes G q dq in
  let ddG := madd (jtimes dG q dq) (jtimes dG dq ddq) in
  r <- addf r "G_dot" dG (obtain_symb_parameters r ["q"; "dq"] kin_g) ;
  addf r "G_ddot" ddG (obtain_symb_parameters r ["q"; "dq"; "ddq"] kin_g).

(* compute_dynamics, dynamics.cpp:446-457; the int result is ignored by the caller *)
Definition compute_dynamics (r : robot) (advanced : bool) : res robot :=
  r <- compute_MCG r ;
  r <- compute_Dl r ;
  r <- compute_elastic r ;
  if advanced then compute_dyn_derivatives r else Ok r.
