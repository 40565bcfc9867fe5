(* Closed forms of the matrices published by the symbolic computation, as functions of the robot b on
   which it starts (parameters already substituted by init_symb_parameters). *)
From Coq Require Import Reals List Arith String Bool ZArith.
From Verif.Model Require Import Base Expr SX Robot Kinematics Dynamics Regressors.
Import ListNotations.
Open Scope nat_scope.
Open Scope string_scope.

Section Pure.
  Variable b : robot.
  Let n := numJoints b.
  Definition jtype (i : nat) : string := nth i (jointsType b) "".

  Definition DHrow (i : nat) : sx := vsub (mdl b "par_DHtable") (i * 4) (i * 4 + 4).
  Definition dx_ (i : nat) : sx :=
    if is_P (jtype i) then madd (vat (DHrow i) 2) (vat (mdl b "q") i) else vat (DHrow i) 2.
  Definition thx (i : nat) : sx :=
    if is_P (jtype i) then vat (DHrow i) 3 else madd (vat (DHrow i) 3) (vat (mdl b "q") i).
  Definition Tlx (i : nat) : sx :=
    let p_a := set_at (zeros 3 1) 0 0 (vat (DHrow i) 0) in
    let p_d := set_at (zeros 3 1) 2 0 (dx_ i) in
    let Rx := R_x (vat (DHrow i) 1) in
    let Rz := R_z (thx i) in
    homog (mtimes Rx Rz) (madd (mtimes Rx p_d) p_a).
  Fixpoint T0x (i : nat) : sx :=
    match i with
    | O => get_transform (mdl b "par_world2L0")
    | S k => mtimes (T0x k) (Tlx k)
    end.
  Definition Teex : sx := mtimes (T0x n) (get_transform (mdl b "par_Ln2EE")).

  Definition jcol (O : sx) (j : nat) (st : sx * sx) : sx * sx :=
    let (Jp, Jo) := st in
    let T0j := T0x (j + 1) in
    if is_P (jtype j) then (set_block Jp 0 j (axis_of T0j), Jo)
    else (set_block Jp 0 j (mtimes (hat (axis_of T0j)) (msub O (tra_of T0j))), set_block Jo 0 j (axis_of T0j)).
  Definition jstep (i : nat) (J : sx * sx) : sx * sx :=
    let i_mod := if Nat.ltb i n then i else n - 1 in
    let T0i := T0x (i_mod + 1) in
    let (Jp, Jo) := for_ (i_mod + 1) 0 (jcol (tra_of T0i)) J in
    (if Nat.eqb i n then
       msub Jp (mtimes4 (rot_of T0i) (hat (tra_of (get_transform (mdl b "par_Ln2EE")))) (mT (rot_of T0i)) Jo)
     else Jp, Jo).
  Fixpoint Jst (i : nat) : sx * sx :=
    match i with O => (zeros 3 n, zeros 3 n) | S k => jstep k (Jst k) end.
  Definition Jx (i : nat) : sx := let (Jp, Jo) := Jst (S i) in vertcat2 Jp Jo.
  Definition Jeex : sx := Jx n.

  Definition Jeedotx : sx := jtimes Jeex (mdl b "q") (mdl b "dq").
  Definition Jeeddotx : sx :=
    madd (jtimes Jeedotx (mdl b "q") (mdl b "dq")) (jtimes Jeedotx (mdl b "dq") (mdl b "ddq")).
  Definition damped : sx := madd (mtimes Jeex (mT Jeex)) (scale_r (eye 6) (scal (Cst MU))).
  Definition Jeepinvx : sx := mtimes (mT Jeex) (inv damped).

  (* centre of mass Jacobians *)
  Definition OCx (i : nat) : sx :=
    madd (tra_of (T0x (i + 1))) (mtimes (rot_of (T0x (i + 1))) (par_com (mdl b "par_DYN") i)).
  Definition cstep (i : nat) (J : sx * sx) : sx * sx := for_ (i + 1) 0 (jcol (OCx i)) J.
  Fixpoint Cst_ (i : nat) : sx * sx :=
    match i with O => (zeros 3 n, zeros 3 n) | S k => cstep k (Cst_ k) end.
  Definition Jcv (i : nat) : sx := fst (Cst_ (S i)).
  Definition Jcw (i : nat) : sx := snd (Cst_ (S i)).
  Definition Jcmx (i : nat) : sx := vertcat2 (Jcv i) (Jcw i).

  Definition Mix (i : nat) : sx :=
    let R0i := rot_of (T0x (i + 1)) in
    madd (scale (par_mass (mdl b "par_DYN") i) (mtimes (mT (Jcv i)) (Jcv i)))
         (mtimes5 (mT (Jcw i)) R0i (par_inertia (mdl b "par_DYN") i) (mT R0i) (Jcw i)).
  Definition Gix (i : nat) : sx :=
    mT (scale (mneg (par_mass (mdl b "par_DYN") i)) (mtimes (mT (mdl b "par_gravity")) (Jcv i))).
  Fixpoint MGx (k : nat) : sx * sx :=
    match k with
    | O => (zeros n n, zeros n 1)
    | S i => let (M, G) := MGx i in (madd M (Mix i), madd G (Gix i))
    end.
  Definition Mx : sx := fst (MGx n).
  Definition Gx : sx := snd (MGx n).
  Definition dqsel : sx := dq_select (mdl b "dq").
  Definition Cx : sx := stdCmatrix Mx (mdl b "q") (mdl b "dq") dqsel.
  Definition Cstdx : sx := stdCmatrix_classic Mx (mdl b "q") (mdl b "dq") dqsel.

  Definition Mdotx : sx := jtimes Mx (mdl b "q") (mdl b "dq").
  Definition Mddotx : sx :=
    madd (jtimes Mdotx (mdl b "q") (mdl b "dq")) (jtimes Mdotx (mdl b "dq") (mdl b "ddq")).
  Definition Cdotx : sx :=
    madd (jtimes Cx (mdl b "q") (mdl b "dq")) (jtimes Cx (mdl b "dq") (mdl b "ddq")).
  Definition Cddotx : sx :=
    madd (madd (jtimes Cdotx (mdl b "q") (mdl b "dq")) (jtimes Cdotx (mdl b "dq") (mdl b "ddq")))
         (jtimes Cdotx (mdl b "ddq") (mdl b "d3q")).
  Definition Gdotx : sx := jtimes Gx (mdl b "q") (mdl b "dq").
  Definition Gddotx : sx :=
    madd (jtimes Gdotx (mdl b "q") (mdl b "dq")) (jtimes Gdotx (mdl b "dq") (mdl b "ddq")).

  (* regressors *)
  Definition Jvx (i : nat) : sx := sub (Jx i) 0 3 0 n.
  Definition Jwx (i : nat) : sx := sub (Jx i) 3 6 0 n.
  Definition R0x (i : nat) : sx := rot_of (T0x (i + 1)).
  Definition M0x (i : nat) : sx := mtimes (mT (Jvx i)) (Jvx i).
  Definition M1x (i l : nat) : sx :=
    msub (mtimes5 (mT (Jwx i)) (R0x i) (Q_ l) (mT (R0x i)) (Jvx i))
         (mtimes5 (mT (Jvx i)) (R0x i) (Q_ l) (mT (R0x i)) (Jwx i)).
  Definition M2x (i l : nat) : sx := mtimes5 (mT (Jwx i)) (R0x i) (E_ l) (mT (R0x i)) (Jwx i).
  Definition CofM (M : sx) : sx := stdCmatrix M (mdl b "q") (mdl b "dq") dqsel.
  Definition dX0 (i : nat) : sx := mtimes (M0x i) (mdl b "ddqr").
  Definition W0 (i : nat) : sx := mneg (mtimes (CofM (M0x i)) (mdl b "dqr")).
  Definition Z0 (i : nat) : sx := mneg (mtimes (mT (Jvx i)) (mdl b "par_gravity")).
  Definition st1 (i : nat) : sx * sx :=
    for_ 3 0 (fun l st => let '(dX, W) := st in
      (set_block dX 0 l (mtimes (M1x i l) (mdl b "ddqr")),
       set_block W 0 l (mneg (mtimes (CofM (M1x i l)) (mdl b "dqr"))))) (zeros n 3, zeros n 3).
  Definition Z1 (i : nat) : sx := mneg (mT (jacobian (mtimes (mT (R0x i)) (mdl b "par_gravity")) (mdl b "q"))).
  Definition st2 (i : nat) : sx * sx :=
    for_ 6 0 (fun l st => let '(dX, W) := st in
      (set_block dX 0 l (mtimes (M2x i l) (mdl b "ddqr")),
       set_block W 0 l (mneg (mtimes (CofM (M2x i l)) (mdl b "dqr"))))) (zeros n 6, zeros n 6).
  Definition regMi (i : nat) : sx := horzcat3 (dX0 i) (fst (st1 i)) (fst (st2 i)).
  Definition regCi (i : nat) : sx := horzcat3 (mneg (W0 i)) (mneg (snd (st1 i))) (mneg (snd (st2 i))).
  Definition regGi (i : nat) : sx := horzcat3 (Z0 i) (Z1 i) (zeros n 6).
  Definition Yri (i : nat) : sx :=
    horzcat3 (madd (msub (dX0 i) (W0 i)) (Z0 i)) (madd (msub (fst (st1 i)) (snd (st1 i))) (Z1 i))
             (msub (fst (st2 i)) (snd (st2 i))).
  (* n x 10 n matrix whose i-th block of ten columns is f i *)
  Fixpoint blocks (k : nat) (f : nat -> sx) : sx :=
    match k with
    | O => zeros n (STD_PAR_LINK * n)
    | S i => set_block (blocks i f) 0 (i * STD_PAR_LINK) (f i)
    end.
  Definition Yrx : sx := blocks n Yri.
  Definition regMx : sx := blocks n regMi.
  Definition regCx : sx := blocks n regCi.
  Definition regGx : sx := blocks n regGi.

  (* friction, elasticity *)
  Definition sel (par : string) : list sx :=
    map (vat (mdl b par)) (filter (fun i => flag_set (nth i (flags b par) 0%Z)) (seq 0 (rows (mdl b par)))).
  Definition reg_dlx : sx := jacobian (link_dl b) (vertcat_list (sel "par_Dl")).
  Definition reg_kx : sx := jacobian (el_k b) (vertcat_list (sel "par_K")).
  Definition reg_dx : sx := jacobian (el_d b) (vertcat_list (sel "par_D")).
  Definition reg_dmx : sx := jacobian (el_dm b) (vertcat_list (sel "par_Dm")).
  Definition reg_Mmx : sx := jacobian (mtimes (el_Mm b) (mdl b "ddx")) (vertcat_list (sel "par_Mm")).
  Definition kin_par : sx := vertcat_list (sel "par_DHtable" ++ sel "par_world2L0" ++ sel "par_Ln2EE")%list.
  Definition reg_Jdqx : sx := jacobian (mtimes Jeex (mdl b "dq")) kin_par.
  Definition reg_JTwx : sx := jacobian (mtimes (mT Jeex) (mdl b "w")) kin_par.
End Pure.

(* ---- names of the published functions ---- *)
Inductive fn : Type :=
| fT (i : nat) | fT0 (i : nat) | fTb | fTee
| fJ (i : nat) | fJee | fJeed | fJeedd | fJeepinv | fJcm (i : nat)
| fM | fC | fCstd | fG | fMd | fMdd | fCd | fCdd | fGd | fGdd
| fYr | fRM | fRC | fRG
| fdl | fDl (i : nat) | fk | fK (i : nat) | fd | fD (i : nat) | fdm | fDm (i : nat) | fMm
| frdl | frk | frd | frdm | frMm | frJdq | frJTw.

Definition name_of (f : fn) : string :=
  match f with
  | fT i => "T_" ++ to_string i | fT0 i => "T_0_" ++ to_string i | fTb => "T_0" | fTee => "T_0_ee"
  | fJ i => "J_" ++ to_string i | fJee => "J_ee" | fJeed => "J_ee_dot" | fJeedd => "J_ee_ddot"
  | fJeepinv => "J_ee_pinv" | fJcm i => "J_cm_" ++ to_string i
  | fM => "M" | fC => "C" | fCstd => "C_std" | fG => "G"
  | fMd => "M_dot" | fMdd => "M_ddot" | fCd => "C_dot" | fCdd => "C_ddot" | fGd => "G_dot" | fGdd => "G_ddot"
  | fYr => "Yr" | fRM => "reg_M" | fRC => "reg_C" | fRG => "reg_G"
  | fdl => "dl" | fDl i => "Dl" ++ to_string i | fk => "k" | fK i => "K" ++ to_string i
  | fd => "d" | fD i => "D" ++ to_string i | fdm => "dm" | fDm i => "Dm" ++ to_string i | fMm => "Mm"
  | frdl => "reg_dl" | frk => "reg_k" | frd => "reg_d" | frdm => "reg_dm" | frMm => "reg_Mm"
  | frJdq => "reg_Jdq" | frJTw => "reg_JTw"
  end.

(* ---- what each name stands for, and what is published in which order ---- *)
Section Pubs.
  Variable b : robot.
  Let n := numJoints b.
  Let e := numElasticJoints b.
  Definition al (sure possible : list string) : list string := obtain_symb_parameters b sure possible.
  Definition kinD : list string := ["par_DHtable"; "par_world2L0"].
  Definition kinE : list string := ["par_DHtable"; "par_world2L0"; "par_Ln2EE"].
  Definition kinp : list string := ["par_DHtable"; "par_world2L0"; "par_DYN"].
  Definition kingp : list string := ["par_DHtable"; "par_world2L0"; "par_gravity"; "par_DYN"].
  Definition kingr : list string := ["par_DHtable"; "par_world2L0"; "par_gravity"].
  Definition coefs (m order : nat) (par : string) (ord : nat) : sx :=
    coef_diag m order ord (mdl b par) (par_fits (mdl b par) m order).

  Definition val (f : fn) : sx :=
    match f with
    | fT i => Tlx b (i - 1)
    | fT0 i => if Nat.eqb i (n + 1) then Teex b else T0x b i
    | fTb => T0x b 0 | fTee => Teex b
    | fJ i => Jx b (i - 1) | fJee => Jeex b | fJeed => Jeedotx b | fJeedd => Jeeddotx b | fJeepinv => Jeepinvx b
    | fJcm i => Jcmx b (i - 1)
    | fM => Mx b | fC => Cx b | fCstd => Cstdx b | fG => Gx b
    | fMd => Mdotx b | fMdd => Mddotx b | fCd => Cdotx b | fCdd => Cddotx b | fGd => Gdotx b | fGdd => Gddotx b
    | fYr => Yrx b | fRM => regMx b | fRC => regCx b | fRG => regGx b
    | fdl => link_dl b | fDl i => coefs n (Dl_order b) "par_Dl" (i - 1)
    | fk => el_k b | fK i => coefs e (K_order b) "par_K" (Nat.div2 (i - 1))
    | fd => el_d b | fD i => coefs e (D_order b) "par_D" (i - 1)
    | fdm => el_dm b | fDm i => coefs e (Dm_order b) "par_Dm" (i - 1)
    | fMm => el_Mm b
    | frdl => reg_dlx b | frk => reg_kx b | frd => reg_dx b | frdm => reg_dmx b | frMm => reg_Mmx b
    | frJdq => reg_Jdqx b | frJTw => reg_JTwx b
    end.

  Definition alist (f : fn) : list string :=
    match f with
    | fT i => al ["q"] ["par_DHtable"]
    | fT0 i => if Nat.eqb i 0 then al [] ["par_world2L0"]
               else if Nat.eqb i (n + 1) then al ["q"] kinE else al ["q"] kinD
    | fTb => al [] ["par_world2L0"]
    | fTee => al ["q"] kinE
    | fJ i => if Nat.leb i n then al ["q"] kinD else al ["q"] kinE
    | fJee => al ["q"] kinE
    | fJeed => al ["q"; "dq"] kinE
    | fJeedd => al ["q"; "dq"; "ddq"] kinE
    | fJeepinv => al ["q"] kinE
    | fJcm i => al ["q"] kinp
    | fM => al ["q"] kinp
    | fC | fCstd | fMd => al ["q"; "dq"] kinp
    | fG => al ["q"] kingp
    | fMdd | fCd => al ["q"; "dq"; "ddq"] kinp
    | fCdd => al ["q"; "dq"; "ddq"; "d3q"] kinp
    | fGd => al ["q"; "dq"] kingp
    | fGdd => al ["q"; "dq"; "ddq"] kingp
    | fYr => al ["q"; "dq"; "dqr"; "ddqr"] kingr
    | fRM => al ["q"; "ddqr"] kinD
    | fRC => al ["q"; "dq"; "dqr"] kinD
    | fRG => al ["q"] kingr
    | fdl => al ["dq"] ["par_Dl"]
    | fDl _ => al [] ["par_Dl"]
    | fk => al ["q"; "x"] ["par_K"]
    | fK _ => al [] ["par_K"]
    | fd => al ["dq"; "dx"] ["par_D"]
    | fD _ => al [] ["par_D"]
    | fdm => al ["dx"] ["par_Dm"]
    | fDm _ => al [] ["par_Dm"]
    | fMm => al [] ["par_Mm"]
    | frdl => ["dq"]
    | frk => ["q"; "x"]
    | frd => ["dq"; "dx"]
    | frdm => ["dx"]
    | frMm => ["ddx"]
    | frJdq => al ["q"; "dq"] kinE
    | frJTw => al ["q"; "w"] kinE
    end.

  Definition L_chain : list fn :=
    (fTb :: fT0 0 :: flat_map (fun i => [fT (i + 1); fT0 (i + 1)]) (seq 0 n) ++ [fT0 (n + 1); fTee])%list.
  Definition L_jac : list fn := (map (fun i => fJ (i + 1)) (seq 0 (n + 1)) ++ [fJee])%list.
  Definition L_adv : list fn := [fJeed; fJeedd; fJeepinv].
  Definition L_mcg : list fn := (map (fun i => fJcm (i + 1)) (seq 0 n) ++ [fM; fC; fCstd; fG])%list.
  Definition L_dl : list fn :=
    if Nat.ltb 0 (Dl_order b) then fdl :: map (fun o => fDl (o + 1)) (seq 0 (Dl_order b)) else [].
  Definition L_el : list fn :=
    if ELASTIC b then
      ((if Nat.ltb 0 (K_order b) then fk :: map (fun o => fK (2 * o + 1)) (seq 0 (K_order b)) else [])
       ++ (if Nat.ltb 0 (D_order b) then fd :: map (fun o => fD (o + 1)) (seq 0 (D_order b)) else [])
       ++ (if Nat.ltb 0 (Dm_order b) then fdm :: map (fun o => fDm (o + 1)) (seq 0 (Dm_order b)) else [])
       ++ [fMm])%list
    else [].
  Definition L_der : list fn := [fMd; fMdd; fCd; fCdd; fGd; fGdd].
  Definition L_yr : list fn := [fYr; fRM; fRC; fRG].
  Definition L_regJ : list fn := if Nat.eqb (rows (kin_par b)) 0 then [] else [frJdq; frJTw].
  Definition one (f : fn) (par : string) : list fn :=
    if Nat.eqb (List.length (sel b par)) 0 then [] else [f].
  Definition L_regdl : list fn :=
    if Nat.ltb 0 (Dl_order b) then (L_dl ++ one frdl "par_Dl")%list else [].
  Definition L_regel : list fn :=
    if ELASTIC b then
      ((if Nat.ltb 0 (K_order b) then [] else L_el)
       ++ one frk "par_K" ++ one frd "par_D" ++ one frdm "par_Dm" ++ one frMm "par_Mm")%list
    else [].
  Definition L_all : list fn :=
    (L_chain ++ L_jac ++ L_adv ++ L_mcg ++ L_dl ++ L_el ++ L_der ++ L_yr ++ L_regJ ++ L_regdl ++ L_regel)%list.
End Pubs.
