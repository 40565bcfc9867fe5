(* The Robot object: state, published functions, evaluation and argument setters.
   Models src/thunder/library/robot.h:28-203 and parts of src/thunder/src/robot.cpp. *)
From Coq Require Import Reals String Ascii List Bool Arith ZArith.
From Verif.Model Require Import Base Expr SX.
Import ListNotations.
Open Scope nat_scope.
Open Scope string_scope.

Definition STD_PAR_LINK : nat := 10.                    (* robot.h:104 *)

(* casadi::Function(name, inputs, {expr}) *)
Record cfun := mkFun { f_name : string; f_inputs : list sx; f_out : sx }.

(* robot.h:39-137. Descriptions of functions (fun_descr) are not modelled: they only feed
   documentation strings. Numeric argument vectors (args) are columns of doubles, here list R.
   Sizes and orders are non-negative ints, here nat (parse_config raises on negative ones). *)
Record robot := mkRobot {
  robotName : string;
  numJoints : nat;
  numElasticJoints : nat;
  ELASTIC : bool;
  jointsType : list string;
  isElasticJoint : list Z;
  K_order : nat; D_order : nat; Dl_order : nat; Dm_order : nat;
  model : smap sx;
  args : smap (list R);
  symb : smap (list Z);
  fun_args : smap (list string);
  casadi_fun : smap cfun
}.

Definition with_model (r : robot) (m : smap sx) : robot :=
  mkRobot (robotName r) (numJoints r) (numElasticJoints r) (ELASTIC r) (jointsType r) (isElasticJoint r)
    (K_order r) (D_order r) (Dl_order r) (Dm_order r) m (args r) (symb r) (fun_args r) (casadi_fun r).
Definition with_args (r : robot) (a : smap (list R)) : robot :=
  mkRobot (robotName r) (numJoints r) (numElasticJoints r) (ELASTIC r) (jointsType r) (isElasticJoint r)
    (K_order r) (D_order r) (Dl_order r) (Dm_order r) (model r) a (symb r) (fun_args r) (casadi_fun r).
Definition with_symb (r : robot) (s : smap (list Z)) : robot :=
  mkRobot (robotName r) (numJoints r) (numElasticJoints r) (ELASTIC r) (jointsType r) (isElasticJoint r)
    (K_order r) (D_order r) (Dl_order r) (Dm_order r) (model r) (args r) s (fun_args r) (casadi_fun r).
Definition with_funs (r : robot) (fa : smap (list string)) (cf : smap cfun) : robot :=
  mkRobot (robotName r) (numJoints r) (numElasticJoints r) (ELASTIC r) (jointsType r) (isElasticJoint r)
    (K_order r) (D_order r) (Dl_order r) (Dm_order r) (model r) (args r) (symb r) fa cf.

(* model[name], args[name], symb[name] as rvalues *)
Definition mdl (r : robot) (k : string) : sx := mget empty_sx k (model r).
Definition arg (r : robot) (k : string) : list R := mget [] k (args r).
Definition flags (r : robot) (k : string) : list Z := mget [] k (symb r).

Definition flag_set (z : Z) : bool := negb (Z.eqb z 0).     (* if (symb_flag[i]) *)

(* ---- add_function (robot.cpp:975-1029) ---- *)

(* the loop of lines 1004-1010: elements of model[arg] whose flag is set.
   symb_flag[i] with i out of range is an out-of-bounds read of a std::vector. *)
Fixpoint select_symb (fl : list Z) (m : sx) (i k : nat) : res (list sx) :=
  match k with
  | O => Ok []
  | S k' =>
      match nth_error fl i with
      | None => UB "symb_flag out of range"
      | Some z =>
          rest <- select_symb fl m (S i) k' ;
          Ok (if flag_set z then vat m i :: rest else rest)
      end
  end.

Definition fun_input (r : robot) (a : string) : res sx :=
  l <- select_symb (flags r a) (mdl r a) 0 (rows (mdl r a)) ;
  Ok (vertcat_list l).

Fixpoint fun_inputs (r : robot) (l : list string) : res (list sx) :=
  match l with
  | [] => Ok []
  | a :: t => x <- fun_input r a ; rest <- fun_inputs r t ; Ok (x :: rest)
  end.

(* CasADi accepts as function inputs only columns of distinct symbols *)
Definition syms_of_input (x : sx) : list sym :=
  flat_map (fun i => match sym_of (el x i 0) with Some s => [s] | None => [] end) (seq 0 (rows x)).
Definition valid_input (x : sx) : bool := ok x && all_syms x.
Fixpoint sym_mem (s : sym) (l : list sym) : bool :=
  match l with [] => false | a :: t => sym_eqb s a || sym_mem s t end.
Fixpoint nodup_syms (l : list sym) : bool :=
  match l with [] => true | a :: t => negb (sym_mem a t) && nodup_syms t end.

(* CasADi refuses to build a function whose output mentions a symbol that is not an input
   ("Initialization failed since variables [...] are free"); checked here symbol by symbol, before CasADi's own
   simplifications, so the model refuses at least what CasADi refuses *)
Fixpoint closed_by (l : list sym) (e : expr) : bool :=
  match e with
  | Cst _ => true
  | Var s => sym_mem s l
  | Add a b | Sub a b | Mul a b | Div a b => closed_by l a && closed_by l b
  | Opp a | Sin a | Cos a | Sqrt a => closed_by l a
  | Pow a _ => closed_by l a
  end.
Definition no_free (l : list sym) (e : sx) : bool :=
  forallb (fun i => forallb (fun j => closed_by l (el e i j)) (seq 0 (cols e))) (seq 0 (rows e)).

(* operator[] on std::map inserts missing keys: lines 995 and 997 *)
Definition touch_args (r : robot) (l : list string) : robot :=
  let m := fold_left (fun m a => mtouch empty_sx a m) l (model r) in
  let s := fold_left (fun s a => mtouch [] a s) l (symb r) in
  with_symb (with_model r m) s.

(* the names casadi::Function accepts (Function::check_name): not null, jac or hess; a letter, then letters, digits
   and underscores, never two underscores in a row. Other names raise. *)
Definition is_alpha (a : ascii) : bool :=
  let k := nat_of_ascii a in (Nat.leb 65 k && Nat.leb k 90) || (Nat.leb 97 k && Nat.leb k 122).
Definition is_alnum (a : ascii) : bool :=
  let k := nat_of_ascii a in is_alpha a || (Nat.leb 48 k && Nat.leb k 57).
Fixpoint name_tail (s : string) : bool :=
  match s with
  | EmptyString => true
  | String a t =>
      if Ascii.eqb a "_" then
        match t with String b _ => negb (Ascii.eqb b "_") && name_tail t | EmptyString => true end
      else is_alnum a && name_tail t
  end.
Definition check_name (s : string) : bool :=
  match s with
  | EmptyString => false
  | String a t => negb (existsb (String.eqb s) ["null"; "jac"; "hess"]) && is_alpha a && name_tail t
  end.

(* Returns the updated robot and the int result. A poisoned expression means that CasADi raised
   while it was being computed; the model reports that exception here. *)
Definition add_function (r : robot) (fname : string) (e : sx) (fargs : list string) (overwrite : bool)
  : res (robot * nat) :=
  if negb overwrite && mcount fname (model r) then Ok (r, 0)
  else if negb (ok e) then Throw "casadi: dimension or index error"
  else
    let r1 := with_model r (mset fname e (model r)) in
    let r2 := with_funs r1 (mset fname fargs (fun_args r1)) (casadi_fun r1) in
    let r3 := touch_args r2 fargs in
    inputs <- fun_inputs r3 fargs ;
    if negb (check_name (robotName r3 ++ "_" ++ fname ++ "_fun")) then Throw "casadi: invalid function name"
    else if negb (forallb valid_input inputs && nodup_syms (flat_map syms_of_input inputs))
    then Throw "casadi: invalid function inputs"
    else if negb (no_free (flat_map syms_of_input inputs) e) then Throw "casadi: free variables"
    else Ok (with_funs r3 (fun_args r3)
               (mset fname (mkFun (robotName r3 ++ "_" ++ fname ++ "_fun") inputs e) (casadi_fun r3)), 1).

(* calls of the form "robot.add_function(...)" whose result is either ignored or only tested for 0
   with the default overwrite = true, which never returns 0 *)
Definition addf (r : robot) (fname : string) (e : sx) (fargs : list string) : res robot :=
  '(r', _) <- add_function r fname e fargs true ; Ok r'.

(* ---- symbolic selectivity ---- *)

(* subs_symb_par (robot.cpp:1059-1076): model[par](i) = (double)args[par](i) for unflagged i *)
Fixpoint subs_loop (fl : list Z) (i : nat) (m : sx) (a : list R) : res sx :=
  match fl with
  | [] => Ok m
  | z :: t =>
      if Z.eqb z 0 then
        match nth_error a i with
        | None => Throw "casadi: index out of range"
        | Some v =>
            if Nat.ltb i (rows m) then subs_loop t (S i) (set_at m i 0 (scal (Cst v))) a
            else Throw "casadi: index out of range"
        end
      else subs_loop t (S i) m a
  end.

Definition subs_symb_par (r : robot) (par : string) : res robot :=
  let fl := flags r par in
  m <- subs_loop fl 0 (mdl r par) (arg r par) ;
  (* model[par] and args[par] are only touched inside the loop *)
  if existsb (Z.eqb 0) fl then Ok (with_args (with_model r (mset par m (model r))) (mset par (arg r par) (args r)))
  else Ok r.

(* init_symb_parameters (robot.cpp:1078-1084) *)
Definition init_symb_parameters (r : robot) : res robot :=
  loop_list (map fst (symb r)) (fun par r' => subs_symb_par r' par) r.

(* obtain_symb_parameters (robot.cpp:1086-1099). symb[par] inserts an empty vector when missing;
   this insertion has no effect on any later result and is not recorded. *)
Definition has_symb (r : robot) (par : string) : bool := existsb flag_set (flags r par).
Definition obtain_symb_parameters (r : robot) (sure possible : list string) : list string :=
  (sure ++ filter (has_symb r) possible)%list.

(* update_symb_parameters (robot.cpp:1101-1123) *)
Fixpoint compact_args (fl : list Z) (a : list R) : res (list R) :=
  match fl with
  | [] => Ok []
  | z :: t =>
      match a with
      | [] => if existsb flag_set fl then Throw "casadi: index out of range" else Ok []
      | v :: a' => rest <- compact_args t a' ; Ok (if flag_set z then v :: rest else rest)
      end
  end.
Definition compact_model (fl : list Z) (m : sx) : res sx :=
  let idx := filter (fun i => flag_set (nth i fl 0%Z)) (seq 0 (List.length fl)) in
  if forallb (fun i => Nat.ltb i (rows m)) idx then
    Ok (mkSX (List.length idx) 1 (ok m) (fun i _ => el m (nth i idx 0) 0))
  else Throw "casadi: index out of range".

Definition update_symb_one (par : string) (fl : list Z) (r : robot) : res robot :=
  m <- compact_model fl (mdl r par) ;
  a <- compact_args fl (arg r par) ;
  Ok (with_args (with_model r (mset par m (model r))) (mset par a (args r))).
Definition update_symb_parameters (r : robot) : res robot :=
  loop_list (symb r) (fun pf r' => update_symb_one (fst pf) (snd pf) r') r.

(* ---- evaluation ---- *)

Record mat := mkMat { m_rows : nat; m_cols : nat; m_val : nat -> nat -> R }.

(* CasADi's matching of a numeric column against an input of n rows: equal length, empty (zeros),
   scalar (expanded); anything else raises *)
Definition fit_input (n : nat) (v : list R) : res (list R) :=
  if Nat.eqb (List.length v) n then Ok v
  else match v with
       | [] => Ok (repeat 0%R n)
       | [x] => Ok (repeat x n)
       | _ => Throw "casadi: input has wrong dimension"
       end.

Fixpoint bind_inputs (ins : list sx) (vals : list (list R)) : res (list (sym * R)) :=
  match ins, vals with
  | [], [] => Ok []
  | x :: ins', v :: vals' =>
      v' <- fit_input (rows x) v ;
      rest <- bind_inputs ins' vals' ;
      Ok (combine (syms_of_input x) v' ++ rest)%list
  | _, _ => Throw "casadi: wrong number of inputs"
  end.

Fixpoint env_of (l : list (sym * R)) (s : sym) : R :=
  match l with
  | [] => 0%R
  | (k, v) :: t => if sym_eqb s k then v else env_of t s
  end.

(* casadi::Function::call *)
Definition call (f : cfun) (vals : list (list R)) : res mat :=
  b <- bind_inputs (f_inputs f) vals ;
  Ok (mkMat (rows (f_out f)) (cols (f_out f)) (ev (env_of b) (f_out f))).

(* Robot::get (robot.cpp:356-391) *)
Definition get (r : robot) (name : string) : res mat :=
  match mfind name (fun_args r) with
  | None => Ok (mkMat 1 1 (fun _ _ => 0%R))
  | Some fa =>
      match mfind name (casadi_fun r) with
      | None => Throw "casadi: null function"
      | Some f => call f (map (arg r) fa)
      end
  end.

(* get_functions(onlyNames) (robot.cpp:567-587): name, argument names, output size *)
Record fun_obj := mkFunObj { fo_name : string; fo_args : list string; fo_rows : nat; fo_cols : nat }.
Definition get_functions (r : robot) : list fun_obj :=
  map (fun kv => mkFunObj (fst kv) (mget [] (fst kv) (fun_args r))
                   (rows (mdl r (fst kv))) (cols (mdl r (fst kv)))) (casadi_fun r).

(* ---- setters (robot.cpp:393-537) ---- *)

(* set_arg (393-402): any length *)
Definition set_arg (r : robot) (name : string) (v : list R) : robot * nat :=
  (with_args r (mset name v (args r)), 1).

(* q(i) = value(i) for i < k, each assignment raising when i is outside the stored vector *)
Fixpoint assign_loop (k i : nat) (v : list R) (a : list R) : res (list R) :=
  match k with
  | O => Ok a
  | S k' =>
      match lset a i (nth i v 0%R) with
      | None => Throw "casadi: index out of range"
      | Some a' => assign_loop k' (S i) v a'
      end
  end.

(* common body of set_q, set_dq, ..., set_par_REG: args[name] is created empty when missing *)
Definition set_sized (name : string) (n : nat) (r : robot) (v : list R) : res (robot * nat) :=
  let r0 := with_args r (mtouch [] name (args r)) in
  if Nat.eqb (List.length v) n then
    a <- assign_loop n 0 v (arg r0 name) ;
    Ok (with_args r0 (mset name a (args r0)), 1)
  else Ok (r0, 0).

Definition set_q (r : robot) := set_sized "q" (numJoints r) r.                  (* 404-415 *)
Definition set_dq (r : robot) := set_sized "dq" (numJoints r) r.                (* 417-428 *)
Definition set_dqr (r : robot) := set_sized "dqr" (numJoints r) r.              (* 430-441 *)
Definition set_ddqr (r : robot) := set_sized "ddqr" (numJoints r) r.            (* 443-454 *)
Definition set_x (r : robot) := set_sized "x" (numElasticJoints r) r.           (* 456-467 *)
Definition set_dx (r : robot) := set_sized "dx" (numElasticJoints r) r.         (* 469-480 *)
Definition set_ddx (r : robot) := set_sized "ddx" (numElasticJoints r) r.       (* 482-493 *)
Definition set_ddxr (r : robot) := set_sized "ddxr" (numElasticJoints r) r.     (* 495-506 *)
(* both return before the conversion of the other representation is reached *)
Definition set_par_DYN (r : robot) := set_sized "par_DYN" (STD_PAR_LINK * numJoints r) r.   (* 508-522 *)
Definition set_par_REG (r : robot) := set_sized "par_REG" (STD_PAR_LINK * numJoints r) r.   (* 524-537 *)

(* get_arg (540-547) *)
Definition get_arg (r : robot) (name : string) : list R := arg r name.

(* get_par_DYN / get_par_REG (549-565): a vector of 10 n doubles is allocated uninitialised and the
   stored elements are copied to its front; None marks an indeterminate double. More stored elements
   than 10 n would write past the end. *)
Definition get_par_sized (n : nat) (a : list R) : res (list (option R)) :=
  if Nat.leb (List.length a) n then
    Ok (map Some a ++ repeat None (n - List.length a))%list
  else UB "write past the end of param".
Definition get_par_DYN (r : robot) := get_par_sized (STD_PAR_LINK * numJoints r) (arg r "par_DYN").
Definition get_par_REG (r : robot) := get_par_sized (STD_PAR_LINK * numJoints r) (arg r "par_REG").
