(* User functions: DEF and calls (C17). *)
From Verif Require Import Base Num BcodeModel SymbolModel VmModel VmSpec StoreSpec.

(* A DEF statement compiles to I_DEF, I_PARAM, the code of its expression and
   I_END_DEF. *)
Fixpoint through_end (l : list instr) : list instr :=
  match l with
  | [] => [I_END_DEF]
  | I_END_DEF :: _ => [I_END_DEF]
  | i :: r => i :: through_end r
  end.

(* what id was defined as, its code, and the variable that is its parameter *)
Definition function (v : vm) (id : symid) : option def :=
  match symbol_at (v_st v) id with
  | Some s => if s_defined s then match s_val s with VDef d => Some d | _ => None end else None
  | None => None
  end.
Definition body (d : def) : list instr := bc_inst (def_bcode d).
Definition parameter (d : def) : option symid :=
  match body d with _ :: I_PARAM p :: _ => Some p | _ => None end.

(* a function is being evaluated *)
Definition in_function (v : vm) : Prop := cs_code (fn_cs (v_fn v)) <> None.
(* the machine executes the stored program or an immediate line *)
Definition in_line (v : vm) : Prop := cs_code (v_cs v) = Some CStored \/ cs_code (v_cs v) = Some CImmediate.
Definition call (t : sort) (id : symid) (n : N) : instr :=
  match t with Numbers => I_GET_PAREN_NUM id n | Texts => I_GET_PAREN_STR id n end.
(* the variable has been assigned *)
Definition assigned_yet (v : vm) (id : symid) : bool :=
  match symbol_at (v_st v) id with Some s => s_defined s | None => false end.

(* w is v after a call of d with the argument x: the expression of d is to be
   evaluated, its parameter p holds x, and the argument has gone from the
   stack. *)
Definition entered (v : vm) (d : def) (p : symid) (x : num) (st : list num) (w : vm) : Prop :=
  v_cs w = mkCs (Some CDef) (def_line d) 2 /\ cur_bcode w = Some (def_bcode d) /\ in_function w /\
  variable w Numbers p = Number x /\
  (forall j, j <> p -> symbol_at (v_st w) j = symbol_at (v_st v) j) /\
  w = set_cs (v_cs w) (set_def (v_def w) (set_fn (v_fn w) (set_st (v_st w) (set_stack st v)))).

(* z is w after return from a call made in v: execution goes on after the call,
   and p holds what it held in v. *)
Definition returned (v : vm) (p : symid) (w z : vm) : Prop :=
  v_cs z = place_after v 1 /\ cur_bcode z = cur_bcode v /\ ~ in_function z /\
  variable z Numbers p = variable v Numbers p /\ assigned_yet z p = assigned_yet v p /\
  (forall j, j <> p -> symbol_at (v_st z) j = symbol_at (v_st w) j) /\
  z = set_cs (v_cs z) (set_fn (v_fn z) (set_st (v_st z) w)).

(* w is v after the definition of id by the DEF statement to be executed in v *)
Definition defined_by (v : vm) (id : symid) (w : vm) : Prop :=
  only id v w /\
  exists bc d, cur_bcode v = Some bc /\ function w id = Some d /\
    body d = through_end (skipn (cs_pc (v_cs v)) (bc_inst bc)).
