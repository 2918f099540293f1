(* The values a machine may hold: numbers are IEEE doubles and strings have at
   most 255 characters (C20). *)
From Verif Require Import Base Num NumSpec ArrayModel BcodeModel SymbolModel VmModel.

Definition string_ok (s : bytes) : Prop := length s <= 255.
Definition opt_ok (s : option bytes) : Prop := match s with Some x => string_ok x | None => True end.

(* constants in code *)
Definition const_ok (i : instr) : Prop :=
  match i with
  | I_PUSH_NUM x => double x
  | I_PUSH_STR s | I_DATA s => string_ok s
  | _ => True
  end.
Definition consts_ok (bc : bcode) : Prop := Forall const_ok (bc_inst bc).

Definition value_ok (x : sval) : Prop :=
  match x with
  | VNum n => double n
  | VStr s => string_ok s
  | VNumArr a => Forall double (ar_val a)
  | VStrArr a => Forall opt_ok (ar_val a)
  | VDef d => consts_ok (def_bcode d)
  | _ => True
  end.

Record values_ok (v : vm) : Prop := {
  ok_syms : Forall (fun s => value_ok (s_val s)) (st_syms (v_st v));
  ok_stack : Forall double (v_stack v);
  ok_sstack : Forall string_ok (v_sstack v);
  ok_for : Forall (fun f => double (f_step f) /\ double (f_limit f)) (v_for v);
  ok_fn : double (fn_val (v_fn v));
  ok_code : forall r bc, c_bcode (code_of v r) = Some bc -> consts_ok bc;
  ok_input : string_ok (v_input v)
}.

(* libm gives doubles for doubles; the clock gives times of day *)
Record env_ok (E : env) : Prop := {
  ok_pow : forall x y, double x -> double y -> double (e_pow E x y);
  ok_sin : forall x, double x -> double (e_sin E x);
  ok_cos : forall x, double x -> double (e_cos E x);
  ok_tan : forall x, double x -> double (e_tan E x);
  ok_atan : forall x, double x -> double (e_atan E x);
  ok_exp : forall x, double x -> double (e_exp E x);
  ok_log : forall x, double x -> double (e_log E x);
  ok_hms : forall k, let '(h, m, s) := e_hms E k in (h < 24 /\ m < 60 /\ s <= 60)%N
}.
