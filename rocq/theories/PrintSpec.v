(* What PRINT is to write and where the next character goes (C19). *)
From Verif Require Import Base Num BcodeModel VmModel VmSpec.

(* The column after an output event at column c; columns are 32-bit numbers
   counted from 1. *)
Definition after_event (c : N) (o : oev) : N :=
  match o with
  | OB ch => if ceq ch NL then 1%N else ((c + 1) mod 2 ^ 32)%N
  | OCls => 1%N
  end.
Definition column_after (c : N) (o : list oev) : N := fold_left after_event o c.

(* INPUT does not occur in an execution. *)
Definition is_input (i : instr) : bool :=
  match i with
  | I_INPUT_BUF _ | I_INPUT_END | I_INPUT_SEP | I_INPUT_NUM _ _ | I_INPUT_STR _ _ | I_INPUT_LINE _ _ => true
  | _ => false
  end.
Definition no_input (l : list vm) : Prop := Forall (fun v => forall i, current v = Some i -> is_input i = false) l.
(* No trace option is set. *)
Definition quiet (v : vm) : Prop := o_trace_basic (v_opt v) = false /\ o_trace_for (v_opt v) = false.

Definition blanks (n : nat) : bytes := repeat SP n.

(* The current instruction prints s (and takes its arguments from the stacks). *)
Definition prints (E : env) (v : vm) (s : bytes) (col : N) (st : list num) (ss : list bytes) : Prop :=
  execute E v = (Ok tt, set_cs (place_after v 1)
                          (set_outcol (v_out v ++ map OB s) col (set_sstack ss (set_stack st v)))).
