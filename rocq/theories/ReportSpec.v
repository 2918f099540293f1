(* The reports of run-time errors (C43). *)
From Verif Require Import Base SourceModel BcodeModel SymbolModel ParseModel GrammarSpec VmModel VmSpec LineSpec EvalSpec SessionModel MonitorModel MonSpec.

(* The lines that may run something. *)
Definition runs_something (m : meaning) : Prop := exists rest, m = MCommand C_RUN rest \/ m = MCommand C_CONT rest \/ m = MStatements rest.

(* No line of the program defines a function. *)
Definition no_functions (xss : list (list stmt)) : Prop := forall j id p e, ~ In (SDef id p e) (line_stmts xss j).

(* The place pc is in the code of the statements of line k. *)
Definition in_code (xss : list (list stmt)) (k pc : nat) : Prop := k < length xss /\ line_start xss k < pc /\ pc < line_start xss (S k).
(* Execution is in line k: at one of its statements, or in a function that a
   DEF of this line defines. *)
Inductive in_line (xss : list (list stmt)) (k : nat) (v : vm) : Prop :=
| IL_statement : cs_code (v_cs v) = Some CStored -> in_code xss k (cs_pc (v_cs v)) -> in_line xss k v
| IL_function id p e bc : cs_code (v_cs v) = Some CDef -> In (SDef id p e) (line_stmts xss k) -> cur_bcode v = Some bc -> bc_inst bc = definition id p e -> in_line xss k v.
