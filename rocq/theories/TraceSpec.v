(* Tracing (C44): what --trace-basic and --trace-for may change. *)
From Verif Require Import Base SourceModel BcodeModel SymbolModel VmModel SessionModel SystemModel.
Local Open Scope list_scope.

(* The texts a machine with options o may write for tracing. *)
Inductive trace_text (o : options) : bytes -> Prop :=
| TT_line n : o_trace_basic o = true -> trace_text o (lit "[" ++ dec_of_N n ++ lit "]")
| TT_for tag line : o_trace_for o = true -> In tag [lit "FOR"; lit "NEXT-VARIABLE"; lit "NEXT-IMPLICIT"] ->
    trace_text o (lit "[" ++ tag ++ lit "]" ++ [NL] ++ lit "-- line: " ++ line ++ [NL])
| TT_stack tag t : o_trace_for o = true -> In tag [lit "initial stack"; lit "final stack"] ->
    trace_text o (lit "-- " ++ tag ++ lit ": " ++ t ++ [NL]).

(* b is a with such texts put in. *)
Inductive adds (o : options) : list oev -> list oev -> Prop :=
| Adds_none : adds o [] []
| Adds_same x a b : adds o a b -> adds o (a ++ [x]) (b ++ [x])
| Adds_trace t a b : trace_text o t -> adds o a b -> adds o a (b ++ map OB t).

(* The options without tracing. *)
Definition untraced (o : options) : options := mkOpt (o_anywhere o) false false.

(* The machine v with options o and output b instead of its own: everything
   else, the variables, the place, the stacks, the input not yet read, the
   errors reported, the random numbers, is as in v. *)
Definition but_for (o : options) (b : list oev) (v : vm) : vm :=
  mkVm (v_stored v) (v_imm v) (v_def v) (v_cs v) (v_st v) (v_stack v) (v_sstack v) (v_ret v) (v_stopped v) (v_stopcs v) (v_col v) (v_for v)
    (v_pdata v) (v_idata v) (v_fn v) (v_input v) (v_inp v) (v_input_pc v) o (v_in v) b (v_err v) (v_seed v) (v_randk v) (v_clock v).

(* The session t, traced as o says, is the session s apart from trace texts. *)
Definition traced_as (o : options) (s t : sess) : Prop :=
  v_opt (ss_vm s) = untraced o /\ exists b, adds o (v_out (ss_vm s)) b /\ t = set_vm (but_for o b (ss_vm s)) s.
Definition outcome_as {A} (o : options) (p q : xres A) : Prop :=
  match p, q with
  | XOk a s, XOk a' t => a = a' /\ traced_as o s t
  | XExit s, XExit t | XNoFuel s, XNoFuel t => traced_as o s t
  | _, _ => False
  end.
Definition crashes {A} (p : xres A) : Prop := match p with XCrash _ => True | _ => False end.

(* The arguments that ask for tracing, and the others. *)
Definition asks_basic (a : bytes) : bool := is_arg a [lit "--trace-basic"; lit "-t"].
Definition asks_for (a : bytes) : bool := is_arg a [lit "--trace-for"; lit "-f"].
Definition without_traces (argv : list bytes) : list bytes := filter (fun a => negb (asks_basic a || asks_for a)) argv.
Definition main_as (argv : list bytes) (p q : main_out) : Prop :=
  match p, q with
  | MnSession x, MnSession y | MnRun x, MnRun y =>
      crashes y \/ exists o, o_trace_basic o = existsb asks_basic argv /\ o_trace_for o = existsb asks_for argv /\ outcome_as o x y
  | _, _ => p = q
  end.
