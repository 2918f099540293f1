(* What RUN does (C38): the program of the session runs as its statements say,
   starting with nothing assigned, dimensioned, defined, read or called. *)
From Verif Require Import Base Num SourceModel ArraySpec BcodeModel SymbolModel ParseModel GrammarSpec VmModel VmSpec ValueSpec StoreSpec OpSpec LineSpec EvalSpec StepSpec
  SessionModel MonitorModel SessionSpec.

(* The lines of src contain the statements xss, whose names are those of st. *)
Definition statements_of (o : options) (src : source) (xss : list (list stmt)) (st : symtab) : Prop :=
  exists bc st1, compiling o src = PoOk (Some bc) None st /\ program_is (o_anywhere o) (init_builtins new_symbol_table) (map ln_text src) xss st1 /\
    st = sym_make_unknown_array st1 /\ bc_inst bc = pcode 0 xss.
(* No more names than there are identifiers for, at most two subscripts
   anywhere, and nothing is assigned to the name of a built-in function. *)
Definition acceptable_program (xss : list (list stmt)) (st : symtab) : Prop :=
  few_names st /\ Forall (Forall few_subs) xss /\ Forall (Forall proper_targets) xss.
Definition numbered (src : source) (xss : list (list stmt)) : program := combine (map ln_num src) xss.

(* The memory in which nothing has been assigned, dimensioned or defined. *)
Definition fresh_memory (st : symtab) (seed : N) (drawn clock : nat) : memory :=
  mkMemory
    (fun id => unset (match symbol_at st id with Some s => sort_of_type (s_type s) | None => Numbers end))
    (fun id => match symbol_at st id with Some s => if skind_eqb (s_kind s) KDef then Function None else Array None | None => Array None end)
    (fun id => match symbol_at st id with Some s => s_name s | None => [] end)
    seed drawn clock.
(* The state in which RUN begins: at the first statement, at the first item of
   the DATA, with no loops and nowhere to return to. The input, the line read
   last, the random numbers and the clock go on. *)
Definition run_state (st : symtab) (P : program) (v : vm) : state :=
  mkState (fresh_memory st (v_seed v) (v_randk v) (v_clock v)) (0, 0) [] [] (all_data P) [] 1 (v_in v) (v_input v).

(* Between s and t the machine has printed out, reported errs and left input to
   be read. *)
Record did (s t : sess) (out : list oev) (errs : list errev) (input : bytes) : Prop := {
  d_out : v_out (ss_vm t) = v_out (ss_vm s) ++ out;
  d_err : v_err (ss_vm t) = v_err (ss_vm s) ++ errs;
  d_in : v_in (ss_vm t) = input
}.

(* With enough fuel the line ends, and it did this. *)
Definition ends (E : env) (line : bytes) (s : sess) (out : list oev) (errs : list errev) (input : bytes) : Prop :=
  exists m, forall fuel, m <= fuel -> exists t, interpret E fuel line s = XOk false t /\ did s t out errs input.
(* There is a moment up to which it did this. *)
Definition reaches (E : env) (line : bytes) (s : sess) (out : list oev) (input : bytes) : Prop :=
  exists fuel t, (interpret E fuel line s = XNoFuel t \/ interpret E fuel line s = XOk false t) /\ did s t out [] input.
(* The line ends because a stack of the machine is full: a calculation needs
   more than 16 numbers or 8 texts at the same time. *)
Definition too_deep (E : env) (line : bytes) (s : sess) : Prop :=
  exists m, forall fuel, m <= fuel -> exists t out e l input, interpret E fuel line s = XOk false t /\ did s t out [mkErr e l] input /\ (e = RE_num_overflow \/ e = RE_str_overflow).

(* The line of the program shown with an error met in line k: that line, or,
   where the error is met in the body of a function, a line that defines one. *)
Definition shown_for (src : source) (xss : list (list stmt)) (k : nat) (text : bytes) : Prop :=
  text = print_source_line src k \/
  exists j id p e, In (SDef id p e) (line_stmts xss j) /\ text = print_source_line src j.

(* What typing the line does is what the steps of the program give. *)
Definition runs_as (E : env) (line : bytes) (s : sess) (src : source) (xss : list (list stmt)) (o : outcome) : Prop :=
  match o with
  | Next s' => reaches E line s (x_output s') (x_input s')
  | Finished s' => ends E line s (x_output s') [] (x_input s')
  | Stopped s' => ends E line s (x_output s' ++ map OB (print_source_line src (fst (x_spot s')) ++ [NL] ++ lit "Stopped" ++ [NL])) [] (x_input s')
  | Erred e s' => exists text, shown_for src xss (fst (x_spot s')) text /\ ends E line s (x_output s') [mkErr e (Some text)] (x_input s')
  | NoMeaning => True
  end.
