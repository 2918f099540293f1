(* Tracing changes nothing but the output of the trace (C44). *)
From Verif Require Import Base Num SourceModel BcodeModel SymbolModel LineSpec VmModel VmSpec OpSpec ValueSpec EvalSpec SessionModel MonitorModel MonSpec SystemModel SessionSpec RunProofs TypedProofs RunSpec ExecProofs SafeSpec
  Examples TalkSpec TraceSpec TraceProofs TraceRun SafeFile LexModel ParseModel GrammarSpec LineMapModel Prop_Session Prop_Step Prop_Safe.
Local Open Scope list_scope.

(* A line typed to a session that is traced has the effect it has in the same
   session without tracing: the same program, variables, files, messages,
   errors, input used and end of the session, and the same output but for the
   trace texts; or the traced session has undefined behaviour. *)
Theorem C44_line_partial : forall o E fuel line s t, traced_as o s t ->
  crashes (interpret E fuel line t) \/ outcome_as o (interpret E fuel line s) (interpret E fuel line t).
Proof. exact trace_line. Qed.
Print Assumptions C44_line_partial.

(* So it is for whole sessions, *)
Theorem C44_session_partial : forall o E fuel quiet stdin fs brk,
  crashes (interact E fuel o quiet stdin fs brk) \/ outcome_as o (interact E fuel (untraced o) quiet stdin fs brk) (interact E fuel o quiet stdin fs brk).
Proof. exact trace_session. Qed.
Print Assumptions C44_session_partial.

(* and for the interpreter as it is started, with a file or without: leaving
   out the arguments that ask for tracing changes nothing else. *)
Theorem C44_main_partial : forall E fuel argv stdin fs brk, main_as argv (main E fuel (without_traces argv) stdin fs brk) (main E fuel argv stdin fs brk).
Proof. exact trace_main. Qed.
Print Assumptions C44_main_partial.

(* When a program is run, of which C31 asks what it asks of all programs, the
   traced session has no undefined behaviour, unless the subscript 4294967295 is
   used. *)
Theorem C44_run_partial : forall o E line rest s t src xss st,
  traced_as o s t -> in_step o t -> means line (MCommand C_RUN rest) -> c_source (v_stored (ss_vm t)) = Some src -> statements_of o src xss st -> acceptable_program xss st ->
  Forall (Forall short_on) xss -> env_ok E -> distinct_lines src ->
  forall fuel, (exists u l w, starts src (new_machine src (ss_vm t)) u /\ runs E u l w /\ wraps w) \/ outcome_as o (interpret E fuel line s) (interpret E fuel line t).
Proof. exact trace_run. Qed.
Print Assumptions C44_run_partial.

(* So it is when statements are typed. *)
Theorem C44_statements_partial : forall o E line text xss s t u,
  traced_as o s t -> orderly o t -> env_ok E -> means line (MStatements text) -> program_fit o t ->
  line_starts t text xss u -> SafeSpec.fit xss (v_st u) ->
  forall fuel, (exists l w, runs E u l w /\ wraps w) \/ outcome_as o (interpret E fuel line s) (interpret E fuel line t).
Proof. exact trace_statements. Qed.
Print Assumptions C44_statements_partial.

(* So it is when the program is a file given on the command
   line; C31_file_ex in Prop_Safe meets the conditions. *)
Theorem C44_file_partial : forall E argv stdin fs brk o file content src xss st,
  parse_options init_options argv = OpOk o -> op_version o = false -> op_file o = Some file -> op_mode o = NO_MODE \/ op_mode o = RUN_MODE ->
  fs file = Some content -> quotable file -> load_source content = SOk src ->
  statements_of (mkOpt (op_anywhere o) (op_trace_basic o) (op_trace_for o)) src xss st -> acceptable_program xss st -> Forall (Forall short_on) xss -> env_ok E ->
  forall fuel, (exists u l w, starts src (new_machine src (ss_vm (session_of E o stdin fs brk))) u /\ runs E u l w /\ wraps w) \/
    exists x y, main E fuel (without_traces argv) stdin fs brk = MnRun x /\ main E fuel argv stdin fs brk = MnRun y /\
      exists p, o_trace_basic p = existsb asks_basic argv /\ o_trace_for p = existsb asks_for argv /\ outcome_as p x y.
Proof. exact file_traced. Qed.
Print Assumptions C44_file_partial.

(* Where no tracing is asked for no text is added. *)
Theorem C44_silent : forall o a b, o_trace_basic o = false -> o_trace_for o = false -> adds o a b -> b = a.
Proof. exact adds_untraced. Qed.
Print Assumptions C44_silent.

(* ---------- not vacuous ---------- *)

Definition ex_stdin : bytes := concat (map (fun l => l ++ [NL]) [lit "10 FOR I=1 TO 2"; lit "20 INPUT A"; lit "30 PRINT A*I"; lit "40 NEXT I"; lit "RUN"; lit "7"; lit "8"; lit "BYE"]).
Definition shown (m : main_out) : option (list oev * bytes) :=
  match m with MnSession (XOk tt s) => Some (v_out (ss_vm s), v_in (ss_vm s)) | _ => None end.
Definition text (l : list oev) : bytes := concat (map (fun e => match e with OB c => [c] | OCls => [] end) l).
Example C44_ex :
  let argv := [lit "-q"; lit "-f"; lit "--trace-basic"] in
  without_traces argv = [lit "-q"] /\ existsb asks_basic argv = true /\ existsb asks_for argv = true /\
  option_map (fun p => (text (fst p), snd p)) (shown (main ex_env 100 (without_traces argv) ex_stdin no_files [])) = Some (lit "> > > > > ?  7 " ++ [NL] ++ lit "?  16 " ++ [NL] ++ lit "> ", []) /\
  match shown (main ex_env 100 argv ex_stdin no_files []) with
  | Some (b, rest) => rest = [] /\ firstn 36 (text b) = lit "> > > > > [10][FOR]" ++ [NL] ++ lit "-- line: 10 FOR "
  | None => False
  end.
Proof. vm_compute. repeat split; reflexivity. Qed.

(* The program of the examples of C38 in a session that is traced. *)
Definition ex_traces : options := mkOpt false true true.
Definition ex_traced_at : sess := match typed ex_env 200 ex_squares (new_session ex_traces [] no_files []) with Some s => s | None => new_session ex_traces [] no_files [] end.
Lemma ex_traces_is : statements_of ex_traces ex_squares_src ex_squares_stmts (sym_make_unknown_array ex_table1).
Proof.
  destruct ex_squares_is as (bc & st1 & A & B). exists bc, st1. split; [|exact B]. rewrite <- A. unfold compiling. reflexivity.
Qed.
Example C44_run_ex : traced_as ex_traces ex_squares_at ex_traced_at /\ in_step ex_traces ex_traced_at /\ c_source (v_stored (ss_vm ex_traced_at)) = Some ex_squares_src /\
  statements_of ex_traces ex_squares_src ex_squares_stmts (sym_make_unknown_array ex_table1) /\ acceptable_program ex_squares_stmts (sym_make_unknown_array ex_table1) /\
  Forall (Forall short_on) ex_squares_stmts /\ env_ok ex_env /\ distinct_lines ex_squares_src /\
  match interpret ex_env 200 (lit "RUN") ex_traced_at with XOk false t => firstn 9 (text (v_out (ss_vm t))) = lit "[10][FOR]" | _ => False end.
Proof.
  destruct C38_ex as (_ & _ & C & D & _ & F & _).
  assert (O : v_opt (ss_vm ex_squares_at) = ex_opt /\ v_out (ss_vm ex_squares_at) = []) by (vm_compute; split; reflexivity). destruct O as [O1 O2].
  split; [split; [exact O1|]; exists []; split; [rewrite O2; constructor|vm_compute; reflexivity]|].
  split; [left; unfold ex_traced_at; destruct (typed ex_env 200 ex_squares (new_session ex_traces [] no_files [])) as [t|] eqn:T; [|apply Ses_start];
    apply (typed_session ex_traces no_renum ex_env 200 ex_squares _ t (Ses_start ex_traces no_renum [] no_files [])); [repeat (constructor; [apply not_renum; vm_compute; reflexivity|]); constructor|exact T]|].
  split; [vm_compute; reflexivity|]. split; [apply ex_traces_is|]. split; [exact C|]. split; [repeat constructor|]. split; [exact D|]. split; [exact F|]. vm_compute. reflexivity.
Qed.

(* GOTO 20, typed to it, traces a line of the program. *)
Example C44_statements_ex : traced_as ex_traces ex_squares_at ex_traced_at /\ orderly ex_traces ex_traced_at /\
  means (lit "GOTO 20") (MStatements (lit "GOTO 20")) /\ program_fit ex_traces ex_traced_at /\
  (exists u, line_starts ex_traced_at (lit "GOTO 20") ex_goto_stmts u /\ SafeSpec.fit ex_goto_stmts (v_st u)) /\
  match interpret ex_env 200 (lit "GOTO 20") ex_traced_at with
  | XOk false t => firstn 7 (text (v_out (ss_vm t))) = lit "[0][20]" /\ map er_err (v_err (ss_vm t)) = [RE_next_without_for None]
  | _ => False
  end.
Proof.
  destruct C44_run_ex as (A & _ & S & SO & AP & ON & _). split; [exact A|]. split; [|split; [|split; [|split]]].
  - unfold ex_traced_at. destruct (typed ex_env 200 ex_squares (new_session ex_traces [] no_files [])) as [t|] eqn:T; [|apply Or_start].
    apply (ex_orderly ex_traces ex_squares (new_session ex_traces [] no_files []) t (Or_start _ _ _ _)); [vm_compute; reflexivity|exact T].
  - apply ex_means. vm_compute. reflexivity.
  - intros src xss st SS SQ. rewrite S in SS. injection SS as <-. pose proof SQ as (bc & _ & P & _). pose proof SO as (bc' & _ & P' & _).
    rewrite P in P'. injection P' as _ ->. exists ex_squares_stmts. split; [exact SO|]. split; [exact AP|exact ON].
  - destruct (ensure_program_compiled (set_vm (set_imm no_code (ss_vm ex_traced_at)) ex_traced_at)) as [[|] t| | |] eqn:C; try (vm_compute in C; discriminate C).
    assert (T : v_st (ss_vm t) = ex_table1) by (vm_compute in C; injection C as <-; vm_compute; reflexivity).
    destruct (bcode_index (mkBcode (pcode 0 ex_goto_stmts) false) (wrap_source_text (lit "GOTO 20"))) as [idx|] eqn:X; [|vm_compute in X; discriminate X].
    eexists. split; [exists t, (mkBcode (pcode 0 ex_goto_stmts) false), idx, ex_table1, ex_table1|].
    + split; [exact C|]. rewrite T. split; [vm_compute; reflexivity|]. split; [econstructor; [apply ex_goto_line|constructor]|]. split; [vm_compute; reflexivity|]. split; [reflexivity|]. split; [exact X|]. reflexivity.
    + split; [|repeat constructor]. split; [vm_compute; discriminate|]. split; repeat constructor.
  - vm_compute. split; reflexivity.
Qed.

(* The same program, traced, run and interrupted in its loop: the loop is pending
   and its line exists; GOTO 20 continues it. *)
Definition ex_in_loop : sess :=
  match typed ex_env 200 (ex_squares ++ [lit "RUN"]) (new_session ex_traces [] no_files [Some 12]) with Some s => s | None => new_session ex_traces [] no_files [] end.
Example C44_pending_ex : session ex_traces any_line ex_in_loop /\ ~ stale (ss_vm ex_in_loop) /\ length (v_for (ss_vm ex_in_loop)) = 1 /\ lines_exist (ss_vm ex_in_loop) /\
  match interpret ex_env 200 (lit "GOTO 20") ex_in_loop with XOk false t => v_err (ss_vm t) = v_err (ss_vm ex_in_loop) /\ v_for (ss_vm t) = [] | _ => False end.
Proof.
  split; [unfold ex_in_loop; destruct (typed ex_env 200 (ex_squares ++ [lit "RUN"]) (new_session ex_traces [] no_files [Some 12])) as [t|] eqn:T; [|apply Ses_start];
    apply (typed_session ex_traces any_line ex_env 200 (ex_squares ++ [lit "RUN"]) _ t (Ses_start ex_traces any_line [] no_files [Some 12])); [apply Forall_forall; intros; exact Logic.I|exact T]|].
  split; [intros [_ B]; vm_compute in B; discriminate B|]. split; [vm_compute; reflexivity|]. split; [|vm_compute; split; reflexivity].
  right. split; [vm_compute; constructor|]. split; [|left; vm_compute; reflexivity].
  destruct (v_for (ss_vm ex_in_loop)) as [|f [|g r]] eqn:F; try (vm_compute in F; discriminate F). constructor; [|constructor].
  vm_compute in F. injection F as <-. right. split; [reflexivity|]. eexists. split; [vm_compute; reflexivity|]. vm_compute. repeat constructor.
Qed.
