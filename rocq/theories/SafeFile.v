(* A program file given on the command line (C31, C44). *)
From Verif Require Import Base SourceModel SymbolModel LexModel ParseModel GrammarSpec LineSpec VmModel VmSpec OpSpec ValueSpec EvalSpec SessionModel MonitorModel MonSpec MonProofs SystemModel SessionSpec TypedProofs RunSpec ExecProofs
  SafeSpec SafeTop TalkSpec TalkProofs TraceSpec TraceProofs.

Local Opaque init_builtins new_symbol_table parse_source.

Section File.
Variables (E : env) (argv : list bytes) (stdin : bytes) (fs : files) (brk : list (option nat)) (o : opts) (file content : bytes) (src : source) (xss : list (list stmt)) (st : symtab).
Hypothesis PO : parse_options init_options argv = OpOk o.
Hypothesis NV : op_version o = false.
Hypothesis FI : op_file o = Some file.
Hypothesis MO : op_mode o = NO_MODE \/ op_mode o = RUN_MODE.
Hypothesis FS : fs file = Some content.
Hypothesis QU : quotable file.
Hypothesis LO : load_source content = SOk src.
Local Notation op := (mkOpt (op_anywhere o) (op_trace_basic o) (op_trace_for o)).
Hypothesis SO : statements_of op src xss st.
Hypothesis AP : acceptable_program xss st.
Hypothesis ON : Forall (Forall short_on) xss.
Hypothesis EO : env_ok E.
Local Notation s0 := (session_of E o stdin fs brk).
Local Notation t0 := (set_vm (stored_program_changed (set_source src (ss_vm s0))) s0).
Lemma file_loaded fuel : interpret E fuel (lit "LOAD " ++ quoted file) s0 = XOk false t0.
Proof.
  rewrite interpret_load by exact QU. unfold xbind, vm_load_source. change (ss_fs s0 file) with (fs file). rewrite FS, LO. reflexivity.
Qed.
Lemma file_in_step : session op no_renum t0.
Proof.
  apply (Ses_line op no_renum E 0 (lit "LOAD " ++ quoted file) s0); [| |apply file_loaded].
  - unfold session_of, seed_of. destruct (op_srand o); [exact (Ses_randomized op no_renum (u32 (e_time E 0)) stdin fs brk)|exact (Ses_start op no_renum stdin fs brk)].
  - apply not_renum. reflexivity.
Qed.
Lemma file_main fuel : main E fuel argv stdin fs brk = MnRun (match interpret E fuel (lit "RUN") t0 with XOk _ u => XOk tt u | XExit u => XExit u | XCrash u => XCrash u | XNoFuel u => XNoFuel u end).
Proof.
  rewrite (main_file E fuel argv stdin fs brk o file PO NV FI), (file_run E fuel o file stdin fs brk content MO FS QU). unfold load_and_run.
  rewrite file_loaded. reflexivity.
Qed.
Lemma run_means : means (lit "RUN") (MCommand C_RUN []).
Proof. destruct (means_exists (lit "RUN")) as (m & M). assert (C : classify (lit "RUN") = MCommand C_RUN []) by reflexivity. rewrite <- C, (means_classify _ _ M). exact M. Qed.
Lemma file_safe fuel : (exists u l w, starts src (new_machine src (ss_vm (session_of E o stdin fs brk))) u /\ runs E u l w /\ wraps w) \/
  exists x, main E fuel argv stdin fs brk = MnRun x /\ file_went_well x.
Proof.
  pose proof file_in_step as IS. pose proof (session_increasing op t0 src IS eq_refl) as DL.
  destruct (run_safe op E (lit "RUN") [] t0 src xss st (or_introl IS) run_means eq_refl SO AP ON EO DL fuel) as [W|W]; [left; exact W|right].
  rewrite file_main. eexists. split; [reflexivity|]. destruct (interpret E fuel (lit "RUN") t0) as [a t|t|t|t]; cbn [run_went_well file_went_well] in *; try exact W.
  destruct W as (l & W1 & W2 & W3). assert (E0 : v_err (ss_vm t0) = []) by (unfold session_of, seed_of; destruct (op_srand o); reflexivity). rewrite E0 in W1. cbn [app] in W1. rewrite W1. split; assumption.
Qed.
Lemma file_traced fuel : (exists u l w, starts src (new_machine src (ss_vm (session_of E o stdin fs brk))) u /\ runs E u l w /\ wraps w) \/
  exists x y, main E fuel (without_traces argv) stdin fs brk = MnRun x /\ main E fuel argv stdin fs brk = MnRun y /\
    exists p, o_trace_basic p = existsb asks_basic argv /\ o_trace_for p = existsb asks_for argv /\ outcome_as p x y.
Proof.
  destruct (file_safe fuel) as [W|(y & Y & W)]; [left; exact W|right]. pose proof (trace_main E fuel argv stdin fs brk) as T. rewrite Y in T.
  destruct (main E fuel (without_traces argv) stdin fs brk) eqn:X; cbn [main_as] in T; try discriminate T.
  eexists _, y. split; [reflexivity|]. split; [exact Y|]. destruct T as [C|T]; [exfalso; destruct y; exact W || exact C|exact T].
Qed.
End File.
