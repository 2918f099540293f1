(* What cannot go wrong while a compiled program runs: C31. *)
From Coq Require Import Lia ZifyBool ZifyNat ZifyN SpecFloat.
From Verif Require Import Base BaseLemmas Num NumSpec SourceModel LineMapModel BcodeModel SymbolModel SymbolSpec LexModel ParseModel
  GrammarSpec LineSpec VmModel VmSpec OpSpec VmTyping ValueSpec StoreSpec EvalSpec StepSpec SessionModel MonitorModel MonSpec MonProofs SessionSpec RunProofs TypedProofs RunSpec ExecProofs
  SystemModel TalkSpec SafeSpec SafeTop SafePrompt SafeFile SafeHeld Examples Prop_Session Prop_Step.
Local Open Scope nat_scope.
Local Open Scope list_scope.

(* Whatever program is typed RUN, with whatever input and whenever it is
   interrupted, traced or not, nothing undefined happens and no internal error is reported,
   unless an array is used with the subscript 4294967295 before. What is missing:
   of CONT it is not true, see below. *)
Theorem C31_run_partial : forall o E line rest s src xss st,
  in_step o s -> means line (MCommand C_RUN rest) -> c_source (v_stored (ss_vm s)) = Some src -> statements_of o src xss st -> acceptable_program xss st ->
  Forall (Forall short_on) xss -> env_ok E -> distinct_lines src ->
  forall fuel, (exists u l w, starts src (new_machine src (ss_vm s)) u /\ runs E u l w /\ wraps w) \/ run_went_well s (interpret E fuel line s).
Proof. exact run_safe. Qed.
Print Assumptions C31_run_partial.

(* The same of statements typed at the prompt, traced or not, after any lines that did not use
   that subscript either and of which the programs and statements that were
   compiled use no more than two subscripts. Lines without a number may go into
   the program, return from its subroutines and continue its loops. *)
Theorem C31_statements_partial : forall o E line text xss s u,
  orderly o s -> env_ok E -> means line (MStatements text) -> program_fit o s ->
  line_starts s text xss u -> fit xss (v_st u) ->
  forall fuel, (exists l w, runs E u l w /\ wraps w) \/ run_went_well s (interpret E fuel line s).
Proof. exact line_traced_all. Qed.
Print Assumptions C31_statements_partial.

(* For the lines that pending GOSUBs, loops and function calls were left in, of
   which a trace may show the text, are lines of the program. *)
Theorem C31_lines : forall o s, session o any_line s -> lines_exist (ss_vm s).
Proof. exact session_lines. Qed.
Print Assumptions C31_lines.

(* The same of a program file given on the command line. *)
Theorem C31_file_partial : forall E argv stdin fs brk o file content src xss st,
  parse_options init_options argv = OpOk o -> op_version o = false -> op_file o = Some file -> op_mode o = NO_MODE \/ op_mode o = RUN_MODE ->
  fs file = Some content -> quotable file -> load_source content = SOk src ->
  statements_of (mkOpt (op_anywhere o) (op_trace_basic o) (op_trace_for o)) src xss st -> acceptable_program xss st -> Forall (Forall short_on) xss -> env_ok E ->
  forall fuel, (exists u l w, starts src (new_machine src (ss_vm (session_of E o stdin fs brk))) u /\ runs E u l w /\ wraps w) \/
    exists x, main E fuel argv stdin fs brk = MnRun x /\ file_went_well x.
Proof. exact file_safe. Qed.
Print Assumptions C31_file_partial.

(* Between the statements of a program that has a meaning the stacks are empty,
   unless a calculation needs more than 16 numbers or 8 texts at the same time
   before. What is missing: the attempts of INPUT, of which it is not true, and
   expressions without a type. *)
Theorem C31_stacks_partial : forall o E line rest s src xss st,
  in_step o s -> means line (MCommand C_RUN rest) -> c_source (v_stored (ss_vm s)) = Some src -> statements_of o src xss st -> acceptable_program xss st ->
  env_ok E -> distinct_lines src -> o_trace_basic o = false /\ o_trace_for o = false -> rand_range E ->
  exists u, starts src (new_machine src (ss_vm s)) u /\
  forall n s', steps E (numbered src xss) n (run_state st (numbered src xss) (ss_vm s)) = Next s' ->
    overflows E u \/ exists l w, runs E u l w /\ at_statement xss (x_spot s') w /\ v_stack w = [] /\ v_sstack w = [].
Proof. exact run_stacks. Qed.
Print Assumptions C31_stacks_partial.

(* ---------- not vacuous ---------- *)

(* The program of the examples of C38 meets the conditions; it is run and its
   statements are performed. *)
Example C31_ex : in_step ex_opt ex_squares_at /\ c_source (v_stored (ss_vm ex_squares_at)) = Some ex_squares_src /\
  statements_of ex_opt ex_squares_src ex_squares_stmts (sym_make_unknown_array ex_table1) /\
  acceptable_program ex_squares_stmts (sym_make_unknown_array ex_table1) /\ Forall (Forall short_on) ex_squares_stmts /\ env_ok ex_env /\ distinct_lines ex_squares_src /\
  (exists t, interpret ex_env 200 (lit "RUN") ex_squares_at = XOk false t) /\
  (exists s', steps ex_env (numbered ex_squares_src ex_squares_stmts) 6 ex_squares_run = Next s' /\ x_spot s' = (1, 0)).
Proof.
  destruct C38_ex as (A & B & C & D & _ & F & _). split; [exact A|]. split; [exact B|]. split; [exact ex_squares_is|]. split; [exact C|].
  split; [repeat constructor|]. split; [exact D|]. split; [exact F|]. split; [eexists; vm_compute; reflexivity|]. eexists. split; [vm_compute; reflexivity|]. reflexivity.
Qed.

(* The same program, not run; GOTO 20 is typed, which comes to a NEXT without a
   FOR. *)
Lemma ex_orderly o ls : forall s t, orderly o s -> forallb (fun l => match classify l with MEdit _ _ => true | _ => false end) ls = true ->
  typed ex_env 200 ls s = Some t -> orderly o t.
Proof.
  induction ls as [|l r IH]; intros s t S F H; cbn [typed] in H; [injection H as <-; exact S|]. cbn [forallb] in F. apply Bool.andb_true_iff in F as [F1 F2].
  destruct (interpret ex_env 200 l s) as [[|] x| | |] eqn:X; try discriminate H. apply (IH x t); [|exact F2|exact H].
  destruct (classify l) as [n e| | | |] eqn:C; try discriminate F1.
  apply (Or_line o ex_env 200 l (MEdit n e) s x S ex_env_ok (ex_means _ _ C)); [intros []|discriminate|intros u q w U; inversion U|exact X].
Qed.
Definition ex_goto_stmts : list (list stmt) := [[SGoto 20%N]].
Lemma ex_goto_line st : line_is false (lit "GOTO 20") st [SGoto 20%N] st.
Proof. one_line. eapply (LS_stmt _ _ _ [T_KW K_GOTO; T_NUM (fofZ 20) _] _ _ _ _ []); [left; reflexivity| |apply GS_goto]. - do 2 read_one. constructor. - eexists. split; [reflexivity|]. split; [vm_compute; reflexivity|reflexivity].
Qed.
Example C31_statements_ex : orderly ex_opt ex_squares_at /\ means (lit "GOTO 20") (MStatements (lit "GOTO 20")) /\ program_fit ex_opt ex_squares_at /\
  (exists u, line_starts ex_squares_at (lit "GOTO 20") ex_goto_stmts u /\ fit ex_goto_stmts (v_st u)) /\
  match interpret ex_env 200 (lit "GOTO 20") ex_squares_at with XOk false t => map er_err (v_err (ss_vm t)) = [RE_next_without_for None] | _ => False end.
Proof.
  split; [|split; [|split; [|split]]].
  - unfold ex_squares_at, ex_typed. destruct (typed ex_env 200 ex_squares (ex_new [])) as [t|] eqn:T; [|apply Or_start].
    apply (ex_orderly _ ex_squares (ex_new []) t (Or_start _ _ _ _)); [vm_compute; reflexivity|exact T].
  - apply ex_means. vm_compute. reflexivity.
  - intros src xss st SS SO. destruct C38_ex as (_ & B & C & _). rewrite B in SS. injection SS as <-. pose proof SO as (bc & _ & P & _). pose proof ex_squares_is as SQ. pose proof SQ as (bc' & _ & P' & _).
    rewrite P in P'. injection P' as _ ->. exists ex_squares_stmts. split; [exact SQ|]. split; [exact C|]. repeat constructor.
  - destruct (ensure_program_compiled (set_vm (set_imm no_code (ss_vm ex_squares_at)) ex_squares_at)) as [[|] t| | |] eqn:C; try (vm_compute in C; discriminate C).
    assert (T : v_st (ss_vm t) = ex_table1) by (vm_compute in C; injection C as <-; vm_compute; reflexivity).
    destruct (bcode_index (mkBcode (pcode 0 ex_goto_stmts) false) (wrap_source_text (lit "GOTO 20"))) as [idx|] eqn:X; [|vm_compute in X; discriminate X].
    eexists. split; [exists t, (mkBcode (pcode 0 ex_goto_stmts) false), idx, ex_table1, ex_table1|].
    + split; [exact C|]. rewrite T. split; [vm_compute; reflexivity|]. split; [econstructor; [apply ex_goto_line|constructor]|]. split; [vm_compute; reflexivity|]. split; [reflexivity|]. split; [exact X|]. reflexivity.
    + split; [|repeat constructor]. split; [vm_compute; discriminate|]. split; repeat constructor.
  - vm_compute. reflexivity.
Qed.

(* ---------- what is not so ---------- *)

(* CONT may report an internal error: a program interrupted in the middle of a
   calculation and, when continued, interrupted again in a function, is then
   continued at the first of the two places with the stack of the second. *)
Definition ex_twice : sess := ex_typed [lit "10 DEF FNA(X)=X"; lit "20 PRINT 1+2+FNA(3)"; lit "RUN"; lit "CONT"] [Some 5; Some 3].
Theorem C31_cont_refuted : exists o E fuel line s t r, session o no_renum s /\ means line (MCommand C_CONT []) /\
  interpret E fuel line s = XOk false t /\ v_err (ss_vm t) = v_err (ss_vm s) ++ [r] /\ internal (er_err r) = true.
Proof.
  exists ex_opt, ex_env, 200, (lit "CONT"), ex_twice. eexists. eexists.
  split; [apply ex_session; [repeat (constructor; [apply not_renum; vm_compute; reflexivity|]); constructor|vm_compute; reflexivity]|].
  split; [exact ex_cont|]. split; [vm_compute; reflexivity|]. split; [vm_compute; reflexivity|reflexivity].
Qed.
Print Assumptions C31_cont_refuted.

(* INPUT leaves the subscripts of an element on the stack when what is typed is
   not a number; it is begun again with them there. *)
Definition ex_input_src : source := [mkLine 10 (lit "INPUT A(1)")].
Definition ex_input_vm : vm := set_stored (mkCode (Some ex_input_src) None None) (new_vm ex_opt (lit "ONE" ++ [NL])).
Definition ex_input_run : vm :=
  match compiling ex_opt ex_input_src with
  | PoOk (Some bc) None st => match bcode_index bc ex_input_src with Some idx => about_to_run (PromptProofs.fresh_code ex_input_src bc idx st ex_input_vm) | None => ex_input_vm end
  | _ => ex_input_vm
  end.
Lemma ex_input_starts : starts ex_input_src ex_input_vm ex_input_run.
Proof.
  unfold ex_input_run. destruct (compiling ex_opt ex_input_src) as [[bc|] [e|] st| | |] eqn:C; try (vm_compute in C; discriminate C).
  destruct (bcode_index bc ex_input_src) as [idx|] eqn:X.
  - apply (starts_fresh ex_opt); [reflexivity|exact C|exact X].
  - exfalso. vm_compute in C. injection C as <- _. vm_compute in X. discriminate X.
Qed.
Theorem C31_input_refuted : exists E src v u l w p, env_ok E /\ starts src v u /\ runs E u l w /\ current w = Some (I_INPUT_BUF p) /\ v_stack w <> [].
Proof.
  exists ex_env, ex_input_src, ex_input_vm, ex_input_run, (ex_states 4 ex_input_run), (ex_steps 4 ex_input_run), None.
  split; [apply ex_env_ok|]. split; [exact ex_input_starts|]. split; [apply ex_runs_states; vm_compute; reflexivity|]. split; [vm_compute; reflexivity|]. vm_compute. discriminate.
Qed.
Print Assumptions C31_input_refuted.

(* So a program that needs one number at a time may end with a full stack. *)
Example C31_input_ex : let s := ex_typed [lit "10 INPUT A(1)"] [] in
  match interpret ex_env 200 (lit "RUN") s with XOk false t => map er_err (v_err (ss_vm t)) = [RE_num_overflow] | _ => False end.
Proof. vm_compute. reflexivity. Qed.

(* The values of a statement that ends with an error at the prompt stay. *)
Example C31_prompt_ex : let s := ex_typed [lit "PRINT 1+LOG(0)"] [] in length (v_stack (ss_vm s)) = 1.
Proof. vm_compute. reflexivity. Qed.

(* The program of the examples of C38 in a file. *)
Definition ex_squares_disk : files := fun name => if bytes_eqb name (lit "sq.bas") then Some (concat (map (fun l => l ++ [NL]) ex_squares)) else None.
Example C31_file_ex : exists o content, parse_options init_options [lit "-t"; lit "sq.bas"] = OpOk o /\ op_version o = false /\ op_file o = Some (lit "sq.bas") /\ op_mode o = NO_MODE /\
  ex_squares_disk (lit "sq.bas") = Some content /\ quotable (lit "sq.bas") /\ load_source content = SOk ex_squares_src /\
  statements_of (mkOpt (op_anywhere o) (op_trace_basic o) (op_trace_for o)) ex_squares_src ex_squares_stmts (sym_make_unknown_array ex_table1) /\
  match main ex_env 200 [lit "-t"; lit "sq.bas"] [] ex_squares_disk [] with MnRun (XOk _ t) => firstn 4 (v_out (ss_vm t)) = map OB (lit "[10]") | _ => False end.
Proof.
  eexists _, _. split; [reflexivity|]. do 3 (split; [reflexivity|]). split; [vm_compute; reflexivity|]. split; [repeat (constructor; [split; discriminate|]); constructor|].
  split; [vm_compute; reflexivity|]. split; [|vm_compute; reflexivity]. destruct ex_squares_is as (bc & st1 & A & B). exists bc, st1. split; [|exact B]. rewrite <- A. unfold compiling. reflexivity.
Qed.
