(* Whole sessions: C07, C12, C25 to C28. *)
From Coq Require Import Lia.
From Verif Require Import Base BaseLemmas Num SourceModel SourceSpec LineMapModel BcodeModel SymbolModel SymbolSpec LexModel ParseModel
  GrammarSpec LineSpec VmModel VmSpec SessionModel MonitorModel MonSpec MonProofs SessionSpec ContProofs TypedProofs SystemModel MainProofs Examples.
Local Open Scope nat_scope.

(* The prompt passes through the states of a session only: the loop ends in
   one or while a line typed in one is interpreted. *)
Theorem C26_prompt : forall o E fuel k s, session o any_line s ->
  (exists t, session o any_line t /\ (interact_loop E fuel k s = XOk tt t \/ interact_loop E fuel k s = XNoFuel t)) \/
  (exists t line, session o any_line t /\
     interact_loop E fuel k s = match interpret E fuel line t with XOk _ x => XOk tt x | XExit x => XExit x | XCrash x => XCrash x | XNoFuel x => XNoFuel x end).
Proof. exact loop_sessions. Qed.
Print Assumptions C26_prompt.

(* So does the interpreter as it is started, with any arguments: what is shown of
   sessions holds of every conversation with it. *)
Theorem C26_main : forall E fuel argv stdin fs brk x, main E fuel argv stdin fs brk = MnSession x ->
  exists o, parse_options init_options argv = OpOk o /\ let op := mkOpt (op_anywhere o) (op_trace_basic o) (op_trace_for o) in
  (exists t, session op any_line t /\ (x = XOk tt t \/ x = XNoFuel t)) \/
  (exists t line, session op any_line t /\ x = match interpret E fuel line t with XOk _ y => XOk tt y | XExit y => XExit y | XCrash y => XCrash y | XNoFuel y => XNoFuel y end).
Proof. exact main_sessions. Qed.
Print Assumptions C26_main.
Example C26_main_ex : exists t, main ex_env 100 [lit "-z"; lit "-q"] (lit "PRINT 1" ++ [NL] ++ lit "BYE" ++ [NL]) no_files [] = MnSession (XOk tt t) /\ v_out (ss_vm t) = map OB (lit ">  1 " ++ [NL] ++ lit "> ").
Proof. eexists. split; vm_compute; reflexivity. Qed.

(* ---------- examples of sessions ---------- *)

Definition ex_new (brk : list (option nat)) : sess := new_session ex_opt [] no_files brk.
Definition ex_typed (ls : list bytes) (brk : list (option nat)) : sess :=
  match typed ex_env 200 ls (ex_new brk) with Some s => s | None => ex_new brk end.
Lemma ex_session ls brk : Forall no_renum ls -> match typed ex_env 200 ls (ex_new brk) with Some _ => true | None => false end = true ->
  session ex_opt no_renum (ex_typed ls brk).
Proof.
  intros F H. unfold ex_typed. destruct (typed ex_env 200 ls (ex_new brk)) as [t|] eqn:T; [|discriminate H].
  exact (typed_session ex_opt no_renum ex_env 200 ls (ex_new brk) t (Ses_start ex_opt no_renum [] no_files brk) F T).
Qed.
Lemma ex_any ls brk : match typed ex_env 200 ls (ex_new brk) with Some _ => true | None => false end = true ->
  session ex_opt any_line (ex_typed ls brk).
Proof.
  intros H. unfold ex_typed. destruct (typed ex_env 200 ls (ex_new brk)) as [t|] eqn:T; [|discriminate H].
  refine (typed_session ex_opt any_line ex_env 200 ls (ex_new brk) t (Ses_start ex_opt any_line [] no_files brk) _ T). apply Forall_forall. intros l _. exact I.
Qed.
Lemma ex_means line m : classify line = m -> means line m.
Proof. intros <-. destruct (means_exists line) as (m & M). rewrite (means_classify _ _ M). exact M. Qed.

(* a program in a loop and a subroutine, stopped *)
Definition ex_program : list bytes := [lit "10 FOR I=1 TO 3"; lit "20 GOSUB 40"; lit "30 NEXT I: END"; lit "40 STOP: PRINT I"; lit "50 RETURN"].
Definition ex_entered : sess := ex_typed ex_program [].
Definition ex_stopped : sess := ex_typed (ex_program ++ [lit "RUN"]) [].
Definition ex_edited : sess := ex_typed (ex_program ++ [lit "RUN"; lit "30 NEXT"]) [].
Lemma ex_lines : Forall no_renum (ex_program ++ [lit "RUN"; lit "30 NEXT"]).
Proof. repeat (constructor; [apply not_renum; vm_compute; reflexivity|]). constructor. Qed.
Lemma ex_entered_session : session ex_opt no_renum ex_entered.
Proof. apply ex_session; [apply Forall_app with (l2 := [lit "RUN"; lit "30 NEXT"]); exact ex_lines|vm_compute; reflexivity]. Qed.
Lemma ex_stopped_session : session ex_opt no_renum ex_stopped.
Proof.
  apply ex_session; [|vm_compute; reflexivity]. apply Forall_app with (l2 := [lit "30 NEXT"]). rewrite <- app_assoc. exact ex_lines.
Qed.
Lemma ex_edited_session : session ex_opt no_renum ex_edited.
Proof. apply ex_session; [exact ex_lines|vm_compute; reflexivity]. Qed.
Lemma ex_stopped_any : session ex_opt any_line ex_stopped.
Proof. apply ex_any. vm_compute. reflexivity. Qed.
Lemma ex_edited_any : session ex_opt any_line ex_edited.
Proof. apply ex_any. vm_compute. reflexivity. Qed.
Lemma ex_run : means (lit "RUN") (MCommand C_RUN []).
Proof. apply ex_means. vm_compute. reflexivity. Qed.
Lemma ex_cont : means (lit "CONT") (MCommand C_CONT []).
Proof. apply ex_means. vm_compute. reflexivity. Qed.
Lemma ex_print : means (lit "PRINT I") (MStatements (lit "PRINT I")).
Proof. apply ex_means. vm_compute. reflexivity. Qed.
Lemma ex_edited_stale : stale (ss_vm ex_edited).
Proof. split; vm_compute; [discriminate|reflexivity]. Qed.
Lemma ex_stopped_ready : c_bcode (v_stored (ss_vm ex_stopped)) <> None.
Proof. vm_compute. discriminate. Qed.

(* ---------- C07: programs of sessions ---------- *)

(* The program a session runs is loaded in the sense of C07, and the line
   numbers are distinct. *)
Theorem C07_loaded : forall v src, compiled_program v src -> exists xss, loaded v src xss.
Proof. exact compiled_loaded. Qed.
Print Assumptions C07_loaded.
Theorem C07_session_lines : forall o s src, session o no_renum s -> c_source (v_stored (ss_vm s)) = Some src -> distinct_lines src.
Proof. exact session_increasing. Qed.
Print Assumptions C07_session_lines.

(* ---------- C12: RUN clears ---------- *)

(* In any session: when RUN runs the program, or there is none, all values are
   the initial ones, and the names and the built-in functions are kept unless
   the program has to be compiled; if it has to be compiled and cannot be,
   nothing is run. *)
Theorem C12_run : forall o s line rest E fuel, session o any_line s -> means line (MCommand C_RUN rest) ->
  (exists u, clears (ss_vm s) u /\ (interpret E fuel line s = ran s (run E fuel (next_break s) u) \/
     interpret E fuel line s = XOk false (set_vm u s) /\ c_source (v_stored (ss_vm s)) = None)) \/
  (stale (ss_vm s) /\ exists t, interpret E fuel line s = XExit t \/ interpret E fuel line s = XCrash t \/
     exists x, interpret E fuel line s = XOk false t /\ not_run x s t).
Proof. exact run_clears. Qed.
Print Assumptions C12_run.
(* not vacuous: a session in which I is 1, and RUN is typed *)
Example ex_c12_run : session ex_opt any_line ex_stopped /\ means (lit "RUN") (MCommand C_RUN []) /\
  existsb (fun s => s_defined s && match s_kind s with KVariable => true | _ => false end) (st_syms (v_st (ss_vm ex_stopped))) = true.
Proof. split; [exact ex_stopped_any|]. split; [exact ex_run|]. vm_compute. reflexivity. Qed.

(* ---------- C25: STOP, break and CONT ---------- *)

(* Lines that run something run the machines of run_called; otherwise nothing
   is run, and nothing is printed or read. *)
Theorem C25_calls : forall o s line m E fuel, session o any_line s -> means line m ->
  (exists rest, m = MCommand C_RUN rest \/ m = MCommand C_CONT rest \/ m = MStatements rest) ->
  (exists u, run_called s u /\ (interpret E fuel line s = ran s (run E fuel (next_break s) u) \/ interpret E fuel line s = ran_statements s (run E fuel (next_break s) u))) \/
  (exists t, (interpret E fuel line s = XOk false t \/ interpret E fuel line s = XExit t \/ interpret E fuel line s = XCrash t) /\
     v_out (ss_vm t) = v_out (ss_vm s) /\ v_err (ss_vm t) = v_err (ss_vm s) /\ v_in (ss_vm t) = v_in (ss_vm s)).
Proof. exact typed_calls. Qed.
Print Assumptions C25_calls.

(* When STOP has ended a run in the program, the machine has the values,
   loops, calls and DATA position it had at the STOP, and CONT goes on as the
   machine would from there if the STOP were not there. *)
Theorem C25_stop : forall o s u0 E f brk w, session o any_line s -> run_called s u0 -> run E f brk u0 = (Ok tt, w) ->
  v_stopped w = true -> cs_code (v_cs w) = Some CStored ->
  exists l u, runs E (set_stopped false u0) l u /\ current u = Some I_STOP /\
    v_cs w = v_cs u /\ v_st w = v_st u /\ v_for w = v_for u /\ v_ret w = v_ret u /\ v_pdata w = v_pdata u /\
    forall E2 f2 brk2, goes_on_like w u (vm_continue E2 f2 brk2 w) (run E2 f2 brk2 (passed_over u)).
Proof. exact stop_resumes. Qed.
Print Assumptions C25_stop.

(* When a break has ended a run in the program, not at a STOP and not at the
   end: the uninterrupted run passes through the same state u, and CONT goes on
   as it does. *)
Theorem C25_break : forall o s u0 E f brk w i, session o any_line s -> run_called s u0 -> run E f brk u0 = (Ok tt, w) ->
  v_stopped w = false -> cs_code (v_cs w) = Some CStored -> current w = Some i -> is_stop i = false ->
  exists l u n, runs E (set_stopped false u0) l u /\ (forall f2, run E (n + f2) None u0 = run E f2 None u) /\
    v_cs w = v_cs u /\ v_st w = v_st u /\ v_for w = v_for u /\ v_ret w = v_ret u /\ v_pdata w = v_pdata u /\
    forall E2 f2 brk2, goes_on_like w u (vm_continue E2 f2 brk2 w) (run E2 f2 brk2 u).
Proof. exact break_resumes. Qed.
Print Assumptions C25_break.

(* not vacuous: the session before RUN, the machine RUN runs, and how it stops
   at the STOP, or at a break in the loop *)
Definition ex_called : vm :=
  match ensure_program_compiled (set_vm (set_st (clear_symbol_table_values (v_st (ss_vm ex_entered))) (ss_vm ex_entered)) ex_entered) with
  | XOk true t => set_cs (mkCs (Some CStored) 0 0) (reset_control_state (ss_vm t))
  | _ => ss_vm ex_entered
  end.
Lemma ex_calls : run_called ex_entered ex_called.
Proof.
  unfold ex_called.
  destruct (ensure_program_compiled (set_vm (set_st (clear_symbol_table_values (v_st (ss_vm ex_entered))) (ss_vm ex_entered)) ex_entered)) as [[|] t| | |] eqn:EN.
  - apply (Rc_run ex_entered t); [vm_compute; discriminate|exact EN].
  - exfalso. assert (X : match ensure_program_compiled (set_vm (set_st (clear_symbol_table_values (v_st (ss_vm ex_entered))) (ss_vm ex_entered)) ex_entered) with XOk true _ => true | _ => false end = true) by (vm_compute; reflexivity). rewrite EN in X. discriminate X.
  - exfalso. assert (X : match ensure_program_compiled (set_vm (set_st (clear_symbol_table_values (v_st (ss_vm ex_entered))) (ss_vm ex_entered)) ex_entered) with XOk true _ => true | _ => false end = true) by (vm_compute; reflexivity). rewrite EN in X. discriminate X.
  - exfalso. assert (X : match ensure_program_compiled (set_vm (set_st (clear_symbol_table_values (v_st (ss_vm ex_entered))) (ss_vm ex_entered)) ex_entered) with XOk true _ => true | _ => false end = true) by (vm_compute; reflexivity). rewrite EN in X. discriminate X.
  - exfalso. assert (X : match ensure_program_compiled (set_vm (set_st (clear_symbol_table_values (v_st (ss_vm ex_entered))) (ss_vm ex_entered)) ex_entered) with XOk true _ => true | _ => false end = true) by (vm_compute; reflexivity). rewrite EN in X. discriminate X.
Qed.
Example ex_stop : let x := run ex_env 200 None ex_called in
  fst x = Ok tt /\ v_stopped (snd x) = true /\ cs_code (v_cs (snd x)) = Some CStored /\ length (v_for (snd x)) = 1 /\ length (v_ret (snd x)) = 1.
Proof.
  cbv zeta. split; [vm_compute; reflexivity|]. split; [vm_compute; reflexivity|]. split; [vm_compute; reflexivity|]. split; vm_compute; reflexivity.
Qed.
Example ex_break : let x := run ex_env 200 (Some 7) ex_called in
  fst x = Ok tt /\ v_stopped (snd x) = false /\ cs_code (v_cs (snd x)) = Some CStored /\ option_map is_stop (current (snd x)) = Some false /\ length (v_for (snd x)) = 1.
Proof.
  cbv zeta. split; [vm_compute; reflexivity|]. split; [vm_compute; reflexivity|]. split; [vm_compute; reflexivity|]. split; vm_compute; reflexivity.
Qed.
(* CONT after that STOP runs to the next one, with the loop one step on *)
Example ex_goes_on : let x := vm_continue ex_env 200 None (snd (run ex_env 200 None ex_called)) in
  fst x = Ok true /\ v_stopped (snd x) = true /\ map f_sym (v_for (snd x)) = map f_sym (v_for (snd (run ex_env 200 None ex_called))).
Proof. cbv zeta. split; [vm_compute; reflexivity|]. split; vm_compute; reflexivity. Qed.

(* When the program has been changed CONT is refused. *)
Theorem C25_edit : forall o s line rest E fuel, session o any_line s -> c_bcode (v_stored (ss_vm s)) = None ->
  means line (MCommand C_CONT rest) -> refuses E fuel line s.
Proof. exact uncompiled_cont. Qed.
Print Assumptions C25_edit.
(* and any line that changes the program, but RENUM, has this effect *)
Theorem C25_changed : forall E fuel line s b t, no_renum line -> interpret E fuel line s = XOk b t ->
  c_source (v_stored (ss_vm t)) = c_source (v_stored (ss_vm s)) \/ c_bcode (v_stored (ss_vm t)) = None.
Proof. exact changed_stale. Qed.
Print Assumptions C25_changed.
Example ex_c25_edit : session ex_opt any_line ex_edited /\ c_bcode (v_stored (ss_vm ex_edited)) = None /\ means (lit "CONT") (MCommand C_CONT []) /\
  cs_code (v_stopcs (ss_vm ex_stopped)) = Some CStored /\ interpret ex_env 200 (lit "30 NEXT") ex_stopped = XOk false ex_edited /\
  c_source (v_stored (ss_vm ex_edited)) <> c_source (v_stored (ss_vm ex_stopped)).
Proof.
  split; [exact ex_edited_any|]. split; [vm_compute; reflexivity|]. split; [exact ex_cont|]. split; [vm_compute; reflexivity|]. split; [vm_compute; reflexivity|]. vm_compute. discriminate.
Qed.

(* What does not hold. A break after the last instruction: CONT reads past the
   end of the code. *)
Theorem C25_end_refuted : exists o s E fuel line, session o any_line s /\ means line (MCommand C_CONT []) /\
  match interpret E fuel line s with XCrash _ => True | _ => False end.
Proof.
  exists ex_opt, (ex_typed [lit "10 A=1"; lit "RUN"] [Some 3]), ex_env, 200, (lit "CONT").
  split; [apply ex_any; vm_compute; reflexivity|]. split; [exact ex_cont|]. vm_compute. exact I.
Qed.
Print Assumptions C25_end_refuted.
(* A break when the next instruction is a STOP: CONT passes over the STOP,
   although the uninterrupted run stops there. *)
Theorem C25_stop_refuted : exists o s E fuel, session o any_line s /\
  (match interpret E fuel (lit "RUN") s with
   | XOk false t => v_stopped (ss_vm t) = false /\
       match interpret E fuel (lit "CONT") t with
       | XOk false t' => v_stopped (ss_vm t') = false /\ v_out (ss_vm t') = map OB (lit "Break" ++ [NL] ++ lit " 1 " ++ [NL])
       | _ => False
       end
   | _ => False
   end) /\
  match interpret E fuel (lit "RUN") (mkSess (ss_vm s) (ss_fs s) (ss_diag s) [] (ss_os s)) with
  | XOk false t => v_stopped (ss_vm t) = true /\ v_out (ss_vm t) = map OB (lit "10 STOP" ++ [NL] ++ lit "Stopped" ++ [NL])
  | _ => False
  end.
Proof.
  exists ex_opt, (ex_typed [lit "10 STOP"; lit "20 PRINT 1"] [Some 1]), ex_env, 200.
  split; [apply ex_any; vm_compute; reflexivity|]. split; vm_compute; [split; [reflexivity|split; reflexivity]|split; reflexivity].
Qed.
Print Assumptions C25_stop_refuted.

(* ---------- C26: no dangling control ---------- *)

(* At the prompt no pending GOSUB, FOR or function call and no place to
   continue at is in the immediate line; unless the program has been changed
   they are places of the compiled program of the right kind. *)
Theorem C26_stored : forall o s, session o any_line s ->
  only_stored (ss_vm s) /\ (~ stale (ss_vm s) -> pending_in (eq CStored) (ss_vm s)).
Proof. exact session_prompt. Qed.
Print Assumptions C26_stored.
(* The same whenever a run begins. *)
Theorem C26_begin : forall o s u, session o any_line s -> run_called s u -> pending_in (eq CStored) u.
Proof. exact called_pending. Qed.
Print Assumptions C26_begin.
(* When the program has been changed (C25_changed), nothing at all is pending
   when code is next run, and it is the new program that is compiled. *)
Theorem C26_fresh : forall o s u, session o any_line s -> stale (ss_vm s) -> run_called s u ->
  nothing_pending u /\ exists src, c_source (v_stored (ss_vm s)) = Some src /\ compiled_program u src.
Proof. exact called_fresh. Qed.
Print Assumptions C26_fresh.
(* not vacuous: in ex_stopped a loop and a call are pending; after the edit
   they are in old code, and a statement is run *)
Example ex_pending : length (v_for (ss_vm ex_stopped)) = 1 /\ length (v_ret (ss_vm ex_stopped)) = 1 /\ cs_code (v_stopcs (ss_vm ex_stopped)) = Some CStored.
Proof. split; [vm_compute; reflexivity|]. split; vm_compute; reflexivity. Qed.
Example ex_fresh : session ex_opt any_line ex_edited /\ stale (ss_vm ex_edited) /\ length (v_for (ss_vm ex_edited)) = 1 /\ exists u, run_called ex_edited u.
Proof.
  split; [exact ex_edited_any|]. split; [exact ex_edited_stale|]. split; [vm_compute; reflexivity|].
  destruct (ensure_program_compiled (set_vm (set_st (clear_symbol_table_values (v_st (ss_vm ex_edited))) (ss_vm ex_edited)) ex_edited)) as [b t|t|t|t] eqn:EN;
    (assert (X : match ensure_program_compiled (set_vm (set_st (clear_symbol_table_values (v_st (ss_vm ex_edited))) (ss_vm ex_edited)) ex_edited) with XOk true _ => true | _ => false end = true) by (vm_compute; reflexivity));
    rewrite EN in X; try discriminate X. destruct b; [|discriminate X]. eexists. apply (Rc_run ex_edited t); [vm_compute; discriminate|exact EN].
Qed.

(* ---------- C27: the code that runs is that of the current source ---------- *)

(* in_step: no RENUM has been typed, or the program has been changed since it
   was last compiled. RUN: *)
Theorem C27_run : forall o s line rest E fuel, in_step o s -> means line (MCommand C_RUN rest) ->
  match c_source (v_stored (ss_vm s)) with
  | None => interpret E fuel line s = XOk false (set_vm (set_st (clear_symbol_table_values (v_st (ss_vm s))) (ss_vm s)) s)
  | Some src =>
      match compiling o src with
      | PoOk (Some _) _ _ => exists u, compiled_program u src /\ v_cs u = mkCs (Some CStored) 0 0 /\ interpret E fuel line s = ran s (run E fuel (next_break s) u)
      | PoOk None e _ => exists x t, e = Some x /\ interpret E fuel line s = XOk false t /\ not_run x s t
      | PoExit => exists t, interpret E fuel line s = XExit t /\ quiet s t
      | PoCrash => exists t, interpret E fuel line s = XCrash t /\ quiet s t
      | PoNoFuel => False
      end
  end.
Proof.
  intros o s line rest E fuel S M. pose proof (typed_run o s line rest E fuel S M) as H. destruct (c_source (v_stored (ss_vm s))) as [src|]; [|exact H].
  destruct (compiling o src) as [[bc|] e st | | |]; try exact H. destruct H as (u & U & H). exists u. split; [exact (sr_code _ _ _ U)|]. split; [exact (sr_first _ _ _ U)|exact H].
Qed.
Print Assumptions C27_run.
(* Statements: *)
Theorem C27_statements : forall o s line text E fuel, in_step o s -> means line (MStatements text) ->
  let r := interpret E fuel line s in
  (exists u, begins text (ss_vm s) u /\ r = ran_statements s (run E fuel (next_break s) u)) \/
  (exists x t, r = XOk false t /\ not_run x s t /\
     ((exists src st, stale (ss_vm s) /\ c_source (v_stored (ss_vm s)) = Some src /\ compiling o src = PoOk None (Some x) st) \/
      (exists st0 st, parse_source (wrap_source_text text) st0 false = PoOk None (Some x) st))) \/
  (exists t src st0, r = XExit t /\ quiet s t /\ ((c_source (v_stored (ss_vm s)) = Some src /\ compiling o src = PoExit) \/ parse_source (wrap_source_text text) st0 false = PoExit)) \/
  (exists t src st0, r = XCrash t /\ quiet s t /\ ((c_source (v_stored (ss_vm s)) = Some src /\ compiling o src = PoCrash) \/ parse_source (wrap_source_text text) st0 false = PoCrash)).
Proof. exact typed_statements. Qed.
Print Assumptions C27_statements.
(* CONT: *)
Theorem C27_cont : forall o s line rest E fuel, in_step o s -> means line (MCommand C_CONT rest) ->
  let v := ss_vm s in
  let r := interpret E fuel line s in
  ((cs_code (v_stopcs v) = None \/ c_bcode (v_stored v) = None) /\ refuses E fuel line s) \/
  (exists src bc, c_source (v_stored v) = Some src /\ compiled_program v src /\ cs_code (v_stopcs v) = Some CStored /\ c_bcode (v_stored v) = Some bc /\
    match nth_error (bc_inst bc) (cs_pc (v_stopcs v)) with
    | None => r = XCrash (after_run s v)
    | Some i => r = ran s (run E fuel (next_break s) (set_cs (mkCs (Some CStored) (cs_line (v_stopcs v)) (if is_stop i then S (cs_pc (v_stopcs v)) else cs_pc (v_stopcs v))) v))
    end).
Proof. exact typed_cont. Qed.
Print Assumptions C27_cont.
(* not vacuous: sessions in step, compiled and changed, and the three lines *)
Example ex_in_step : in_step ex_opt ex_stopped /\ in_step ex_opt ex_edited /\
  means (lit "RUN") (MCommand C_RUN []) /\ means (lit "PRINT I") (MStatements (lit "PRINT I")) /\ means (lit "CONT") (MCommand C_CONT []).
Proof. split; [left; exact ex_stopped_session|]. split; [left; exact ex_edited_session|]. split; [exact ex_run|]. split; [exact ex_print|exact ex_cont]. Qed.
(* With RENUM it does not hold: the program now has a line 100, but GOTO 100
   does not find it, and GOTO 10 runs a line that is not there any more. *)
Theorem C27_renum_refuted : exists o s E fuel, session o any_line s /\
  (exists text, c_source (v_stored (ss_vm s)) = Some [mkLine 100 text]) /\
  (match interpret E fuel (lit "GOTO 100") s with XOk false t => map er_err (v_err (ss_vm t)) = [RE_line_not_found 100] | _ => False end) /\
  match interpret E fuel (lit "GOTO 10") s with XOk false t => v_err (ss_vm t) = [] /\ v_out (ss_vm t) = v_out (ss_vm s) ++ map OB (lit " 1 " ++ [NL]) | _ => False end.
Proof.
  exists ex_opt, (ex_typed [lit "10 PRINT 1"; lit "RUN"; lit "RENUM 100"] []), ex_env, 200.
  split; [apply ex_any; vm_compute; reflexivity|]. split; [eexists; vm_compute; reflexivity|]. split; vm_compute; [reflexivity|split; reflexivity].
Qed.
Print Assumptions C27_renum_refuted.

(* ---------- C28: RUN starts afresh ---------- *)

Theorem C28_start : forall o s line rest E fuel src bc e st, in_step o s -> means line (MCommand C_RUN rest) ->
  c_source (v_stored (ss_vm s)) = Some src -> compiling o src = PoOk (Some bc) e st ->
  exists u, starts src (ss_vm s) u /\ interpret E fuel line s = ran s (run E fuel (next_break s) u).
Proof.
  intros o s line rest E fuel src bc e st S M SO C. pose proof (typed_run o s line rest E fuel S M) as H. rewrite SO, C in H. exact H.
Qed.
Print Assumptions C28_start.
(* RUN does as it does in a new machine that has been given the program; unless
   the program's run in that machine is undefined behaviour *)
Theorem C28_like_new : forall o E fuel line rest s src, in_step o s -> c_source (v_stored (ss_vm s)) = Some src -> means line (MCommand C_RUN rest) ->
  let s0 := set_vm (new_machine src (ss_vm s)) s in
  match interpret E fuel line s0, interpret E fuel line s with
  | XCrash _, _ => True
  | XOk a0 t0, XOk a t => a0 = a /\ same_effects s0 t0 s t
  | XNoFuel t0, XNoFuel t => same_effects s0 t0 s t
  | XExit _, XExit _ => True
  | _, _ => False
  end.
Proof. exact typed_like_new. Qed.
Print Assumptions C28_like_new.
(* So what RUN does depends only on the program, the input (with the line last
   read), the random numbers, the clock and the break. *)
Theorem C28_depends : forall o E fuel line rest s1 s2 src, in_step o s1 -> in_step o s2 -> same_ahead s1 s2 -> c_source (v_stored (ss_vm s1)) = Some src ->
  means line (MCommand C_RUN rest) ->
  (exists t, interpret E fuel line (set_vm (new_machine src (ss_vm s1)) s1) = XCrash t) \/
  match interpret E fuel line s1, interpret E fuel line s2 with
  | XOk a1 t1, XOk a2 t2 => a1 = a2 /\ same_shown s1 t1 s2 t2
  | XNoFuel t1, XNoFuel t2 => same_shown s1 t1 s2 t2
  | XExit _, XExit _ => True
  | _, _ => False
  end.
Proof. exact run_depends. Qed.
Print Assumptions C28_depends.
(* not vacuous: the same program before and after it has been run *)
Example ex_depends : in_step ex_opt ex_entered /\ in_step ex_opt ex_stopped /\ same_ahead ex_entered ex_stopped /\
  (exists src, c_source (v_stored (ss_vm ex_entered)) = Some src /\ match compiling ex_opt src with PoOk (Some _) _ _ => True | _ => False end) /\
  match interpret ex_env 200 (lit "RUN") ex_stopped with XOk false t => v_out (ss_vm t) <> v_out (ss_vm ex_stopped) | _ => False end.
Proof.
  split; [left; exact ex_entered_session|]. split; [left; exact ex_stopped_session|]. split; [|split].
  - constructor; vm_compute; try reflexivity; split; reflexivity.
  - eexists. split; [vm_compute; reflexivity|]. vm_compute. exact I.
  - vm_compute. discriminate.
Qed.
(* The line last read matters: at the end of the input INPUT takes it again. *)
Theorem C28_input_refuted : exists o E fuel s1 s2, session o no_renum s1 /\ session o no_renum s2 /\
  c_source (v_stored (ss_vm s1)) = c_source (v_stored (ss_vm s2)) /\ v_in (ss_vm s1) = v_in (ss_vm s2) /\
  v_seed (ss_vm s1) = v_seed (ss_vm s2) /\ v_randk (ss_vm s1) = v_randk (ss_vm s2) /\ v_clock (ss_vm s1) = v_clock (ss_vm s2) /\ next_break s1 = next_break s2 /\
  v_out (ss_vm s1) = v_out (ss_vm s2) /\
  match interpret E fuel (lit "RUN") s1, interpret E fuel (lit "RUN") s2 with
  | XOk _ t1, XOk _ t2 => v_out (ss_vm t1) <> v_out (ss_vm t2)
  | _, _ => False
  end.
Proof.
  set (ls := [lit "INPUT A"; lit "10 INPUT A"; lit "20 PRINT A"]).
  set (t i := match typed ex_env 200 ls (new_session ex_opt (i ++ [NL]) no_files []) with Some x => x | None => ex_new [] end).
  assert (S : forall i, match typed ex_env 200 ls (new_session ex_opt (i ++ [NL]) no_files []) with Some _ => true | None => false end = true -> session ex_opt no_renum (t i)).
  { intros i H. unfold t. destruct (typed ex_env 200 ls (new_session ex_opt (i ++ [NL]) no_files [])) as [x|] eqn:T; [|discriminate H].
    refine (typed_session ex_opt no_renum ex_env 200 ls _ x (Ses_start ex_opt no_renum (i ++ [NL]) no_files []) _ T).
    repeat (constructor; [apply not_renum; vm_compute; reflexivity|]). constructor. }
  exists ex_opt, ex_env, 200, (t (lit "1")), (t (lit "2")).
  split; [apply S; vm_compute; reflexivity|]. split; [apply S; vm_compute; reflexivity|].
  split; [vm_compute; reflexivity|]. split; [vm_compute; reflexivity|]. split; [vm_compute; reflexivity|]. split; [vm_compute; reflexivity|].
  split; [vm_compute; reflexivity|]. split; [vm_compute; reflexivity|]. split; [vm_compute; reflexivity|]. vm_compute. discriminate.
Qed.
Print Assumptions C28_input_refuted.
