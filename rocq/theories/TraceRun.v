(* Tracing (C44): a program that is run and statements that are typed. *)
From Verif Require Import Base SourceModel SymbolModel LineSpec VmModel VmSpec OpSpec ValueSpec EvalSpec SessionModel MonitorModel MonSpec SessionSpec RunSpec ExecProofs BcodeModel SafeSpec SafeTop SafeHeld TraceSpec TraceProofs.

Lemma trace_run o E line rest s t src xss st :
  traced_as o s t -> in_step o t -> means line (MCommand C_RUN rest) -> c_source (v_stored (ss_vm t)) = Some src -> statements_of o src xss st -> acceptable_program xss st ->
  Forall (Forall short_on) xss -> env_ok E -> distinct_lines src ->
  forall fuel, (exists u l w, starts src (new_machine src (ss_vm t)) u /\ runs E u l w /\ wraps w) \/ outcome_as o (interpret E fuel line s) (interpret E fuel line t).
Proof.
  intros T IS ML SS SO AP ON EO DL fuel. destruct (run_safe o E line rest t src xss st IS ML SS SO AP ON EO DL fuel) as [W|W]; [left; exact W|right].
  destruct (trace_line o E fuel line s t T) as [C|C]; [|exact C]. exfalso. destruct (interpret E fuel line t); exact W || exact C.
Qed.

Lemma trace_statements o E line text xss s t u :
  traced_as o s t -> orderly o t -> env_ok E -> means line (MStatements text) -> program_fit o t ->
  line_starts t text xss u -> SafeSpec.fit xss (v_st u) ->
  forall fuel, (exists l w, runs E u l w /\ wraps w) \/ outcome_as o (interpret E fuel line s) (interpret E fuel line t).
Proof.
  intros T OR EO ML PF LS FT fuel. destruct (line_traced_all o E line text xss t u OR EO ML PF LS FT fuel) as [W|W]; [left; exact W|right].
  destruct (trace_line o E fuel line s t T) as [C|C]; [|exact C]. exfalso. destruct (interpret E fuel line t); exact W || exact C.
Qed.
