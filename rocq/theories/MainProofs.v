(* The sessions of the interpreter as it is started (C26). *)
From Verif Require Import Base SourceModel SymbolModel VmModel SessionModel MonitorModel MonSpec SessionSpec TypedProofs SystemModel.

Lemma session_of_session E o stdin fs brk allowed : session (mkOpt (op_anywhere o) (op_trace_basic o) (op_trace_for o)) allowed (session_of E o stdin fs brk).
Proof.
  unfold session_of, seed_of. destruct (op_srand o).
  - exact (Ses_randomized _ allowed (u32 (e_time E 0)) stdin fs brk).
  - exact (Ses_start _ allowed stdin fs brk).
Qed.
Lemma out_meanwhile b s : exists t, out b s = XOk tt t /\ meanwhile s t.
Proof.
  eexists. split; [reflexivity|]. pose proof (Meanwhile s (v_out (ss_vm s) ++ map OB b) (v_in (ss_vm s)) (ss_fs s) (ss_diag s) (ss_brk s) (ss_os s)) as H.
  destruct s as [v f d b' x]. destruct v. exact H.
Qed.
Lemma main_sessions E fuel argv stdin fs brk x : main E fuel argv stdin fs brk = MnSession x ->
  exists o, parse_options init_options argv = OpOk o /\ let op := mkOpt (op_anywhere o) (op_trace_basic o) (op_trace_for o) in
  (exists t, session op any_line t /\ (x = XOk tt t \/ x = XNoFuel t)) \/
  (exists t line, session op any_line t /\ x = match interpret E fuel line t with XOk _ y => XOk tt y | XExit y => XExit y | XCrash y => XCrash y | XNoFuel y => XNoFuel y end).
Proof.
  unfold main. destruct (parse_options init_options argv) as [o| | |]; try discriminate. destruct (op_version o); [discriminate|].
  destruct (op_file o) as [f|].
  { unfold process_file. destruct (op_mode o); try discriminate; (destruct (fs f) as [c|]; [|discriminate]; destruct (load_source c); try discriminate; try (destruct (list_names_text _ _); discriminate); destruct (ParseModel.parse_source _ _ _); discriminate). }
  destruct (op_mode o); try discriminate. intros H. assert (HX : forall y, MnSession y = MnSession x -> y = x) by (intros y Y; congruence). apply HX in H. clear HX. rewrite <- H. clear H. exists o. split; [reflexivity|]. cbv zeta.
  pose proof (session_of_session E o stdin fs brk any_line) as S0. 
  assert (B : forall (m : X unit) t, m (session_of E o stdin fs brk) = XOk tt t -> (m ;;; interact_loop E fuel (S (length stdin)))%sess (session_of E o stdin fs brk) = interact_loop E fuel (S (length stdin)) t) by (intros m t M; unfold xbind; rewrite M; reflexivity).
  destruct (op_quiet o).
  - rewrite (B (xret tt) _ eq_refl). exact (loop_sessions _ E fuel (S (length stdin)) _ S0).
  - destruct (out_meanwhile (puts (puts (lit "Type HELP to list commands"))) (session_of E o stdin fs brk)) as (t & O & M). rewrite (B _ t O). exact (loop_sessions _ E fuel (S (length stdin)) _ (Ses_world _ _ _ _ S0 M)).
Qed.
