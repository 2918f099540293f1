(* The conversation at the prompt (C39) and programs given on the command
   line (C40). *)
From Coq Require Import Lia.
From Verif Require Import Base BaseLemmas Num SourceModel SymbolModel VmModel SessionModel MonitorModel SystemModel SessionSpec MonSpec TalkSpec TalkProofs Examples.
Local Open Scope nat_scope.

(* ---------- C39 ---------- *)

(* For every input without NUL characters the monitor holds just the
   conversation specified: each line is acted upon once, in order, with
   what follows it as the input left. *)
Theorem C39_conversation : forall E fuel o quiet stdin fs brk x, no_nul stdin ->
  (interact E fuel o quiet stdin fs brk = x <->
   talk E fuel (if quiet then new_session o stdin fs brk else prints (puts (puts (lit "Type HELP to list commands"))) (new_session o stdin fs brk)) x).
Proof. exact interact_talk. Qed.
Print Assumptions C39_conversation.

(* The same from any state of a session. *)
Theorem C39_session : forall E fuel s x, no_nul (input s) -> (talk E fuel s x <-> interact_loop E fuel (S (length (input s))) s = x).
Proof. exact session_talk. Qed.
Print Assumptions C39_session.

(* A conversation has one outcome. *)
Theorem C39_unique : forall E fuel s x, talk E fuel s x -> forall y, talk E fuel s y -> x = y.
Proof. exact talk_unique. Qed.
Print Assumptions C39_unique.

(* No line makes input appear: what is left after it ends what was left
   before. *)
Theorem C39_input : forall E fuel line s,
  match interpret E fuel line s with XOk _ t | XExit t | XCrash t | XNoFuel t => exists p, input s = p ++ input t end.
Proof. exact (fun E fuel line s => xl_interpret (input s) E fuel line s (tail_refl (input s))). Qed.
Print Assumptions C39_input.

(* The program without a file name on its command line holds it. *)
Theorem C39_main : forall E fuel argv stdin fs brk o, no_nul stdin ->
  parse_options init_options argv = OpOk o -> op_version o = false -> op_file o = None -> op_mode o = NO_MODE ->
  exists x, main E fuel argv stdin fs brk = MnSession x /\
    talk E fuel (if op_quiet o then session_of E o stdin fs brk else prints (puts (puts (lit "Type HELP to list commands"))) (session_of E o stdin fs brk)) x.
Proof. exact main_talk. Qed.
Print Assumptions C39_main.

Definition ex_lines_in (ls : list bytes) : bytes := flat_map (fun l => l ++ [NL]) ls.
(* RUN takes a line for INPUT; BYE leaves the rest unread. *)
Definition ex_talk : bytes := ex_lines_in [lit "10 INPUT A"; lit "RUN"; lit "5"; repeat "X"%char 127; lit "PRINT A*2"; lit "BYE"; lit "PRINT 9"].
Example C39_example : no_nul ex_talk /\
  exists t, interact ex_env 200 ex_opt true ex_talk no_files [] = XOk tt t /\
    v_out (ss_vm t) = map OB (lit "> > ? > >  10 " ++ [NL] ++ lit "> ") /\ ss_diag t = [DTooLong] /\ input t = lit "PRINT 9" ++ [NL].
Proof.
  split; [repeat (constructor; [discriminate|]); constructor|].
  destruct (interact ex_env 200 ex_opt true ex_talk no_files []) as [[] t|t|t|t] eqn:X; [|vm_compute in X; discriminate X..].
  exists t. split; [reflexivity|].
  assert (Y : match interact ex_env 200 ex_opt true ex_talk no_files [] with XOk _ t => (v_out (ss_vm t), ss_diag t, input t) | _ => ([], [], []) end =
    (map OB (lit "> > ? > >  10 " ++ [NL] ++ lit "> "), [DTooLong], lit "PRINT 9" ++ [NL])) by (vm_compute; reflexivity).
  rewrite X in Y. injection Y as Y1 Y2 Y3. split; [exact Y1|]. split; [exact Y2|exact Y3].
Qed.

(* With a NUL character in a line that line is refused, and the line after
   it is lost although it is an ordinary one. *)
Theorem C39_nul_refuted : exists E fuel o l n text, means l (MEdit n (Some text)) /\ length l <= LONGEST /\ Forall line_char l /\
  match interact E fuel o true ((lit "A" ++ [NUL; NL]) ++ l ++ [NL]) no_files [] with
  | XOk _ t => input t = [] /\ ss_diag t = [DTooLong] /\ stored_source (ss_vm t) = None
  | _ => False
  end.
Proof.
  exists ex_env, 10, ex_opt, (lit "10 PRINT"), 10%N, (lit "PRINT"). split.
  - apply (Me_edit [] (lit "10") (lit " PRINT") (Some (lit "PRINT"))); [constructor | discriminate | repeat constructor | intros (c & r & E & D); injection E as <- _; discriminate D | apply Et_space].
  - split; [vm_compute; lia|]. split; [repeat (constructor; [discriminate|]); constructor|]. vm_compute. split; [reflexivity|split; reflexivity].
Qed.
Print Assumptions C39_nul_refuted.

(* ---------- C40 ---------- *)

(* A program file given on the command line, with no mode or with --run, is
   run as LOAD and RUN at the prompt of a new session would run it. *)
Theorem C40_file : forall E fuel argv stdin fs brk o file content,
  parse_options init_options argv = OpOk o -> op_version o = false -> op_file o = Some file -> op_mode o = NO_MODE \/ op_mode o = RUN_MODE ->
  fs file = Some content -> quotable file ->
  main E fuel argv stdin fs brk = MnRun (load_and_run E fuel file (session_of E o stdin fs brk)).
Proof.
  exact (fun E fuel argv stdin fs brk o file content P V F M C Q =>
    eq_trans (main_file E fuel argv stdin fs brk o file P V F) (file_run E fuel o file stdin fs brk content M C Q)).
Qed.
Print Assumptions C40_file.

(* If the file cannot be opened that is reported and nothing runs. *)
Theorem C40_missing : forall E fuel argv stdin fs brk o file,
  parse_options init_options argv = OpOk o -> op_version o = false -> op_file o = Some file -> op_mode o = NO_MODE \/ op_mode o = RUN_MODE ->
  fs file = None ->
  main E fuel argv stdin fs brk = MnRun (XOk tt (mkSess (ss_vm (session_of E o stdin fs brk)) fs [DCannotOpen file] brk [])).
Proof.
  exact (fun E fuel argv stdin fs brk o file P V F M C =>
    eq_trans (main_file E fuel argv stdin fs brk o file P V F) (file_missing E fuel o file stdin fs brk M C)).
Qed.
Print Assumptions C40_missing.

Definition ex_disk : files := fun name => if bytes_eqb name (lit "two.bas") then Some (ex_lines_in [lit "10 PRINT 1"; lit "20 PRINT 2"]) else None.
Example C40_example : quotable (lit "two.bas") /\ ex_disk (lit "two.bas") <> None /\
  match main ex_env 200 [lit "two.bas"] [] ex_disk [] with
  | MnRun (XOk _ t) => v_out (ss_vm t) = map OB (lit " 1 " ++ [NL] ++ lit " 2 " ++ [NL])
  | _ => False
  end.
Proof.
  split; [repeat (constructor; [split; discriminate|]); constructor|]. split; [vm_compute; discriminate|]. vm_compute. reflexivity.
Qed.
