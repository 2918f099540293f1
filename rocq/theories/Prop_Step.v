(* RUN runs the program as its statements say (C38). *)
From Coq Require Import Lia ZifyBool ZifyNat ZifyN SpecFloat.
From Verif Require Import Base BaseLemmas Num NumSpec SourceModel LineMapModel BcodeModel SymbolModel SymbolSpec LexModel ParseModel
  GrammarSpec LineSpec VmModel VmSpec OpSpec VmTyping ValueSpec EvalSpec StepSpec SessionModel MonitorModel MonSpec MonProofs SessionSpec TypedProofs RunSpec ExecProofs Examples Prop_Session.
Local Open Scope nat_scope.
Local Open Scope list_scope.

(* Typing RUN prints, reads and reports what the statements of the program say,
   however many of them are performed, unless the run ends because a calculation
   needs more than 16 numbers or 8 texts at the same time. *)
Theorem C38_run : forall o E line rest s src xss st,
  in_step o s -> means line (MCommand C_RUN rest) -> c_source (v_stored (ss_vm s)) = Some src -> statements_of o src xss st -> acceptable_program xss st ->
  o_trace_basic o = false /\ o_trace_for o = false -> env_ok E -> rand_range E -> distinct_lines src -> next_break s = None ->
  forall n, too_deep E line s \/ runs_as E line s src xss (steps E (numbered src xss) n (run_state st (numbered src xss) (ss_vm s))).
Proof. exact run_as. Qed.
Print Assumptions C38_run.

(* Every program that compiles has statements. *)
Theorem C38_statements : forall o src bc e st, compiling o src = PoOk (Some bc) e st -> exists xss, statements_of o src xss st.
Proof. exact statements_exist. Qed.
Print Assumptions C38_statements.

(* ---------- not vacuous ---------- *)

Definition ex_squares : list bytes := [lit "10 FOR I=1 TO 3"; lit "20 PRINT I*I;"; lit "30 NEXT"; lit "40 STOP"].
Definition ex_squares_src : source := [mkLine 10 (lit "FOR I=1 TO 3"); mkLine 20 (lit "PRINT I*I;"); mkLine 30 (lit "NEXT"); mkLine 40 (lit "STOP")].
Definition ex_id : symid := st_next (init_builtins new_symbol_table).
Definition ex_three : num := fofZ 3.
Definition ex_squares_stmts : list (list stmt) :=
  [[SFor ex_id (ENum fone) (ENum ex_three) None]; [SPrint [PExpr (EBin OMul (EVar ex_id TNum) (EVar ex_id TNum)); PSemi]]; [SNext []]; [SStop]].
Definition ex_table1 : symtab := fst (sym_insert (init_builtins new_symbol_table) (lit "I") KVariable TNum).
Lemma ex_num x w st : gram LOr st [T_NUM x w] (ENum x) st.
Proof. do 8 (apply G_tighter; [discriminate|]; cbn [tighter]). apply G_num. Qed.
Definition ex_sym : symbol := nth (N.to_nat ex_id) (st_syms ex_table1) (mkSym [] 0%N KUnknown TErr false VZero).
Lemma ex_occurs k : occurs k (lit "I") false (init_builtins new_symbol_table) ex_sym ex_table1.
Proof. eapply (Oc_new _ _ _ _ _ (N.to_nat ex_id)); vm_compute; reflexivity. Qed.
Lemma ex_again k : occurs k (lit "I") false ex_table1 ex_sym ex_table1.
Proof. eapply (Oc_simple _ _ _ _ (N.to_nat ex_id)); vm_compute; reflexivity. Qed.
Lemma ex_var : gram LPrim ex_table1 [T_ID (lit "I")] (EVar ex_id TNum) ex_table1.
Proof.
  assert (X : EVar ex_id TNum = match @nil expr with [] => EVar (s_id ex_sym) (s_type ex_sym) | _ => EElem (s_id ex_sym) (s_type ex_sym) [] end) by (vm_compute; reflexivity).
  rewrite X. apply (G_name ex_table1 [T_ID (lit "I")] (lit "I") ex_sym [] ex_table1); [vm_compute; reflexivity|]. constructor. apply ex_again.
Qed.
Ltac read_one := econstructor; [vm_compute; reflexivity|].
Ltac one_line := eexists; exists After; eexists; split; [vm_compute; reflexivity|]; split; [|left; reflexivity]; eapply LSs_step; [constructor|].
Lemma ex_line1 : line_is false (lit "FOR I=1 TO 3") (init_builtins new_symbol_table) [SFor ex_id (ENum fone) (ENum ex_three) None] ex_table1.
Proof.
  one_line.
  eapply (LS_stmt _ _ _ (T_KW K_FOR :: [T_ID (lit "I")] ++ T_CHAR "=" :: [T_NUM fone _] ++ T_KW K_TO :: [T_NUM ex_three _]) _ _ _ _ []); [left; reflexivity| |].
  - cbn [app]. do 6 read_one. constructor.
  - apply (GS_for _ _ ex_id ex_table1 _ _ ex_table1).
    + exists (lit "I"), ex_sym. split; [reflexivity|]. split; [apply ex_occurs|]. split; [vm_compute; reflexivity|]. split; vm_compute; reflexivity.
    + split; [apply ex_num|reflexivity].
    + split; [apply ex_num|reflexivity].
Qed.
Lemma ex_line2 : line_is false (lit "PRINT I*I;") ex_table1 [SPrint [PExpr (EBin OMul (EVar ex_id TNum) (EVar ex_id TNum)); PSemi]] ex_table1.
Proof.
  one_line.
  eapply (LS_stmt _ _ _ (T_KW K_PRINT :: ([T_ID (lit "I")] ++ T_CHAR "*" :: [T_ID (lit "I")]) ++ [T_CHAR ";"]) _ _ _ _ []); [left; reflexivity| |].
  - cbn [app]. do 5 read_one. constructor.
  - apply GS_print. apply (GI_expr _ _ _ ex_table1).
    + do 5 (apply G_tighter; [discriminate|]; cbn [tighter]). apply (G_mul _ _ _ ex_table1); [|do 2 (apply G_tighter; [discriminate|]; cbn [tighter]); apply ex_var|reflexivity|reflexivity].
      do 3 (apply G_tighter; [discriminate|]; cbn [tighter]). apply ex_var.
    + discriminate.
    + intros (w & r & X & Y). injection X as <- _. destruct Y as [Y|Y]; vm_compute in Y; discriminate Y.
    + apply GI_semi, GI_nil.
    + split; discriminate.
Qed.
Lemma ex_line3 st : line_is false (lit "NEXT") st [SNext []] st.
Proof. one_line. eapply (LS_stmt _ _ _ _ _ _ _ _ []); [left; reflexivity| |apply GS_next]. read_one. constructor. Qed.
Lemma ex_line4 st : line_is false (lit "STOP") st [SStop] st.
Proof. one_line. eapply (LS_stmt _ _ _ _ _ _ _ _ []); [left; reflexivity| |apply GS_stop]. read_one. constructor. Qed.
Lemma ex_squares_is : statements_of ex_opt ex_squares_src ex_squares_stmts (sym_make_unknown_array ex_table1).
Proof.
  destruct (compiling ex_opt ex_squares_src) as [[bc|] e st| | |] eqn:C; try (vm_compute in C; discriminate C).
  assert (X : compiling ex_opt ex_squares_src = PoOk (Some (mkBcode (pcode 0 ex_squares_stmts) false)) None (sym_make_unknown_array ex_table1)) by (vm_compute; reflexivity).
  eexists _, ex_table1. split; [exact X|]. split; [|split; reflexivity].
  econstructor; [apply ex_line1|]. econstructor; [apply ex_line2|]. econstructor; [apply ex_line3|]. econstructor; [apply ex_line4|]. constructor.
Qed.
Definition ex_squares_at : sess := ex_typed ex_squares [].
Definition ex_squares_run : state := run_state (sym_make_unknown_array ex_table1) (numbered ex_squares_src ex_squares_stmts) (ss_vm ex_squares_at).
Example C38_ex : in_step ex_opt ex_squares_at /\ c_source (v_stored (ss_vm ex_squares_at)) = Some ex_squares_src /\
  acceptable_program ex_squares_stmts (sym_make_unknown_array ex_table1) /\ env_ok ex_env /\ rand_range ex_env /\ distinct_lines ex_squares_src /\ next_break ex_squares_at = None.
Proof.
  split; [left; apply ex_session; [repeat (constructor; [apply not_renum; vm_compute; reflexivity|]); constructor|vm_compute; reflexivity]|].
  split; [vm_compute; reflexivity|]. split; [|split; [apply ex_env_ok|split; [intros seed k; vm_compute; discriminate|split]]].
  - split; [vm_compute; discriminate|]. split; repeat constructor.
  - apply (session_increasing ex_opt ex_squares_at); [|vm_compute; reflexivity]. apply ex_session; [repeat (constructor; [apply not_renum; vm_compute; reflexivity|]); constructor|vm_compute; reflexivity].
  - reflexivity.
Qed.
(* After 11 statements the program stops, with the squares printed. *)
Example C38_ex_stops : exists t, steps ex_env (numbered ex_squares_src ex_squares_stmts) 15 ex_squares_run = Stopped t /\
  x_output t = map OB (lit " 1  4  9 ") /\ x_spot t = (3, 0).
Proof. eexists. split; [vm_compute; reflexivity|]. split; reflexivity. Qed.
