(* C18, from the text of the program: its DATA items (datum_is and gdata of
   GrammarSpec, collected by lines_data) are what READ takes. *)
From Verif Require Import Base BaseLemmas Num NumSpec SourceModel BcodeModel SymbolModel SymbolSpec LexModel ParseModel GrammarSpec StmtProofs CompileProofs VmModel VmSpec
  StoreSpec DataSpec LineSpec TypeSpec CodeProofs StepSpec MonitorModel SessionModel MonSpec MonProofs SessionSpec TypedProofs RunSpec DatumProofs Examples Prop_Session Prop_Step.
Local Open Scope nat_scope.
Local Open Scope list_scope.

(* When RUN runs a program, the items READ takes before there is a RESTORE are
   the DATA items of the program from the first on, in the order of the text, and
   the others are left. At any time the items from a line on, where RESTORE with
   its number goes on (C18_restore_line), are those in the text of that line and
   the lines after it, and the items from the beginning (C18_restore) are all. *)
Theorem C18_run : forall o E line rest s src xss st,
  in_step o s -> means line (MCommand C_RUN rest) -> c_source (v_stored (ss_vm s)) = Some src -> statements_of o src xss st -> few_names st ->
  exists u, starts src (new_machine src (ss_vm s)) u /\
  (forall l w, runs E u l w -> in_program l -> exists left, lines_data xss = items_read l ++ left /\ items_from (v_stored w) (v_pdata w) = left) /\
  (distinct_lines src -> forall l w n k, runs E u l w -> line_numbered src n k ->
     exists p, line_place w n = Some p /\ items_from (v_stored w) p = lines_data (skipn k xss)) /\
  (forall l w, runs E u l w -> items_from (v_stored w) 0 = lines_data xss).
Proof. exact run_items. Qed.
Print Assumptions C18_run.

(* An item and the text after it are determined by the text. So are all items of
   a DATA statement. *)
Theorem C18_item : forall s w r w' r', datum_is s w r -> datum_is s w' r' -> w = w' /\ r = r'.
Proof. exact datum_unique. Qed.
Print Assumptions C18_item.
Theorem C18_items : forall kw s l L, gdata kw s l L -> forall l' L', gdata kw s l' L' -> l = l' /\ L = L'.
Proof. exact data_unique. Qed.
Print Assumptions C18_items.

(* ---------- not vacuous ---------- *)

Definition ex_items_src : source := [mkLine 10 (lit "READ I"); mkLine 20 (lit "DATA 5 6 , ""x, y"",,z")].
Definition ex_items_stmts : list (list stmt) := [[SRead [mkPlace ex_id KVariable TNum []]]; [SData [lit "5 6"; lit "x, y"; []; lit "z"]]].
Definition ex_items_table : symtab := ex_table1.
Lemma ex_items_line1 : line_is false (lit "READ I") (init_builtins new_symbol_table) [SRead [mkPlace ex_id KVariable TNum []]] ex_table1.
Proof.
  one_line. eapply (LS_stmt _ _ _ (T_KW K_READ :: [T_ID (lit "I")]) _ _ _ _ []); [left; reflexivity| |].
  - do 2 read_one. constructor.
  - apply GS_read. apply GL_one. split; [|discriminate]. exists (lit "I"), ex_sym, []. split; [constructor; apply ex_occurs|vm_compute; reflexivity].
Qed.
Lemma ex_items_line2 st : line_is false (lit "DATA 5 6 , ""x, y"",,z") st [SData [lit "5 6"; lit "x, y"; []; lit "z"]] st.
Proof.
  one_line. eapply (LS_data _ _ _ _ _ _ []); [left; reflexivity|].
  eapply GD_more; [eapply data_is; vm_compute; reflexivity|vm_compute; reflexivity|].
  eapply GD_more; [eapply data_is; vm_compute; reflexivity|vm_compute; reflexivity|].
  eapply GD_more; [eapply data_is; vm_compute; reflexivity|vm_compute; reflexivity|].
  eapply GD_last; [eapply data_is; vm_compute; reflexivity|vm_compute; reflexivity|discriminate].
Qed.
Lemma ex_items_is : statements_of ex_opt ex_items_src ex_items_stmts (sym_make_unknown_array ex_table1).
Proof.
  assert (X : compiling ex_opt ex_items_src = PoOk (Some (mkBcode (pcode 0 ex_items_stmts) true)) None (sym_make_unknown_array ex_table1)) by (vm_compute; reflexivity).
  eexists _, ex_table1. split; [exact X|]. split; [|split; reflexivity]. econstructor; [apply ex_items_line1|]. econstructor; [apply ex_items_line2|]. constructor.
Qed.
Definition ex_items_at : sess := ex_typed [lit "10 READ I"; lit "20 DATA 5 6 , ""x, y"",,z"] [].
Example C18_ex : in_step ex_opt ex_items_at /\ c_source (v_stored (ss_vm ex_items_at)) = Some ex_items_src /\
  few_names (sym_make_unknown_array ex_table1) /\ lines_data ex_items_stmts = [lit "5 6"; lit "x, y"; []; lit "z"].
Proof.
  split; [left; apply ex_session; [repeat (constructor; [apply not_renum; vm_compute; reflexivity|]); constructor|vm_compute; reflexivity]|].
  split; [vm_compute; reflexivity|]. split; [exact (proj1 (proj1 (proj2 (proj2 C38_ex))))|]. reflexivity.
Qed.
