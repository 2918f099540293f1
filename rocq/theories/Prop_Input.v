(* What INPUT does with what is typed: C24. *)
From Coq Require Import Lia ZifyBool ZifyNat ZifyN SpecFloat.
From Verif Require Import Base BaseLemmas Num NumSpec SourceModel LineMapModel BcodeModel SymbolModel SymbolSpec LexModel ParseModel
  GrammarSpec LineSpec VmModel VmSpec OpSpec VmTyping ValueSpec StoreSpec EvalSpec StepSpec SessionModel MonitorModel MonSpec MonProofs SessionSpec RunProofs TypedProofs RunSpec ExecProofs
  SafeSpec InputSpec InputProofs Examples Prop_Session Prop_Step Prop_Safe.
Local Open Scope nat_scope.
Local Open Scope list_scope.

(* When a program typed RUN comes to INPUT with simple variables, however many
   lines that do not fit are typed before one that does, it goes on with the next
   statement, the stacks empty. The variables have got the fields of the last
   line, no other variable has changed, exactly the lines have been read, and the
   prompts and remarks have been printed. *)
Theorem C24_variables : forall o E line rest s src xss st,
  in_step o s -> means line (MCommand C_RUN rest) -> c_source (v_stored (ss_vm s)) = Some src -> statements_of o src xss st -> acceptable_program xss st ->
  o_trace_basic o = false /\ o_trace_for o = false -> env_ok E -> distinct_lines src -> rand_range E ->
  exists u, starts src (new_machine src (ss_vm s)) u /\
  forall n s1 k i xs prompt l, steps E (numbered src xss) n (run_state st (numbered src xss) (ss_vm s)) = Next s1 -> x_spot s1 = (k, i) ->
  nth_error xss k = Some xs -> nth_error xs i = Some (SInput prompt l) -> l <> [] -> Forall (fun p => pl_subs p = []) l ->
  overflows E u \/ exists l0 v, runs E u l0 v /\ at_statement xss (k, i) v /\
    forall tries e ds x left, Forall entry (tries ++ [e]) -> v_in v = typed_lines (tries ++ [e]) ++ left ->
      Forall (fun t => is_accepted (judge l (fields t)) = false) tries -> judge l (fields e) = Accepted ds x ->
      overflows E v \/ exists l1 w, runs E v l1 w /\ at_statement xss (k, i + 1) w /\ v_stack w = [] /\ v_sstack w = [] /\
        (forall id t, StoreSpec.named v id KVariable t -> variable w t id = given l ds id (variable v t id)) /\
        v_in w = left /\ v_out w = v_out v ++ map OB (dialogue prompt l (tries ++ [e])).
Proof. exact run_variables. Qed.
Print Assumptions C24_variables.

(* The same for elements of arrays too, which get the fields in order as by LET,
   unless a field for an element is not a number. *)
Theorem C24_items : forall o E line rest s src xss st,
  in_step o s -> means line (MCommand C_RUN rest) -> c_source (v_stored (ss_vm s)) = Some src -> statements_of o src xss st -> acceptable_program xss st ->
  o_trace_basic o = false /\ o_trace_for o = false -> env_ok E -> distinct_lines src -> rand_range E ->
  exists u, starts src (new_machine src (ss_vm s)) u /\
  forall n s1 k i xs prompt l, steps E (numbered src xss) n (run_state st (numbered src xss) (ss_vm s)) = Next s1 -> x_spot s1 = (k, i) ->
  nth_error xss k = Some xs -> nth_error xs i = Some (SInput prompt l) -> l <> [] ->
  overflows E u \/ exists l0 v m, runs E u l0 v /\ at_statement xss (k, i) v /\ v_stack v = [] /\ v_sstack v = [] /\ holds v m /\
    forall es left m', enters E l es m m' -> Forall entry es -> v_in v = typed_lines es ++ left ->
      overflows E v \/ exists l1 w, runs E v l1 w /\ at_statement xss (k, i + 1) w /\ v_stack w = [] /\ v_sstack w = [] /\ holds w m' /\
        v_in w = left /\ v_out w = v_out v ++ map OB (dialogue prompt l es).
Proof. exact run_input. Qed.
Print Assumptions C24_items.

(* ---------- not vacuous ---------- *)

Definition ex_ask_src : source := [mkLine 10 (lit "INPUT I,J$")].
Definition ex_ask_lines : list bytes := [lit "ONE,TWO"; lit "1"; lit " 12 , 3 4"].
Definition ex_ask_new : sess := new_session ex_opt (typed_lines ex_ask_lines ++ lit "END") no_files [].
Definition ex_ask_at : sess := match typed ex_env 200 [lit "10 INPUT I,J$"] ex_ask_new with Some s => s | None => ex_ask_new end.
Definition ex_ask_table : symtab := fst (sym_insert ex_table1 (lit "J$") KVariable TStr).
Definition ex_jd : symid := st_next ex_table1.
Definition ex_i_place : place := mkPlace ex_id KVariable TNum [].
Definition ex_j_place : place := mkPlace ex_jd KVariable TStr [].
Definition ex_ask_stmts : list (list stmt) := [[SInput None [ex_i_place; ex_j_place]]].
Lemma ex_j_occurs k : occurs k (lit "J$") false ex_table1 (nth (N.to_nat ex_jd) (st_syms ex_ask_table) (mkSym [] 0%N KUnknown TErr false VZero)) ex_ask_table.
Proof. eapply (Oc_new _ _ _ _ _ (N.to_nat ex_jd)); vm_compute; reflexivity. Qed.
Lemma ex_ask_line : line_is false (lit "INPUT I,J$") (init_builtins new_symbol_table) [SInput None [ex_i_place; ex_j_place]] ex_ask_table.
Proof.
  one_line. eapply (LS_stmt _ _ _ (T_KW K_INPUT :: [] ++ [T_ID (lit "I")] ++ COMMA :: [T_ID (lit "J$")]) _ _ _ _ []); [left; reflexivity| |].
  - cbn [app]. do 4 read_one. constructor.
  - apply GS_input; [constructor|]. apply (GL_more _ _ _ _ ex_table1).
    + exists (lit "I"), ex_sym, []. split; [constructor; apply ex_occurs|vm_compute; reflexivity].
    + apply GL_one. exists (lit "J$"). eexists. exists []. split; [constructor; apply ex_j_occurs|vm_compute; reflexivity].
Qed.
Lemma ex_ask_is : statements_of ex_opt ex_ask_src ex_ask_stmts (sym_make_unknown_array ex_ask_table).
Proof.
  assert (X : compiling ex_opt ex_ask_src = PoOk (Some (mkBcode (pcode 0 ex_ask_stmts) false)) None (sym_make_unknown_array ex_ask_table)) by (vm_compute; reflexivity).
  eexists _, ex_ask_table. split; [exact X|]. split; [|split; reflexivity]. econstructor; [apply ex_ask_line|]. constructor.
Qed.
Lemma ex_ask_session : session ex_opt no_renum ex_ask_at.
Proof.
  unfold ex_ask_at. destruct (typed ex_env 200 [lit "10 INPUT I,J$"] ex_ask_new) as [t|] eqn:T; [|vm_compute in T; discriminate T].
  refine (typed_session ex_opt no_renum ex_env 200 _ ex_ask_new t (Ses_start ex_opt no_renum _ no_files []) _ T). constructor; [apply not_renum; vm_compute; reflexivity|constructor].
Qed.
(* Three lines are typed. The first has no number, the second no second field. *)
Example C24_ex : in_step ex_opt ex_ask_at /\ c_source (v_stored (ss_vm ex_ask_at)) = Some ex_ask_src /\
  acceptable_program ex_ask_stmts (sym_make_unknown_array ex_ask_table) /\ distinct_lines ex_ask_src /\
  v_in (ss_vm ex_ask_at) = typed_lines ex_ask_lines ++ lit "END" /\ Forall entry ex_ask_lines /\
  map (fun e => judge [ex_i_place; ex_j_place] (fields e)) ex_ask_lines =
    [BadField [] ex_i_place; TooFew [Number (fofZ 1)]; Accepted [Number (fofZ 12); Text (lit " 3 4")] false].
Proof.
  split; [left; exact ex_ask_session|]. split; [vm_compute; reflexivity|]. split; [|split; [|split; [vm_compute; reflexivity|split]]].
  - split; [vm_compute; discriminate|]. split; repeat constructor; cbn; discriminate.
  - apply (session_increasing ex_opt ex_ask_at ex_ask_src ex_ask_session). vm_compute. reflexivity.
  - repeat constructor; vm_compute; try lia; discriminate.
  - vm_compute. reflexivity.
Qed.
Example C24_ex_statement : exists s1, steps ex_env (numbered ex_ask_src ex_ask_stmts) 0 (run_state (sym_make_unknown_array ex_ask_table) (numbered ex_ask_src ex_ask_stmts) (ss_vm ex_ask_at)) = Next s1 /\
  x_spot s1 = (0, 0) /\ nth_error (hd [] ex_ask_stmts) 0 = Some (SInput None [ex_i_place; ex_j_place]) /\ Forall (fun p => pl_subs p = []) [ex_i_place; ex_j_place].
Proof. eexists. split; [reflexivity|]. split; [reflexivity|]. split; [reflexivity|]. repeat constructor. Qed.

(* ---------- what is not so ---------- *)

(* An element that got something that is not a number: when the statement is
   done, what was calculated for its subscript is still on the stack. *)
Definition ex_left_src : source := [mkLine 10 (lit "INPUT A(1)"); mkLine 20 (lit "END")].
Definition ex_left_vm : vm := set_stored (mkCode (Some ex_left_src) None None) (new_vm ex_opt (typed_lines [lit "ONE"; lit "1"])).
Definition ex_left_run : vm :=
  match compiling ex_opt ex_left_src with
  | PoOk (Some bc) None st => match bcode_index bc ex_left_src with Some idx => about_to_run (PromptProofs.fresh_code ex_left_src bc idx st ex_left_vm) | None => ex_left_vm end
  | _ => ex_left_vm
  end.
Lemma ex_left_starts : starts ex_left_src ex_left_vm ex_left_run.
Proof.
  unfold ex_left_run. destruct (compiling ex_opt ex_left_src) as [[bc|] [e|] st| | |] eqn:C; try (vm_compute in C; discriminate C).
  destruct (bcode_index bc ex_left_src) as [idx|] eqn:X.
  - apply (starts_fresh ex_opt); [reflexivity|exact C|exact X].
  - exfalso. vm_compute in C. injection C as <- _. vm_compute in X. discriminate X.
Qed.
Theorem C24_residue_refuted : exists E src v u l w, env_ok E /\ starts src v u /\ v_stack u = [] /\ runs E u l w /\
  current w = Some (I_SOURCE_LINE 1) /\ v_stack w <> [].
Proof.
  exists ex_env, ex_left_src, ex_left_vm, ex_left_run, (ex_states 8 ex_left_run), (ex_steps 8 ex_left_run).
  split; [apply ex_env_ok|]. split; [exact ex_left_starts|]. split; [vm_compute; reflexivity|]. split; [apply ex_runs_states; vm_compute; reflexivity|]. split; [vm_compute; reflexivity|]. vm_compute. discriminate.
Qed.
Print Assumptions C24_residue_refuted.
