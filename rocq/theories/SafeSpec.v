(* What cannot go wrong while a compiled program runs (C31). *)
From Verif Require Import Base Num NumSpec SourceModel BcodeModel SymbolModel GrammarSpec VmModel VmSpec StoreSpec LineSpec StepSpec ParseModel ValueSpec SessionModel MonitorModel MonSpec SessionSpec RunSpec.

(* The errors that say that the machine or its code is not as it should be:
   a value is missing on a stack, execution came to a place where it should not
   be, a list of ON or a function is not what it should be. *)
Definition internal (e : rterr) : bool :=
  match e with
  | RE_num_empty | RE_str_empty | RE_def_params _ | RE_run_into_param | RE_unexpected_end_def
  | RE_on_line_expected | RE_fn_corrupt _ | RE_fn_param_expected | RE_unknown_opcode => true
  | _ => false
  end.

(* the list of an ON statement is not as long as unsigned numbers are *)
Definition short_on (x : stmt) : Prop := match x with SOn _ _ l => (N.of_nat (length l) < 2 ^ 32)%N | _ => True end.

(* Execution is at the statement p of the program, or at the marker of the line
   that begins with it. *)
Definition at_statement (xss : list (list stmt)) (p : spot) (v : vm) : Prop :=
  cs_code (v_cs v) = Some CStored /\
  (cs_pc (v_cs v) = stmt_start xss (fst p) (snd p) \/ (snd p = 0 /\ cs_pc (v_cs v) = line_start xss (fst p))).

(* the current instruction takes 4294967295 as a subscript *)
Definition wraps (v : vm) : Prop := exists x, In x (subscript_numbers v) /\ is_integer x 4294967295.

(* A command typed in the session s came to this: nothing undefined happened,
   and at most one error has been reported, not an internal one. *)
Definition run_went_well (s : sess) (x : xres bool) : Prop :=
  match x with
  | XOk _ t => exists l, v_err (ss_vm t) = v_err (ss_vm s) ++ l /\ length l <= 1 /\ Forall (fun r => internal (er_err r) = false) l
  | XNoFuel _ => True
  | XCrash _ | XExit _ => False
  end.

(* ---------- statements typed at the prompt ---------- *)

(* what the theorems ask of a program, or of the statements of a line *)
Definition fit (xss : list (list stmt)) (st : symtab) : Prop := acceptable_program xss st /\ Forall (Forall short_on) xss.
(* the program of the session is so, if it can be compiled at all *)
Definition program_fit (o : options) (s : sess) : Prop :=
  forall src xss st, c_source (v_stored (ss_vm s)) = Some src -> statements_of o src xss st -> exists yss, statements_of o src yss st /\ fit yss st.

(* The program of the session s can be compiled, text contains the statements
   xss, and u is the machine in which they begin. *)
Definition line_starts (s : sess) (text : bytes) (xss : list (list stmt)) (u : vm) : Prop :=
  exists t b idx st st1, ensure_program_compiled (set_vm (set_imm no_code (ss_vm s)) s) = XOk true t /\
    parse_source (wrap_source_text text) (v_st (ss_vm t)) false = PoOk (Some b) None st /\
    program_is false (v_st (ss_vm t)) (map ln_text (wrap_source_text text)) xss st1 /\ st = sym_make_unknown_array st1 /\ bc_inst b = pcode 0 xss /\
    bcode_index b (wrap_source_text text) = Some idx /\
    u = set_stopped false (set_cs (mkCs (Some CImmediate) 0 0) (set_data (v_pdata (ss_vm t)) 0
          (set_imm (mkCode (Some (wrap_source_text text)) (Some b) (Some idx)) (set_st st (ss_vm t))))).

(* The lines that the pending GOSUBs, loops and function calls were left in are
   lines of the program, or the program has been changed since it last ran, so
   that nothing is pending when it has been compiled. *)
Definition line_exists (v : vm) (c : code_state) : Prop :=
  cs_code c = None \/ (cs_code c = Some CStored /\ exists src, c_source (v_stored v) = Some src /\ cs_line c < length src).
Definition lines_exist (v : vm) : Prop :=
  stale v \/ (Forall (line_exists v) (v_ret v) /\ Forall (fun f => line_exists v (f_cs f)) (v_for v) /\ line_exists v (fn_cs (v_fn v))).

(* the machine u in which code begins to run when a line that means m is
   interpreted in s *)
Inductive called (s : sess) : meaning -> vm -> Prop :=
| Cl_run rest t : stored_source (ss_vm s) <> None ->
    ensure_program_compiled (set_vm (set_st (clear_symbol_table_values (v_st (ss_vm s))) (ss_vm s)) s) = XOk true t ->
    called s (MCommand C_RUN rest) (set_stopped false (set_cs (mkCs (Some CStored) 0 0) (reset_control_state (ss_vm t))))
| Cl_cont rest r bc i : cs_code (v_stopcs (ss_vm s)) = Some r -> c_bcode (code_of (ss_vm s) r) = Some bc ->
    nth_error (bc_inst bc) (cs_pc (v_stopcs (ss_vm s))) = Some i ->
    called s (MCommand C_CONT rest) (set_stopped false (set_cs (mkCs (Some r) (cs_line (v_stopcs (ss_vm s)))
                               (if is_stop i then S (cs_pc (v_stopcs (ss_vm s))) else cs_pc (v_stopcs (ss_vm s)))) (ss_vm s)))
| Cl_line text xss u : line_starts s text xss u -> called s (MStatements text) u.

(* the line makes the interpreter compile the program *)
Definition compiles (m : meaning) : Prop :=
  match m with MCommand C_RUN _ | MCommand C_COMPILE _ | MStatements _ => True | _ => False end.

(* A session in which all programs and statements that were compiled are as the
   theorems ask, and in no run the subscript 4294967295 was used. *)
Inductive orderly (o : options) : sess -> Prop :=
| Or_start stdin fs brk : orderly o (new_session o stdin fs brk)
| Or_randomized seed stdin fs brk : orderly o (randomized seed (new_session o stdin fs brk))
| Or_line E fuel line m s s' : orderly o s -> env_ok E -> means line m ->
    (compiles m -> program_fit o s) ->
    (forall text xss u, m = MStatements text -> line_starts s text xss u -> exists yss, line_starts s text yss u /\ fit yss (v_st u)) ->
    (forall u l w, called s m u -> runs E u l w -> ~ wraps w) ->
    interpret E fuel line s = XOk false s' -> orderly o s'
| Or_world s s' : orderly o s -> meanwhile s s' -> orderly o s'.

(* ---------- a program file on the command line ---------- *)

(* The interpreter, started with a program file, came to this: nothing undefined
   happened, and at most one error has been reported, not an internal one. *)
Definition file_went_well (x : xres unit) : Prop :=
  match x with
  | XOk _ t => length (v_err (ss_vm t)) <= 1 /\ Forall (fun r => internal (er_err r) = false) (v_err (ss_vm t))
  | XNoFuel _ => True
  | XCrash _ | XExit _ => False
  end.
