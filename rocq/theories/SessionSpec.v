(* What the properties of whole sessions mean (C25 to C28). *)
From Verif Require Import Base Num SourceModel LineMapModel BcodeModel SymbolModel SymbolSpec VmModel VmSpec LexModel ParseModel
  GrammarSpec SessionModel MonitorModel MonSpec.

(* ---------- sessions ---------- *)

(* What other parts of the world do between two lines: text appears on the
   screen and in the input, files and interrupts come and go. *)
Inductive meanwhile : sess -> sess -> Prop :=
| Meanwhile s x i fs ds brk os :
    meanwhile s (mkSess (set_input (v_input (ss_vm s)) (v_inp (ss_vm s)) (v_input_pc (ss_vm s)) i (set_out x (ss_vm s))) fs ds brk os).

(* The session s, started with --randomize: the sequence of random numbers
   depends on the time. *)
Definition randomized (seed : N) (s : sess) : sess := set_vm (set_rand seed 0 1 (ss_vm s)) s.

(* The states at the prompt: any number of lines, each one allowed, has been
   interpreted since the interpreter was started with options o. *)
Inductive session (o : options) (allowed : bytes -> Prop) : sess -> Prop :=
| Ses_start stdin fs brk : session o allowed (new_session o stdin fs brk)
| Ses_randomized seed stdin fs brk : session o allowed (randomized seed (new_session o stdin fs brk))
| Ses_line E fuel line s s' : session o allowed s -> allowed line -> interpret E fuel line s = XOk false s' -> session o allowed s'
| Ses_world s s' : session o allowed s -> meanwhile s s' -> session o allowed s'.

Definition any_line (line : bytes) : Prop := True.
Definition no_renum (line : bytes) : Prop := forall s, ~ means line (MCommand C_RENUM s).

(* ---------- pending control (C26) ---------- *)

(* the instructions of the code r *)
Definition code_at (v : vm) (r : coderef) : list instr :=
  match c_bcode (code_of v r) with Some bc => bc_inst bc | None => [] end.

(* the place to return to after a GOSUB or ON..GOSUB of the code *)
Definition after_gosub (l : list instr) (pc : nat) : Prop :=
  exists q, (exists n, nth_error l q = Some (I_GOSUB n)) /\ pc = q + 1 \/
            (exists k, nth_error l q = Some (I_ON_GOSUB k) /\ pc = q + k + 1).

(* the place is in one of the allowed codes, and there is such a place in it *)
Definition place_in (v : vm) (allowed : coderef -> Prop) (here : list instr -> nat -> Prop) (c : code_state) : Prop :=
  exists r, cs_code c = Some r /\ allowed r /\ here (code_at v r) (cs_pc c).

(* Every pending GOSUB is a GOSUB of one of the allowed codes, every pending
   FOR a FOR of that variable, every pending function call a call; CONT would
   continue in the stored program. *)
Record pending_in (allowed : coderef -> Prop) (v : vm) : Prop := {
  pd_ret : Forall (place_in v allowed after_gosub) (v_ret v);
  pd_for : Forall (fun f => place_in v allowed (fun l pc => nth_error l pc = Some (I_FOR (f_sym f))) (f_cs f)) (v_for v);
  pd_fn : cs_code (fn_cs (v_fn v)) <> None ->
    place_in v allowed (fun l pc => exists id n, nth_error l pc = Some (I_GET_PAREN_NUM id n) \/ nth_error l pc = Some (I_GET_PAREN_STR id n)) (fn_cs (v_fn v));
  pd_stop : cs_code (v_stopcs v) = None \/ cs_code (v_stopcs v) = Some CStored
}.

(* nothing is pending *)
Definition nothing_pending (v : vm) : Prop :=
  v_ret v = [] /\ v_for v = [] /\ cs_code (fn_cs (v_fn v)) = None /\ cs_code (v_stopcs v) = None /\ v_pdata v = 0.

(* every pending GOSUB, FOR and function call and the place CONT continues at
   are in the stored program, none in an immediate line *)
Definition only_stored (v : vm) : Prop :=
  Forall (fun c => cs_code c = Some CStored) (v_ret v) /\ Forall (fun f => cs_code (f_cs f) = Some CStored) (v_for v) /\
  (cs_code (fn_cs (v_fn v)) = None \/ cs_code (fn_cs (v_fn v)) = Some CStored) /\
  (cs_code (v_stopcs v) = None \/ cs_code (v_stopcs v) = Some CStored).

(* ---------- the code that runs (C27) ---------- *)

Definition compiling (o : options) (src : source) : parse_out :=
  parse_source src (init_builtins new_symbol_table) (o_anywhere o).

(* The machine's compiled program is what the source now compiles to, starting
   with no names but the built-in ones; names have been added at most. *)
Definition compiled_program (v : vm) (src : source) : Prop :=
  exists bc idx st, compiling (v_opt v) src = PoOk (Some bc) None st /\ bcode_index bc src = Some idx /\
    v_stored v = mkCode (Some src) (Some bc) (Some idx) /\ changes st (v_st v).

(* the interrupt of the next run *)
Definition next_break (s : sess) : option nat := match ss_brk s with b :: _ => b | [] => None end.
(* the session when run has ended *)
Definition after_run (s : sess) (w : vm) : sess := mkSess w (ss_fs s) (ss_diag s) (tl (ss_brk s)) (ss_os s).
Definition ran (s : sess) (x : res unit * vm) : xres bool :=
  match fst x with
  | Ok _ | Fail _ => XOk false (after_run s (snd x))
  | Crash => XCrash (after_run s (snd x))
  | NoFuel => XNoFuel (after_run s (snd x))
  end.

(* ---------- how RUN begins (C12, C28) ---------- *)

Record starts (src : source) (v u : vm) : Prop := {
  sr_code : compiled_program u src;
  sr_first : v_cs u = mkCs (Some CStored) 0 0;
  sr_pending : nothing_pending u;
  sr_data : v_idata u = 0;
  sr_stacks : v_stack u = [] /\ v_sstack u = [];
  sr_values : forall p s, nth_error (st_syms (v_st u)) p = Some s ->
    seen s = fresh_view (s_kind s) (s_type s) /\ (s_kind s <> KBuiltin -> s_defined s = false);
  sr_world : v_in u = v_in v /\ v_out u = v_out v /\ v_err u = v_err v /\ v_seed u = v_seed v /\ v_randk u = v_randk v /\
    v_clock u = v_clock v /\ v_opt u = v_opt v
}.

(* A machine that has just been started and given the program, the input, the
   line last read by INPUT, the random numbers and the clock of v. *)
Definition new_machine (src : source) (v : vm) : vm :=
  set_rand (v_seed v) (v_randk v) (v_clock v)
    (set_input (v_input v) None 0 (v_in v)
      (set_stored (mkCode (Some src) None None) (new_vm (v_opt v) (v_in v)))).

(* The same has been printed and reported since s0 and s; the same is left of
   the input, and the same files and messages are there. *)
Definition same_effects (s0 t0 s t : sess) : Prop :=
  (exists x, v_out (ss_vm t0) = v_out (ss_vm s0) ++ x /\ v_out (ss_vm t) = v_out (ss_vm s) ++ x) /\
  (exists e, v_err (ss_vm t0) = v_err (ss_vm s0) ++ e /\ v_err (ss_vm t) = v_err (ss_vm s) ++ e) /\
  v_in (ss_vm t0) = v_in (ss_vm t) /\ v_seed (ss_vm t0) = v_seed (ss_vm t) /\ v_randk (ss_vm t0) = v_randk (ss_vm t) /\
  v_clock (ss_vm t0) = v_clock (ss_vm t) /\
  ss_fs t0 = ss_fs t /\ ss_diag t0 = ss_diag t /\ ss_brk t0 = ss_brk t /\ ss_os t0 = ss_os t.

(* the program has been changed and not been compiled since *)
Definition stale (v : vm) : Prop := c_source (v_stored v) <> None /\ c_bcode (v_stored v) = None.

(* All values of u are the initial ones; unless the program was to be compiled
   the names of v and its built-in functions are kept. *)
Definition clears (v u : vm) : Prop :=
  (forall p s, nth_error (st_syms (v_st u)) p = Some s -> seen s = fresh_view (s_kind s) (s_type s) /\ (s_kind s <> KBuiltin -> s_defined s = false)) /\
  (~ stale v -> forall p s, nth_error (st_syms (v_st v)) p = Some s -> exists s', nth_error (st_syms (v_st u)) p = Some s' /\
     s_name s' = s_name s /\ s_kind s' = s_kind s /\ s_type s' = s_type s /\ (s_kind s = KBuiltin -> s' = s)).

(* ---------- statements at the prompt (C26, C27) ---------- *)

(* the compiled program is that of the source, if there is a source *)
Definition current_code (v : vm) : Prop :=
  match c_source (v_stored v) with Some src => compiled_program v src | None => v_stored v = no_code end.

(* The statements text begin to run in u, typed when the machine was v. *)
Record begins (text : bytes) (v u : vm) : Prop := {
  bg_program : current_code u /\ c_source (v_stored u) = c_source (v_stored v);
  bg_line : exists b idx st0 st, parse_source (wrap_source_text text) st0 false = PoOk (Some b) None st /\
    bcode_index b (wrap_source_text text) = Some idx /\ v_imm u = mkCode (Some (wrap_source_text text)) (Some b) (Some idx) /\ v_st u = st;
  bg_first : v_cs u = mkCs (Some CImmediate) 0 0;
  bg_pending : pending_in (eq CStored) u;
  bg_stale : stale v -> nothing_pending u /\ forall p s, nth_error (st_syms (v_st u)) p = Some s ->
    seen s = fresh_view (s_kind s) (s_type s) /\ (s_kind s <> KBuiltin -> s_defined s = false);
  bg_kept : ~ stale v -> v_ret u = v_ret v /\ v_for u = v_for v /\ v_fn u = v_fn v /\ v_stopcs u = v_stopcs v /\ v_pdata u = v_pdata v /\
    forall p s, nth_error (st_syms (v_st v)) p = Some s ->
    exists s', nth_error (st_syms (v_st u)) p = Some s' /\ s_name s' = s_name s /\ s_defined s' = s_defined s /\ s_val s' = s_val s;
  bg_world : v_in u = v_in v /\ v_out u = v_out v /\ v_err u = v_err v /\ v_seed u = v_seed v /\ v_randk u = v_randk v /\
    v_clock u = v_clock v /\ v_opt u = v_opt v
}.

(* the session when the statements have been run *)
Definition ran_statements (s : sess) (x : res unit * vm) : xres bool :=
  match fst x with
  | Ok _ | Fail _ =>
      match immediate_state (snd x) with
      | None => XCrash (after_run s (snd x))
      | Some true => XOk false (after_run s (reset_control_state (snd x)))
      | Some false => XOk false (after_run s (snd x))
      end
  | Crash => XCrash (after_run s (snd x))
  | NoFuel => XNoFuel (after_run s (snd x))
  end.

(* Nothing has been run: there is one more message, nothing has been printed
   or read, and the program is the same. *)
Definition not_run (x : perr) (s t : sess) : Prop :=
  ss_diag t = ss_diag s ++ [DParse x] /\ ss_fs t = ss_fs s /\ ss_brk t = ss_brk s /\ ss_os t = ss_os s /\
  v_out (ss_vm t) = v_out (ss_vm s) /\ v_err (ss_vm t) = v_err (ss_vm s) /\ v_in (ss_vm t) = v_in (ss_vm s) /\
  v_seed (ss_vm t) = v_seed (ss_vm s) /\ v_randk (ss_vm t) = v_randk (ss_vm s) /\ v_clock (ss_vm t) = v_clock (ss_vm s) /\
  c_source (v_stored (ss_vm t)) = c_source (v_stored (ss_vm s)).

(* nothing has been printed, read or written to a file *)
Definition quiet (s t : sess) : Prop :=
  v_out (ss_vm t) = v_out (ss_vm s) /\ v_err (ss_vm t) = v_err (ss_vm s) /\ v_in (ss_vm t) = v_in (ss_vm s) /\
  ss_fs t = ss_fs s /\ ss_os t = ss_os s /\ ss_diag t = ss_diag s.

(* No RENUM has been given, or the program has been changed since it was last
   compiled. *)
Definition in_step (o : options) (s : sess) : Prop :=
  session o no_renum s \/ (session o any_line s /\ stale (ss_vm s)).

(* ---------- STOP, break and CONT (C25) ---------- *)

(* the machine u in which run is called when a line is interpreted in s: by
   RUN, by CONT, by statements *)
Inductive run_called (s : sess) : vm -> Prop :=
| Rc_run t : stored_source (ss_vm s) <> None ->
    ensure_program_compiled (set_vm (set_st (clear_symbol_table_values (v_st (ss_vm s))) (ss_vm s)) s) = XOk true t ->
    run_called s (set_cs (mkCs (Some CStored) 0 0) (reset_control_state (ss_vm t)))
| Rc_cont r bc i : cs_code (v_stopcs (ss_vm s)) = Some r -> c_bcode (code_of (ss_vm s) r) = Some bc ->
    nth_error (bc_inst bc) (cs_pc (v_stopcs (ss_vm s))) = Some i ->
    run_called s (set_cs (mkCs (Some r) (cs_line (v_stopcs (ss_vm s)))
                               (if is_stop i then S (cs_pc (v_stopcs (ss_vm s))) else cs_pc (v_stopcs (ss_vm s)))) (ss_vm s))
| Rc_line text t t' b idx : ensure_program_compiled (set_vm (set_imm no_code (ss_vm s)) s) = XOk true t ->
    compile (wrap_source_text text) false t = XOk (Some b) t' -> bcode_index b (wrap_source_text text) = Some idx ->
    run_called s (set_cs (mkCs (Some CImmediate) 0 0) (set_data (v_pdata (ss_vm t')) 0
      (set_imm (mkCode (Some (wrap_source_text text)) (Some b) (Some idx)) (ss_vm t')))).

(* CONT is refused: a message, and the machine is the same *)
Definition refuses (E : env) (fuel : nat) (line : bytes) (s : sess) : Prop :=
  interpret E fuel line s = XOk false (mkSess (ss_vm s) (ss_fs s) (ss_diag s ++ [DCannotContinue]) (tl (ss_brk s)) (ss_os s)).

(* as if the instruction were not there *)
Definition passed_over (u : vm) : vm := set_pc (S (cs_pc (v_cs u))) u.

(* The two machines have printed the same after o1 and o2 and reported the
   same errors after e1 and e2; they are at the same place, with the same input
   left, the same loops and calls pending, the same DATA to be read next, and
   the same values in all variables, arrays and functions of the second. *)
Definition same_but_output (o1 o2 : list oev) (e1 e2 : list errev) (w1 w2 : vm) : Prop :=
  (exists x, v_out w1 = o1 ++ x /\ v_out w2 = o2 ++ x) /\ (exists e, v_err w1 = e1 ++ e /\ v_err w2 = e2 ++ e) /\
  v_cs w1 = v_cs w2 /\ v_in w1 = v_in w2 /\ v_for w1 = v_for w2 /\ v_ret w1 = v_ret w2 /\ v_pdata w1 = v_pdata w2 /\
  v_seed w1 = v_seed w2 /\ v_randk w1 = v_randk w2 /\ v_clock w1 = v_clock w2 /\
  forall id s2, symbol_at (v_st w2) id = Some s2 -> exists s1, symbol_at (v_st w1) id = Some s1 /\
    s_name s1 = s_name s2 /\ s_defined s1 = s_defined s2 /\ seen s1 = seen s2 /\ (s_defined s2 = true -> s_val s1 = s_val s2).

(* CONT typed in w goes on like the run x2 from u (unless that is undefined
   behaviour). *)
Definition goes_on_like (w u : vm) (x1 : res bool * vm) (x2 : res unit * vm) : Prop :=
  fst x2 = Crash \/
  (match fst x1, fst x2 with Ok true, Ok _ => True | Fail a, Fail b => a = b | NoFuel, NoFuel => True | _, _ => False end /\
   same_but_output (v_out w) (v_out u) (v_err w) (v_err u) (snd x1) (snd x2)).

(* ---------- what RUN depends on (C28) ---------- *)

(* The sessions have the same program, the same input ahead and the same line
   last read by INPUT, the same random numbers, clock and interrupt ahead. *)
Record same_ahead (s1 s2 : sess) : Prop := {
  sa_program : c_source (v_stored (ss_vm s1)) = c_source (v_stored (ss_vm s2));
  sa_input : v_in (ss_vm s1) = v_in (ss_vm s2) /\ v_input (ss_vm s1) = v_input (ss_vm s2);
  sa_random : v_seed (ss_vm s1) = v_seed (ss_vm s2) /\ v_randk (ss_vm s1) = v_randk (ss_vm s2);
  sa_clock : v_clock (ss_vm s1) = v_clock (ss_vm s2);
  sa_break : next_break s1 = next_break s2
}.

(* from s1 to t1 the same is printed and reported as from s2 to t2, and the
   same input is left *)
Definition same_shown (s1 t1 s2 t2 : sess) : Prop :=
  (exists x, v_out (ss_vm t1) = v_out (ss_vm s1) ++ x /\ v_out (ss_vm t2) = v_out (ss_vm s2) ++ x) /\
  (exists e, v_err (ss_vm t1) = v_err (ss_vm s1) ++ e /\ v_err (ss_vm t2) = v_err (ss_vm s2) ++ e) /\
  (exists d, ss_diag t1 = ss_diag s1 ++ d /\ ss_diag t2 = ss_diag s2 ++ d) /\
  v_in (ss_vm t1) = v_in (ss_vm t2).
