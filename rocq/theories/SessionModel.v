(* Model of the entry points of Basic/run.c used by the monitor: keeping the
   compiled program in step with its source, RUN, CONT and immediate lines. *)
From Verif Require Import Base SourceModel LineMapModel BcodeModel SymbolModel VmModel ParseModel.

(* ---------- the session ---------- *)

(* Files by name. fopen(.., "w") always succeeds and fopen(.., "r") succeeds
   exactly for the names present; directories, permissions and partial writes
   are not modelled. *)
Definition files := bytes -> option bytes.
Definition no_files : files := fun _ => None.
Definition put_file (fs : files) (name content : bytes) : files :=
  fun n => if bytes_eqb n name then Some content else fs n.

(* Messages of the interpreter that are not part of the output of a BASIC
   program: parse errors (Basic/parse.c:51-88) and error() in the monitor. *)
Inductive diag :=
| DParse (e : perr)
| DCannotOpen (name : bytes)
| DTooLong
| DSyntax
| DFileName
| DCannotContinue
| DRenumber (old new after : N)
| DInternal.

(* The state of a session: the machine, the file system, the messages, the
   interrupts to come (one schedule for each call of run, see VmModel) and
   the commands given to the operating system. *)
Record sess := mkSess {
  ss_vm : vm;
  ss_fs : files;
  ss_diag : list diag;
  ss_brk : list (option nat);
  ss_os : list bytes
}.

(* XExit: the process has exited with an error. XCrash: failed assert or
   undefined behaviour. XNoFuel: a bound of the model was reached (for run:
   the program has not finished within the given number of instructions). *)
Inductive xres (A : Type) :=
| XOk (a : A) (s : sess)
| XExit (s : sess)
| XCrash (s : sess)
| XNoFuel (s : sess).
Arguments XOk {A} a s.
Arguments XExit {A} s.
Arguments XCrash {A} s.
Arguments XNoFuel {A} s.

Definition X (A : Type) : Type := sess -> xres A.

Definition xret {A} (a : A) : X A := fun s => XOk a s.
Definition xbind {A B} (m : X A) (f : A -> X B) : X B :=
  fun s => match m s with
           | XOk a s' => f a s'
           | XExit s' => XExit s'
           | XCrash s' => XCrash s'
           | XNoFuel s' => XNoFuel s'
           end.

Declare Scope sess_scope.
Delimit Scope sess_scope with sess.
Notation "'let*' x ':=' m 'in' k" := (xbind m (fun x => k))
  (at level 200, x pattern, m at level 100, k at level 200, right associativity) : sess_scope.
Notation "m ;;; k" := (xbind m (fun _ => k))
  (at level 100, k at level 200, right associativity) : sess_scope.
Local Open Scope sess_scope.

Definition set_vm (v : vm) (s : sess) : sess :=
  mkSess v (ss_fs s) (ss_diag s) (ss_brk s) (ss_os s).
Definition get_vm : X vm := fun s => XOk (ss_vm s) s.
Definition mod_vm (f : vm -> vm) : X unit := fun s => XOk tt (set_vm (f (ss_vm s)) s).
Definition say (d : diag) : X unit :=
  fun s => XOk tt (mkSess (ss_vm s) (ss_fs s) (ss_diag s ++ [d]) (ss_brk s) (ss_os s)).
Definition xexit {A} : X A := fun s => XExit s.
Definition xcrash {A} : X A := fun s => XCrash s.
Definition out (b : bytes) : X unit :=
  mod_vm (fun v => set_out (v_out v ++ map OB b) v).

(* a machine action during which run is called once: its interrupt schedule
   is the next one *)
Definition with_run {A} (m : option nat -> M A) (dflt : A) : X A :=
  fun s =>
    let brk := match ss_brk s with b :: _ => b | [] => None end in
    let (r, v) := m brk (ss_vm s) in
    let s' := mkSess v (ss_fs s) (ss_diag s) (tl (ss_brk s)) (ss_os s) in
    match r with
    | Ok a => XOk a s'
    | Fail _ => XOk dflt s'
    | Crash => XCrash s'
    | NoFuel => XNoFuel s'
    end.

(* ---------- Basic/run.c ---------- *)

(* vm_clear_names, Basic/run.c:145-148 *)
Definition vm_clear_names : X unit :=
  mod_vm (fun v => set_st (init_builtins (clear_symbol_table_names (v_st v))) v).

(* vm_clear_values, Basic/run.c:150-152 *)
Definition vm_clear_values : X unit :=
  mod_vm (fun v => set_st (clear_symbol_table_values (v_st v)) v).

(* parse_source called from run.c, reporting an error *)
Definition compile (src : source) (kw : bool) : X (option bcode) :=
  fun s =>
    let v := ss_vm s in
    match parse_source src (v_st v) kw with
    | PoOk bc e st =>
        let s' := set_vm (set_st st v) s in
        match e with
        | Some x => (say (DParse x) ;;; xret bc) s'
        | None => XOk bc s'
        end
    | PoExit => XExit s
    | PoCrash => XCrash s
    | PoNoFuel => XNoFuel s
    end.

(* ensure_program_compiled, Basic/run.c:193-208 *)
Definition ensure_program_compiled : X bool :=
  let* v := get_vm in
  match c_source (v_stored v), c_bcode (v_stored v) with
  | Some src, None =>
      (match c_index (v_stored v) with Some _ => xcrash | None => xret tt end) ;;;
      vm_clear_names ;;;
      let* bc := compile src (o_anywhere (v_opt v)) in
      match bc with
      | None => xret false
      | Some b =>
          match bcode_index b src with
          | None => xexit
          | Some idx =>
              mod_vm (fun w => reset_control_state (set_stored (mkCode (Some src) (Some b) (Some idx)) w)) ;;;
              xret true
          end
      end
  | _, _ => xret true
  end.

(* vm_compile, Basic/run.c:210-212 *)
Definition vm_compile : X unit := ensure_program_compiled ;;; xret tt.

Definition stored_source (v : vm) : option source := c_source (v_stored v).
Definition set_source (src : source) (v : vm) : vm :=
  set_stored (mkCode (Some src) (c_bcode (v_stored v)) (c_index (v_stored v))) v.

(* vm_new_program, Basic/run.c:214-219 *)
Definition vm_new_program : X unit :=
  mod_vm (fun v =>
    stored_program_changed
      (match stored_source v with Some _ => set_source clear_source v | None => v end)).

(* vm_delete_source_line, Basic/run.c:223-232 *)
Definition vm_delete_source_line (num : N) : X unit :=
  mod_vm (fun v =>
    match stored_source v with
    | Some src =>
        match find_source_linenum src num with
        | Some i => stored_program_changed (set_source (delete_source_line src i) v)
        | None => v
        end
    | None => v
    end).

(* vm_enter_source_line, Basic/run.c:236-241 *)
Definition vm_enter_source_line (num : N) (text : bytes) : X unit :=
  let* v := get_vm in
  let src := match stored_source v with Some x => x | None => [] end in
  match enter_source_line src num text with
  | SOk src' => mod_vm (fun w => stored_program_changed (set_source src' w))
  | SExit _ => xexit
  | SNoFuel => fun s => XNoFuel s
  end.

(* vm_save_source, Basic/run.c:243-247, save_source_file, Basic/source.c:191-201 *)
Definition vm_save_source (name : bytes) : X bool :=
  fun s =>
    match stored_source (ss_vm s) with
    | None => XOk false s
    | Some src =>
        XOk true (mkSess (ss_vm s) (put_file (ss_fs s) name (save_source src))
                         (ss_diag s) (ss_brk s) (ss_os s))
    end.

(* vm_load_source, Basic/run.c:249-259, load_source_file, Basic/source.c:164-189 *)
Definition vm_load_source (name : bytes) : X bool :=
  fun s =>
    match ss_fs s name with
    | None => (say (DCannotOpen name) ;;; xret false) s
    | Some content =>
        match load_source content with
        | SOk src =>
            (mod_vm (fun v => stored_program_changed (set_source src v)) ;;; xret true) s
        | SExit _ => XExit s
        | SNoFuel => XNoFuel s
        end
    end.

(* run_program, Basic/run.c:267-280 *)
Definition run_program (E : env) (fuel : nat) : X unit :=
  let* v := get_vm in
  match stored_source v with
  | None => xret tt
  | Some _ =>
      let* ok := ensure_program_compiled in
      if ok then
        mod_vm (fun w => set_cs (mkCs (Some CStored) 0 0) (reset_control_state w)) ;;;
        with_run (run E fuel) tt
      else xret tt
  end.

(* run_immediate, Basic/run.c:284-309 *)
Definition run_immediate (E : env) (fuel : nat) (line : bytes) : X unit :=
  mod_vm (set_imm no_code) ;;;
  let* ok := ensure_program_compiled in
  if ok then
    let src := wrap_source_text line in
    let* bc := compile src false in
    match bc with
    | None => xret tt
    | Some b =>
        match bcode_index b src with
        | None => xexit
        | Some idx =>
            mod_vm (fun v => set_cs (mkCs (Some CImmediate) 0 0)
                              (set_data (v_pdata v) 0
                                (set_imm (mkCode (Some src) (Some b) (Some idx)) v))) ;;;
            with_run (run E fuel) tt ;;;
            let* v := get_vm in
            match immediate_state v with
            | None => xcrash
            | Some true => mod_vm reset_control_state
            | Some false => xret tt
            end
        end
    end
  else xret tt.

(* vm_continue at the prompt, Monitor/interactive.c:189 *)
Definition continue_program (E : env) (fuel : nat) : X bool :=
  with_run (vm_continue E fuel) true.
