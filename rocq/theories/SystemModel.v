(* Model of System/options.c, System/lbasic.c, Shared/stringuniq.c and
   Shared/stringlist.c: the command line and the modes that take a file. *)
From Verif Require Import Base Num SourceModel LineMapModel BcodeModel SymbolModel VmModel LexModel.
From Verif Require Import ParseModel SessionModel MonitorModel.

(* ---------- Shared/stringuniq.c ---------- *)

(* struct node, Shared/stringuniq.c:9-13; Leaf is the null pointer *)
Inductive tree :=
| Leaf
| Node (s : bytes) (left right : tree).

(* insert_node, Shared/stringuniq.c:32-42 *)
Fixpoint insert_node (n : tree) (s : bytes) : tree :=
  match n with
  | Leaf => Node s Leaf Leaf
  | Node t l r =>
      match stricmp s t with
      | Lt => Node t (insert_node l s) r
      | Gt => Node t l (insert_node r s)
      | Eq => n
      end
  end.

(* traverse_tree, Shared/stringuniq.c:44-50: the strings in the order in
   which the callback gets them *)
Fixpoint traverse_tree (n : tree) : list bytes :=
  match n with
  | Leaf => []
  | Node s l r => traverse_tree l ++ s :: traverse_tree r
  end.

(* ---------- Shared/stringlist.c ---------- *)

(* STRINGLIST, Shared/stringlist.h: strings[0..used-1]; the capacity is not
   represented *)
Definition stringlist := list bytes.

(* stringlist_append, Shared/stringlist.c:54-68: list and index *)
Definition stringlist_append (l : stringlist) (s : bytes) : stringlist * nat :=
  (l ++ [s], length l).

(* name_entry, Shared/stringlist.c:70-77 *)
Definition name_entry (l : stringlist) (s : bytes) : stringlist * nat :=
  match find_index (fun t => strieq t s) l with
  | Some i => (l, i)
  | None => stringlist_append l s
  end.

(* ---------- System/options.c ---------- *)

(* enum mode, System/options.h:10, without TEST_MODE (UNIT_TEST only) *)
Inductive mode := NO_MODE | LIST_MODE | LIST_NAMES_MODE | PARSE_MODE | CODE_MODE | RUN_MODE.

(* Options, System/options.h:12-23. op_srand: srand(time(NULL)) has been
   called. report_time needs HAS_TIMER, which is 0 on Linux. *)
Record opts := mkOpts {
  op_mode : mode;
  op_file : option bytes;
  op_anywhere : bool;
  op_version : bool;
  op_quiet : bool;
  op_memory : bool;
  op_trace_basic : bool;
  op_trace_for : bool;
  op_trace_log : bool;
  op_srand : bool
}.

(* init_options, System/options.c:13-15 *)
Definition init_options : opts :=
  mkOpts NO_MODE None false false false false false false false false.

Definition op_set_mode (m : mode) (o : opts) : opts :=
  mkOpts m (op_file o) (op_anywhere o) (op_version o) (op_quiet o) (op_memory o)
    (op_trace_basic o) (op_trace_for o) (op_trace_log o) (op_srand o).
Definition op_set_file (f : bytes) (o : opts) : opts :=
  mkOpts (op_mode o) (Some f) (op_anywhere o) (op_version o) (op_quiet o) (op_memory o)
    (op_trace_basic o) (op_trace_for o) (op_trace_log o) (op_srand o).
Definition op_set_flags (k v q m t f g z : bool) (o : opts) : opts :=
  mkOpts (op_mode o) (op_file o) (op_anywhere o || k) (op_version o || v) (op_quiet o || q)
    (op_memory o || m) (op_trace_basic o || t) (op_trace_for o || f) (op_trace_log o || g)
    (op_srand o || z).

(* Outcome of parse_options: OpHelp full: usage printed, process exits;
   OpUnrecognised and OpUnexpected: fatal error naming the argument. *)
Inductive optres :=
| OpOk (o : opts)
| OpHelp (full : bool)
| OpUnrecognised (arg : bytes)
| OpUnexpected (arg : bytes).

Definition is_arg (a : bytes) (l : list bytes) : bool := existsb (bytes_eqb a) l.

(* parse_options, System/options.c:19-69 *)
Fixpoint parse_options (o : opts) (argv : list bytes) : optres :=
  match argv with
  | [] => OpOk o
  | a :: r =>
      if is_arg a [lit "--help"; lit "-h"; lit "-?"; lit "/?"] then OpHelp false
      else if is_arg a [lit "--help-full"; lit "-hh"] then OpHelp true
      else if is_arg a [lit "--list"; lit "-l"] then parse_options (op_set_mode LIST_MODE o) r
      else if is_arg a [lit "--list-names"; lit "-n"] then parse_options (op_set_mode LIST_NAMES_MODE o) r
      else if is_arg a [lit "--parse"; lit "-p"] then parse_options (op_set_mode PARSE_MODE o) r
      else if is_arg a [lit "--code"; lit "-c"] then parse_options (op_set_mode CODE_MODE o) r
      else if is_arg a [lit "--run"; lit "-r"] then parse_options (op_set_mode RUN_MODE o) r
      else if is_arg a [lit "--keywords-anywhere"; lit "-k"]
      then parse_options (op_set_flags true false false false false false false false o) r
      else if is_arg a [lit "--quiet"; lit "-q"]
      then parse_options (op_set_flags false false true false false false false false o) r
      else if is_arg a [lit "--randomize"; lit "-z"]
      then parse_options (op_set_flags false false false false false false false true o) r
      else if is_arg a [lit "--report-memory"; lit "-m"]
      then parse_options (op_set_flags false false false true false false false false o) r
      else if is_arg a [lit "--trace-basic"; lit "-t"]
      then parse_options (op_set_flags false false false false true false false false o) r
      else if is_arg a [lit "--trace-for"; lit "-f"]
      then parse_options (op_set_flags false false false false false true false false o) r
      else if is_arg a [lit "--trace-log"; lit "-g"]
      then parse_options (op_set_flags false false false false false false true false o) r
      else if is_arg a [lit "--version"; lit "-v"]
      then parse_options (op_set_flags false true false false false false false false o) r
      else match a with
           | c :: _ =>
               if ceq c "-" then OpUnrecognised a
               else match op_file o with
                    | None => parse_options (op_set_file a o) r
                    | Some _ => OpUnexpected a
                    end
           | [] => match op_file o with
                   | None => parse_options (op_set_file a o) r
                   | Some _ => OpUnexpected a
                   end
           end
  end.

(* ---------- System/lbasic.c ---------- *)

(* print_version, System/lbasic.c:91-93 *)
Definition version_text : bytes :=
  puts (puts (lit "Legacy Basic 3.2.0 Copyright (c) 2022-24 Nigel Perks")).

(* %5u *)
Definition pad5 (s : bytes) : bytes := repeat SP (5 - length s) ++ s.

(* list_file, System/lbasic.c:158-165 *)
Definition list_file_text (src : source) : bytes :=
  concat (map (fun l => pad5 (dec_of_N (ln_num l)) ++ SP :: ln_text l ++ [NL]) src).

(* The names of a line, System/lbasic.c:175-183, inserted in the tree; None:
   the process exits; a newline token ends the loop and every other token
   takes a character, so the length of the text bounds the rounds. *)
Inductive names_out := NmOk (t : tree) | NmExit | NmNoFuel.

Fixpoint line_names (fuel : nat) (kw : bool) (names : tree) (rest : bytes) : names_out :=
  match fuel with
  | O => NmNoFuel
  | S f =>
      match lex_next kw rest with
      | LxExit => NmExit
      | LxTok t _ r =>
          if is_char NL t || is_kw K_REM t then NmOk names
          else line_names f kw (match t with T_ID w => insert_node names w | _ => names end) r
      end
  end.

Fixpoint source_names (kw : bool) (names : tree) (src : source) : names_out :=
  match src with
  | [] => NmOk names
  | l :: r =>
      match line_names (S (length (ln_text l))) kw names (ln_text l) with
      | NmOk n => source_names kw n r
      | x => x
      end
  end.

(* name_is_print_builtin, Basic/parse.c:576-578 *)
Definition name_is_print_builtin (name : bytes) : bool :=
  strieq name (lit "SPC") || strieq name (lit "TAB").

(* print_name, System/lbasic.c:193-200 *)
Definition print_name (name : bytes) : bytes :=
  (match find_builtin name with
   | Some _ => "*"%char
   | None => if name_is_print_builtin name then "="%char else SP
   end) :: SP :: name ++ [NL].

(* list_names, System/lbasic.c:169-191: the text printed, or None when the
   process exits *)
Definition list_names_text (kw : bool) (src : source) : option bytes :=
  match source_names kw Leaf src with
  | NmOk t => Some (concat (map print_name (traverse_tree t)))
  | _ => None
  end.

(* The outcome of main, System/lbasic.c:44-89. report_memory, the listing of
   --code (print_binst) and the text of --help are not modelled. *)
Inductive main_out :=
| MnUsage (full : bool)
| MnFatal
| MnVersion
| MnSession (r : xres unit)              (* the interactive monitor *)
| MnText (t : bytes)                     (* output of a listing mode *)
| MnCode (bc : option bcode)             (* --parse, --code; None: error exit *)
| MnCannotOpen
| MnExit
| MnCrash
| MnNoFuel
| MnRun (r : xres unit).

Definition seed_of (E : env) (o : opts) (v : vm) : vm :=
  if op_srand o then set_rand (u32 (e_time E 0)) 0 1 v else v.

Definition session_of (E : env) (o : opts) (stdin : bytes) (fs : files)
  (brk : list (option nat)) : sess :=
  mkSess (seed_of E o (new_vm (mkOpt (op_anywhere o) (op_trace_basic o) (op_trace_for o)) stdin))
    fs [] brk [].

(* process_file, System/lbasic.c:104-156 *)
Definition process_file (E : env) (fuel : nat) (o : opts) (file stdin : bytes) (fs : files)
  (brk : list (option nat)) : main_out :=
  match op_mode o with
  | NO_MODE | RUN_MODE =>
      MnRun ((let* ok := vm_load_source file in
              if ok then run_program E fuel else xret tt)%sess (session_of E o stdin fs brk))
  | m =>
      match fs file with
      | None => MnCannotOpen
      | Some content =>
          match load_source content with
          | SExit _ => MnExit
          | SNoFuel => MnNoFuel
          | SOk src =>
              match m with
              | LIST_MODE => MnText (list_file_text src)
              | LIST_NAMES_MODE =>
                  match list_names_text (op_anywhere o) src with
                  | Some t => MnText t
                  | None => MnExit
                  end
              | _ =>
                  match parse_source src (init_builtins new_symbol_table) (op_anywhere o) with
                  | PoOk bc _ _ => MnCode bc
                  | PoExit => MnExit
                  | PoCrash => MnCrash
                  | PoNoFuel => MnNoFuel
                  end
              end
          end
      end
  end.

(* main, System/lbasic.c:44-89, after the version text (printed unless
   --quiet, 61-62) *)
Definition main (E : env) (fuel : nat) (argv : list bytes) (stdin : bytes) (fs : files)
  (brk : list (option nat)) : main_out :=
  match parse_options init_options argv with
  | OpHelp full => MnUsage full
  | OpUnrecognised _ | OpUnexpected _ => MnFatal
  | OpOk o =>
      if op_version o then MnVersion
      else
        match op_file o with
        | Some f => process_file E fuel o f stdin fs brk
        | None =>
            match op_mode o with
            | NO_MODE =>
                MnSession
                  (((if op_quiet o then xret tt
                     else out (puts (puts (lit "Type HELP to list commands")))) ;;;
                    interact_loop E fuel (S (length stdin)))%sess (session_of E o stdin fs brk))
            | _ => MnFatal
            end
        end
  end.
