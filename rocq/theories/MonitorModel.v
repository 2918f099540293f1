(* Model of Monitor/interactive.c: the prompt and its commands. *)
From Verif Require Import Base Num SourceModel LineMapModel BcodeModel SymbolModel VmModel LexModel.
From Verif Require Import ParseModel SessionModel.
Local Open Scope sess_scope.

(* PAGE, Monitor/interactive.c:21 *)
Definition PAGE : N := 24.

(* enum command_tokens, Monitor/interactive.c:23-35 *)
Inductive cmd :=
| C_BYE | C_COMPILE | C_CONT | C_HELP | C_LIST | C_LOAD | C_NEW | C_RENUM | C_RUN | C_SAVE.

(* commands, Monitor/interactive.c:37-53 *)
Definition commands : list (bytes * cmd) :=
  [ (lit "BYE", C_BYE); (lit "COMPILE", C_COMPILE); (lit "CONT", C_CONT); (lit "HELP", C_HELP);
    (lit "LIST", C_LIST); (lit "LOAD", C_LOAD); (lit "NEW", C_NEW); (lit "RENUM", C_RENUM);
    (lit "RENUMBER", C_RENUM); (lit "RUN", C_RUN); (lit "SAVE", C_SAVE) ].

(* find_command, Monitor/interactive.c:55-62. Equal lengths and a
   case-insensitive comparison of that length. *)
Definition find_command (word : bytes) : option cmd :=
  option_map snd
    (find (fun p => Nat.eqb (length (fst p)) (length word) && striprefix (fst p) word) commands).

Definition puts (s : bytes) : bytes := s ++ [NL].

(* help, Monitor/interactive.c:64-76 *)
Definition help_text : bytes :=
  puts (lit "BYE                       quit to operating system") ++
  puts (lit "COMPILE                   compile program to check syntax without running") ++
  puts (lit "CONT                      continue program after STOP or break") ++
  puts (lit "HELP                      show this help") ++
  puts (lit "LIST [[start]-[end]][P]   list current file") ++
  puts (lit "LOAD ""program.bas""        load source from file") ++
  puts (lit "NEW                       wipe current file from memory") ++
  puts (lit "RENUM [new[,old[,inc]]]   renumber program lines") ++
  puts (lit "RUN                       run current file as a Basic program") ++
  puts (lit "SAVE ""program.bas""        save current file under given name") ++
  puts (lit "*DIR                      run DIR or other operating system command").

(* skip_space, Monitor/interactive.c:433-437 *)
Definition skip_space (s : bytes) : bytes := drop_while is_blank s.

(* *p == '\0' || *p == '\n' *)
Definition at_eol (s : bytes) : bool :=
  match s with [] => true | c :: _ => ceq c NL end.

(* check_eol, Monitor/interactive.c:424-431 *)
Definition check_eol (s : bytes) : X bool :=
  if at_eol (skip_space s) then xret true else say DSyntax ;;; xret false.

Definition starts_digit (s : bytes) : bool :=
  match s with c :: _ => is_digit c | [] => false end.
Definition starts_with (c : ascii) (s : bytes) : bool :=
  match s with d :: _ => ceq d c | [] => false end.

(* demarcate_string, Monitor/interactive.c:449-463: the string and what
   follows it *)
Definition demarcate_string (s : bytes) : option (bytes * bytes) :=
  match skip_space s with
  | c :: r =>
      if ceq c DQ then
        let (w, t) := span (fun d => negb (ceq d NL || ceq d DQ)) r in
        match t with
        | d :: t' => if ceq d DQ then Some (w, t') else Some (w, [])
        | [] => Some (w, [])
        end
      else None
  | [] => None
  end.

(* an optional number, Monitor/interactive.c:250-251 etc. *)
Definition opt_num (s : bytes) (dflt : N) : N * bytes :=
  if starts_digit s then read_u32 s else (dflt, s).

(* get_list_numbers, Monitor/interactive.c:244-262: start, end, rest *)
Definition get_list_numbers (s : bytes) : N * N * bytes :=
  let p := skip_space s in
  let (start, p1) := if starts_digit p then let (n, r) := read_u32 p in (n, skip_space r)
                     else (0%N, p) in
  if starts_with "-" p1 then
    let (end_, p2) := opt_num (skip_space (tl p1)) UINT_MAX in (start, end_, p2)
  else (start, UINT_MAX, p1).

(* get_renum_numbers, Monitor/interactive.c:264-289 *)
Definition get_renum_numbers (s : bytes) : N * N * N * bytes :=
  let p := skip_space s in
  let (new, p1) := if starts_digit p then let (n, r) := read_u32 p in (n, skip_space r)
                   else (10%N, p) in
  let (old, p2) := if starts_with "," p1 then opt_num (skip_space (tl p1)) 1 else (1%N, p1) in
  let (inc, p3) := if starts_with "," p2 then opt_num (skip_space (tl p2)) 10 else (10%N, p2) in
  (new, old, inc, p3).

(* get_page_flag, Monitor/interactive.c:291-300 *)
Definition get_page_flag (s : bytes) : bool * bytes :=
  match skip_space s with
  | c :: r => if ceq (to_lower c) "p" then (true, r) else (false, c :: r)
  | [] => (false, [])
  end.

(* await_newline, Monitor/interactive.c:410-415: the input left *)
Fixpoint after_newline (s : bytes) : bytes :=
  match s with
  | [] => []
  | c :: r => if ceq c NL then r else after_newline r
  end.
Definition await_newline : X unit :=
  mod_vm (fun v => set_input (v_input v) (v_inp v) (v_input_pc v) (after_newline (v_in v)) v).

(* list, Monitor/interactive.c:306-327. An interrupt while listing is not
   modelled (it cuts the listing short). *)
Fixpoint list_loop (src : source) (start end_ : N) (page : bool) (count : N) : X unit :=
  match src with
  | [] => xret tt
  | l :: r =>
      if (end_ <? ln_num l)%N then xret tt
      else if (start <=? ln_num l)%N then
        out (line_text l) ;;;
        let count' := u32 (count + 1) in
        (if page && (count' mod PAGE =? PAGE - 1)%N && match r with [] => false | _ => true end
         then await_newline else out [NL]) ;;;
        list_loop r start end_ page count'
      else list_loop r start end_ page count
  end.

Definition list_program (start end_ : N) (page : bool) : X unit :=
  let* v := get_vm in
  match stored_source v with
  | Some src => list_loop src start end_ page 0
  | None => xret tt
  end.

(* ---------- RENUM ---------- *)

(* The first loop of renumber, Monitor/interactive.c:340-360. src is the
   part not yet visited; the result is the numbered lines, the map, and the
   error that stopped the loop, if any. *)
Fixpoint renum_lines (src : source) (map : linemap) (new old inc prev : N)
  : source * linemap * option diag :=
  match src with
  | [] => ([], map, None)
  | l :: r =>
      let insert k v := match insert_line_mapping map k v with Some m => m | None => map end in
      if (old <=? ln_num l)%N then
        if (new <? prev)%N then (src, map, Some (DRenumber (ln_num l) new prev))
        else
          let '(r', m, e) := renum_lines r (insert (ln_num l) new) (u32 (new + inc)) old inc new in
          (mkLine new (ln_text l) :: r', m, e)
      else
        let '(r', m, e) := renum_lines r (insert (ln_num l) (ln_num l)) new old inc (ln_num l) in
        (l :: r', m, e)
  end.

(* takes_line_number, Monitor/interactive.c:398-408 *)
Definition takes_line_number (t : token) : bool :=
  match t with
  | T_KW K_ELSE | T_KW K_GOSUB | T_KW K_GOTO | T_KW K_RESTORE | T_KW K_THEN => true
  | _ => false
  end.

Inductive renum_out :=
| RnOk (text : bytes)
| RnBail (text : bytes)
| RnExit
| RnNoFuel.

(* The lines' text, Monitor/interactive.c:364-390. text is the whole line,
   t the current token, rest the text after it; text ends with rest. *)
Fixpoint renum_text (fuel : nat) (kw : bool) (map : linemap) (text : bytes) (t : token) (rest : bytes)
  : renum_out :=
  match fuel with
  | O => RnNoFuel
  | S f =>
      let go_on txt r :=
        match lex_next kw r with
        | LxTok t' _ r' => renum_text f kw map txt t' r'
        | LxExit => RnExit
        end in
      match t with
      | T_EOF => RnOk text
      | T_CHAR c => if ceq c NL then RnOk text else go_on text rest
      | _ =>
          if takes_line_number t then
            match lex_next kw rest with
            | LxExit => RnExit
            | LxTok (T_NUM x w) start r1 =>
                match num_line x with
                | Some n =>
                    match lookup_line_mapping map n with
                    | Some n' =>
                        let pos := length text - length start in
                        match source_replace [mkLine 0 text] 0 pos w (dec_of_N n') with
                        | Some [l] =>
                            match lex_next kw (skipn pos (ln_text l)) with
                            | LxExit => RnExit
                            | LxTok (T_NUM _ _) _ r2 => go_on (ln_text l) r2
                            | LxTok _ _ _ => RnBail (ln_text l)
                            end
                        | _ => RnBail text
                        end
                    | None => go_on text r1
                    end
                | None => go_on text r1
                end
            | LxTok _ _ r1 => go_on text r1
            end
          else go_on text rest
      end
  end.

Definition renum_line (kw : bool) (map : linemap) (text : bytes) : renum_out :=
  match lex_next kw text with
  | LxTok t _ rest => renum_text (S (S (length text))) kw map text t rest
  | LxExit => RnExit
  end.

(* the second loop of renumber, Monitor/interactive.c:363-391 *)
Inductive renums_out :=
| RsOk (src : source)
| RsBail (src : source)
| RsExit
| RsNoFuel.

Fixpoint renum_texts (kw : bool) (map : linemap) (src : source) : renums_out :=
  match src with
  | [] => RsOk []
  | l :: r =>
      match renum_line kw map (ln_text l) with
      | RnOk t =>
          match renum_texts kw map r with
          | RsOk r' => RsOk (mkLine (ln_num l) t :: r')
          | RsBail r' => RsBail (mkLine (ln_num l) t :: r')
          | x => x
          end
      | RnBail t => RsBail (mkLine (ln_num l) t :: r)
      | RnExit => RsExit
      | RnNoFuel => RsNoFuel
      end
  end.

(* renumber, Monitor/interactive.c:331-396 *)
Definition renumber (new old inc : N) : X unit :=
  let* v := get_vm in
  match stored_source v with
  | None => xret tt
  | Some src =>
      let '(src1, m, e) :=
        renum_lines src (new_line_map (N.of_nat (length src))) new old inc 0 in
      match e with
      | Some d => mod_vm (set_source src1) ;;; say d
      | None =>
          match renum_texts (o_anywhere (v_opt v)) m src1 with
          | RsOk src2 => mod_vm (set_source src2)
          | RsBail src2 => mod_vm (set_source src2) ;;; say DInternal
          | RsExit => xexit
          | RsNoFuel => fun s => XNoFuel s
          end
      end
  end.

(* ---------- the prompt ---------- *)

(* program_line, Monitor/interactive.c:141-152 *)
Definition program_line (s : bytes) : X unit :=
  let (num, p) := read_u32 s in
  if at_eol p then vm_delete_source_line num
  else vm_enter_source_line num (if starts_with SP p then tl p else p).

(* oscli, Monitor/interactive.c:417-422; the effect of system() is only that
   the command is recorded *)
Definition oscli (s : bytes) : X unit :=
  let p := skip_space s in
  if at_eol p then xret tt
  else fun x => XOk tt (mkSess (ss_vm x) (ss_fs x) (ss_diag x) (ss_brk x) (ss_os x ++ [p])).

(* command, Monitor/interactive.c:179-242: true to quit *)
Definition command (E : env) (fuel : nat) (c : cmd) (s : bytes) : X bool :=
  match c with
  | C_BYE => check_eol s
  | C_COMPILE => vm_compile ;;; xret false
  | C_CONT =>
      let* ok := continue_program E fuel in
      (if ok then xret tt else say DCannotContinue) ;;; xret false
  | C_HELP => out help_text ;;; xret false
  | C_NEW =>
      let* ok := check_eol s in
      (if ok then vm_new_program ;;; vm_clear_names else xret tt) ;;; xret false
  | C_LIST =>
      let '(start, end_, p) := get_list_numbers s in
      let (page, p1) := get_page_flag p in
      let* ok := check_eol p1 in
      (if ok then list_program start end_ page else xret tt) ;;; xret false
  | C_LOAD =>
      match demarcate_string s with
      | Some (name, p) =>
          let* ok := check_eol p in
          (if ok then vm_load_source name ;;; xret tt else say DFileName) ;;; xret false
      | None => say DFileName ;;; xret false
      end
  | C_SAVE =>
      match demarcate_string s with
      | Some (name, p) =>
          let* ok := check_eol p in
          (if ok then vm_save_source name ;;; xret tt else say DFileName) ;;; xret false
      | None => say DFileName ;;; xret false
      end
  | C_RENUM =>
      let '(new, old, inc, p) := get_renum_numbers s in
      let* ok := check_eol p in
      (if ok then renumber new old inc else xret tt) ;;; xret false
  | C_RUN => vm_clear_values ;;; run_program E fuel ;;; xret false
  end.

(* immediate, Monitor/interactive.c:156-171 *)
Definition immediate (E : env) (fuel : nat) (s : bytes) : X bool :=
  let (word, p) := span is_alpha s in
  match word, find_command word with
  | _ :: _, Some c => command E fuel c p
  | _, _ => run_immediate E fuel s ;;; xret false
  end.

(* interpret, Monitor/interactive.c:131-139; true to quit *)
Definition interpret (E : env) (fuel : nat) (line : bytes) : X bool :=
  let p := skip_space line in
  if starts_digit p then program_line p ;;; xret false
  else if starts_with "*" p then oscli (tl p) ;;; xret false
  else if at_eol p then xret false
  else immediate E fuel p.

(* get_line, Monitor/interactive.c:97-120; k bounds the number of rounds,
   each of which reads at least one character *)
Fixpoint get_line (k : nat) : X (option bytes) :=
  match k with
  | O => fun s => XNoFuel s
  | S k' =>
      out (lit "> ") ;;;
      let* v := get_vm in
      match fgets 128 (v_in v) with
      | None => xret None
      | Some (buf, rest) =>
          let set r := mod_vm (fun w => set_input (v_input w) (v_inp w) (v_input_pc w) r w) in
          let s := cstr buf in
          match last_opt s with
          | None => set rest ;;; get_line k'
          | Some c =>
              if ceq c NL then set rest ;;; xret (Some (firstn (length s - 1) s))
              else set (after_newline rest) ;;; say DTooLong ;;; get_line k'
          end
      end
  end.

(* the loop of interact, Monitor/interactive.c:89-90; k bounds the number of
   commands *)
Fixpoint interact_loop (E : env) (fuel k : nat) : X unit :=
  match k with
  | O => fun s => XNoFuel s
  | S k' =>
      let* v := get_vm in
      let* line := get_line (S (length (v_in v))) in
      match line with
      | None => xret tt
      | Some l =>
          let* quit := interpret E fuel l in
          if quit then xret tt else interact_loop E fuel k'
      end
  end.

(* interact, Monitor/interactive.c:81-93 *)
Definition new_session (o : options) (stdin : bytes) (fs : files) (brk : list (option nat)) : sess :=
  mkSess (new_vm o stdin) fs [] brk [].

Definition interact (E : env) (fuel : nat) (o : options) (quiet : bool)
  (stdin : bytes) (fs : files) (brk : list (option nat)) : xres unit :=
  ((if quiet then xret tt else out (puts (puts (lit "Type HELP to list commands")))) ;;;
   interact_loop E fuel (S (length stdin))) (new_session o stdin fs brk).
