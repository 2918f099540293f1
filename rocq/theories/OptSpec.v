(* What the command line means (C35) and what --list-names prints (C34). *)
From Coq Require Import Sorted.
From Verif Require Import Base BaseLemmas SourceModel SymbolSpec LexModel LexSpec MonitorModel SystemModel.

(* ---------- C35 ---------- *)

Inductive flag := FAnywhere | FVersion | FQuiet | FMemory | FTraceBasic | FTraceFor | FTraceLog | FRandomize.
Definition flag_of (o : opts) (f : flag) : bool :=
  match f with
  | FAnywhere => op_anywhere o | FVersion => op_version o | FQuiet => op_quiet o | FMemory => op_memory o
  | FTraceBasic => op_trace_basic o | FTraceFor => op_trace_for o | FTraceLog => op_trace_log o | FRandomize => op_srand o
  end.

Inductive aword := WHelp (full : bool) | WMode (m : mode) | WFlag (f : flag) | WUnknown | WFile.

Definition option_words : list (bytes * aword) :=
  [ (lit "--help", WHelp false); (lit "-h", WHelp false); (lit "-?", WHelp false); (lit "/?", WHelp false);
    (lit "--help-full", WHelp true); (lit "-hh", WHelp true);
    (lit "--list", WMode LIST_MODE); (lit "-l", WMode LIST_MODE);
    (lit "--list-names", WMode LIST_NAMES_MODE); (lit "-n", WMode LIST_NAMES_MODE);
    (lit "--parse", WMode PARSE_MODE); (lit "-p", WMode PARSE_MODE);
    (lit "--code", WMode CODE_MODE); (lit "-c", WMode CODE_MODE);
    (lit "--run", WMode RUN_MODE); (lit "-r", WMode RUN_MODE);
    (lit "--keywords-anywhere", WFlag FAnywhere); (lit "-k", WFlag FAnywhere);
    (lit "--quiet", WFlag FQuiet); (lit "-q", WFlag FQuiet);
    (lit "--randomize", WFlag FRandomize); (lit "-z", WFlag FRandomize);
    (lit "--report-memory", WFlag FMemory); (lit "-m", WFlag FMemory);
    (lit "--trace-basic", WFlag FTraceBasic); (lit "-t", WFlag FTraceBasic);
    (lit "--trace-for", WFlag FTraceFor); (lit "-f", WFlag FTraceFor);
    (lit "--trace-log", WFlag FTraceLog); (lit "-g", WFlag FTraceLog);
    (lit "--version", WFlag FVersion); (lit "-v", WFlag FVersion) ].

(* what an argument is: one of the words above; otherwise with a leading
   hyphen unknown, without one a file name *)
Inductive arg_is (a : bytes) : aword -> Prop :=
| Ai_word w : In (a, w) option_words -> arg_is a w
| Ai_unknown : (forall w, ~ In (a, w) option_words) -> begins_with (eq "-"%char) a -> arg_is a WUnknown
| Ai_file : (forall w, ~ In (a, w) option_words) -> ~ begins_with (eq "-"%char) a -> arg_is a WFile.

(* the last element satisfying P is x *)
Definition last_such {A} (P : A -> Prop) (l : list A) (x : A) : Prop :=
  exists p q, l = p ++ x :: q /\ P x /\ Forall (fun y => ~ P y) q.

(* no help, nothing unknown, at most one file name *)
Definition is_file (a : bytes) : Prop := arg_is a WFile.
Definition good_args (argv : list bytes) : Prop :=
  Forall (fun a => ~ arg_is a WUnknown /\ forall full, ~ arg_is a (WHelp full)) argv /\
  forall p q r a b, argv = p ++ a :: q ++ b :: r -> is_file a -> is_file b -> False.

Record says (argv : list bytes) (o : opts) : Prop := {
  sy_flags : forall f, flag_of o f = true <-> exists a, In a argv /\ arg_is a (WFlag f);
  sy_file : forall a, op_file o = Some a <-> In a argv /\ is_file a;
  sy_mode : forall m, m <> NO_MODE -> op_mode o = m <-> exists a, arg_is a (WMode m) /\ last_such (fun b => exists m', arg_is b (WMode m')) argv a;
  sy_no_mode : op_mode o = NO_MODE <-> Forall (fun a => forall m, ~ arg_is a (WMode m)) argv
}.

Definition same_last_mode (argv argv' : list bytes) : Prop :=
  forall a, last_such (fun b => exists m, arg_is b (WMode m)) argv a <-> last_such (fun b => exists m, arg_is b (WMode m)) argv' a.

(* ---------- C34 ---------- *)

(* The names of a line: the tokens up to REM or the end of the line. *)
Inductive names_of (kw : bool) : bytes -> list bytes -> Prop :=
| Nm_end s t start r : lex_next kw s = LxTok t start r -> t = T_NL \/ t = T_KW K_REM -> names_of kw s []
| Nm_name s w start r l : lex_next kw s = LxTok (T_ID w) start r -> names_of kw r l -> names_of kw s (w :: l)
| Nm_other s t start r l : lex_next kw s = LxTok t start r -> t <> T_NL -> t <> T_KW K_REM -> (forall w, t <> T_ID w) ->
    names_of kw r l -> names_of kw s l.

Inductive names_all (kw : bool) : list bytes -> list bytes -> Prop :=
| Na_nil : names_all kw [] []
| Na_cons t l ts ls : names_of kw t l -> names_all kw ts ls -> names_all kw (t :: ts) (l ++ ls).

(* in alphabetical order, ignoring case, without repetition *)
Definition alphabetical (l : list bytes) : Prop := StronglySorted (fun a b => stricmp a b = Lt) l.

(* x occurs in the list, and no earlier element is the same name as x *)
Definition first_spelling (l : list bytes) (x : bytes) : Prop :=
  exists p q, l = p ++ x :: q /\ Forall (fun y => ~ same_name y x) p.

(* one line of the output: the mark, a blank and the name *)
Definition name_line (x : bytes) (line : bytes) : Prop :=
  (line = lit "* " ++ x ++ [NL] /\ builtin_name x) \/
  (line = lit "= " ++ x ++ [NL] /\ ~ builtin_name x /\ (same_name x (lit "SPC") \/ same_name x (lit "TAB"))) \/
  (line = lit "  " ++ x ++ [NL] /\ ~ builtin_name x /\ ~ same_name x (lit "SPC") /\ ~ same_name x (lit "TAB")).
