(* The command line (C35) and the listing of names (C34). *)
From Coq Require Import Lia Sorted Permutation.
From Verif Require Import Base BaseLemmas SourceModel SymbolModel SymbolSpec LexModel LexSpec MonitorModel SystemModel OptSpec OptProofs.
Local Open Scope nat_scope.

(* ---------- C35 ---------- *)

(* Acceptable arguments give options that say just what the arguments say. *)
Theorem C35_accepted : forall argv, good_args argv -> exists o, parse_options init_options argv = OpOk o /\ says argv o.
Proof. exact options_good. Qed.
Print Assumptions C35_accepted.

(* What the arguments say does not depend on their order, except that the
   last of the modes counts. *)
Theorem C35_order : forall argv argv' o, Permutation argv argv' -> same_last_mode argv argv' ->
  parse_options init_options argv = OpOk o -> parse_options init_options argv' = OpOk o.
Proof. exact options_order. Qed.
Print Assumptions C35_order.

(* Otherwise the first argument that does not fit decides: help, an unknown
   option or a second file name. *)
Theorem C35_rejected : forall argv, ~ good_args argv -> exists p a r, argv = p ++ a :: r /\ good_args p /\
  match parse_options init_options argv with
  | OpOk _ => False
  | OpHelp full => arg_is a (WHelp full)
  | OpUnrecognised b => b = a /\ arg_is a WUnknown
  | OpUnexpected b => b = a /\ is_file a /\ Exists is_file p
  end.
Proof. exact options_rejected. Qed.
Print Assumptions C35_rejected.

Example C35_example : good_args [lit "--quiet"; lit "prog.bas"; lit "-r"; lit "-l"] /\
  exists o, parse_options init_options [lit "--quiet"; lit "prog.bas"; lit "-r"; lit "-l"] = OpOk o /\
    op_mode o = LIST_MODE /\ op_quiet o = true /\ op_file o = Some (lit "prog.bas").
Proof.
  split; [apply (ok_good _ (mkOpts LIST_MODE (Some (lit "prog.bas")) false false true false false false false false)); reflexivity|].
  eexists. split; [reflexivity | auto].
Qed.

(* ---------- C34 ---------- *)

(* The listing has one line for each name, in alphabetical order, with the
   spelling of its first use. It fails only if the lexer stops. *)
Theorem C34_names : forall kw src names, names_all kw (map ln_text src) names ->
  exists l lines, alphabetical l /\ (forall x, In x l <-> first_spelling names x) /\ Forall2 name_line l lines /\
    list_names_text kw src = Some (concat lines).
Proof. exact list_names_ok. Qed.
Print Assumptions C34_names.
Theorem C34_exists : forall kw src, Forall (fun l => Forall allowed (ln_text l)) src -> exists names, names_all kw (map ln_text src) names.
Proof. exact names_exist. Qed.
Print Assumptions C34_exists.

Theorem C34_stops : forall kw src, (forall names, ~ names_all kw (map ln_text src) names) -> list_names_text kw src = None.
Proof. exact list_names_none. Qed.
Print Assumptions C34_stops.

Example C34_example : list_names_text false [mkLine 10 (lit "b=LEN(A$)+B : REM c"); mkLine 20 (lit "PRINT TAB(a);B2")] =
  Some (lit "  a" ++ [NL] ++ lit "  A$" ++ [NL] ++ lit "  b" ++ [NL] ++ lit "  B2" ++ [NL] ++ lit "* LEN" ++ [NL] ++ lit "= TAB" ++ [NL]).
Proof. vm_compute. reflexivity. Qed.
