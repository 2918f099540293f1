(* C30: compiling a program. *)
From Verif Require Import Base Num SourceModel BcodeModel SymbolModel SymbolSpec LexModel LexSpec ParseModel GrammarSpec ValueSpec CompileProofs.
Local Open Scope nat_scope.

(* Compiling always ends: with the code of the program the grammar describes,
   or with a reported error, or - against the property - with the end of the
   interpreter, which takes a character that is not allowed or a DATA text
   that cannot be read, or a failed check, which takes a name the compiler
   knows but does not support. *)
Theorem C30_outcome : forall src st kw, fine st ->
  match parse_source src st kw with
  | PoOk (Some bc) e st' => e = None /\ compiled kw src st bc st'
  | PoOk None e st' => e <> None /\ fine st'
  | PoExit => exists l, In l src /\
      (~ Forall allowed (ln_text l) \/ exists L, later kw (T_NL, ln_text l) L /\ bad_item (snd L))
  | PoCrash => exists l L, In l src /\ later kw (T_NL, ln_text l) L /\ unsupported (fst L)
  | PoNoFuel => False
  end.
Proof. exact compile_outcome. Qed.
Print Assumptions C30_outcome.

(* The tables the interpreter starts from; those compiling leaves are in the
   theorem above. *)
Theorem C30_initial : fine (init_builtins new_symbol_table).
Proof. exact fine_init. Qed.
Print Assumptions C30_initial.

(* One marker for each source line, in order; pcode, in compiled, puts it
   before the code of the line. *)
Theorem C30_markers : forall kw src st bc st', compiled kw src st bc st' ->
  filter is_source_line (bc_inst bc) = map I_SOURCE_LINE (seq 0 (length src)).
Proof. exact compiled_markers. Qed.
Print Assumptions C30_markers.

(* The constants of compiled code are doubles and strings within the limit. *)
Theorem C20_compiled : forall kw src st bc st', compiled kw src st bc st' -> consts_ok bc.
Proof. exact compiled_consts. Qed.
Print Assumptions C20_compiled.

(* The two ways an error is not reported. *)
Theorem C30_exit_refuted : exists src, parse_source src (init_builtins new_symbol_table) false = PoExit.
Proof. exists [mkLine 10 (lit "PRINT " ++ ["200"%char] ++ [NL])]. vm_compute. reflexivity. Qed.
Print Assumptions C30_exit_refuted.
Theorem C30_crash_refuted : exists src, parse_source src (init_builtins new_symbol_table) false = PoCrash.
Proof. exists [mkLine 10 (lit "READ FIX" ++ [NL])]. vm_compute. reflexivity. Qed.
Print Assumptions C30_crash_refuted.

(* not vacuous *)
Definition ex_src : source :=
  [mkLine 10 (lit "FOR I=1 TO 3:A(I)=-I^2:NEXT" ++ [NL]); mkLine 20 (lit "IF A(2)<0 THEN PRINT A(2) ELSE GOTO 40" ++ [NL]);
   mkLine 30 (lit "DATA 1, two ,3" ++ [NL]); mkLine 40 (lit "END" ++ [NL])].
Example C30_ex_code : exists bc st', parse_source ex_src (init_builtins new_symbol_table) false = PoOk (Some bc) None st' /\
  compiled false ex_src (init_builtins new_symbol_table) bc st' /\ length (bc_inst bc) = 30.
Proof.
  pose proof (compile_outcome ex_src _ false fine_init) as H.
  destruct (parse_source ex_src (init_builtins new_symbol_table) false) as [[bc|] e st' | | |] eqn:E; try (vm_compute in E; discriminate E).
  exists bc, st'. destruct H as [-> H]. split; [reflexivity|]. split; [exact H|]. vm_compute in E. injection E as <- <-. reflexivity.
Qed.
Example C30_ex_error : exists e st', parse_source [mkLine 10 (lit "PRINT 1+" ++ [NL])] (init_builtins new_symbol_table) false = PoOk None (Some e) st'.
Proof. eexists. eexists. vm_compute. reflexivity. Qed.
