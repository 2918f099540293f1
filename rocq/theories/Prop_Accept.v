(* The compiler accepts the programs of the grammar (C23, C30). *)
From Coq Require Import Lia ZifyBool ZifyNat ZifyN SpecFloat.
From Verif Require Import Base BaseLemmas Num SourceModel BcodeModel SymbolModel SymbolSpec LexModel LexSpec ParseModel GrammarSpec VmModel SessionModel MonitorModel SessionSpec RunSpec CompileProofs CompleteLines Examples Prop_Session Prop_Step.
Local Open Scope nat_scope.
Local Open Scope list_scope.

(* A program whose lines are statements of the grammar is accepted, and its code
   is the code of these statements, if its text is made of the characters the
   language has, and the exponents and the two sides of the comparisons have the
   right types. *)
Theorem C23_accepts : forall src st kw xss st1, fine st -> Forall (fun l => Forall allowed (ln_text l)) src ->
  program_is kw st (map ln_text src) xss st1 -> Forall (Forall no_bad) xss ->
  exists bc, parse_source src st kw = PoOk (Some bc) None (sym_make_unknown_array st1) /\ bc_inst bc = pcode 0 xss /\ bc_has_data bc = existsb is_data (pcode 0 xss).
Proof. exact source_goes. Qed.
Print Assumptions C23_accepts.

(* If an error is reported the program is not one of the grammar. *)
Theorem C23_rejects : forall src st kw e st', fine st -> Forall (fun l => Forall allowed (ln_text l)) src ->
  parse_source src st kw = PoOk None e st' -> forall xss st1, program_is kw st (map ln_text src) xss st1 -> ~ Forall (Forall no_bad) xss.
Proof. exact source_rejected. Qed.
Print Assumptions C23_rejects.

(* However the statements of the program are told apart, the code is the same:
   the grammar is not ambiguous. *)
Theorem C23_unambiguous : forall src st kw xss1 st1 xss2 st2, fine st -> Forall (fun l => Forall allowed (ln_text l)) src ->
  program_is kw st (map ln_text src) xss1 st1 -> program_is kw st (map ln_text src) xss2 st2 -> Forall (Forall no_bad) xss1 -> Forall (Forall no_bad) xss2 ->
  pcode 0 xss1 = pcode 0 xss2 /\ sym_make_unknown_array st1 = sym_make_unknown_array st2.
Proof. exact source_unique. Qed.
Print Assumptions C23_unambiguous.

(* ---------- not vacuous ---------- *)

Example C23_accepts_ex : fine (init_builtins new_symbol_table) /\ Forall (fun l => Forall allowed (ln_text l)) ex_squares_src /\
  program_is (o_anywhere ex_opt) (init_builtins new_symbol_table) (map ln_text ex_squares_src) ex_squares_stmts ex_table1 /\ Forall (Forall no_bad) ex_squares_stmts.
Proof.
  split; [exact fine_init|]. split; [repeat constructor; vm_compute; auto|]. split; [|repeat constructor].
  econstructor; [apply ex_line1|]. econstructor; [apply ex_line2|]. econstructor; [apply ex_line3|]. econstructor; [apply ex_line4|]. constructor.
Qed.
(* an expression the grammar does not have *)
Example C23_rejects_ex : exists e st', parse_source [mkLine 10 (lit "PRINT (2+)")] (init_builtins new_symbol_table) true = PoOk None e st'.
Proof. eexists _, _. vm_compute. reflexivity. Qed.
