(* Names in programs (C11). *)
From Coq Require Import Lia ZifyBool ZifyNat ZifyN SpecFloat.
From Verif Require Import Base BaseLemmas Num SourceModel BcodeModel SymbolModel SymbolSpec LexModel LexSpec ParseModel GrammarSpec NameSpec ParseProofs VmModel VmSpec MonitorModel SessionSpec
  PromptProofs ContProofs RunSpec CompileProofs NameProofs Examples Prop_Session Prop_Step Prop_Accept.
Local Open Scope nat_scope.
Local Open Scope list_scope.

(* C11: two occurrences of names in programs and lines, however far apart, mean
   the same object exactly when the names differ at most in letter case and are
   used alike, with or without parentheses; only the names of built-in functions
   mean the same with and without. *)
Theorem C11_occurrences : forall st k1 n1 pa1 s1 st1 st2 k2 n2 pa2 s2 st3,
  fine st -> paren_kind k1 -> paren_kind k2 -> occurs k1 n1 pa1 st s1 st1 -> changes st1 st2 -> fine st2 -> occurs k2 n2 pa2 st2 s2 st3 -> few_names st3 ->
  (s_id s1 = s_id s2 <-> same_name n1 n2 /\ (pa1 = pa2 \/ builtin_name n1)).
Proof. exact occurrences. Qed.
Print Assumptions C11_occurrences.

(* C11: writing names in other letters does not change the code of a program,
   nor the symbols but for the letters of their names. *)
Theorem C11_spelling : forall src src' st kw xss st1,
  fine st -> Forall (fun l => Forall allowed (ln_text l)) src -> Forall (fun l => Forall allowed (ln_text l)) src' ->
  Forall2 (fun l l' => same_text kw (ln_text l) (ln_text l')) src src' -> program_is kw st (map ln_text src) xss st1 -> Forall (Forall no_bad) xss ->
  exists bc bc' st2 st2', parse_source src st kw = PoOk (Some bc) None st2 /\ parse_source src' st kw = PoOk (Some bc') None st2' /\ bc_inst bc' = bc_inst bc /\ same_symbols st2 st2'.
Proof. exact spelling. Qed.
Print Assumptions C11_spelling.

(* C11: the compiler and the machine change the table of symbols only by using
   names, settling what names mean, and changing values, so the theorems on
   tables hold in all sessions. *)
Theorem C11_compiling : forall src st kw bc e st', fine st -> parse_source src st kw = PoOk bc e st' -> fine st' /\ changes st st'.
Proof. exact compiling_changes. Qed.
Print Assumptions C11_compiling.

Theorem C11_running : forall o s u E l w, session o any_line s -> run_called s u -> runs E u l w -> table (v_st u) /\ changes (v_st u) (v_st w).
Proof. exact running_changes. Qed.
Print Assumptions C11_running.

(* ---------- not vacuous ---------- *)

Definition ex_squares_lower : source := [mkLine 10 (lit "for i=1 to 3"); mkLine 20 (lit "Print I*i;"); mkLine 30 (lit "NEXT"); mkLine 40 (lit "STOP")].
Ltac same_tok := eapply St_token; [vm_compute; reflexivity | vm_compute; reflexivity | first [apply Sp_same | apply Sp_name; vm_compute; reflexivity] | discriminate |].
Example C11_spelling_ex : Forall2 (fun l l' => same_text false (ln_text l) (ln_text l')) ex_squares_src ex_squares_lower /\ Forall (fun l => Forall allowed (ln_text l)) ex_squares_lower /\
  ~ same_text false (lit "PRINT A") (lit "PRINT B").
Proof.
  split; [|split; [repeat constructor; vm_compute; auto|]].
  - constructor; [cbn [ln_text ex_squares_src]; do 6 same_tok; apply St_same|]. constructor; [cbn [ln_text]; do 5 same_tok; apply St_same|].
    constructor; [apply St_same|]. constructor; [apply St_same|]. constructor.
  - intros H. inversion H as [|a b t u a' b' E1 E2 S D T]; subst. vm_compute in E1, E2. injection E1 as <- <-. injection E2 as <- <-.
    inversion T as [|a b t u a' b' E1 E2 S2 D2 T2]; subst. vm_compute in E1, E2. injection E1 as <- <-. injection E2 as <- <-. inversion S2 as [|x y N]; subst. discriminate N.
Qed.
Example C11_running_ex : session ex_opt any_line ex_entered /\ run_called ex_entered ex_called.
Proof. split; [apply ex_any; vm_compute; reflexivity|exact ex_calls]. Qed.
