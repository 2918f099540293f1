# Formal model of Legacy BASIC in Rocq (Coq 8.16.1)

Source modelled: nigelperks/LegacyBasic (C11), read as text in /repo.
All citations of files and lines in the `.v` files refer to that tree.

## Layout of rocq/theories

Model files (definitions only, each citing the code it models):

| file | models |
| --- | --- |
| `Base.v` | bytes, C strings, ctype in the C locale, unsigned wrap-around, strcmp/strcasecmp |
| `Num.v` | IEEE-754 doubles (`Coq.Floats.SpecFloat`, 53/1024), floor, conversions, `strtod`, `printf("%g")` |
| `SourceModel.v` | Basic/source.c: program text, entering and deleting lines, loading and saving |
| `LineMapModel.v` | Basic/linemap.c: hash table from line numbers to positions |
| `ArrayModel.v` | Basic/arrays.c |
| `BcodeModel.v` | Basic/bcode.[ch], Basic/emit.c, Basic/def.c: the intermediate code |
| `SymbolModel.v` | Basic/symbol.c, Shared/hash.c, Basic/init.c, Basic/builtin.c |
| `LexModel.v` | Basic/token.c, Basic/lexer.c |
| `ParseModel.v` | Basic/parse.c: the compiler |
| `VmModel.v` | Basic/run.c: the machine, every instruction |
| `SessionModel.v` | Basic/run.c: `run_program`, `run_immediate`, `vm_continue`, recompilation |
| `MonitorModel.v` | Monitor/interactive.c: the prompt and its commands |
| `SystemModel.v` | System/options.c, System/lbasic.c, Shared/stringuniq.c, Shared/stringlist.c |

`*Spec.v` files hold the small specifications the theorems are stated with.
`*Proofs.v`, `*Lemmas.v`, `StoreFrames.v` and `VmTyping.v` hold lemmas.
`Prop_*.v` hold the property theorems (proved by `exact lemma`), examples that
meet their hypotheses, and `Print Assumptions`. `Examples.v` holds the concrete
machines used by the examples.

## Modelling decisions

* Every C function becomes a total Gallina function. A function that mutates
  through a pointer returns the new value.
* Outcomes are explicit: normal result, run-time error (longjmp to the run
  loop), parse error, process exit (`exit()` in the lexer or source loader),
  *undefined behaviour or failed assert* (`Crash`, `PoCrash`, `XCrash`), and fuel
  exhaustion. They are different constructors; no theorem treats one as another.
* Loops without a structural bound (the run loop, the parser's recursion, the
  RND retry loop, the prompt) take explicit fuel; running out of fuel is its own
  outcome. For the compiler fuel is shown to suffice (C30).
* `unsigned` values carry their wrap-around (`mod 2^32`, `2^16`, `2^8`) wherever
  the C code stores or computes them in that width and a user value can reach it
  (line numbers, array sizes, parameter counts, symbol identifiers, columns).
* `double` is `spec_float` with precision 53 and emax 1024, i.e. exact IEEE
  arithmetic with round-to-nearest-even. The sign and payload of NaN are not
  modelled. Specifications speak about the exact rational value of a double
  (`NumSpec.v`).
* libm (`pow sin cos tan atan exp log`), the random sequence for each seed, the
  clock, the contents of stdin and of files and the moments of Ctrl-C are
  parameters (an environment record and a schedule), universally quantified.
* Memory allocation never fails. Freeing is not modelled except where a freed
  object could still be referenced: code that is thrown away leaves places
  (`coderef`) that then refer to nothing, and using one is `Crash`.
* Interrupts are looked at between instructions, as in the code. Ctrl-C during
  LIST is not modelled. A refused CONT consumes one entry of the interrupt
  schedule.
* `system()` for lines starting with `*` is only recorded.

## Properties: what is modelled and how it is proved

Statements are in `properties.jsonl`, theorem names and remarks in
`MANIFEST.json`.

| id | specification | theorems in | method |
| --- | --- | --- | --- |
| C01 | `SourceSpec`: map from numbers to texts | `Prop_Source` | refinement by induction over histories; sortedness |
| C02 | round trip | `Prop_Source` | induction over lines; guard shown exact |
| C03 | `SourceSpec`: splitting at newlines | `Prop_Source` | equivalence with the splitting specification |
| C04 | `MonSpec`: relation on LIST texts | `Prop_Monitor` | equality with `filter`; relation on typed text |
| C05 | `RenumSpec` | `Prop_Renum` | induction on the renumbered range, token by token comparison; refutations |
| C06 | `LineMapSpec`: last entry wins | `Prop_LineMap` | refinement over insert histories |
| C07 | `LineSpec` | `Prop_Lines`, `Prop_Session` | compiler invariant on the line table; step lemmas |
| C08–C10 | `ArraySpec`, `StoreSpec`: arrays as functions of subscripts | `Prop_Array`, `Prop_Store` | offset injective and in bounds; refinement; frame lemmas for whole executions; refuted at 2^32-1 and for 3 subscripts |
| C11 | `SymbolSpec`, `NameSpec` | `Prop_Symbol`, `Prop_Names` | refinement of the hash chains to lookup by upper-cased name; two occurrences of names in a program mean the same object iff the names match up to case and are used alike; programs that differ in the case of names compile to the same code (`NameProofs`); the compiler and the machine make only the table changes the theorems range over; refuted past 65536 symbols |
| C12 | `SymbolSpec`, `SessionSpec` | `Prop_Symbol`, `Prop_Store`, `Prop_Session` | equation on tables; all sessions for RUN |
| C13 | `VmSpec`: log of calls | `Prop_Control` | invariant of executions |
| C14 | `ForSpec` | `Prop_For` | step lemmas, invariant of executions, exact sums of integers |
| C15 | `VmSpec` | `Prop_Control` | case analysis on exact values of doubles |
| C16 | `GrammarSpec`, `LineSpec` | `Prop_Lines` | pairing of IF and ELSE in compiled lines |
| C17 | `FnSpec`, `EvalSpec` | `Prop_Fn`, `Prop_Eval` | invariant while a body runs; evaluation against an evaluator |
| C18 | `DataSpec`: remaining items; `GrammarSpec.datum_is`, `gdata`: the items of a text | `Prop_Data`, `Prop_Datum` | refinement of the DATA position to the list of items left |
| C19 | `PrintSpec`: column after text | `Prop_Print` | invariant of executions; refuted with INPUT |
| C20, C22 | `OpSpec` | `Prop_Ops` | equations against list functions and `Z` bit operations; exact values |
| C21 | `VmSpec` | `Prop_Control` | invariant of executions of arbitrary code |
| C23 | `GrammarSpec`, `TypeSpec`, `EvalSpec` | `Prop_Eval`, `Prop_Accept` | compiler against the grammar, sound and complete (`ParseProofs`, `StmtProofs`, `Complete*`); evaluation against an evaluator, by induction on the expression |
| C24 | `InputSpec`: fields of the lines typed | `Prop_Input` | scanning of numbers stops at commas; induction over the lines typed, machine by C38; refuted for elements given no number |
| C25–C28 | `SessionSpec` | `Prop_Session` | invariant of all sessions at the prompt; simulation between machines a program cannot tell apart (`AlikeProofs`) |
| C29 | `LexSpec`: how a token is spelled | `Prop_Lex` | soundness and completeness of the tokenizer |
| C30 | `GrammarSpec`: programs and their code | `Prop_Parse` | fuel bound; soundness of the parser for the grammar |
| C31 | `SafeSpec`: internal errors, places of statements, orderly sessions | `Prop_Safe` | typing of code by stack effect, invariant of executions and of the states at the prompt, the line that is traced is one of the source, also of what is pending at the prompt; refuted for CONT and INPUT |
| C32 | `TextNumSpec`: digits by place, nearest double, the texts that are numbers | `Prop_Number` | rounding proved nearest, ties to even, for all quotients (`RoundProofs`); scanner sound and complete; digits of exact quotients; refuted for the negative zero |
| C33 | `OpSpec` | `Prop_Ops` | quotient below one; two executions compared |
| C34 | `OptSpec`: sorted list without duplicates | `Prop_Options` | search-tree invariant |
| C35 | `OptSpec`: what the arguments say | `Prop_Options` | induction over the arguments |
| C36 | `MonSpec`: meaning of a line | `Prop_Monitor` | case analysis over all texts |
| C37 | `VarSpec` | `Prop_Var` | frame lemmas, induction over executions |
| C38 | `StepSpec`, `EvalSpec`, `RunSpec`: what statements do | `Prop_Step` | simulation of each statement by its code, induction over the statements performed |
| C39 | `TalkSpec`: the conversation, by lines of the input | `Prop_Talk` | induction over the rounds; interpreting a line leaves a suffix of the input |
| C40 | `TalkSpec`: LOAD and RUN typed one after the other | `Prop_Talk` | unfolding both; a new symbol table has no values to clear |
| C41 | `ArithSpec`: the exact result as a fraction, nearest doubles, the middle between neighbours for roots | `Prop_Arith` | the rounding of `SpecFloat` brought to `nearest` of C32 by a common scale; the remainder of the integer root decides on which side of the middle the root lies |
| C42 | `FormatSpec`: the nearest of all numbers with six digits, and the notations | `Prop_Format` | the exponent estimate is checked for every binary length of a double's quotient by evaluation, the rest for all; neighbours of six digits are further apart than a double and the text it was read from |
| C43 | `ReportSpec`, `RunSpec.shown_for`: the line of the statement | `Prop_Report` | the simulation of C38 carries the line the machine stands at, through functions whose DEF line is kept with them; `WhereProofs`: an invariant of execution, the place is always in the line that would be shown; the prompt by cases |
| C44 | `TraceSpec`: the texts of the traces, the output with them, and the machine that differs in nothing else | `Prop_Trace` | each action of the machine and of the prompt is shown not to depend on the options or the output so far, by one tactic over all instructions; induction over the run and the conversation |

## How sessions are treated

`session o ok s` (in `SessionSpec.v`) holds of the states in which the prompt
awaits a line: a new session with any input, files and interrupts, with
`--randomize` or without, and what
interpreting any line satisfying `ok` leads to. `ok` is `any_line` or `no_renum`
(RENUM does not mark the program as changed, a defect, see below). `PromptProofs`
shows an invariant of these states: compiled code is that of the source or
absent, pending calls and loops are in compiled code at the right kind of
instruction, the symbol table is sound. `run_called s u` lists the machines
from which RUN, CONT and immediate lines run instructions.

## Trusted base

* The Coq 8.16.1 kernel (`coqc`, and `coqchk` for the final check).
* The reading of the C sources; every definition cites what it models.
* `Print Assumptions` after each property theorem says "Closed under the global
  context": no theorem depends on an axiom.
* `coqchk` on the whole library also lists axioms of library files that are
  loaded but not used: those of `Coq.ssr.ssrunder` (`Under_rel.Under_rel`,
  `Under_rel.Under_rel_from_rel`, `Under_rel.Under_relE`,
  `Under_rel.over_rel`, `Under_rel.over_rel_done`,
  `Under_rel.under_rel_done`, `Under_rel.Over_rel`), which come with the standard
  library's `ssreflect` support. They are parameters of a sealed module there, not
  assumptions of any theorem here.

## Not modelled

* Windows-only code (`_kbhit`, timers), the output of `clear_screen`, unit test
  code, `--trace-log`, `print_binst` (the B-code listing of `--list-bcode`).
* The wording of compile-time and run-time error messages; errors are
  constructors with their parameters. The texts "Break", "Stopped", the line
  printed by STOP and trace output of `--trace-basic` and `--trace-for` are modelled.
* Allocation failure, and `FILE` errors other than a missing file.
* Options for strict dialect checks that the program never sets (`strict_*`,
  `array_base`) are fixed to their initial values.

## Findings about the code

Theorems named `…_refuted` exhibit inputs on which the code does not do what the
property says. Those found while modelling:

1. `DIM A(4294967295)` wraps to an array of no elements, later accesses are out
   of bounds; `DIM A(5,4294967295)` divides by zero (C09).
2. Three or more subscripts fail an assertion (C09).
3. Assigning to a built-in name (`LEN=5`, `READ LEN`, `INPUT LEN`) fails an
   assertion at run time; `READ FIX` fails one in the compiler (C30).
4. After an operand of the wrong type some errors are dropped (`RND(2^"")`,
   `FIX=2^""` are accepted) and the code unbalances the stack.
5. `INPUT A(1)`: each invalid entry leaves the subscript on the stack; 16 of them
   end the program with a full stack (C31).
6. INPUT at the end of input uses the previous line again (C28).
7. An error inside a DEF function leaves the call pending until RUN: later calls
   are refused as nested.
8. RENUM does not mark the program as changed, so the old code keeps running
   (C27); it updates only the first number of an ON list, not the number after
   THEN GOTO, rewrites inside REM, may create duplicates, and is left half done
   when it is refused (C05).
9. Line 0 typed into an empty program ends the interpreter (C01); a saved line 0
   cannot be loaded (C02).
10. A last line without newline is rejected as "too long" (C03).
11. CONT after a break that came after the last instruction reads past the code;
    a break right before STOP makes CONT skip it (C25).
12. CLEAR inside FOR: the loop variable reads 0 after NEXT (C14).
13. `ASC(CHR$(n))` is negative for n in 128..255 (C20).
14. Some characters and malformed DATA end the interpreter at compile time (C30);
    byte 255 is taken for the end of the text.
15. INPUT prompts and messages do not count for the column (C19).
16. Symbol identifiers wrap after 65536 names (C11).
17. A break in a function does not record where it happened. CONT then goes on
    at the place of the break before it with the stack of the last one:
    "numeric stack empty" (C31).
18. An error in a line typed at the prompt leaves its values on the stack until
    RUN.
19. GOSUB to a missing line leaves a pending return; READ of a bad number
    consumes the item.
20. A line with a NUL character at the prompt is reported as too long and the
    following line is dropped with it; a last line without a newline is
    reported as too long.
