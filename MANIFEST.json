{
 "claims": [
  {
   "property": "C01",
   "status": "proved",
   "theorems": [
    "C01_program_is_sorted_map",
    "C01_line_zero_exit",
    "C01_listing_unique"
   ],
   "note": ""
  },
  {
   "property": "C02",
   "status": "proved",
   "theorems": [
    "C02_save_load",
    "C02_save_load_only_if"
   ],
   "note": "guard is exact (both directions)"
  },
  {
   "property": "C03",
   "status": "proved",
   "theorems": [
    "C03_load_iff",
    "C03_load_total"
   ],
   "note": ""
  },
  {
   "property": "C04",
   "status": "proved",
   "theorems": [
    "C04_list",
    "C04_paged",
    "C04_paged_lines",
    "C04_request_unique",
    "C04_refused"
   ],
   "note": "For all typed LIST lines: an independent relation says which ranges the text asks for; the output is the lines in the range, in order; with paging, input is read in place of a newline after every 24th line and no line is dropped. The hypothesis that the numbers increase is C01. Ctrl-C during LIST is not modelled."
  },
  {
   "property": "C05",
   "status": "partial",
   "theorems": [
    "C05_renum_partial",
    "C05_increasing",
    "C05_refused",
    "C05_duplicates_refuted",
    "C05_on_list_refuted",
    "C05_then_goto_refuted",
    "C05_remark_refuted",
    "C05_refused_changes_refuted"
   ],
   "note": "Proved: the new numbers, when they fit and when they are refused, that they increase for inc > 0 and new above the kept lines, and that exactly the numbers standing directly after GOTO, GOSUB, THEN, ELSE or RESTORE are replaced (written with digits only). Refuted parts: duplicates with inc 0, ON lists, THEN GOTO, remarks, and a refused RENUM leaves numbers changed."
  },
  {
   "property": "C06",
   "status": "proved",
   "theorems": [
    "C06_lookup_is_latest",
    "C06_refused_iff_full"
   ],
   "note": ""
  },
  {
   "property": "C07",
   "status": "proved",
   "theorems": [
    "C07_compiled",
    "C07_stays",
    "C07_distinct",
    "C07_line",
    "C07_marker",
    "C07_goto",
    "C07_then",
    "C07_gosub",
    "C07_on",
    "C07_loaded",
    "C07_session_lines"
   ],
   "note": "Code at the start of each line, every jump instruction, the line index of compiled programs, compiled and kept during runs; the programs that sessions run are such programs (C07_loaded, C07_session_lines)."
  },
  {
   "property": "C08",
   "status": "proved",
   "theorems": [
    "C08_array_is_function",
    "C08_history",
    "C08_dim",
    "C08_read",
    "C08_write"
   ],
   "note": "Histories of LET assignments and reads in any execution (C08_history), DIM, single reads and writes; READ and INPUT into elements have their own theorems. Hypotheses typed/values_ok/arrays_ok are invariants of execution; no subscript is 4294967295 (see C09)."
  },
  {
   "property": "C09",
   "status": "partial",
   "theorems": [
    "C09_dim_iff",
    "C09_dim_wraps_refuted",
    "C09_dim_div_zero_refuted",
    "C09_sound",
    "C09_read_refused",
    "C09_write_refused",
    "C09_read_bad",
    "C09_write_bad",
    "C09_dim_bad",
    "C09_dim_refused",
    "C09_three_refuted"
   ],
   "note": "Exact for one and two subscripts below 2^32-1, at machine level. Violated at subscript maximum 2^32-1 (wrap, division by zero) and by three subscripts (assertion): refuted theorems."
  },
  {
   "property": "C10",
   "status": "proved",
   "theorems": [
    "C10_auto_bounds",
    "C10_read",
    "C10_write",
    "C10_refused"
   ],
   "note": "Machine level, numbers and strings, reads and assignments; subscripts below 2^32-1."
  },
  {
   "property": "C11",
   "status": "proved",
   "theorems": [
    "C11_occurrences",
    "C11_spelling",
    "C11_compiling",
    "C11_running",
    "C11_lookup",
    "C11_two_uses",
    "C11_identifiers",
    "C11_identifiers_refuted"
   ],
   "note": "Table level: lookup and identity for every history of table changes. Program level: two occurrences of names mean the same symbol iff they match up to case and agree on parentheses (built-in names apart); programs that differ only in the letter case of names compile to the same code; compiling and running make only the table changes ranged over. Assumes fewer than 65536 symbols, beyond which identifiers wrap (refuted theorem)."
  },
  {
   "property": "C12",
   "status": "proved",
   "theorems": [
    "C12_run",
    "C12_clear",
    "C12_cleared",
    "C12_clear_values",
    "C12_clear_names_kept"
   ],
   "note": "CLEAR at machine level; RUN in every session (C12_run), with the case that the program must be recompiled stated."
  },
  {
   "property": "C13",
   "status": "proved",
   "theorems": [
    "C13_pending",
    "C13_return",
    "C13_gosub",
    "C13_nesting"
   ],
   "note": "Every execution of any code: pending calls equal the calls made and not returned from (at most 8), RETURN and GOSUB outcomes, nesting of completed calls."
  },
  {
   "property": "C14",
   "status": "proved",
   "theorems": [
    "C14_for",
    "C14_for_full",
    "C14_next",
    "C14_next_none",
    "C14_assign",
    "C14_distinct",
    "C14_distinct_run",
    "C14_whole_numbers",
    "C14_clear_refuted"
   ],
   "note": "FOR, NEXT, the ninth loop, distinct loop variables in every execution, and the values taken by loops over whole numbers below 2^51. C14_clear_refuted: after CLEAR in the body, NEXT loses the value."
  },
  {
   "property": "C15",
   "status": "proved",
   "theorems": [
    "C15_on_goto",
    "C15_on_gosub",
    "C15_on_other",
    "C15_on_invalid"
   ],
   "note": "For the instruction ON..GOTO/GOSUB followed by its target list, every IEEE double selector (exact value), including infinities and NaN."
  },
  {
   "property": "C16",
   "status": "proved",
   "theorems": [
    "C16_if_has_else",
    "C16_else_has_if",
    "C16_if_else",
    "C16_if",
    "C16_else",
    "C16_if_go",
    "C16_else_go"
   ],
   "note": "Pairing of IF and ELSE in every compiled line, and where execution continues in all cases, for program and immediate code."
  },
  {
   "property": "C17",
   "status": "proved",
   "theorems": [
    "C17_value",
    "C17_def",
    "C17_def_params",
    "C17_call",
    "C17_undefined",
    "C17_nested",
    "C17_params"
   ],
   "note": "DEF takes the code of the statement; a call evaluates the expression with the parameter holding the argument (C17_value: against an evaluator on the structure of the expression), leaves exactly that value, goes on after the call and gives the parameter its value and definedness back. If the expression raises an error, or a stack is full, the call does not end and the parameter keeps the argument."
  },
  {
   "property": "C18",
   "status": "proved",
   "theorems": [
    "C18_in_order",
    "C18_read_variable",
    "C18_read_element",
    "C18_read_refused",
    "C18_read_auto",
    "C18_not_number",
    "C18_no_more",
    "C18_restore",
    "C18_restore_line",
    "C18_run",
    "C18_item",
    "C18_items"
   ],
   "note": "C18_in_order to C18_restore_line are about any compiled code; C18_run, C18_item and C18_items link the code to the items in the text of the program. The values READ assigns are those of convert, see C32."
  },
  {
   "property": "C19",
   "status": "proved",
   "theorems": [
    "C19_column",
    "C19_line",
    "C19_string",
    "C19_number",
    "C19_comma",
    "C19_spc",
    "C19_tab",
    "C19_refused",
    "C19_input_refuted"
   ],
   "note": "Every execution without INPUT and tracing: column equals that of the characters written; each item for all arguments and columns. INPUT violates it (C19_input_refuted)."
  },
  {
   "property": "C20",
   "status": "proved",
   "theorems": [
    "C20_left",
    "C20_right",
    "C20_mid",
    "C20_count_refused",
    "C20_start_refused",
    "C20_len",
    "C20_concat",
    "C20_chr",
    "C20_asc_partial",
    "C20_asc_refuted",
    "C20_limit",
    "C20_limit_run",
    "C20_compiled"
   ],
   "note": "Each function for all strings and all double arguments, with errors; 255 limit and double-ness invariant of every execution of code whose constants obey it, and compiled code does (C20_compiled). ASC violates from code 128 (C20_asc_refuted)."
  },
  {
   "property": "C21",
   "status": "proved",
   "theorems": [
    "C21_limits",
    "C21_limits_steps",
    "C21_initial",
    "C21_full"
   ],
   "note": "Invariant of every execution of arbitrary code with any interrupt; overflow reported without change."
  },
  {
   "property": "C22",
   "status": "proved",
   "theorems": [
    "C22_numbers",
    "C22_strings",
    "C22_and",
    "C22_or",
    "C22_not",
    "C22_connectives",
    "C22_operand",
    "C22_operand_not"
   ],
   "note": "All pairs of doubles (exact values, infinities, NaN), all strings, all 32-bit integers bit by bit, and every refused operand."
  },
  {
   "property": "C23",
   "status": "proved",
   "theorems": [
    "C23_accepts",
    "C23_rejects",
    "C23_unambiguous",
    "C23_value",
    "C23_function_value",
    "C23_program",
    "C23_memory"
   ],
   "note": "The code of every expression gives the value of an evaluator defined on the structure of the expression, or its error, with the rest of the stacks unchanged (C23_value), unless a stack of 16 numbers or 8 strings is full. Compiling gives the code of the expression the grammar with the documented precedence assigns to the tokens (C30_outcome, C23_program), and every program of the grammar is accepted, with one code (C23_accepts, C23_unambiguous). Without meaning are more than two subscripts and the subscript 4294967295 of an array that has no bounds, and RND if 100 numbers in a row are RAND_MAX."
  },
  {
   "property": "C24",
   "status": "proved",
   "theorems": [
    "C24_variables",
    "C24_items",
    "C24_residue_refuted"
   ],
   "note": "Any number of rejected lines before the accepted one, any fields, simple variables (C24_variables) and elements (C24_items), for every INPUT statement reached by RUN of a program with a meaning. Lines of at most 126 characters. An element given something that is no number leaves its subscript on the stack: C24_residue_refuted."
  },
  {
   "property": "C25",
   "status": "proved",
   "theorems": [
    "C25_calls",
    "C25_stop",
    "C25_break",
    "C25_edit",
    "C25_changed",
    "C25_end_refuted",
    "C25_stop_refuted"
   ],
   "note": "Every session, every way a run is begun (RUN, CONT, immediate GOTO). Two corners where the claim is false of the code are refuted: a break after the last instruction makes CONT read past the code (C25_end_refuted) and a break right before STOP makes CONT skip the STOP (C25_stop_refuted)."
  },
  {
   "property": "C26",
   "status": "proved",
   "theorems": [
    "C26_prompt",
    "C26_main",
    "C26_stored",
    "C26_begin",
    "C26_fresh"
   ],
   "note": "Invariant over all sessions, any lines including RENUM."
  },
  {
   "property": "C27",
   "status": "proved",
   "theorems": [
    "C27_run",
    "C27_statements",
    "C27_cont",
    "C27_renum_refuted"
   ],
   "note": "All sessions; RUN, statements and CONT. RENUM, which the claim does not list, does not take effect until the next edit (C27_renum_refuted), so the theorems exclude it unless an edit followed."
  },
  {
   "property": "C28",
   "status": "proved",
   "theorems": [
    "C28_start",
    "C28_like_new",
    "C28_depends",
    "C28_input_refuted"
   ],
   "note": "RUN compared with a new machine given the same program, and two sessions compared; if the program's run in the new machine is undefined behaviour nothing is claimed. The line last read also matters, at end of input (C28_input_refuted)."
  },
  {
   "property": "C29",
   "status": "proved",
   "theorems": [
    "C29_token",
    "C29_progress",
    "C29_line",
    "C29_cover",
    "C29_word",
    "C29_keyword",
    "C29_name",
    "C29_string"
   ],
   "note": "Every token is spelled by its text (spells), blanks between; lines are covered in order; progress; words, keywords in any case and strings also the other way round."
  },
  {
   "property": "C30",
   "status": "proved",
   "theorems": [
    "C30_outcome",
    "C30_initial",
    "C30_markers",
    "C30_exit_refuted",
    "C30_crash_refuted"
   ],
   "note": "All sources, both lexer modes: compiling terminates with the code the grammar assigns to the program (compiled, pcode) or a reported error. Violated exactly by characters outside the 7-bit set and unreadable DATA texts (interpreter ends) and by unsupported names in READ (failed assertion): C30_exit_refuted, C30_crash_refuted."
  },
  {
   "property": "C31",
   "status": "partial",
   "theorems": [
    "C31_run_partial",
    "C31_statements_partial",
    "C31_lines",
    "C31_file_partial",
    "C31_stacks_partial",
    "C31_cont_refuted",
    "C31_input_refuted"
   ],
   "note": "For every program typed RUN or given as a file on the command line, traced or not, and for all statements typed at the prompt of an orderly session, traced or not, every input and interrupt: no assertion fails, nothing undefined happens, at most one error is reported and it is not internal, unless a subscript is 4294967295 (C31_run_partial, C31_file_partial, C31_statements_partial); the lines pending GOSUBs, loops and calls were left in exist in every session (C31_lines); stacks empty between the statements of programs with a meaning (C31_stacks_partial). Refuted for CONT after two interrupts and for INPUT of elements."
  },
  {
   "property": "C32",
   "status": "proved",
   "theorems": [
    "C32_str",
    "C32_print",
    "C32_plain",
    "C32_val",
    "C32_one",
    "C32_nearest",
    "C32_read",
    "C32_input",
    "C32_integer",
    "C32_zero_refuted"
   ],
   "note": "STR$ and PRINT write integers below a million as plain digits; VAL, READ and INPUT accept exactly the texts that are one number with blanks around it (decimal or, as strtod does, hexadecimal, and after a sign inf and nan) and give the nearest double. The negative zero, which is an integer too, is written -0 (C32_zero_refuted)."
  },
  {
   "property": "C33",
   "status": "proved",
   "theorems": [
    "C33_range",
    "C33_value",
    "C33_reproducible"
   ],
   "note": "Any generator in 0..RAND_MAX; two executions after the same RANDOMIZE n draw the same values."
  },
  {
   "property": "C34",
   "status": "proved",
   "theorems": [
    "C34_names",
    "C34_exists",
    "C34_stops"
   ],
   "note": "The listing has one line per distinct name (ignoring case), in alphabetical order, spelled as first used, marked * for builtins and = for SPC and TAB. If the lexer stops at a character that is not allowed, nothing is listed."
  },
  {
   "property": "C35",
   "status": "proved",
   "theorems": [
    "C35_accepted",
    "C35_order",
    "C35_rejected"
   ],
   "note": "Accepted command lines give options saying just what the arguments say (flags, file name, last mode); order independence under permutation; otherwise the first argument that does not fit decides."
  },
  {
   "property": "C36",
   "status": "proved",
   "theorems": [
    "C36_one_meaning"
   ],
   "note": "Every typed line has exactly one meaning under an independent relation on texts (edit, delete, operating system command, nothing, command, statements), and interpret does what that meaning says, for all states."
  },
  {
   "property": "C37",
   "status": "proved",
   "theorems": [
    "C37_read",
    "C37_assign",
    "C37_unchanged",
    "C37_history"
   ],
   "note": "Reads, assignments, what leaves a variable unchanged, and whole executions. What FOR, NEXT, READ and CLEAR assign is stated in C13, C14, C18 and C12."
  },
  {
   "property": "C38",
   "status": "proved",
   "theorems": [
    "C38_run",
    "C38_statements"
   ],
   "note": "Typing RUN at the prompt, through compilation and the machine, gives for every n what n statements of the definition in StepSpec/EvalSpec give (output, errors, input). Statements without meaning in the definition (three subscripts, assignment to a built-in name, TAB at column 0, INPUT of an invalid number for an array element, NEXT of a loop whose variable was cleared) are excluded: there the program shows the defects listed in DESIGN.md."
  },
  {
   "property": "C39",
   "status": "proved",
   "theorems": [
    "C39_conversation",
    "C39_session",
    "C39_unique",
    "C39_input",
    "C39_main",
    "C39_nul_refuted"
   ],
   "note": "For inputs without NUL characters. After a line with a NUL character the next line is lost (C39_nul_refuted)."
  },
  {
   "property": "C40",
   "status": "proved",
   "theorems": [
    "C40_file",
    "C40_missing"
   ],
   "note": "main with a file equals LOAD and RUN interpreted in a new session; file names without quotes and newlines, which can be typed."
  },
  {
   "property": "C41",
   "status": "proved",
   "theorems": [
    "C41_rounded",
    "C41_one",
    "C41_exact",
    "C41_integers",
    "C41_bound_sharp",
    "C41_special",
    "C41_nan",
    "C41_function",
    "C41_function_one",
    "C41_square",
    "C41_infinity",
    "C41_function_nan"
   ],
   "note": "POW and the trigonometric and exponential functions are those of the C library and are parameters of the model. The model's + - * / and sqrt are the standard library's SpecFloat; that the C compiler's double arithmetic is IEEE binary64 rounding to nearest is assumed."
  },
  {
   "property": "C42",
   "status": "proved",
   "theorems": [
    "C42_str",
    "C42_print",
    "C42_one",
    "C42_digits",
    "C42_str_special",
    "C42_print_special",
    "C42_reads",
    "C42_typed",
    "C42_back"
   ],
   "note": "printf's %g is modelled by exact integer arithmetic; C42_reads gives what VAL of the text is for any number."
  },
  {
   "property": "C43",
   "status": "proved",
   "theorems": [
    "C43_line",
    "C43_exactly",
    "C43_once",
    "C43_place"
   ],
   "note": "C43_line: for an error met in the body of a function the line shown is that of a DEF in the program. C43_place says exactly which line, for every execution that begins as RUN begins: the one execution is in, or that of the DEF whose function is being computed. As in C38, a calculation that needs more values than the machine has room for is the alternative in C43_line (too_deep); it is reported too. C43_once has no hypotheses about the session."
  },
  {
   "property": "C44",
   "status": "partial",
   "theorems": [
    "C44_line_partial",
    "C44_session_partial",
    "C44_main_partial",
    "C44_run_partial",
    "C44_statements_partial",
    "C44_file_partial",
    "C44_silent"
   ],
   "note": "Every command line, session, program, input and interrupt: tracing and not tracing give the same results and the output differs by whole trace texts only, or the traced session has undefined behaviour (a trace reads the text of the line and the variables of the loops). For RUN, for program files and for statements typed in orderly sessions the undefined behaviour is excluded (C44_run_partial, C44_file_partial, C44_statements_partial). Missing: the same for CONT. --trace-log is not modelled."
  }
 ]
}