{"id": "C01", "title": "Typed program lines behave like a sorted finite map", "statement": "After any history of typing numbered lines, typing bare line numbers (deletion) and NEW, the stored program is listed in strictly increasing line-number order and contains, for every number, exactly the text most recently entered for that number and not deleted since; no other line changes. The only exception is that entering line 0 into an empty program terminates the interpreter.", "quantifier": "all finite histories of enter/delete/NEW operations with any 32-bit line numbers and any texts", "why_tests_cant": "insertion, replacement, shifting and deletion interact through the history; tests sample a few histories on a handful of lines", "anchors": ["Basic/source.c:enter_source_line", "Basic/source.c:delete_source_line", "Basic/source.c:spread", "Basic/source.c:append", "Basic/source.c:find_source_linenum", "Basic/run.c:vm_enter_source_line", "Basic/run.c:vm_delete_source_line", "Basic/run.c:vm_new_program"]}
{"id": "C02", "title": "SAVE then LOAD restores the program exactly", "statement": "If every line of the stored program has a non-zero number and its printed form fits the loader's 255-character line buffer, then writing the program to a file and loading that file yields exactly the same numbers and texts in the same order (including leading blanks of the text and empty texts).", "quantifier": "all programs (any number of lines, any texts without newline/NUL) satisfying the stated size guard", "why_tests_cant": "a round-trip over unbounded programs with arbitrary blanks and digits at the start of the text", "anchors": ["Basic/source.c:save_source_file", "Basic/source.c:load_source_file", "Basic/source.c:parse_line_number", "Basic/source.c:append"]}
{"id": "C03", "title": "LOAD accepts exactly the well-formed program files", "statement": "Loading a file succeeds if and only if every line is terminated by a newline, is 1..254 characters long before the newline, starts with a digit, and the numbers (modulo 2^32) are non-zero and strictly increasing; every other file terminates the interpreter with an error; on success the program holds exactly the lines of the file in order.", "quantifier": "all byte sequences used as files", "why_tests_cant": "requires classifying every possible file content, including buffer-boundary lengths", "anchors": ["Basic/source.c:load_source_file", "Basic/source.c:append", "Basic/source.c:parse_line_number"]}
{"id": "C04", "title": "LIST shows exactly the requested range", "statement": "LIST a-b prints precisely the program lines whose number n satisfies a <= n <= b, each once, in program order, as the number, one space and the text; with no range it prints the whole program; paging inserts pauses but drops no line.", "quantifier": "all stored programs with increasing line numbers, all ranges, paging on or off", "why_tests_cant": "the early exit from the listing loop is only right because of the ordering invariant", "anchors": ["Monitor/interactive.c:list", "Monitor/interactive.c:get_list_numbers", "Monitor/interactive.c:read_num"]}
{"id": "C05", "title": "RENUM keeps the program in order and numbers it as asked", "statement": "When RENUM new,old,inc completes, lines numbered below old keep their numbers, the others are numbered new, new+inc, new+2*inc, ... in their old order; the result has distinct increasing numbers; each line number after GOTO, GOSUB, THEN, ELSE, RESTORE (including every entry of ON lists) that named an old line now names the same line under its new number, and nothing else in the text changes.", "quantifier": "all programs and all parameters new, old, inc", "why_tests_cant": "depends on all positions of line-number references in all possible line texts", "anchors": ["Monitor/interactive.c:renumber", "Monitor/interactive.c:takes_line_number", "Basic/source.c:source_replace", "Basic/source.c:set_source_linenum", "Basic/linemap.c"]}
{"id": "C06", "title": "A line-number index answers like the latest insertion", "statement": "A line map answers every lookup with the value most recently inserted for that line number, and reports absence for numbers never inserted, regardless of hash collisions; insertions beyond the declared capacity are refused and change nothing.", "quantifier": "all sequences of insertions and all lookups", "why_tests_cant": "bucket collisions (modulo 397) over all number combinations", "anchors": ["Basic/linemap.c:insert_line_mapping", "Basic/linemap.c:lookup_line_mapping", "Basic/linemap.c:new_line_map"]}
{"id": "C07", "title": "GOTO/GOSUB/THEN reach exactly the named program line", "statement": "In a compiled stored program a jump to line n continues with the first statement of the source line numbered n if such a line exists, and otherwise raises 'Line not found' without transferring control; the program counter never lands inside another line's code.", "quantifier": "all source programs that compile and all line numbers", "why_tests_cant": "relates the compiler output, the index and the run-time lookup for every program", "anchors": ["Basic/run.c:find_basic_line", "Basic/run.c:go_to_basic_line", "Basic/bcode.c:bcode_index", "Basic/parse.c:parse_line"]}
{"id": "C08", "title": "Array elements behave like independent variables", "statement": "After DIM (or automatic dimensioning) reading an element returns the value last assigned to the same subscripts, or zero / the empty string if none; assigning one element never changes another; this holds for one and two dimensions and for numeric and string arrays.", "quantifier": "all array shapes accepted under the element limit and all sequences of element reads and writes", "why_tests_cant": "injectivity of the offset computation for all shapes and subscripts", "anchors": ["Basic/arrays.c:compute_element_offset", "Basic/arrays.c:init_array_size", "Basic/arrays.c:compute_total_elements", "Basic/run.c:get_numeric_element", "Basic/run.c:set_numeric_element", "Basic/run.c:get_string_element", "Basic/run.c:set_string_element"]}
{"id": "C09", "title": "Subscript checking is exact and memory safe", "statement": "An element access succeeds exactly when the number of subscripts equals the number of dimensions and every subscript is an integer between 0 and the dimension's maximum; otherwise a run-time error is raised; no accepted access ever touches storage outside the array. DIM succeeds exactly when the product of (max+1) is at most 65536.", "quantifier": "all dimension values and subscripts representable in the language", "why_tests_cant": "32-bit wrap-around and 16-bit truncation corner cases are outside any sampled range", "anchors": ["Basic/arrays.c:compute_total_elements", "Basic/arrays.c:init_array_size", "Basic/arrays.c:compute_element_offset", "Basic/run.c:pop_index", "Basic/run.c:pop_indexes", "Basic/run.c:dimension_numeric"]}
{"id": "C10", "title": "Undimensioned arrays are created with max(10, subscript)", "statement": "Using an undimensioned array with subscripts i (and j) behaves exactly like first executing DIM with max(10,i) (and max(10,j)) and then using it; the other elements start as zero / empty.", "quantifier": "all subscripts and both element types", "why_tests_cant": "equivalence of two executions for every subscript value", "anchors": ["Basic/run.c:dimension_numeric_auto", "Basic/run.c:dimension_string_auto"]}
{"id": "C11", "title": "Names are case-insensitive and namespaces are separate", "statement": "Two spellings of a name denote the same variable iff they differ only in letter case; a simple variable and an array of the same name are different objects; looking up a name finds the symbol inserted for it whatever other names exist, and never another one.", "quantifier": "all sets of inserted names and all spellings", "why_tests_cant": "hash collisions over all names", "anchors": ["Basic/symbol.c:sym_lookup", "Basic/symbol.c:sym_insert", "Basic/symbol.c:match_paren", "Shared/hash.c:hashpjw_upper"]}
{"id": "C12", "title": "CLEAR and RUN reset values but keep names and built-ins", "statement": "After CLEAR (and at RUN) every numeric variable reads 0, every string variable reads empty, every array is undimensioned and every DEF undefined; built-in functions and the meaning of compiled code are unaffected.", "quantifier": "all symbol table states reachable by compiling and running", "why_tests_cant": "quantifies over all variables and all reachable stores", "anchors": ["Basic/symbol.c:clear_symbol_table_values", "Basic/symbol.c:undefine_value", "Basic/run.c:vm_clear_values", "Monitor/interactive.c:command"]}
{"id": "C13", "title": "GOSUB and RETURN nest like calls", "statement": "RETURN continues right after the most recent GOSUB (or ON..GOSUB) not yet returned from; up to 8 calls may be pending, a ninth raises 'GOSUB is nested too deeply', RETURN with none pending raises 'RETURN without GOSUB'.", "quantifier": "all execution histories of GOSUB/RETURN interleaved with other statements", "why_tests_cant": "LIFO discipline over unbounded histories", "anchors": ["Basic/run.c:push_return", "Basic/run.c:pop_return", "Basic/run.c:execute"]}
{"id": "C14", "title": "FOR/NEXT loops run the documented iterations", "statement": "FOR runs its body at least once; NEXT adds STEP and repeats from the statement after FOR unless the step is positive and the value exceeds the limit or negative and below it; a FOR re-using an active variable replaces that loop and becomes innermost; at most 8 loops are active, with distinct variables; NEXT without variable continues the most recently started loop, NEXT v the loop of v.", "quantifier": "all FOR stacks, variables, limits and steps (IEEE doubles)", "why_tests_cant": "loop-stack rotation and removal for every stack content; iteration count for every bound", "anchors": ["Basic/run.c:execute (B_FOR, B_NEXT_VAR, B_NEXT_IMP)", "Basic/run.c:next", "Basic/run.c:find_for"]}
{"id": "C15", "title": "ON selects the n-th target", "statement": "ON x GOTO/GOSUB l1,...,lk jumps to the x-th line for integer x in 1..k, falls through to the following statement for other integers, and raises an error for non-integers; ON..GOSUB returns to the statement after ON.", "quantifier": "all list lengths and all IEEE double selector values", "why_tests_cant": "boundary selectors (0, k, k+1, NaN, huge values) for every k", "anchors": ["Basic/parse.c:on_statement", "Basic/run.c:execute (B_ON_GOTO, B_ON_GOSUB)"]}
{"id": "C16", "title": "IF/THEN/ELSE executes the right branch of the line", "statement": "With a non-zero condition the THEN part runs and the ELSE part is skipped to the end of the line; with a zero condition control goes to the ELSE part of that IF if present, otherwise to the next program line; skipping never leaves the line's own code for another branch.", "quantifier": "all compiled lines containing IF", "why_tests_cant": "the skip is a linear scan for an opcode, which must hit the right one in every program", "anchors": ["Basic/parse.c:if_statement", "Basic/parse.c:else_clause", "Basic/run.c:execute (B_IF_THEN, B_IF_ELSE, B_ELSE)"]}
{"id": "C17", "title": "User functions return their expression and restore the parameter", "statement": "Calling a DEF function evaluates its body with the parameter bound to the argument, leaves exactly that value as result, continues after the call, and the program variable with the parameter's name has the same value and definedness as before; calls cannot nest (run-time error).", "quantifier": "all function bodies, arguments and variable stores", "why_tests_cant": "save/restore across an arbitrary body and store", "anchors": ["Basic/run.c:call_def", "Basic/run.c:end_def", "Basic/bcode.c:bcode_copy_def", "Basic/parse.c:def_statement"]}
{"id": "C18", "title": "READ consumes DATA in program order", "statement": "Successive READs return the DATA items of the program in textual order, each once, until 'out of DATA'; RESTORE restarts at the first item, RESTORE n at the first item on or after line n.", "quantifier": "all programs and all sequences of READ/RESTORE", "why_tests_cant": "unbounded sequences of items and restores", "anchors": ["Basic/run.c:find_data", "Basic/run.c:execute (B_READ_NUM, B_READ_STR, B_RESTORE, B_RESTORE_LINE)", "Basic/parse.c:data_statement", "Basic/lexer.c:lex_next_data"]}
{"id": "C19", "title": "PRINT positions are column exact", "statement": "For any sequence of PRINT items the interpreter's column equals one plus the number of characters since the last newline; a comma moves to the next multiple-of-8 field; TAB(n) moves to column n (on a new line if already past it); SPC(n) prints n blanks; a number is printed with one space before and after.", "quantifier": "all sequences of print items and argument values", "why_tests_cant": "column arithmetic for every column and item sequence", "anchors": ["Basic/run.c:execute (B_PRINT_LN, B_PRINT_SPC, B_PRINT_TAB, B_PRINT_COMMA, B_PRINT_NUM, B_PRINT_STR)"]}
{"id": "C20", "title": "String functions follow their definitions and the 255 limit", "statement": "LEFT$, RIGHT$, MID$, LEN, +, CHR$ and ASC return exactly the documented portion / length / concatenation, raising the documented errors; no string value produced by a program ever exceeds 255 characters.", "quantifier": "all strings and all IEEE double arguments", "why_tests_cant": "boundary arguments (0, length, length+1, huge, non-integers) for all strings", "anchors": ["Basic/run.c:execute (B_LEFT, B_RIGHT, B_MID3, B_LEN, B_CONCAT, B_CHR, B_ASC)", "Basic/run.c:pop_unsigned"]}
{"id": "C21", "title": "Evaluation stacks never overrun their storage", "statement": "Whatever code is run, the numeric stack holds at most 16 values, the string stack 8, the return stack 8, the loop stack 8; exceeding a limit raises the corresponding run-time error instead of writing outside the stack.", "quantifier": "all instruction sequences (even ones the compiler would not produce) and all executions", "why_tests_cant": "a safety invariant over all executions", "anchors": ["Basic/run.c:push", "Basic/run.c:push_str", "Basic/run.c:push_return", "Basic/run.c:execute (B_FOR)"]}
{"id": "C22", "title": "Comparisons and logical operators", "statement": "A comparison yields -1 when it holds and 0 otherwise, for numbers (IEEE order) and strings (byte order); AND, OR, NOT act bitwise on 32-bit integers, so on truth values they are the logical connectives; non-integers or out-of-range operands raise an error.", "quantifier": "all pairs of IEEE doubles, all pairs of strings, all pairs of 32-bit integers", "why_tests_cant": "bit-level identities over 2^64 operand pairs, NaN and infinities", "anchors": ["Basic/run.c:push_logic", "Basic/run.c:pop_logic", "Basic/run.c:compare_strings", "Basic/run.c:execute"]}
{"id": "C23", "title": "Expressions are compiled with the documented precedence and evaluated correctly", "statement": "For every expression built with the documented operators, compiling its token sequence and running the code yields the value obtained by evaluating it with the documented precedence and associativity (^ right-associative, unary minus below ^, then * /, + -, comparisons, NOT, AND, OR), leaving the rest of the evaluation stacks unchanged.", "quantifier": "all expressions of any depth and all variable stores", "why_tests_cant": "compiler correctness over an infinite set of expressions", "anchors": ["Basic/parse.c:OR_expression", "Basic/parse.c:AND_expression", "Basic/parse.c:NOT_expression", "Basic/parse.c:relational_expression", "Basic/parse.c:add_expr", "Basic/parse.c:mult_expr", "Basic/parse.c:neg_expr", "Basic/parse.c:power_expr", "Basic/parse.c:primary_expression"]}
{"id": "C24", "title": "INPUT assigns the comma-separated fields or asks again", "statement": "INPUT with k items assigns the k comma-separated fields of the entered line in order (numbers converted, strings verbatim); a bad number or too few fields makes the statement start again with a new line, surplus fields are reported; on success the program continues after the statement with no residue on the evaluation stacks.", "quantifier": "all input lines, all item lists and any number of retries", "why_tests_cant": "unbounded retries and arbitrary input text", "anchors": ["Basic/run.c:execute (B_INPUT_BUF, B_INPUT_NUM, B_INPUT_STR, B_INPUT_SEP, B_INPUT_END, B_INPUT_LINE)", "Basic/run.c:convert", "Basic/parse.c:input_statement"]}
{"id": "C25", "title": "STOP and CONT resume the program exactly", "statement": "After STOP (or a break at a statement boundary) CONT resumes with the same variables, loops, calls and DATA position, so that the visible effects equal those of the program without STOP; after any edit of the program CONT is refused.", "quantifier": "all programs, all stop points and all edits in between", "why_tests_cant": "equivalence of interrupted and uninterrupted executions at every point", "anchors": ["Basic/run.c:run", "Basic/run.c:vm_continue", "Basic/run.c:stored_program_changed"]}
{"id": "C26", "title": "No control state survives the code it refers to", "statement": "At the immediate-mode prompt no pending GOSUB, FOR or function call refers to the immediate line just executed (it is about to be discarded), and after a program edit no pending GOSUB, FOR, stopped position or DATA position refers to the old compiled code when code is next run.", "quantifier": "all interactive sessions (any sequence of lines, edits, errors and interrupts)", "why_tests_cant": "dangling references appear only after particular histories", "anchors": ["Basic/run.c:run_immediate", "Basic/run.c:immediate_state", "Basic/run.c:reset_control_state", "Basic/run.c:ensure_program_compiled"]}
{"id": "C27", "title": "Edits always take effect", "statement": "Whenever a statement or RUN is executed after entering, deleting, loading or clearing program lines, the code that runs is the compilation of the current source text; a program whose source does not compile runs nothing.", "quantifier": "all sessions of edits, RUN, COMPILE and immediate statements", "why_tests_cant": "cache-invalidation over all histories", "anchors": ["Basic/run.c:stored_program_changed", "Basic/run.c:ensure_program_compiled", "Basic/run.c:run_program", "Monitor/interactive.c:renumber"]}
{"id": "C28", "title": "RUN starts from a clean machine", "statement": "RUN executes the program from its first line with all variables cleared, no pending loops, calls or DATA position, whatever happened before; in particular its output depends only on the program, the input and the random seed.", "quantifier": "all prior sessions", "why_tests_cant": "left-over state from arbitrary earlier errors, breaks and immediate statements", "anchors": ["Monitor/interactive.c:command", "Basic/run.c:run_program", "Basic/run.c:reset_control_state"]}
{"id": "C29", "title": "The tokenizer covers every line and always makes progress", "statement": "Tokenizing any line of valid characters terminates; the tokens, read in order, cover the line without overlap; names and keywords are recognised regardless of case; string literals yield exactly the characters between the quotes; word tokens never exceed 127 characters (longer ones are errors).", "quantifier": "all lines over the 7-bit character set, normal and keywords-anywhere modes", "why_tests_cant": "termination and coverage for every text; buffer limits for every length", "anchors": ["Basic/lexer.c:lex_next", "Basic/lexer.c:lex_char", "Basic/token.c:identifier_token", "Basic/token.c:keyword_prefix"]}
{"id": "C30", "title": "Compilation terminates with a program or an error", "statement": "Compiling any source terminates, giving either code or a reported error, and the emitted code for each line starts with that line's marker, in source order.", "quantifier": "all source programs", "why_tests_cant": "termination of a recursive-descent parser for every text", "anchors": ["Basic/parse.c:parse_source", "Basic/parse.c:parse_line", "Basic/parse.c:statement"]}
{"id": "C31", "title": "Compiled code never trips the machine's internal checks", "statement": "Running compiled code never raises an internal error (empty evaluation stack, run into parameter, unexpected END DEF, ON-LINE expected, corrupt program), never uses a symbol with the wrong kind or type, and leaves the evaluation stacks empty between statements.", "quantifier": "all compiled programs and all executions", "why_tests_cant": "type-safety of a compiler/VM pair over all programs", "anchors": ["Basic/parse.c", "Basic/emit.c", "Basic/run.c:execute", "Basic/run.c:pop", "Basic/run.c:pop_str"]}
{"id": "C32", "title": "Number printing and reading agree", "statement": "STR$ and PRINT write an integer of magnitude below one million as its plain decimal digits, and VAL, READ and INPUT read such digits back to the same number; VAL accepts exactly the strings consisting of one number with surrounding blanks, with a trailing part raising an error.", "quantifier": "all integers with |n| < 10^6; all strings", "why_tests_cant": "digit generation over the whole range", "anchors": ["Basic/run.c:convert", "Basic/run.c:execute (B_STR, B_VAL, B_PRINT_NUM)"]}
{"id": "C33", "title": "RND is in [0,1) and reproducible", "statement": "RND always yields 0 <= x < 1, and after RANDOMIZE n the sequence of RND values depends only on n.", "quantifier": "all seeds and all positions in the random sequence, for any generator with 0 <= rand() <= RAND_MAX", "why_tests_cant": "must hold for every generator output including RAND_MAX", "anchors": ["Basic/run.c:execute (B_RND, B_SEED, B_RAND)"]}
{"id": "C34", "title": "--list-names prints each distinct name once, in order", "statement": "The name listing contains every name token of the program that precedes a REM on its line, exactly once up to letter case, in case-insensitive alphabetical order.", "quantifier": "all programs", "why_tests_cant": "set semantics of an unbalanced tree for all insertion orders", "anchors": ["System/lbasic.c:list_names", "Shared/stringuniq.c:insert_unique_string", "Shared/stringuniq.c:traverse_unique_strings"]}
{"id": "C35", "title": "Command line options are order independent", "statement": "Flag options set exactly their flag, the last mode option wins, at most one file name is accepted, and any unknown option is fatal.", "quantifier": "all argument lists", "why_tests_cant": "all permutations and repetitions of options", "anchors": ["System/options.c:parse_options"]}
{"id": "C36", "title": "A typed line is dispatched to exactly one interpretation", "statement": "At the prompt a line starting (after blanks) with a digit edits the program, one starting with '*' goes to the operating system, a line whose first maximal run of letters is a command word executes that command, an empty line does nothing, and every other line is executed as immediate statements; command words are case-insensitive.", "quantifier": "all input lines", "why_tests_cant": "classification of every string", "anchors": ["Monitor/interactive.c:interpret", "Monitor/interactive.c:immediate", "Monitor/interactive.c:find_command"]}
{"id": "C37", "title": "A variable holds the value last assigned to it", "statement": "A simple variable reads as the value last assigned to it, or as 0 or the empty string if nothing has been assigned since the program started or CLEAR. Reading changes nothing, and nothing but LET, FOR and NEXT of its own loop, READ, INPUT, CLEAR and the call of a function of which it is the parameter changes it.", "quantifier": "all programs, all variables, and all executions", "why_tests_cant": "frame property over every instruction and every execution history", "anchors": ["Basic/run.c:get_numeric_simple", "Basic/run.c:get_string_simple", "Basic/run.c:set_numeric_simple", "Basic/run.c:set_string_simple", "Basic/run.c:execute"]}
{"id": "C38", "title": "RUN does what the statements of the program say", "statement": "Typing RUN prints, reads and reports what the statements of the stored program say when performed one after the other by a definition on the statements alone, starting with nothing assigned, dimensioned, defined, read or called: assignments, DIM, DEF, loops, jumps, subroutines, IF and ELSE, ON, PRINT, DATA, READ, RESTORE, INPUT, CLEAR, RANDOMIZE, STOP and END, and expressions with arrays, functions and random numbers. The only other way a run can end is that a calculation needs more values at the same time than the machine has room for.", "quantifier": "all compiling programs without three-subscript arrays and assignments to built-in names, all inputs, all numbers of statements performed", "why_tests_cant": "refinement of an interpreter to a semantics over every program and every number of steps", "anchors": ["Basic/run.c:run_program", "Basic/run.c:execute", "Basic/parse.c:parse_source", "Basic/emit.c", "Monitor/interactive.c:interpret"]}
{"id": "C39", "title": "The prompt takes each line of its input once and in order", "statement": "The monitor shows its prompt, takes the next line of the input, acts on it, and goes on with what is then left of the input (an INPUT statement or a paged listing may have taken lines of its own), until BYE or the end of the input. Lines of up to 126 characters are acted on; a longer line, and a last line without a newline, is refused with a message and dropped as a whole. No line of input is acted on twice, and none is skipped.", "quantifier": "all inputs without NUL characters, of any length, with any program and any interrupts", "why_tests_cant": "a property of whole conversations of unbounded length", "anchors": ["Monitor/interactive.c:interact", "Monitor/interactive.c:get_line", "Monitor/interactive.c:line_complete", "Monitor/interactive.c:await_newline", "System/lbasic.c:main"]}
{"id": "C40", "title": "A file on the command line runs as LOAD and RUN would run it", "statement": "Starting lbasic with a program file, with or without --run, has the effects of LOAD of that file followed by RUN typed at the prompt of a new session: the same output, the same messages and the same final state. A file that cannot be opened is reported and nothing runs.", "quantifier": "all program files, inputs, options and interrupts", "why_tests_cant": "equality of two ways of starting over all programs", "anchors": ["System/lbasic.c:process_file", "Basic/run.c:vm_load_source", "Basic/run.c:run_program", "Monitor/interactive.c:command"]}
{"id": "C41", "title": "Arithmetic is exact where it can be and otherwise gives the nearest double", "statement": "Adding, subtracting, multiplying and dividing finite numbers gives the double nearest to the exact result, the even one of two equally near; a result that is a double is exact, so integers up to 2^53 are. Overflow, division by zero and infinities give infinities or NaN, never an error. Unary minus, ABS, INT (rounding down) and SGN are exact, SQR gives the double nearest to the root and NaN for negative numbers.", "quantifier": "all pairs of doubles and all four operations, all doubles for the functions", "why_tests_cant": "2^128 pairs of operands", "anchors": ["Basic/run.c:execute"]}
{"id": "C42", "title": "Numbers are written with six significant digits, correctly rounded", "statement": "PRINT and STR$ write a finite number other than zero as its nearest number of six significant digits (the even one of two equally near), without needless zeros: in positional notation from 0.0001 up to 999999, otherwise with an exponent of at least two digits. Zero, infinities and NaN have fixed texts. The text can be read again, and a number that was given by up to six digits, from 1e-307 to 1e307, is written with these digits and is read back as the same number.", "quantifier": "all doubles and all numbers given by up to six digits", "why_tests_cant": "2^64 doubles; the round trip ranges over all decimal texts", "anchors": ["Basic/run.c:execute"]}
{"id": "C43", "title": "A run-time error is reported once, with the line in which it is met", "statement": "When RUN ends with a run-time error, exactly one error is reported, the one the statement meets, together with the number and text of the program line that statement is in; where the error is met in the body of a user-defined function it is a line with a DEF. Whatever is typed, at most one error is reported for it, and none unless something was to be run.", "quantifier": "all compiling programs as in C38, all inputs, all states of the session and all lines typed", "why_tests_cant": "the line shown depends on the whole history of jumps, calls, loops and function calls before the error", "anchors": ["Basic/run.c:run_error", "Basic/run.c:execute", "Basic/run.c:run", "Basic/run.c:run_immediate", "Basic/source.c:print_source_line"]}
{"id": "C44", "title": "Tracing changes nothing but the output of the trace", "statement": "Starting the interpreter with --trace-basic or --trace-for, or without them, makes no difference to what a session or a program does: the same lines of input are used, the same values are computed, the same files written, the same messages and run-time errors given, at the same places, and the output is the same but for the texts the traces add: [number] at the beginning of each line, and for FOR and NEXT the line and the loops that are active.", "quantifier": "all command lines, sessions, programs, inputs and interrupts", "why_tests_cant": "two executions of unbounded length are compared instruction by instruction, over all programs", "anchors": ["Basic/run.c:execute", "Basic/run.c:dump_for", "Basic/run.c:dump_for_stack", "Basic/run.c:new_vm", "System/options.c:parse_options", "System/lbasic.c:main"]}
