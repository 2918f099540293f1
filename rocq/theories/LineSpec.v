(* Lines of the program and of the code: jumps (C07), IF and ELSE (C16). *)
From Verif Require Import Base Num SourceModel LineMapModel BcodeModel SymbolModel LexModel GrammarSpec VmModel VmSpec.

(* Where the code of line k begins, with its marker. *)
Fixpoint line_start (xss : list (list stmt)) (k : nat) : nat :=
  match xss, k with
  | xs :: r, S j => S (length (lcode xs)) + line_start r j
  | _, _ => 0
  end.

(* The statements of line k, and where statement i of the line begins. *)
Definition line_stmts (xss : list (list stmt)) (k : nat) : list stmt := nth k xss [].
Definition stmt_start (xss : list (list stmt)) (k i : nat) : nat :=
  line_start xss k + 1 + length (lcode (firstn i (line_stmts xss k))).

(* The stored program of v is compiled: its statements are xss. *)
Definition loaded (v : vm) (src : source) (xss : list (list stmt)) : Prop :=
  exists kw bc idx st, v_stored v = mkCode (Some src) (Some bc) (Some idx) /\
    program_is kw (init_builtins new_symbol_table) (map ln_text src) xss st /\
    bc_inst bc = pcode 0 xss /\ bcode_index bc src = Some idx.

(* Line k of the source has number n. *)
Definition line_numbered (src : source) (n : N) (k : nat) : Prop :=
  exists l, nth_error src k = Some l /\ ln_num l = n.
Definition distinct_lines (src : source) : Prop := NoDup (map ln_num src).

(* The outcome r of going to line n from v: execution continues at the start
   of the line with that number with nothing else changed; or there is none,
   and the error says so and the place of execution is the same. *)
Definition jumps (v : vm) (src : source) (xss : list (list stmt)) (n : N) (r : res unit * vm) : Prop :=
  (exists k, line_numbered src n k /\ r = (Ok tt, set_cs (mkCs (Some CStored) (cs_line (v_cs v)) (line_start xss k)) v)) \/
  ((forall k, ~ line_numbered src n k) /\ fst r = Fail (RE_line_not_found n) /\ v_cs (snd r) = v_cs v).

(* The machine is about to execute the instruction j of statement i of line k
   of the code it executes, which is that of the statements xss. *)
Definition executing (v : vm) (xss : list (list stmt)) (k i j : nat) : Prop :=
  exists bc, cur_bcode v = Some bc /\ bc_inst bc = pcode 0 xss /\ k < length xss /\ i < length (line_stmts xss k) /\
    cs_pc (v_cs v) = stmt_start xss k i + j.

(* the same state at another place of the code being executed, with one value
   less on the numeric stack *)
Definition continues (v : vm) (st : list num) (pc : nat) (r : res unit * vm) : Prop :=
  r = (Ok tt, set_cs (mkCs (cs_code (v_cs v)) (cs_line (v_cs v)) pc) (set_stack st v)).

(* A statement that is not IF or ELSE. *)
Definition neutral (x : stmt) : Prop :=
  match x with SIf _ _ | SIfGo _ _ | SElse => False | _ => True end.

(* The machine executes IF..THEN..ELSE: the condition has been evaluated, thn
   are the statements of the THEN part, els those after ELSE. *)
Definition at_if_else (v : vm) (xss : list (list stmt)) (k i : nat) (thn els : list stmt) : Prop :=
  exists e, skipn i (line_stmts xss k) = SIf e true :: thn ++ SElse :: els /\ executing v xss k i (length (ecode e)).
(* The same for IF..THEN without ELSE; r is the rest of the line. *)
Definition at_if (v : vm) (xss : list (list stmt)) (k i : nat) (r : list stmt) : Prop :=
  exists e, skipn i (line_stmts xss k) = SIf e false :: r /\ executing v xss k i (length (ecode e)).
