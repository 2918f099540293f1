(* Model of Basic/bcode.[ch], Basic/emit.c and Basic/def.[ch]: the
   intermediate code. *)
From Verif Require Import Base Num SourceModel LineMapModel.

(* Symbol identifiers as stored in instructions (Basic/bcode.h:145-150);
   SYMID (Basic/symbol.h:22) is an unsigned short. *)
Definition symid := N.

(* BINST, Basic/bcode.h:133-154: one constructor per opcode of the enum
   (Basic/bcode.h:12-117) with the union member its format selects
   (ops table, Basic/bcode.c:11-120).
   - line indices and counts are nat (fewer than 2^32 lines and targets);
   - basic_line.bcode is always -1 and never read, so it is left out;
   - params is the unsigned char of the PARAM format;
   - the string of INPUT-BUF may be the null pointer (None); DATA strings are
     never null (the parser passes lex->word, Basic/parse.c:215-217). *)
Inductive instr :=
| I_NOP
| I_SOURCE_LINE (source_line : nat)
| I_CLEAR
| I_PUSH_NUM (x : num)
| I_POP_NUM
| I_GET_SIMPLE_NUM (id : symid)
| I_SET_SIMPLE_NUM (id : symid)
| I_DIM_NUM (id : symid) (params : N)
| I_GET_PAREN_NUM (id : symid) (params : N)
| I_SET_ARRAY_NUM (id : symid) (params : N)
| I_ADD | I_SUB | I_MUL | I_DIV | I_POW
| I_EQ_NUM | I_LT_NUM | I_GT_NUM | I_NE_NUM | I_LE_NUM | I_GE_NUM
| I_OR | I_AND | I_NOT | I_NEG
| I_PUSH_STR (s : bytes)
| I_POP_STR
| I_SET_SIMPLE_STR (id : symid)
| I_GET_SIMPLE_STR (id : symid)
| I_DIM_STR (id : symid) (params : N)
| I_GET_PAREN_STR (id : symid) (params : N)
| I_SET_ARRAY_STR (id : symid) (params : N)
| I_EQ_STR | I_NE_STR | I_LT_STR | I_GT_STR | I_LE_STR | I_GE_STR
| I_CONCAT
| I_END
| I_STOP
| I_GOTO (lineno : N)
| I_GOTRUE (lineno : N)
| I_GOSUB (lineno : N)
| I_RETURN
| I_FOR (id : symid)
| I_NEXT_VAR (id : symid)
| I_NEXT_IMP
| I_DEF (id : symid) (params : N)
| I_PARAM (id : symid)
| I_END_DEF
| I_ON_GOTO (count : nat)
| I_ON_GOSUB (count : nat)
| I_ON_LINE (lineno : N)
| I_IF_THEN
| I_IF_ELSE
| I_ELSE
| I_PRINT_LN | I_PRINT_SPC | I_PRINT_TAB | I_PRINT_COMMA | I_PRINT_NUM | I_PRINT_STR
| I_CLS
| I_INPUT_BUF (prompt : option bytes)
| I_INPUT_END
| I_INPUT_SEP
| I_INPUT_NUM (id : symid) (params : N)
| I_INPUT_STR (id : symid) (params : N)
| I_INPUT_LINE (id : symid) (params : N)
| I_DATA (s : bytes)
| I_READ_NUM (id : symid) (params : N)
| I_READ_STR (id : symid) (params : N)
| I_RESTORE
| I_RESTORE_LINE (lineno : N)
| I_RAND
| I_SEED
| I_ABS | I_ASC | I_ATN | I_CHR | I_COS | I_EXP | I_INKEY | I_INT | I_LEFT | I_LEN
| I_LOG | I_MID3 | I_RIGHT | I_RND | I_SGN | I_SIN | I_SQR | I_STR | I_TAN | I_TIME_STR
| I_VAL.

(* BCODE, Basic/bcode.h:156-161; capacity is not represented *)
Record bcode := mkBcode {
  bc_inst : list instr;
  bc_has_data : bool
}.

(* new_bcode, Basic/bcode.c:138-145 *)
Definition new_bcode : bcode := mkBcode [] false.

Definition bc_used (bc : bcode) : nat := length (bc_inst bc).

Definition is_data (i : instr) : bool :=
  match i with I_DATA _ => true | _ => false end.

(* bcode_next, Basic/bcode.c:165-178, with the operand stored by the emit_*
   functions (Basic/emit.c:8-55) *)
Definition emit_instr (bc : bcode) (i : instr) : bcode :=
  mkBcode (bc_inst bc ++ [i]) (if is_data i then true else bc_has_data bc).

(* bcode_latest, Basic/bcode.c:160-163 *)
Definition bcode_latest (bc : bcode) : option instr := last_opt (bc_inst bc).

Definition is_end_def (i : instr) : bool :=
  match i with I_END_DEF => true | _ => false end.
Definition is_source_line (i : instr) : bool :=
  match i with I_SOURCE_LINE _ => true | _ => false end.
Definition is_else (i : instr) : bool :=
  match i with I_ELSE => true | _ => false end.

(* The scanning loops of Basic/bcode.c:184-185 and Basic/run.c:807-809,
   839-841, 847-849, 853-855, 1469-1470: number of instructions before the
   first one satisfying f, or all of them. *)
Fixpoint scan_to (f : instr -> bool) (l : list instr) : nat :=
  match l with
  | [] => O
  | i :: r => if f i then O else S (scan_to f r)
  end.

(* def_end, Basic/bcode.c:180-187 *)
Definition def_end (insts : list instr) (pc : nat) : nat :=
  pc + scan_to is_end_def (skipn pc insts).

(* bcode_copy_def, Basic/bcode.c:197-209 *)
Definition bcode_copy_def (src : bcode) (start : nat) : bcode :=
  let len := def_end (bc_inst src) start - start in
  mkBcode (firstn len (skipn start (bc_inst src)) ++ [I_END_DEF]) false.

(* line_count, Basic/bcode.c:213-221 *)
Definition line_count (insts : list instr) : nat :=
  length (filter is_source_line insts).

(* bcode_index, Basic/bcode.c:224-238. source_linenum (Basic/source.c:59-62)
   has checked bounds: None stands for its fatal error. insert_line_mapping
   cannot fail here, its result is ignored by the C code. *)
Fixpoint bcode_index_loop (insts : list instr) (i : nat) (src : source) (idx : linemap)
  : option linemap :=
  match insts with
  | [] => Some idx
  | I_SOURCE_LINE l :: r =>
      match nth_error src l with
      | Some ln =>
          let idx' := match insert_line_mapping idx (ln_num ln) (N.of_nat i) with
                      | Some m => m
                      | None => idx
                      end in
          bcode_index_loop r (S i) src idx'
      | None => None
      end
  | _ :: r => bcode_index_loop r (S i) src idx
  end.

Definition bcode_index (bc : bcode) (src : source) : option linemap :=
  bcode_index_loop (bc_inst bc) 0 src
    (new_line_map (N.of_nat (line_count (bc_inst bc)))).

(* struct def, Basic/def.h:11-18. def_stored tells whether source is the
   stored program's SOURCE (a reference) or null (Basic/run.c:799-805). *)
Record def := mkDef {
  def_bcode : bcode;
  def_stored : bool;
  def_line : nat
}.
