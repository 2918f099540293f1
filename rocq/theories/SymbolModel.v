(* Model of Basic/symbol.[ch], Shared/hash.c, Basic/builtin.c and
   Basic/init.c: the symbol table shared by compiler and machine. *)
From Verif Require Import Base Num ArrayModel BcodeModel.

(* ---------- Shared/hash.c ---------- *)

(* hash_in, Shared/hash.c:9-17; h is unsigned *)
Definition hash_in (h c : N) : N :=
  let h1 := u32 (N.shiftl h 4 + c) in
  let g := N.land h1 4026531840 in               (* 0xf0000000 *)
  if (g =? 0)%N then h1 else N.lxor (N.lxor h1 (N.shiftr g 24)) g.

(* toupper( *p) of a plain char converted to unsigned; bytes >= 128 are
   negative and unchanged by toupper in the C locale *)
Definition upper_unsigned (c : ascii) : N :=
  if (code c <? 128)%N then code (to_upper c) else (code c + 4294967040)%N.

(* hashpjw_upper, Shared/hash.c:19-24 *)
Definition hashpjw_upper (s : bytes) : N :=
  fold_left (fun h c => hash_in h (upper_unsigned c)) s 0%N.

(* ---------- Basic/builtin.c ---------- *)

(* TYPE_ERR, TYPE_NUM, TYPE_STR, Shared/utils.h *)
Inductive vtype := TErr | TNum | TStr.

(* parameter letters n, s, d of Basic/builtin.c:11 *)
Inductive argkind := ArgNum | ArgStr | ArgDummy.

Definition vtype_eqb (a b : vtype) : bool :=
  match a, b with
  | TErr, TErr | TNum, TNum | TStr, TStr => true
  | _, _ => false
  end.

(* BUILTIN, Basic/builtin.h:6-11 *)
Record builtin := mkBuiltin {
  bi_name : bytes;
  bi_type : vtype;
  bi_args : list argkind;        (* [] for the null pointer *)
  bi_op : instr
}.

(* builtins, Basic/builtin.c:12-45, without HAS_KBHIT (Linux) *)
Definition builtins : list builtin :=
  [ mkBuiltin (lit "ABS") TNum [ArgNum] I_ABS;
    mkBuiltin (lit "ASC") TNum [ArgStr] I_ASC;
    mkBuiltin (lit "ATN") TNum [ArgNum] I_ATN;
    mkBuiltin (lit "CHR$") TStr [ArgNum] I_CHR;
    mkBuiltin (lit "COS") TNum [ArgNum] I_COS;
    mkBuiltin (lit "EXP") TNum [ArgNum] I_EXP;
    mkBuiltin (lit "FIX") TErr [] I_NOP;
    mkBuiltin (lit "GET$") TErr [] I_NOP;
    mkBuiltin (lit "HEX$") TErr [] I_NOP;
    mkBuiltin (lit "INKEY$") TErr [] I_NOP;
    mkBuiltin (lit "INT") TNum [ArgNum] I_INT;
    mkBuiltin (lit "LEFT$") TStr [ArgStr; ArgNum] I_LEFT;
    mkBuiltin (lit "LEN") TNum [ArgStr] I_LEN;
    mkBuiltin (lit "LOG") TNum [ArgNum] I_LOG;
    mkBuiltin (lit "MID$") TStr [ArgStr; ArgNum; ArgNum] I_MID3;
    mkBuiltin (lit "RIGHT$") TStr [ArgStr; ArgNum] I_RIGHT;
    mkBuiltin (lit "RND") TNum [ArgDummy] I_RND;
    mkBuiltin (lit "SGN") TNum [ArgNum] I_SGN;
    mkBuiltin (lit "SIN") TNum [ArgNum] I_SIN;
    mkBuiltin (lit "SPACE$") TErr [] I_NOP;
    mkBuiltin (lit "SQR") TNum [ArgNum] I_SQR;
    mkBuiltin (lit "STR$") TStr [ArgNum] I_STR;
    mkBuiltin (lit "TAN") TNum [ArgNum] I_TAN;
    mkBuiltin (lit "TIME$") TStr [ArgDummy] I_TIME_STR;
    mkBuiltin (lit "USR") TErr [] I_NOP;
    mkBuiltin (lit "VAL") TNum [ArgStr] I_VAL ].

(* builtin, Basic/builtin.c:47-54 *)
Definition find_builtin (s : bytes) : option builtin :=
  find (fun b => strieq (bi_name b) s) builtins.

(* ---------- Basic/symbol.c ---------- *)

(* enum symbol_kind, Basic/symbol.h:12-18 *)
Inductive skind := KUnknown | KVariable | KArray | KDef | KBuiltin.

Definition skind_eqb (a b : skind) : bool :=
  match a, b with
  | KUnknown, KUnknown | KVariable, KVariable | KArray, KArray | KDef, KDef
  | KBuiltin, KBuiltin => true
  | _, _ => false
  end.

(* the union val, Basic/symbol.h:30-40. VZero is the all-zero value: the
   number 0.0 and the null pointers. String array elements are None for the
   null pointer. *)
Inductive sval :=
| VZero
| VNum (x : num)
| VStr (s : bytes)
| VNumArr (a : array num)
| VStrArr (a : array (option bytes))
| VDef (d : def)
| VBuiltin (args : list argkind) (op : instr).

(* SYMBOL, Basic/symbol.h:24-42; next is represented by the chains below *)
Record symbol := mkSym {
  s_name : bytes;
  s_id : symid;
  s_kind : skind;
  s_type : vtype;
  s_defined : bool;
  s_val : sval
}.

(* SYMBOL_HASH_SIZE, Basic/symbol.h:44 *)
Definition SYMBOL_HASH_SIZE : N := 293.

(* SYMTAB, Basic/symbol.h:48-54. st_syms is psym[0..used-1]; a chain is the
   list, from its head, of the positions of its symbols in psym. *)
Record symtab := mkSt {
  st_hash : list (list nat);
  st_syms : list symbol;
  st_next : N
}.

(* new_symbol_table, Basic/symbol.c:22-24 *)
Definition new_symbol_table : symtab :=
  mkSt (repeat [] (N.to_nat SYMBOL_HASH_SIZE)) [] 0.

(* bucket, Basic/symbol.c:109 and 125 *)
Definition sym_bucket (name : bytes) : nat := N.to_nat (hashpjw_upper name mod SYMBOL_HASH_SIZE).

(* match_paren, Basic/symbol.c:96-106 *)
Definition match_paren (k : skind) (paren : bool) : bool :=
  match k with
  | KUnknown => paren
  | KVariable => negb paren
  | KArray => paren
  | KDef => paren
  | KBuiltin => true
  end.

Definition sym_matches (syms : list symbol) (name : bytes) (paren : bool) (p : nat) : bool :=
  match nth_error syms p with
  | Some s => match_paren (s_kind s) paren && strieq (s_name s) name
  | None => false
  end.

(* sym_lookup, Basic/symbol.c:108-115: position of the symbol *)
Definition sym_lookup (st : symtab) (name : bytes) (paren : bool) : option nat :=
  find (sym_matches (st_syms st) name paren) (nth (sym_bucket name) (st_hash st) []).

(* sym_insert, Basic/symbol.c:117-138: new table and position of the symbol *)
Definition sym_insert (st : symtab) (name : bytes) (k : skind) (t : vtype) : symtab * nat :=
  let p := length (st_syms st) in
  let h := sym_bucket name in
  (mkSt (list_upd (st_hash st) h (p :: nth h (st_hash st) []))
        (st_syms st ++ [mkSym name (st_next st) k t false VZero])
        (u16 (st_next st + 1)), p).

(* Replace the symbol at a position (a write through a SYMBOL* ) *)
Definition sym_update (st : symtab) (p : nat) (s : symbol) : symtab :=
  mkSt (st_hash st) (list_upd (st_syms st) p s) (st_next st).

Definition set_defined (s : symbol) (d : bool) : symbol :=
  mkSym (s_name s) (s_id s) (s_kind s) (s_type s) d (s_val s).
Definition set_val (s : symbol) (v : sval) : symbol :=
  mkSym (s_name s) (s_id s) (s_kind s) (s_type s) (s_defined s) v.
Definition set_kind (s : symbol) (k : skind) : symbol :=
  mkSym (s_name s) (s_id s) k (s_type s) (s_defined s) (s_val s).
Definition define (s : symbol) (v : sval) : symbol := set_defined (set_val s v) true.
Definition undefine (s : symbol) : symbol := set_defined (set_val s VZero) false.

(* undefine_value, Basic/symbol.c:58-94. The types of variables and arrays
   are NUM or STR, so the inner switches always reset the value; a symbol of
   UNKNOWN kind keeps its (never set) value. *)
Definition undefine_value (s : symbol) : symbol :=
  match s_kind s with
  | KBuiltin => s
  | KUnknown => set_defined s false
  | _ => undefine s
  end.

(* clear_symbol_table_values, Basic/symbol.c:50-56 *)
Definition clear_symbol_table_values (st : symtab) : symtab :=
  mkSt (st_hash st)
       (map (fun s => if s_defined s then undefine_value s else s) (st_syms st))
       (st_next st).

(* clear_symbol_table_names, Basic/symbol.c:34-45 *)
Definition clear_symbol_table_names (st : symtab) : symtab := new_symbol_table.

(* symbol, Basic/symbol.c:148-152: psym[id]; None is the failed assert *)
Definition symbol_at (st : symtab) (id : symid) : option symbol :=
  nth_error (st_syms st) (N.to_nat id).

(* sym_make_unknown_array, Basic/symbol.c:162-167 *)
Definition sym_make_unknown_array (st : symtab) : symtab :=
  mkSt (st_hash st)
       (map (fun s => if skind_eqb (s_kind s) KUnknown then set_kind s KArray else s) (st_syms st))
       (st_next st).

(* sym_insert_builtin, Basic/symbol.c:140-146 *)
Definition sym_insert_builtin (st : symtab) (b : builtin) : symtab :=
  let (st', p) := sym_insert st (bi_name b) KBuiltin (bi_type b) in
  match nth_error (st_syms st') p with
  | Some s => sym_update st' p (define s (VBuiltin (bi_args b) (bi_op b)))
  | None => st'
  end.

(* init_builtins, Basic/init.c:4-12 *)
Definition init_builtins (st : symtab) : symtab := fold_left sym_insert_builtin builtins st.
