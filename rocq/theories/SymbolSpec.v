(* What C11 and C12 mean, without hash chains. *)
From Verif Require Import Base Num SymbolModel.

(* Two spellings that differ only in letter case. *)
Definition same_name (a b : bytes) : Prop := map to_upper a = map to_upper b.

(* A use of a name with (paren = true) or without parentheses can mean an
   object of this kind: simple variables are used without, arrays and user
   functions with parentheses, built-in names both ways. *)
Definition can_mean (paren : bool) (k : skind) : Prop :=
  match k with
  | KVariable => paren = false
  | KArray | KDef | KUnknown => paren = true
  | KBuiltin => True
  end.

(* The symbol at position p is what the use of the name denotes. *)
Definition denotes (syms : list symbol) (name : bytes) (paren : bool) (p : nat) : Prop :=
  exists s, nth_error syms p = Some s /\ same_name (s_name s) name /\ can_mean paren (s_kind s).

(* Using a name in a program: the symbol is looked up and created when there
   is none (as the compiler does). *)
Definition use_name (st : symtab) (name : bytes) (paren : bool) (k : skind) (t : vtype)
  : symtab * nat :=
  match sym_lookup st name paren with
  | Some p => (st, p)
  | None => sym_insert st name k t
  end.

(* One change of the table: use a name; settle the kind of a name first used
   in an expression; change the value of a symbol that is not built in; forget
   all values. *)
Inductive change : symtab -> symtab -> Prop :=
| Ch_use st name paren k t :
    can_mean paren k -> k <> KBuiltin -> change st (fst (use_name st name paren k t))
| Ch_kind st p s k :
    nth_error (st_syms st) p = Some s -> s_kind s = KUnknown -> k = KArray \/ k = KDef ->
    change st (sym_update st p (set_kind s k))
| Ch_unknown st : change st (sym_make_unknown_array st)
| Ch_value st p s v d :
    nth_error (st_syms st) p = Some s -> s_kind s <> KBuiltin ->
    change st (sym_update st p (set_defined (set_val s v) d))
| Ch_clear st : change st (clear_symbol_table_values st).

Inductive changes : symtab -> symtab -> Prop :=
| Chs_refl st : changes st st
| Chs_step st st' st'' : changes st st' -> change st' st'' -> changes st st''.

(* The tables a session can produce: they start with the built-in names. *)
Definition table (st : symtab) : Prop := changes (init_builtins new_symbol_table) st.

(* The name is that of a built-in function. *)
Definition builtin_name (name : bytes) : Prop :=
  exists b, In b builtins /\ same_name (bi_name b) name.

(* What a program sees of a symbol: a number or string variable's value, an
   array that has not been dimensioned, a function that has not been defined. *)
Inductive view := SeesNum (x : num) | SeesStr (s : bytes) | SeesNoArray | SeesNoDef | SeesOther.

(* A symbol that is not marked defined reads as reset; a defined variable
   reads as its value, a null string pointer being the empty string
   (Basic/run.c:1252-1262, 1333-1344). *)
Definition seen (s : symbol) : view :=
  match s_kind s, s_type s with
  | KVariable, TNum =>
      if s_defined s then match s_val s with VNum x => SeesNum x | VZero => SeesNum fzero | _ => SeesOther end
      else SeesNum fzero
  | KVariable, TStr =>
      if s_defined s then match s_val s with VStr x => SeesStr x | VZero => SeesStr [] | _ => SeesOther end
      else SeesStr []
  | KArray, _ => if s_defined s then SeesOther else SeesNoArray
  | KDef, _ => if s_defined s then SeesOther else SeesNoDef
  | _, _ => SeesOther
  end.

(* a variable, array or function that has never been given a value *)
Definition fresh_view (k : skind) (t : vtype) : view :=
  match k, t with
  | KVariable, TNum => SeesNum fzero
  | KVariable, TStr => SeesStr []
  | KArray, _ => SeesNoArray
  | KDef, _ => SeesNoDef
  | _, _ => SeesOther
  end.
