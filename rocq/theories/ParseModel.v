(* Model of Basic/parse.c: compiling source lines to B-code. *)
From Verif Require Import Base Num SourceModel BcodeModel SymbolModel LexModel.

(* ---------- the parser state and its outcomes ---------- *)

(* PARSER and the parts of LEX that change, Basic/parse.c:20-26 and
   Basic/lexer.h:11-21. p_rest is the text from lex->pos, p_start the text
   from lex->token_pos; p_kw is recognise_keyword_prefixes. *)
Record pstate := mkPs {
  p_kw : bool;
  p_start : bytes;
  p_rest : bytes;
  p_tok : token;
  p_code : bcode;
  p_st : symtab;
  p_ifthen : nat
}.

(* the calls of parse_error and parse_error_no_token *)
Inductive perr :=
| PE_unexpected (expected : token)
| PE_statement
| PE_def_name
| PE_name_used (k : skind)
| PE_array (name : bytes)
| PE_else
| PE_string_variable (name : bytes)
| PE_assignment
| PE_on
| PE_print
| PE_numeric
| PE_string
| PE_or | PE_and | PE_not
| PE_relational
| PE_additive | PE_concat | PE_mult | PE_neg
| PE_builtin
| PE_expression
| PE_kind (expected found : skind) (name : bytes)
| PE_simple (name : bytes)
| PE_numeric_var (name : bytes)
| PE_line.

(* PErr: error reported, longjmp to parse_source. PExit: the process exits.
   PCrash: failed assert. PNoFuel: the model's recursion bound was reached;
   not a behaviour of the code. *)
Inductive pres (A : Type) :=
| POk (a : A) (s : pstate)
| PErr (e : perr) (s : pstate)
| PExit
| PCrash
| PNoFuel.
Arguments POk {A} a s.
Arguments PErr {A} e s.
Arguments PExit {A}.
Arguments PCrash {A}.
Arguments PNoFuel {A}.

Definition P (A : Type) : Type := pstate -> pres A.

Definition pret {A} (a : A) : P A := fun s => POk a s.
Definition pbind {A B} (m : P A) (f : A -> P B) : P B :=
  fun s => match m s with
           | POk a s' => f a s'
           | PErr e s' => PErr e s'
           | PExit => PExit
           | PCrash => PCrash
           | PNoFuel => PNoFuel
           end.

Declare Scope parse_scope.
Delimit Scope parse_scope with parse.
Notation "'let*' x ':=' m 'in' k" := (pbind m (fun x => k))
  (at level 200, x pattern, m at level 100, k at level 200, right associativity) : parse_scope.
Notation "m ;;; k" := (pbind m (fun _ => k))
  (at level 100, k at level 200, right associativity) : parse_scope.
Local Open Scope parse_scope.

Definition perror {A} (e : perr) : P A := fun s => PErr e s.
Definition pcrash {A} : P A := fun _ => PCrash.
Definition pnofuel {A} : P A := fun _ => PNoFuel.
Definition passert (b : bool) : P unit := if b then pret tt else pcrash.

Definition set_lex (t : token) (start rest : bytes) (s : pstate) : pstate :=
  mkPs (p_kw s) start rest t (p_code s) (p_st s) (p_ifthen s).
Definition set_pcode (c : bcode) (s : pstate) : pstate :=
  mkPs (p_kw s) (p_start s) (p_rest s) (p_tok s) c (p_st s) (p_ifthen s).
Definition set_pst (st : symtab) (s : pstate) : pstate :=
  mkPs (p_kw s) (p_start s) (p_rest s) (p_tok s) (p_code s) st (p_ifthen s).
Definition set_ifthen (n : nat) : P unit :=
  fun s => POk tt (mkPs (p_kw s) (p_start s) (p_rest s) (p_tok s) (p_code s) (p_st s) n).

(* lex_next on the parser's lexer *)
Definition next_token : P unit :=
  fun s => match lex_next (p_kw s) (p_rest s) with
           | LxTok t start rest => POk tt (set_lex t start rest s)
           | LxExit => PExit
           end.

(* lex_token *)
Definition tok : P token := fun s => POk (p_tok s) s.

Definition kw_eqb (a b : keyword) : bool :=
  match a, b with
  | K_AND, K_AND | K_CLEAR, K_CLEAR | K_CLS, K_CLS | K_DATA, K_DATA | K_DEF, K_DEF
  | K_DIM, K_DIM | K_ELSE, K_ELSE | K_END, K_END | K_FOR, K_FOR | K_GOSUB, K_GOSUB
  | K_GOTO, K_GOTO | K_IF, K_IF | K_INPUT, K_INPUT | K_LET, K_LET | K_LINE, K_LINE
  | K_NEXT, K_NEXT | K_NOT, K_NOT | K_ON, K_ON | K_OR, K_OR | K_PRINT, K_PRINT
  | K_RANDOMIZE, K_RANDOMIZE | K_READ, K_READ | K_REM, K_REM | K_RESTORE, K_RESTORE
  | K_RETURN, K_RETURN | K_STEP, K_STEP | K_STOP, K_STOP | K_THEN, K_THEN | K_TO, K_TO => true
  | _, _ => false
  end.

Definition is_kw (k : keyword) (t : token) : bool :=
  match t with T_KW j => kw_eqb j k | _ => false end.
Definition is_char (c : ascii) (t : token) : bool :=
  match t with T_CHAR d => ceq d c | _ => false end.
Definition is_id (t : token) : bool := match t with T_ID _ => true | _ => false end.

(* match, Basic/parse.c:90-98, for a keyword, a character, an identifier *)
Definition match_kw (k : keyword) : P unit :=
  let* t := tok in if is_kw k t then next_token else perror (PE_unexpected (T_KW k)).
Definition match_char (c : ascii) : P unit :=
  let* t := tok in if is_char c t then next_token else perror (PE_unexpected (T_CHAR c)).
Definition match_id : P unit :=
  let* t := tok in if is_id t then next_token else perror (PE_unexpected (T_ID [])).

(* emit, Basic/emit.c:8-52: index of the instruction *)
Definition emit (i : instr) : P nat :=
  fun s => POk (bc_used (p_code s)) (set_pcode (emit_instr (p_code s) i) s).
Definition emit_ (i : instr) : P unit := emit i ;;; pret tt.

(* patch_opcode and patch_count, Basic/emit.c:59-67: the instruction at an
   index is replaced; fatal() when out of range *)
Definition patch (index : nat) (f : instr -> instr) : P unit :=
  fun s =>
    match nth_error (bc_inst (p_code s)) index with
    | Some i => POk tt (set_pcode (mkBcode (list_upd (bc_inst (p_code s)) index (f i))
                                           (bc_has_data (p_code s))) s)
    | None => PExit
    end.

(* the loops' bound, from the text left: every round reads a token *)
Definition with_fuel {A} (f : nat -> P A) : P A :=
  fun s => f (S (S (length (p_rest s)))) s.

(* eos, Basic/parse.c:183-186 *)
Definition eos (t : token) : bool :=
  match t with
  | T_EOF => true
  | T_CHAR c => ceq c NL || ceq c ":"
  | T_KW K_ELSE => true
  | _ => false
  end.

(* line_number, Basic/parse.c:946-956 *)
Definition line_number : P N :=
  let* t := tok in
  match lex_unsigned t with
  | Some n => next_token ;;; pret n
  | None => perror PE_line
  end.

(* string_name, Shared/utils.c:86-88 *)
Definition string_name (name : bytes) : bool :=
  match last_opt name with Some c => ceq c "$" | None => false end.

Definition name_type (name : bytes) : vtype := if string_name name then TStr else TNum.

(* a symbol read through a pointer *)
Definition psym (p : nat) : P symbol :=
  fun s => match nth_error (st_syms (p_st s)) p with
           | Some x => POk x s
           | None => PCrash
           end.

(* ---------- expressions ---------- *)

Section Expressions.

(* expression, called recursively *)
Variable ex : P vtype.

(* numeric_expression, string_expression, Basic/parse.c:604-612 *)
Definition numeric_expression_ : P unit :=
  let* t := ex in if vtype_eqb t TNum then pret tt else perror PE_numeric.
Definition string_expression_ : P unit :=
  let* t := ex in if vtype_eqb t TStr then pret tt else perror PE_string.

(* discard_expression, Basic/parse.c:614-620 *)
Definition discard_expression_ : P unit :=
  let* t := ex in
  match t with
  | TNum => emit_ I_POP_NUM
  | TStr => emit_ I_POP_STR
  | TErr => pret tt
  end.

(* builtin_arg, Basic/parse.c:883-889. A dummy in another place than the
   first does not occur in the table. *)
Definition builtin_arg (a : argkind) : P unit :=
  match a with
  | ArgNum => numeric_expression_
  | ArgStr => string_expression_
  | ArgDummy => perror PE_builtin
  end.

(* Basic/parse.c:851-854 *)
Fixpoint builtin_args (l : list argkind) : P unit :=
  match l with
  | [] => pret tt
  | a :: r => match_char "," ;;; builtin_arg a ;;; builtin_args r
  end.

(* the subscripts of identifier, Basic/parse.c:904-908: their number *)
Fixpoint subscripts (fuel : nat) (n : nat) : P nat :=
  match fuel with
  | O => pnofuel
  | S f =>
      next_token ;;;
      numeric_expression_ ;;;
      let* t := tok in
      if is_char "," t then subscripts f (S n) else pret (S n)
  end.

(* identifier, Basic/parse.c:894-929: the symbol's position and the number of
   parameters *)
Definition identifier_ (fuel : nat) (paren_kind : skind) : P (nat * nat) :=
  let* t := tok in
  match t with
  | T_ID name =>
      match_id ;;;
      let* t1 := tok in
      let* params := (if is_char "(" t1
                      then let* n := subscripts fuel 0 in match_char ")" ;;; pret n
                      else pret 0) in
      let paren := negb (Nat.eqb params 0) in
      fun s =>
        match sym_lookup (p_st s) name paren with
        | Some p =>
            if paren then
              match nth_error (st_syms (p_st s)) p with
              | None => PCrash
              | Some sym =>
                  if skind_eqb (s_kind sym) KUnknown
                  then POk (p, params) (set_pst (sym_update (p_st s) p (set_kind sym paren_kind)) s)
                  else if negb (skind_eqb paren_kind KUnknown) && negb (skind_eqb (s_kind sym) paren_kind)
                  then PErr (PE_kind paren_kind (s_kind sym) name) s
                  else POk (p, params) s
              end
            else POk (p, params) s
        | None =>
            let (st', p) := sym_insert (p_st s) name
                              (if paren then paren_kind else KVariable) (name_type name) in
            POk (p, params) (set_pst st' s)
        end
  | _ => perror (PE_unexpected (T_ID []))
  end.

(* the unsigned char param.params, Basic/bcode.h:152 *)
Definition params8 (n : nat) : N := u8 (N.of_nat n).

(* primary_expression, Basic/parse.c:819-881 *)
Definition primary_expression (fuel : nat) : P vtype :=
  let* t := tok in
  match t with
  | T_NUM x _ => emit_ (I_PUSH_NUM x) ;;; next_token ;;; pret TNum
  | T_STR w => emit_ (I_PUSH_STR w) ;;; next_token ;;; pret TStr
  | T_ID w =>
      match find_builtin w with
      | Some b =>
          if vtype_eqb (bi_type b) TErr then perror PE_builtin
          else
            next_token ;;;
            (match bi_args b with
             | [] => pcrash                                   (* assert, 838 *)
             | ArgDummy :: _ =>
                 let* t1 := tok in
                 if is_char "(" t1 then
                   next_token ;;;
                   let* t2 := tok in
                   (if is_char ")" t2 then pret tt else discard_expression_) ;;;
                   match_char ")"
                 else pret tt
             | a :: r =>
                 match_char "(" ;;;
                 builtin_arg a ;;;
                 builtin_args r ;;;
                 match_char ")"
             end) ;;;
            emit_ (bi_op b) ;;;
            pret (bi_type b)
      | None =>
          let* (p, params) := identifier_ fuel KUnknown in
          let* sym := psym p in
          emit_ (match params, vtype_eqb (s_type sym) TStr with
                 | O, true => I_GET_SIMPLE_STR (s_id sym)
                 | O, false => I_GET_SIMPLE_NUM (s_id sym)
                 | S _, true => I_GET_PAREN_STR (s_id sym) (params8 params)
                 | S _, false => I_GET_PAREN_NUM (s_id sym) (params8 params)
                 end) ;;;
          pret (s_type sym)
      end
  | _ =>
      if is_char "(" t then
        next_token ;;;
        let* ty := ex in
        (if vtype_eqb ty TErr then pret tt else match_char ")") ;;;
        pret ty
      else perror PE_expression
  end.

(* power_expr, Basic/parse.c:803-815 *)
Fixpoint power_expr (fuel : nat) : P vtype :=
  match fuel with
  | O => pnofuel
  | S f =>
      let* type1 := primary_expression fuel in
      let* t := tok in
      if vtype_eqb type1 TNum && is_char "^" t then
        next_token ;;;
        let* type2 := power_expr f in
        if vtype_eqb type2 TNum then emit_ I_POW ;;; pret type1 else pret TErr
      else pret type1
  end.

(* the loop counting leading operators, Basic/parse.c:667-671 and 783-787 *)
Fixpoint count_tokens (fuel : nat) (is : token -> bool) (n : nat) : P nat :=
  match fuel with
  | O => pnofuel
  | S f =>
      let* t := tok in
      if is t then next_token ;;; count_tokens f is (S n) else pret n
  end.

(* neg_expr, Basic/parse.c:780-799 *)
Definition neg_expr (fuel : nat) : P vtype :=
  let* neg := count_tokens fuel (is_char "-") 0 in
  let* type := power_expr fuel in
  (if Nat.eqb neg 0 then pret tt
   else if negb (vtype_eqb type TNum) then perror PE_neg
   else if Nat.odd neg then emit_ I_NEG else pret tt) ;;;
  pret type.

(* mult_expr, Basic/parse.c:762-776 *)
Fixpoint mult_loop (fuel : nat) (k : nat) (type1 : vtype) : P unit :=
  match k with
  | O => pnofuel
  | S k' =>
      let* t := tok in
      if is_char "*" t || is_char "/" t then
        next_token ;;;
        let* type2 := neg_expr fuel in
        if vtype_eqb type1 TNum && vtype_eqb type2 TNum
        then emit_ (if is_char "*" t then I_MUL else I_DIV) ;;; mult_loop fuel k' type1
        else perror PE_mult
      else pret tt
  end.

Definition mult_expr (fuel : nat) : P vtype :=
  let* type1 := neg_expr fuel in mult_loop fuel fuel type1 ;;; pret type1.

(* add_expr, Basic/parse.c:732-758 *)
Fixpoint add_loop (fuel : nat) (k : nat) : P unit :=
  match k with
  | O => pnofuel
  | S k' =>
      let* t := tok in
      if is_char "+" t || is_char "-" t then
        next_token ;;;
        let* type2 := mult_expr fuel in
        if vtype_eqb type2 TNum
        then emit_ (if is_char "+" t then I_ADD else I_SUB) ;;; add_loop fuel k'
        else perror PE_additive
      else pret tt
  end.

Fixpoint concat_loop (fuel : nat) (k : nat) : P unit :=
  match k with
  | O => pnofuel
  | S k' =>
      let* t := tok in
      if is_char "+" t then
        next_token ;;;
        let* type2 := mult_expr fuel in
        if vtype_eqb type2 TStr
        then emit_ I_CONCAT ;;; concat_loop fuel k'
        else perror PE_concat
      else pret tt
  end.

Definition add_expr (fuel : nat) : P vtype :=
  let* type1 := mult_expr fuel in
  (match type1 with
   | TNum => add_loop fuel fuel
   | TStr => concat_loop fuel fuel
   | TErr => pret tt
   end) ;;;
  pret type1.

(* relop, Basic/parse.c:685-687, with the opcodes of 704-724 *)
Definition relop (t : token) : option (instr * instr) :=
  match t with
  | T_NE => Some (I_NE_NUM, I_NE_STR)
  | T_LE => Some (I_LE_NUM, I_LE_STR)
  | T_GE => Some (I_GE_NUM, I_GE_STR)
  | T_CHAR c =>
      if ceq c "=" then Some (I_EQ_NUM, I_EQ_STR)
      else if ceq c "<" then Some (I_LT_NUM, I_LT_STR)
      else if ceq c ">" then Some (I_GT_NUM, I_GT_STR)
      else None
  | _ => None
  end.

(* relational_expression, Basic/parse.c:691-728 *)
Definition relational_expression (fuel : nat) : P vtype :=
  let* type1 := add_expr fuel in
  if vtype_eqb type1 TErr then pret TErr
  else
    let* t := tok in
    match relop t with
    | None => pret type1
    | Some (opn, ops) =>
        next_token ;;;
        let* type2 := add_expr fuel in
        if vtype_eqb type2 TErr then pret TErr
        else if negb (vtype_eqb type1 type2) then perror PE_relational
        else emit_ (if vtype_eqb type1 TStr then ops else opn) ;;; pret TNum
    end.

(* NOT_expression, Basic/parse.c:664-683 *)
Definition not_expression (fuel : nat) : P vtype :=
  let* n := count_tokens fuel (is_kw K_NOT) 0 in
  let* type := relational_expression fuel in
  (if Nat.eqb n 0 then pret tt
   else if negb (vtype_eqb type TNum) then perror PE_not
   else if Nat.odd n then emit_ I_NOT else pret tt) ;;;
  pret type.

(* AND_expression, Basic/parse.c:647-660 *)
Fixpoint and_loop (fuel : nat) (k : nat) (type1 : vtype) : P unit :=
  match k with
  | O => pnofuel
  | S k' =>
      let* t := tok in
      if is_kw K_AND t then
        next_token ;;;
        let* type2 := not_expression fuel in
        if vtype_eqb type1 TNum && vtype_eqb type2 TNum
        then emit_ I_AND ;;; and_loop fuel k' type1
        else perror PE_and
      else pret tt
  end.

Definition and_expression (fuel : nat) : P vtype :=
  let* type1 := not_expression fuel in and_loop fuel fuel type1 ;;; pret type1.

(* OR_expression, Basic/parse.c:630-643 *)
Fixpoint or_loop (fuel : nat) (k : nat) (type1 : vtype) : P unit :=
  match k with
  | O => pnofuel
  | S k' =>
      let* t := tok in
      if is_kw K_OR t then
        next_token ;;;
        let* type2 := and_expression fuel in
        if vtype_eqb type1 TNum && vtype_eqb type2 TNum
        then emit_ I_OR ;;; or_loop fuel k' type1
        else perror PE_or
      else pret tt
  end.

Definition or_expression (fuel : nat) : P vtype :=
  let* type1 := and_expression fuel in or_loop fuel fuel type1 ;;; pret type1.

End Expressions.

(* expression, Basic/parse.c:624-626 *)
Fixpoint expression_fuel (fuel : nat) : P vtype :=
  match fuel with
  | O => pnofuel
  | S f => or_expression (expression_fuel f) fuel
  end.

Definition expression : P vtype := with_fuel expression_fuel.
Definition numeric_expression : P unit := numeric_expression_ expression.
Definition string_expression : P unit := string_expression_ expression.
Definition identifier (k : skind) : P (nat * nat) :=
  with_fuel (fun fuel => identifier_ expression fuel k).

(* simple_variable, numeric_simple_variable, Basic/parse.c:931-944 *)
Definition simple_variable : P symbol :=
  let* (p, _) := identifier KUnknown in
  let* sym := psym p in
  if skind_eqb (s_kind sym) KVariable then pret sym else perror (PE_simple (s_name sym)).
Definition numeric_simple_variable : P symbol :=
  let* sym := simple_variable in
  if vtype_eqb (s_type sym) TNum then pret sym else perror (PE_numeric_var (s_name sym)).

(* ---------- statements ---------- *)

(* item, { "," item } *)
Fixpoint comma_list (fuel : nat) (item : P unit) : P unit :=
  match fuel with
  | O => pnofuel
  | S f =>
      let* t := tok in
      if is_char "," t then next_token ;;; item ;;; comma_list f item else pret tt
  end.
Definition items (item : P unit) : P unit := item ;;; with_fuel (fun f => comma_list f item).

(* lex_next_data and emit, Basic/parse.c:215, 217 *)
Definition datum : P unit :=
  fun s => match lex_next_data (p_rest s) with
           | None => PExit
           | Some (w, start, rest) =>
               emit_ (I_DATA w) (set_lex (p_tok s) start rest s)
           end.

Fixpoint data_loop (fuel : nat) : P unit :=
  match fuel with
  | O => pnofuel
  | S f =>
      next_token ;;;
      let* t := tok in
      if is_char "," t then datum ;;; data_loop f else pret tt
  end.

(* data_statement, Basic/parse.c:211-218; the current token is DATA *)
Definition data_statement : P unit := datum ;;; with_fuel data_loop.

(* read_item, read_statement, Basic/parse.c:223-243 *)
Definition read_item : P unit :=
  let* (p, dim) := identifier KArray in
  let* sym := psym p in
  match s_type sym with
  | TStr => emit_ (I_READ_STR (s_id sym) (params8 dim))
  | TNum => emit_ (I_READ_NUM (s_id sym) (params8 dim))
  | TErr => pcrash
  end.
Definition read_statement : P unit := match_kw K_READ ;;; items read_item.

(* restore_statement, Basic/parse.c:246-252 *)
Definition restore_statement : P unit :=
  match_kw K_RESTORE ;;;
  let* t := tok in
  match t with
  | T_NUM _ _ => let* n := line_number in emit_ (I_RESTORE_LINE n)
  | _ => emit_ I_RESTORE
  end.

(* the symbol of a DEF, Basic/parse.c:263-273 *)
Definition def_symbol (name : bytes) : P symid :=
  fun s =>
    match sym_lookup (p_st s) name true with
    | Some p =>
        match nth_error (st_syms (p_st s)) p with
        | None => PCrash
        | Some sym =>
            if skind_eqb (s_kind sym) KUnknown
            then POk (s_id sym) (set_pst (sym_update (p_st s) p (set_kind sym KDef)) s)
            else if negb (skind_eqb (s_kind sym) KDef) then PErr (PE_name_used (s_kind sym)) s
            else POk (s_id sym) s
        end
    | None =>
        let (st', p) := sym_insert (p_st s) name KDef (name_type name) in
        POk (st_next (p_st s)) (set_pst st' s)
    end.

(* def_statement, Basic/parse.c:257-288, def_parameter, 290-294 *)
Definition def_statement : P unit :=
  match_kw K_DEF ;;;
  let* t := tok in
  match t with
  | T_ID name =>
      let* id := def_symbol name in
      match_id ;;;
      emit_ (I_DEF id 1) ;;;
      match_char "(" ;;;
      let* param := numeric_simple_variable in
      emit_ (I_PARAM (s_id param)) ;;;
      match_char ")" ;;;
      match_char "=" ;;;
      (if string_name name then string_expression else numeric_expression) ;;;
      emit_ I_END_DEF
  | _ => perror PE_def_name
  end.

(* dim_array, dim_statement, Basic/parse.c:298-319 *)
Definition dim_array : P unit :=
  let* (p, dim) := identifier KArray in
  let* sym := psym p in
  if negb (skind_eqb (s_kind sym) KArray) then perror (PE_array (s_name sym))
  else emit_ (if vtype_eqb (s_type sym) TStr then I_DIM_STR (s_id sym) (params8 dim)
              else I_DIM_NUM (s_id sym) (params8 dim)).
Definition dim_statement : P unit := match_kw K_DIM ;;; items dim_array.

(* for_statement, Basic/parse.c:326-343 *)
Definition for_statement : P unit :=
  match_kw K_FOR ;;;
  let* sym := numeric_simple_variable in
  match_char "=" ;;;
  numeric_expression ;;;
  match_kw K_TO ;;;
  numeric_expression ;;;
  let* t := tok in
  (if is_kw K_STEP t then next_token ;;; numeric_expression
   else emit_ (I_PUSH_NUM fone)) ;;;
  emit_ (I_FOR (s_id sym)).

(* next_statement, Basic/parse.c:345-359 *)
Definition next_item : P unit :=
  let* sym := numeric_simple_variable in emit_ (I_NEXT_VAR (s_id sym)).
Definition next_statement : P unit :=
  match_kw K_NEXT ;;;
  let* t := tok in
  if is_id t then items next_item else emit_ I_NEXT_IMP.

(* gosub_statement, goto_statement, Basic/parse.c:361-371 *)
Definition gosub_statement : P unit :=
  match_kw K_GOSUB ;;; let* n := line_number in emit_ (I_GOSUB n).
Definition goto_statement : P unit :=
  match_kw K_GOTO ;;; let* n := line_number in emit_ (I_GOTO n).

(* if_statement, Basic/parse.c:375-387 *)
Definition if_statement : P bool :=
  match_kw K_IF ;;;
  numeric_expression ;;;
  match_kw K_THEN ;;;
  let* t := tok in
  match t with
  | T_NUM _ _ =>
      let* n := line_number in
      emit_ (I_GOTRUE n) ;;;
      set_ifthen 0 ;;;
      pret false
  | _ =>
      let* i := emit I_IF_THEN in
      set_ifthen i ;;;
      pret true
  end.

(* else_clause, Basic/parse.c:389-408 *)
Definition else_clause : P bool :=
  fun s =>
    match p_ifthen s with
    | O =>
        match bcode_latest (p_code s) with
        | Some (I_GOTRUE _) =>
            (match_kw K_ELSE ;;;
             let* n := line_number in
             emit_ (I_GOTO n) ;;;
             pret false) s
        | _ => PErr PE_else s
        end
    | i =>
        (match_kw K_ELSE ;;;
         patch i (fun _ => I_IF_ELSE) ;;;
         emit_ I_ELSE ;;;
         set_ifthen 0 ;;;
         pret true) s
    end.

(* input_buffer, Basic/parse.c:429-439 *)
Definition input_buffer : P unit :=
  let* t := tok in
  match t with
  | T_STR w =>
      next_token ;;;
      let* sep := tok in
      (if is_char ";" sep || is_char "," sep then next_token else pret tt) ;;;
      emit_ (I_INPUT_BUF (Some w))
  | _ => emit_ (I_INPUT_BUF None)
  end.

(* input_item, Basic/parse.c:441-446 *)
Definition input_item : P unit :=
  let* (p, dim) := identifier KArray in
  let* sym := psym p in
  emit_ (if vtype_eqb (s_type sym) TNum then I_INPUT_NUM (s_id sym) (params8 dim)
         else I_INPUT_STR (s_id sym) (params8 dim)).

(* input_statement, Basic/parse.c:413-426 *)
Definition input_statement : P unit :=
  match_kw K_INPUT ;;;
  input_buffer ;;;
  input_item ;;;
  with_fuel (fun f => comma_list f (emit_ I_INPUT_SEP ;;; input_item)) ;;;
  emit_ I_INPUT_END.

(* line_input_statement, Basic/parse.c:448-459 *)
Definition line_input_statement : P unit :=
  match_kw K_LINE ;;;
  match_kw K_INPUT ;;;
  input_buffer ;;;
  let* (p, dim) := identifier KArray in
  let* sym := psym p in
  if vtype_eqb (s_type sym) TStr then emit_ (I_INPUT_LINE (s_id sym) (params8 dim))
  else perror (PE_string_variable (s_name sym)).

(* assignment, Basic/parse.c:461-477 *)
Definition assignment : P unit :=
  let* (p, dim) := identifier KArray in
  match_char "=" ;;;
  let* e := expression in
  let* sym := psym p in
  if negb (vtype_eqb e (s_type sym)) then perror PE_assignment
  else emit_ (match dim, vtype_eqb (s_type sym) TStr with
              | O, true => I_SET_SIMPLE_STR (s_id sym)
              | O, false => I_SET_SIMPLE_NUM (s_id sym)
              | S _, true => I_SET_ARRAY_STR (s_id sym) (params8 dim)
              | S _, false => I_SET_ARRAY_NUM (s_id sym) (params8 dim)
              end).

(* on_statement, on_line, Basic/parse.c:487-513 *)
Definition on_line : P unit := let* n := line_number in emit_ (I_ON_LINE n).

Fixpoint on_loop (fuel : nat) (count : nat) : P nat :=
  match fuel with
  | O => pnofuel
  | S f =>
      let* t := tok in
      if is_char "," t then next_token ;;; on_line ;;; on_loop f (S count) else pret count
  end.

Definition set_count (n : nat) (i : instr) : instr :=
  match i with
  | I_ON_GOTO _ => I_ON_GOTO n
  | I_ON_GOSUB _ => I_ON_GOSUB n
  | _ => i
  end.

Definition on_statement : P unit :=
  match_kw K_ON ;;;
  numeric_expression ;;;
  let* t := tok in
  (if is_kw K_GOTO t || is_kw K_GOSUB t then
     let* i := emit (if is_kw K_GOTO t then I_ON_GOTO 0 else I_ON_GOSUB 0) in
     next_token ;;;
     on_line ;;;
     let* count := with_fuel (fun f => on_loop f 1) in
     patch i (set_count count)
   else perror PE_on).

(* print_builtin, Basic/parse.c:568-574 *)
Definition print_builtin (i : instr) : P unit :=
  next_token ;;; match_char "(" ;;; numeric_expression ;;; match_char ")" ;;; emit_ i.

(* the items of a PRINT, Basic/parse.c:525-562; the result tells whether the
   last item was a separator (sep != 0) *)
Definition print_item : P unit :=
  let* type := expression in
  match type with
  | TNum => emit_ I_PRINT_NUM
  | TStr => emit_ I_PRINT_STR
  | TErr => perror PE_print
  end.

Fixpoint print_loop (fuel : nat) (sep : bool) : P bool :=
  match fuel with
  | O => pnofuel
  | S f =>
      let* t := tok in
      if eos t then pret sep
      else
        match t with
        | T_ID w =>
            if strieq w (lit "SPC") then print_builtin I_PRINT_SPC ;;; print_loop f false
            else if strieq w (lit "TAB") then print_builtin I_PRINT_TAB ;;; print_loop f false
            else print_item ;;; print_loop f false
        | _ =>
            if is_char ";" t then next_token ;;; print_loop f true
            else if is_char "," t then next_token ;;; emit_ I_PRINT_COMMA ;;; print_loop f true
            else print_item ;;; print_loop f false
        end
  end.

(* print_statement, Basic/parse.c:517-566 *)
Definition print_statement : P unit :=
  let* t := tok in
  (if is_char "?" t then next_token else match_kw K_PRINT) ;;;
  let* sep := with_fuel (fun f => print_loop f false) in
  if sep then pret tt else emit_ I_PRINT_LN.

(* randomize_statement, Basic/parse.c:580-588 *)
Definition randomize_statement : P unit :=
  match_kw K_RANDOMIZE ;;;
  let* t := tok in
  if eos t then emit_ I_RAND else numeric_expression ;;; emit_ I_SEED.

(* rem_statement, Basic/parse.c:590-592, lex_discard, Basic/lexer.c:130-139 *)
Definition rem_statement : P unit := fun s => POk tt (set_lex T_NL [] [] s).

(* a statement that is one keyword and one instruction,
   Basic/parse.c:199-207, 321-324, 594-602 *)
Definition plain_statement (k : keyword) (i : instr) : P unit := match_kw k ;;; emit_ i.

Definition no_continue (m : P unit) : P bool := m ;;; pret false.

(* the switch of statement, Basic/parse.c:151-177 *)
Definition statement_body : P bool :=
  let* t := tok in
  match t with
  | T_KW K_CLEAR => no_continue (plain_statement K_CLEAR I_CLEAR)
  | T_KW K_CLS => no_continue (plain_statement K_CLS I_CLS)
  | T_KW K_DATA => no_continue data_statement
  | T_KW K_DEF => no_continue def_statement
  | T_KW K_DIM => no_continue dim_statement
  | T_KW K_END => no_continue (plain_statement K_END I_END)
  | T_KW K_FOR => no_continue for_statement
  | T_KW K_GOSUB => no_continue gosub_statement
  | T_KW K_GOTO => no_continue goto_statement
  | T_KW K_IF => if_statement
  | T_KW K_INPUT => no_continue input_statement
  | T_KW K_LET => no_continue (match_kw K_LET ;;; assignment)
  | T_KW K_LINE => no_continue line_input_statement
  | T_KW K_NEXT => no_continue next_statement
  | T_KW K_ON => no_continue on_statement
  | T_KW K_PRINT => no_continue print_statement
  | T_KW K_RANDOMIZE => no_continue randomize_statement
  | T_KW K_READ => no_continue read_statement
  | T_KW K_REM => no_continue rem_statement
  | T_KW K_RESTORE => no_continue restore_statement
  | T_KW K_RETURN => no_continue (plain_statement K_RETURN I_RETURN)
  | T_KW K_STOP => no_continue (plain_statement K_STOP I_STOP)
  | T_ID _ => no_continue assignment
  | T_CHAR c =>
      if ceq c "?" then no_continue print_statement
      else if ceq c NL || ceq c ":" then pret false
      else perror PE_statement
  | _ => perror PE_statement
  end.

(* statement, Basic/parse.c:149-181 *)
Definition statement : P bool :=
  let* continues := statement_body in
  let* t := tok in
  if is_kw K_ELSE t then else_clause else pret continues.

(* complete_statement, Basic/parse.c:118-121 *)
Fixpoint complete_statement (fuel : nat) : P unit :=
  match fuel with
  | O => pnofuel
  | S f => let* continues := statement in if continues then complete_statement f else pret tt
  end.

(* the loop of parse_line, Basic/parse.c:107-110 *)
Fixpoint line_loop (fuel : nat) : P unit :=
  match fuel with
  | O => pnofuel
  | S f =>
      let* t := tok in
      if is_char ":" t then next_token ;;; with_fuel complete_statement ;;; line_loop f
      else pret tt
  end.

(* parse_line, Basic/parse.c:102-112 *)
Definition parse_line (index : nat) (text : bytes) : P unit :=
  (fun s => next_token (set_lex (p_tok s) text text s)) ;;;
  emit_ (I_SOURCE_LINE index) ;;;
  set_ifthen 0 ;;;
  with_fuel complete_statement ;;;
  with_fuel line_loop ;;;
  match_char NL.

Fixpoint parse_lines (index : nat) (src : source) : P unit :=
  match src with
  | [] => pret tt
  | l :: r => parse_line index (ln_text l) ;;; parse_lines (S index) r
  end.

(* Outcome of parse_source: code (None after a reported error) and the symbol
   table, which keeps the names met. *)
Inductive parse_out :=
| PoOk (code : option bcode) (err : option perr) (st : symtab)
| PoExit
| PoCrash
| PoNoFuel.

(* parse_source, Basic/parse.c:30-49 *)
Definition parse_source (src : source) (st : symtab) (kw : bool) : parse_out :=
  match parse_lines 0 src (mkPs kw [] [] T_NONE new_bcode st 0) with
  | POk _ s => PoOk (Some (p_code s)) None (sym_make_unknown_array (p_st s))
  | PErr e s => PoOk None (Some e) (sym_make_unknown_array (p_st s))
  | PExit => PoExit
  | PCrash => PoCrash
  | PNoFuel => PoNoFuel
  end.
