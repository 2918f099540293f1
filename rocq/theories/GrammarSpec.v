(* The grammar of Legacy Basic and the code of each construct (C07, C15, C16,
   C18, C23, C30, C31). *)
From Verif Require Import Base Num SourceModel BcodeModel SymbolModel SymbolSpec LexModel.

(* ---------- tokens ---------- *)

(* The current token and the text after it. *)
Definition lexst := (token * bytes)%type.

Definition advance (kw : bool) (rest : bytes) : option lexst :=
  match lex_next kw rest with LxTok t _ r => Some (t, r) | LxExit => None end.

(* From L the tokens ts are read; L' has the one after them. *)
Inductive reads (kw : bool) : lexst -> list token -> lexst -> Prop :=
| Rd_nil L : reads kw L [] L
| Rd_cons t r L ts L' : advance kw r = Some L -> reads kw L ts L' -> reads kw (t, r) (t :: ts) L'.

(* ---------- expressions ---------- *)

Inductive relation := REq | RNe | RLt | RGt | RLe | RGe.
Inductive binop := OOr | OAnd | ORel (r : relation) | OAdd | OSub | OMul | ODiv | OPow.

(* Names stand for symbols, of which the identifier and the type are given.
   EElem is an element of an array or a call of a user function, EFun the
   value of a built-in function, EDrop that of one that ignores its argument.
   EBad is a power with an exponent that is not a number, or a comparison with
   such a power: the compiler accepts it where the value is ignored. *)
Inductive expr :=
| ENum (x : num)
| EStr (w : bytes)
| EVar (id : symid) (t : vtype)
| EElem (id : symid) (t : vtype) (args : list expr)
| EFun (b : builtin) (args : list expr)
| EDrop (b : builtin) (e : expr)
| ENegs (n : nat) (e : expr)
| ENots (n : nat) (e : expr)
| EBin (o : binop) (a b : expr)
| EBad (a b : expr).

Fixpoint etype (e : expr) : vtype :=
  match e with
  | ENum _ => TNum
  | EStr _ => TStr
  | EVar _ t => t
  | EElem _ t _ => t
  | EFun b _ => bi_type b
  | EDrop b _ => bi_type b
  | ENegs _ a => etype a
  | ENots _ a => etype a
  | EBin OAdd a _ => etype a
  | EBin _ _ _ => TNum
  | EBad _ _ => TErr
  end.

Definition rel_instr (r : relation) (t : vtype) : instr :=
  match r, t with
  | REq, TStr => I_EQ_STR | REq, _ => I_EQ_NUM
  | RNe, TStr => I_NE_STR | RNe, _ => I_NE_NUM
  | RLt, TStr => I_LT_STR | RLt, _ => I_LT_NUM
  | RGt, TStr => I_GT_STR | RGt, _ => I_GT_NUM
  | RLe, TStr => I_LE_STR | RLe, _ => I_LE_NUM
  | RGe, TStr => I_GE_STR | RGe, _ => I_GE_NUM
  end.
Definition bin_instr (o : binop) (t : vtype) : instr :=
  match o with
  | OOr => I_OR | OAnd => I_AND
  | ORel r => rel_instr r t
  | OAdd => match t with TStr => I_CONCAT | _ => I_ADD end
  | OSub => I_SUB | OMul => I_MUL | ODiv => I_DIV | OPow => I_POW
  end.
Definition get_instr (id : symid) (t : vtype) : instr :=
  match t with TStr => I_GET_SIMPLE_STR id | _ => I_GET_SIMPLE_NUM id end.
Definition paren_instr (id : symid) (t : vtype) (n : nat) : instr :=
  match t with TStr => I_GET_PAREN_STR id (u8 (N.of_nat n)) | _ => I_GET_PAREN_NUM id (u8 (N.of_nat n)) end.
Definition drop_code (t : vtype) : list instr :=
  match t with TNum => [I_POP_NUM] | TStr => [I_POP_STR] | TErr => [] end.

(* Operands first. Signs and NOTs cancel out in pairs. *)
Fixpoint ecode (e : expr) : list instr :=
  match e with
  | ENum x => [I_PUSH_NUM x]
  | EStr w => [I_PUSH_STR w]
  | EVar id t => [get_instr id t]
  | EElem id t args => flat_map ecode args ++ [paren_instr id t (length args)]
  | EFun b args => flat_map ecode args ++ [bi_op b]
  | EDrop b a => ecode a ++ drop_code (etype a) ++ [bi_op b]
  | ENegs n a => ecode a ++ (if Nat.odd n then [I_NEG] else [])
  | ENots n a => ecode a ++ (if Nat.odd n then [I_NOT] else [])
  | EBin o a b => ecode a ++ ecode b ++ [bin_instr o (etype a)]
  | EBad a b => ecode a ++ ecode b
  end.

(* The type of the variables, arrays and functions with a name. *)
Definition type_of_name (name : bytes) : vtype :=
  match last_opt name with Some c => if ceq c "$" then TStr else TNum | None => TNum end.

(* A use of a name with or without parentheses, as an object of kind k
   (KUnknown: array or function): the symbol it means. The first use makes
   the symbol; a use that settles whether it is an array or a function is
   recorded. *)
Inductive occurs (k : skind) (name : bytes) (paren : bool) (st : symtab) : symbol -> symtab -> Prop :=
| Oc_simple p s : paren = false -> sym_lookup st name paren = Some p -> nth_error (st_syms st) p = Some s ->
    occurs k name paren st s st
| Oc_settled p s : paren = true -> sym_lookup st name paren = Some p -> nth_error (st_syms st) p = Some s ->
    s_kind s <> KUnknown -> k = KUnknown \/ s_kind s = k -> occurs k name paren st s st
| Oc_settle p s : paren = true -> sym_lookup st name paren = Some p -> nth_error (st_syms st) p = Some s ->
    s_kind s = KUnknown -> occurs k name paren st (set_kind s k) (sym_update st p (set_kind s k))
| Oc_new st' p s : sym_lookup st name paren = None ->
    sym_insert st name (if paren then k else KVariable) (type_of_name name) = (st', p) ->
    nth_error (st_syms st') p = Some s -> occurs k name paren st s st'.

(* From the loosest to the tightest binding. *)
Inductive level := LOr | LAnd | LNot | LRel | LAdd | LMul | LNeg | LPow | LPrim.
Definition tighter (l : level) : level :=
  match l with
  | LOr => LAnd | LAnd => LNot | LNot => LRel | LRel => LAdd | LAdd => LMul
  | LMul => LNeg | LNeg => LPow | LPow => LPrim | LPrim => LPrim
  end.

Definition rel_token (r : relation) : token :=
  match r with
  | REq => T_CHAR "=" | RNe => T_NE | RLt => T_CHAR "<" | RGt => T_CHAR ">" | RLe => T_LE | RGe => T_GE
  end.
Definition arg_ok (a : argkind) (e : expr) : Prop :=
  match a with ArgNum => etype e = TNum | ArgStr => etype e = TStr | ArgDummy => False end.

Definition LPAREN : token := T_CHAR "(".
Definition RPAREN : token := T_CHAR ")".
Definition COMMA : token := T_CHAR ",".

(* gram l st ts e st': the tokens ts are the expression e of level l. st' is
   the table st with the names used. *)
Inductive gram : level -> symtab -> list token -> expr -> symtab -> Prop :=
| G_tighter l st ts e st' : l <> LPrim -> gram (tighter l) st ts e st' -> gram l st ts e st'
| G_or st ts a st1 us b st2 : gram LOr st ts a st1 -> gram LAnd st1 us b st2 -> etype a = TNum -> etype b = TNum ->
    gram LOr st (ts ++ T_KW K_OR :: us) (EBin OOr a b) st2
| G_and st ts a st1 us b st2 : gram LAnd st ts a st1 -> gram LNot st1 us b st2 -> etype a = TNum -> etype b = TNum ->
    gram LAnd st (ts ++ T_KW K_AND :: us) (EBin OAnd a b) st2
| G_not n st ts a st' : gram LRel st ts a st' -> etype a = TNum ->
    gram LNot st (repeat (T_KW K_NOT) (S n) ++ ts) (ENots (S n) a) st'
| G_rel r st ts a st1 us b st2 : gram LAdd st ts a st1 -> gram LAdd st1 us b st2 -> etype a = etype b -> etype a <> TErr ->
    gram LRel st (ts ++ rel_token r :: us) (EBin (ORel r) a b) st2
| G_add st ts a st1 us b st2 : gram LAdd st ts a st1 -> gram LMul st1 us b st2 -> etype a = etype b -> etype a <> TErr ->
    gram LAdd st (ts ++ T_CHAR "+" :: us) (EBin OAdd a b) st2
| G_sub st ts a st1 us b st2 : gram LAdd st ts a st1 -> gram LMul st1 us b st2 -> etype a = TNum -> etype b = TNum ->
    gram LAdd st (ts ++ T_CHAR "-" :: us) (EBin OSub a b) st2
| G_mul st ts a st1 us b st2 : gram LMul st ts a st1 -> gram LNeg st1 us b st2 -> etype a = TNum -> etype b = TNum ->
    gram LMul st (ts ++ T_CHAR "*" :: us) (EBin OMul a b) st2
| G_div st ts a st1 us b st2 : gram LMul st ts a st1 -> gram LNeg st1 us b st2 -> etype a = TNum -> etype b = TNum ->
    gram LMul st (ts ++ T_CHAR "/" :: us) (EBin ODiv a b) st2
| G_neg n st ts a st' : gram LPow st ts a st' -> etype a = TNum ->
    gram LNeg st (repeat (T_CHAR "-") (S n) ++ ts) (ENegs (S n) a) st'
| G_pow st ts a st1 us b st2 : gram LPrim st ts a st1 -> gram LPow st1 us b st2 -> etype a = TNum -> etype b = TNum ->
    gram LPow st (ts ++ T_CHAR "^" :: us) (EBin OPow a b) st2
| G_bad st ts a st1 us b st2 : gram LPrim st ts a st1 -> gram LPow st1 us b st2 -> etype a = TNum -> etype b <> TNum ->
    gram LPow st (ts ++ T_CHAR "^" :: us) (EBad a b) st2
| G_bad_rel r st ts a st1 us b st2 : gram LAdd st ts a st1 -> gram LAdd st1 us b st2 -> etype a <> TErr -> etype b = TErr ->
    gram LRel st (ts ++ rel_token r :: us) (EBad a b) st2
| G_num st x w : gram LPrim st [T_NUM x w] (ENum x) st
| G_str st w : gram LPrim st [T_STR w] (EStr w) st
| G_paren st ts e st' : gram LOr st ts e st' -> etype e <> TErr ->
    gram LPrim st (LPAREN :: ts ++ [RPAREN]) e st'
| G_bad_paren st ts e st' : gram LOr st ts e st' -> etype e = TErr ->
    gram LPrim st (LPAREN :: ts) e st'
| G_name st ts name s args st' : find_builtin name = None -> guse KUnknown st ts name s args st' ->
    gram LPrim st ts (match args with [] => EVar (s_id s) (s_type s) | _ => EElem (s_id s) (s_type s) args end) st'
| G_fun w b st ts args st' : find_builtin w = Some b -> bi_type b <> TErr -> gargs (bi_args b) st ts args st' ->
    gram LPrim st (T_ID w :: LPAREN :: ts ++ [RPAREN]) (EFun b args) st'
| G_bare w b r st : find_builtin w = Some b -> bi_type b <> TErr -> bi_args b = ArgDummy :: r ->
    gram LPrim st [T_ID w] (EFun b []) st
| G_nothing w b r st : find_builtin w = Some b -> bi_type b <> TErr -> bi_args b = ArgDummy :: r ->
    gram LPrim st [T_ID w; LPAREN; RPAREN] (EFun b []) st
| G_drop w b r st ts e st' : find_builtin w = Some b -> bi_type b <> TErr -> bi_args b = ArgDummy :: r ->
    gram LOr st ts e st' -> gram LPrim st (T_ID w :: LPAREN :: ts ++ [RPAREN]) (EDrop b e) st'
(* arguments of the given kinds, separated by commas *)
with gargs : list argkind -> symtab -> list token -> list expr -> symtab -> Prop :=
| GA_last a st ts e st' : gram LOr st ts e st' -> arg_ok a e -> gargs [a] st ts [e] st'
| GA_more a k st ts e st1 us es st2 : gram LOr st ts e st1 -> arg_ok a e -> gargs k st1 us es st2 ->
    gargs (a :: k) st (ts ++ COMMA :: us) (e :: es) st2
(* a variable, or a name with subscripts or arguments *)
with guse : skind -> symtab -> list token -> bytes -> symbol -> list expr -> symtab -> Prop :=
| GU_simple k name st s st' : occurs k name false st s st' -> guse k st [T_ID name] name s [] st'
| GU_paren k name st ts es st1 s st' : gargs (repeat ArgNum (length es)) st ts es st1 -> occurs k name true st1 s st' ->
    guse k st (T_ID name :: LPAREN :: ts ++ [RPAREN]) name s es st'.

Scheme gram_mut := Minimality for gram Sort Prop
  with gargs_mut := Minimality for gargs Sort Prop
  with guse_mut := Minimality for guse Sort Prop.
Combined Scheme gram_ind3 from gram_mut, gargs_mut, guse_mut.

(* ---------- statements ---------- *)

(* Where a value is stored: a variable or an array element. *)
Record place := mkPlace { pl_id : symid; pl_kind : skind; pl_type : vtype; pl_subs : list expr }.

Inductive pitem := PExpr (e : expr) | PSpc (e : expr) | PTab (e : expr) | PComma | PSemi.

(* The statements of a line are given flat: SIf e b is IF e THEN, with a
   telling whether an ELSE follows, SElse the ELSE; SIfGo is IF e THEN n and
   SElseGo an ELSE n after it. *)
Inductive stmt :=
| SClear | SCls | SEnd | SReturn | SStop | SRem
| SData (l : list bytes)
| SDef (id param : symid) (body : expr)
| SDim (l : list place)
| SFor (id : symid) (first last : expr) (step : option expr)
| SGoto (n : N)
| SGosub (n : N)
| SIf (e : expr) (has_else : bool)
| SIfGo (e : expr) (n : N)
| SElse
| SElseGo (n : N)
| SInput (prompt : option bytes) (l : list place)
| SLineInput (prompt : option bytes) (p : place)
| SLet (p : place) (e : expr)
| SNext (l : list symid)
| SOn (e : expr) (gosub : bool) (l : list N)
| SPrint (l : list pitem)
| SRandomize (e : option expr)
| SRead (l : list place)
| SRestore (n : option N).

Definition nsubs (p : place) : N := u8 (N.of_nat (length (pl_subs p))).
Definition subs_code (p : place) : list instr := flat_map ecode (pl_subs p).
Definition set_instr (p : place) : instr :=
  match pl_subs p, pl_type p with
  | [], TStr => I_SET_SIMPLE_STR (pl_id p)
  | [], _ => I_SET_SIMPLE_NUM (pl_id p)
  | _, TStr => I_SET_ARRAY_STR (pl_id p) (nsubs p)
  | _, _ => I_SET_ARRAY_NUM (pl_id p) (nsubs p)
  end.
Definition dim_code (p : place) : list instr :=
  subs_code p ++ [match pl_type p with TStr => I_DIM_STR (pl_id p) (nsubs p) | _ => I_DIM_NUM (pl_id p) (nsubs p) end].
Definition read_code (p : place) : list instr :=
  subs_code p ++ [match pl_type p with TStr => I_READ_STR (pl_id p) (nsubs p) | _ => I_READ_NUM (pl_id p) (nsubs p) end].
Definition input_code (p : place) : list instr :=
  subs_code p ++ [match pl_type p with TNum => I_INPUT_NUM (pl_id p) (nsubs p) | _ => I_INPUT_STR (pl_id p) (nsubs p) end].
Definition item_code (i : pitem) : list instr :=
  match i with
  | PExpr e => ecode e ++ [match etype e with TStr => I_PRINT_STR | _ => I_PRINT_NUM end]
  | PSpc e => ecode e ++ [I_PRINT_SPC]
  | PTab e => ecode e ++ [I_PRINT_TAB]
  | PComma => [I_PRINT_COMMA]
  | PSemi => []
  end.
Definition separator_last (l : list pitem) : bool :=
  match last_opt l with Some PComma | Some PSemi => true | _ => false end.

Definition scode (x : stmt) : list instr :=
  match x with
  | SClear => [I_CLEAR] | SCls => [I_CLS] | SEnd => [I_END] | SReturn => [I_RETURN] | SStop => [I_STOP] | SRem => []
  | SData l => map I_DATA l
  | SDef id param body => I_DEF id 1 :: I_PARAM param :: ecode body ++ [I_END_DEF]
  | SDim l => flat_map dim_code l
  | SFor id a b step =>
      ecode a ++ ecode b ++ match step with Some c => ecode c | None => [I_PUSH_NUM fone] end ++ [I_FOR id]
  | SGoto n => [I_GOTO n]
  | SGosub n => [I_GOSUB n]
  | SIf e has_else => ecode e ++ [if has_else then I_IF_ELSE else I_IF_THEN]
  | SIfGo e n => ecode e ++ [I_GOTRUE n]
  | SElse => [I_ELSE]
  | SElseGo n => [I_GOTO n]
  | SInput prompt l =>
      I_INPUT_BUF prompt ::
      match l with [] => [] | p :: r => input_code p ++ flat_map (fun q => I_INPUT_SEP :: input_code q) r end ++ [I_INPUT_END]
  | SLineInput prompt p => I_INPUT_BUF prompt :: subs_code p ++ [I_INPUT_LINE (pl_id p) (nsubs p)]
  | SLet p e => subs_code p ++ ecode e ++ [set_instr p]
  | SNext [] => [I_NEXT_IMP]
  | SNext l => map I_NEXT_VAR l
  | SOn e gosub l => ecode e ++ (if gosub then I_ON_GOSUB (length l) else I_ON_GOTO (length l)) :: map I_ON_LINE l
  | SPrint l => flat_map item_code l ++ if separator_last l then [] else [I_PRINT_LN]
  | SRandomize (Some e) => ecode e ++ [I_SEED]
  | SRandomize None => [I_RAND]
  | SRead l => flat_map read_code l
  | SRestore (Some n) => [I_RESTORE_LINE n]
  | SRestore None => [I_RESTORE]
  end.

(* a list with commas *)
Inductive glist {A} (g : symtab -> list token -> A -> symtab -> Prop) : symtab -> list token -> list A -> symtab -> Prop :=
| GL_one st ts x st' : g st ts x st' -> glist g st ts [x] st'
| GL_more st ts x st1 us l st2 : g st ts x st1 -> glist g st1 us l st2 -> glist g st (ts ++ COMMA :: us) (x :: l) st2.

Definition gplace (st : symtab) (ts : list token) (p : place) (st' : symtab) : Prop :=
  exists name s es, guse KArray st ts name s es st' /\ p = mkPlace (s_id s) (s_kind s) (s_type s) es.
(* a numeric variable without subscripts *)
Definition gvar (st : symtab) (ts : list token) (id : symid) (st' : symtab) : Prop :=
  exists name s, ts = [T_ID name] /\ occurs KUnknown name false st s st' /\ s_kind s = KVariable /\ s_type s = TNum /\ id = s_id s.
Definition gline (st : symtab) (ts : list token) (n : N) (st' : symtab) : Prop :=
  exists t, ts = [t] /\ lex_unsigned t = Some n /\ st' = st.
Definition gexp (t : vtype) (st : symtab) (ts : list token) (e : expr) (st' : symtab) : Prop :=
  gram LOr st ts e st' /\ etype e = t.
Definition gread (st : symtab) (ts : list token) (p : place) (st' : symtab) : Prop :=
  gplace st ts p st' /\ pl_type p <> TErr.
Definition gdim (st : symtab) (ts : list token) (p : place) (st' : symtab) : Prop :=
  gplace st ts p st' /\ pl_kind p = KArray.

(* the text INPUT asks with *)
Inductive gprompt : list token -> option bytes -> Prop :=
| GP_none : gprompt [] None
| GP_alone w : gprompt [T_STR w] (Some w)
| GP_semi w : gprompt [T_STR w; T_CHAR ";"] (Some w)
| GP_comma w : gprompt [T_STR w; COMMA] (Some w).

Definition named (w : bytes) (name : string) : Prop := strieq w (lit name) = true.
Definition starts_spc_tab (ts : list token) : Prop :=
  exists w r, ts = T_ID w :: r /\ (named w "SPC" \/ named w "TAB").

(* The tokens end with a name without parentheses. *)
Definition ends_id (ts : list token) : bool := match last_opt ts with Some (T_ID _) => true | _ => false end.

(* The expression, and the type of the sum it ends with: of the part after its
   last relation, AND, OR or NOT that is not in parentheses. *)
Inductive sum_end : level -> symtab -> list token -> expr -> symtab -> vtype -> Prop :=
| SE_sum st ts e st' : gram LAdd st ts e st' -> sum_end LAdd st ts e st' (etype e)
| SE_tighter l st ts e st' t : In l [LOr; LAnd; LNot; LRel] -> sum_end (tighter l) st ts e st' t -> sum_end l st ts e st' t
| SE_or st ts a st1 us b st2 t : gram LOr st ts a st1 -> sum_end LAnd st1 us b st2 t -> etype a = TNum -> etype b = TNum ->
    sum_end LOr st (ts ++ T_KW K_OR :: us) (EBin OOr a b) st2 t
| SE_and st ts a st1 us b st2 t : gram LAnd st ts a st1 -> sum_end LNot st1 us b st2 t -> etype a = TNum -> etype b = TNum ->
    sum_end LAnd st (ts ++ T_KW K_AND :: us) (EBin OAnd a b) st2 t
| SE_not n st ts a st' t : sum_end LRel st ts a st' t -> etype a = TNum ->
    sum_end LNot st (repeat (T_KW K_NOT) (S n) ++ ts) (ENots (S n) a) st' t
| SE_rel r st ts a st1 us b st2 t : gram LAdd st ts a st1 -> sum_end LAdd st1 us b st2 t -> etype a = etype b -> etype a <> TErr ->
    sum_end LRel st (ts ++ rel_token r :: us) (EBin (ORel r) a b) st2 t
| SE_bad_rel r st ts a st1 us b st2 t : gram LAdd st ts a st1 -> sum_end LAdd st1 us b st2 t -> etype a <> TErr -> etype b = TErr ->
    sum_end LRel st (ts ++ rel_token r :: us) (EBad a b) st2 t.

(* Items can follow each other without a separator. A parenthesis after a name
   belongs to the name, and a minus sign after a number to the sum. *)
Definition apart (st : symtab) (ts : list token) (e : expr) (st' : symtab) (us : list token) : Prop :=
  match us with
  | [] => True
  | t :: _ => (t = LPAREN -> ends_id ts = false) /\ (t = T_CHAR "-" -> exists ty, sum_end LOr st ts e st' ty /\ ty <> TNum)
  end.

Inductive gitems : symtab -> list token -> list pitem -> symtab -> Prop :=
| GI_nil st : gitems st [] [] st
| GI_semi st ts l st' : gitems st ts l st' -> gitems st (T_CHAR ";" :: ts) (PSemi :: l) st'
| GI_comma st ts l st' : gitems st ts l st' -> gitems st (COMMA :: ts) (PComma :: l) st'
| GI_expr st ts e st1 us l st2 : gram LOr st ts e st1 -> etype e <> TErr -> ~ starts_spc_tab ts -> gitems st1 us l st2 ->
    apart st ts e st1 us -> gitems st (ts ++ us) (PExpr e :: l) st2
| GI_spc w st ts e st1 us l st2 : named w "SPC" -> gexp TNum st ts e st1 -> gitems st1 us l st2 ->
    gitems st (T_ID w :: LPAREN :: ts ++ RPAREN :: us) (PSpc e :: l) st2
| GI_tab w st ts e st1 us l st2 : named w "TAB" -> gexp TNum st ts e st1 -> gitems st1 us l st2 ->
    gitems st (T_ID w :: LPAREN :: ts ++ RPAREN :: us) (PTab e :: l) st2.

(* the statements made of tokens, but IF and ELSE *)
Inductive gstmt : symtab -> list token -> stmt -> symtab -> Prop :=
| GS_clear st : gstmt st [T_KW K_CLEAR] SClear st
| GS_cls st : gstmt st [T_KW K_CLS] SCls st
| GS_end st : gstmt st [T_KW K_END] SEnd st
| GS_return st : gstmt st [T_KW K_RETURN] SReturn st
| GS_stop st : gstmt st [T_KW K_STOP] SStop st
| GS_def name st s st1 ps param st2 ts e st3 : occurs KDef name true st s st1 -> gvar st1 ps param st2 ->
    gexp (type_of_name name) st2 ts e st3 ->
    gstmt st (T_KW K_DEF :: T_ID name :: LPAREN :: ps ++ RPAREN :: T_CHAR "=" :: ts) (SDef (s_id s) param e) st3
| GS_dim st ts l st' : glist gdim st ts l st' -> gstmt st (T_KW K_DIM :: ts) (SDim l) st'
| GS_for st vs id st1 ts a st2 us b st3 : gvar st vs id st1 -> gexp TNum st1 ts a st2 -> gexp TNum st2 us b st3 ->
    gstmt st (T_KW K_FOR :: vs ++ T_CHAR "=" :: ts ++ T_KW K_TO :: us) (SFor id a b None) st3
| GS_for_step st vs id st1 ts a st2 us b st3 ws c st4 : gvar st vs id st1 -> gexp TNum st1 ts a st2 -> gexp TNum st2 us b st3 ->
    gexp TNum st3 ws c st4 ->
    gstmt st (T_KW K_FOR :: vs ++ T_CHAR "=" :: ts ++ T_KW K_TO :: us ++ T_KW K_STEP :: ws) (SFor id a b (Some c)) st4
| GS_goto st ts n st' : gline st ts n st' -> gstmt st (T_KW K_GOTO :: ts) (SGoto n) st'
| GS_gosub st ts n st' : gline st ts n st' -> gstmt st (T_KW K_GOSUB :: ts) (SGosub n) st'
| GS_input st ps prompt ts l st' : gprompt ps prompt -> glist gplace st ts l st' ->
    gstmt st (T_KW K_INPUT :: ps ++ ts) (SInput prompt l) st'
| GS_line_input st ps prompt ts p st' : gprompt ps prompt -> gplace st ts p st' -> pl_type p = TStr ->
    gstmt st (T_KW K_LINE :: T_KW K_INPUT :: ps ++ ts) (SLineInput prompt p) st'
| GS_assign st ts p st1 us e st2 : gplace st ts p st1 -> gexp (pl_type p) st1 us e st2 ->
    gstmt st (ts ++ T_CHAR "=" :: us) (SLet p e) st2
| GS_let st ts p st1 us e st2 : gplace st ts p st1 -> gexp (pl_type p) st1 us e st2 ->
    gstmt st (T_KW K_LET :: ts ++ T_CHAR "=" :: us) (SLet p e) st2
| GS_next st : gstmt st [T_KW K_NEXT] (SNext []) st
| GS_next_vars st ts l st' : glist gvar st ts l st' -> gstmt st (T_KW K_NEXT :: ts) (SNext l) st'
| GS_on_goto st ts e st1 us l st2 : gexp TNum st ts e st1 -> glist gline st1 us l st2 ->
    gstmt st (T_KW K_ON :: ts ++ T_KW K_GOTO :: us) (SOn e false l) st2
| GS_on_gosub st ts e st1 us l st2 : gexp TNum st ts e st1 -> glist gline st1 us l st2 ->
    gstmt st (T_KW K_ON :: ts ++ T_KW K_GOSUB :: us) (SOn e true l) st2
| GS_print st ts l st' : gitems st ts l st' -> gstmt st (T_KW K_PRINT :: ts) (SPrint l) st'
| GS_query st ts l st' : gitems st ts l st' -> gstmt st (T_CHAR "?" :: ts) (SPrint l) st'
| GS_randomize st : gstmt st [T_KW K_RANDOMIZE] (SRandomize None) st
| GS_seed st ts e st' : gexp TNum st ts e st' -> gstmt st (T_KW K_RANDOMIZE :: ts) (SRandomize (Some e)) st'
| GS_read st ts l st' : glist gread st ts l st' -> gstmt st (T_KW K_READ :: ts) (SRead l) st'
| GS_restore st : gstmt st [T_KW K_RESTORE] (SRestore None) st
| GS_restore_line st ts n st' : gline st ts n st' -> gstmt st (T_KW K_RESTORE :: ts) (SRestore (Some n)) st'.

(* The items of a DATA statement: after blanks, what stands between quotation
   marks, or the text up to a comma, a colon, a quotation mark or the end of the
   line, without the blanks before those. They have at most 127 characters,
   and those blanks count. A newline that ends the text is left
   out of what follows. *)
Definition data_blank (c : ascii) : Prop := c = SP \/ c = TABCH.
Definition ends_datum (c : ascii) : Prop := c = DQ \/ c = ","%char \/ c = ":"%char \/ c = NL \/ code c = 255%N.
Inductive datum_is : bytes -> bytes -> bytes -> Prop :=
| Di_quoted b w r : Forall data_blank b -> ~ In DQ w -> ~ In NL w -> length w <= 127 -> datum_is (b ++ DQ :: w ++ DQ :: r) w r
| Di_plain b w c r r' : Forall data_blank b -> Forall data_blank c -> Forall (fun x => ~ ends_datum x) w -> length (w ++ c) <= 127 ->
    match w with x :: _ => ~ data_blank x /\ ~ data_blank (last w x) | [] => c = [] /\ hd NL r <> DQ end ->
    match r with x :: _ => ends_datum x | [] => True end ->
    (r' = r /\ r <> [NL]) \/ (r' = [] /\ r = [NL]) -> datum_is (b ++ w ++ c ++ r) w r'.
(* The items of a DATA statement, after the keyword DATA. *)
Inductive gdata (kw : bool) : bytes -> list bytes -> lexst -> Prop :=
| GD_last r w r' L : datum_is r w r' -> advance kw r' = Some L -> fst L <> COMMA -> gdata kw r [w] L
| GD_more r w r' r1 l L : datum_is r w r' -> advance kw r' = Some (COMMA, r1) -> gdata kw r1 l L -> gdata kw r (w :: l) L.

(* ---------- lines ---------- *)

(* Where an IF without ELSE is, that an ELSE would complete: the last one,
   unless an IF with a line number or an ELSE follows. *)
Fixpoint open_rev (l : list stmt) : option nat :=
  match l with
  | [] => None
  | SIf _ _ :: r => Some (length r)
  | SIfGo _ _ :: _ | SElse :: _ => None
  | _ :: r => open_rev r
  end.
Definition open_if (xs : list stmt) : option nat := open_rev (rev xs).

Definition lcode (xs : list stmt) : list instr := flat_map scode xs.

(* Before a statement; after THEN; after a statement; after ELSE and a line
   number. *)
Inductive phase := Start | AfterThen | After | AfterElse.

(* lstep kw: one step through a line, from a lexer state and table, with the
   statements so far. *)
Inductive lstep (kw : bool) : phase -> lexst -> symtab -> list stmt -> phase -> lexst -> symtab -> list stmt -> Prop :=
| LS_stmt ph L ts L' st x st' xs : ph = Start \/ ph = AfterThen -> reads kw L ts L' -> gstmt st ts x st' ->
    lstep kw ph L st xs After L' st' (xs ++ [x])
| LS_data ph r l L' st xs : ph = Start \/ ph = AfterThen -> gdata kw r l L' ->
    lstep kw ph (T_KW K_DATA, r) st xs After L' st (xs ++ [SData l])
| LS_rem ph r st xs : ph = Start \/ ph = AfterThen ->
    lstep kw ph (T_KW K_REM, r) st xs After (T_NL, []) st (xs ++ [SRem])
| LS_empty ph t r st xs : ph = Start \/ ph = AfterThen -> t = T_NL \/ t = T_CHAR ":" ->
    lstep kw ph (t, r) st xs After (t, r) st xs
| LS_if ph L ts L' st e st' xs : ph = Start \/ ph = AfterThen -> reads kw L (T_KW K_IF :: ts ++ [T_KW K_THEN]) L' ->
    gexp TNum st ts e st' -> (forall x w, fst L' <> T_NUM x w) ->
    lstep kw ph L st xs AfterThen L' st' (xs ++ [SIf e false])
| LS_if_go ph L ts t n L' st e st' xs : ph = Start \/ ph = AfterThen -> reads kw L (T_KW K_IF :: ts ++ [T_KW K_THEN; t]) L' ->
    gexp TNum st ts e st' -> lex_unsigned t = Some n ->
    lstep kw ph L st xs After L' st' (xs ++ [SIfGo e n])
| LS_else ph L L' st xs e ys : ph = After \/ ph = AfterThen -> reads kw L [T_KW K_ELSE] L' ->
    open_if (xs ++ SIf e false :: ys) = Some (length xs) ->
    lstep kw ph L st (xs ++ SIf e false :: ys) Start L' st (xs ++ SIf e true :: ys ++ [SElse])
| LS_else_go L t n L' st xs m : reads kw L [T_KW K_ELSE; t] L' -> lex_unsigned t = Some n ->
    open_if xs = None -> last_opt (lcode xs) = Some (I_GOTRUE m) ->
    lstep kw After L st xs AfterElse L' st (xs ++ [SElseGo n])
| LS_colon ph L L' st xs : ph = After \/ ph = AfterElse -> reads kw L [T_CHAR ":"] L' ->
    lstep kw ph L st xs Start L' st xs.

Inductive lsteps (kw : bool) : phase -> lexst -> symtab -> list stmt -> phase -> lexst -> symtab -> list stmt -> Prop :=
| LSs_refl ph L st xs : lsteps kw ph L st xs ph L st xs
| LSs_step ph L st xs ph1 L1 st1 xs1 ph2 L2 st2 xs2 : lsteps kw ph L st xs ph1 L1 st1 xs1 ->
    lstep kw ph1 L1 st1 xs1 ph2 L2 st2 xs2 -> lsteps kw ph L st xs ph2 L2 st2 xs2.

(* The text is a line with these statements. *)
Definition line_is (kw : bool) (text : bytes) (st : symtab) (xs : list stmt) (st' : symtab) : Prop :=
  exists L ph r, advance kw text = Some L /\ lsteps kw Start L st [] ph (T_NL, r) st' xs /\ (ph = After \/ ph = AfterElse).

Inductive program_is (kw : bool) : symtab -> list bytes -> list (list stmt) -> symtab -> Prop :=
| PI_nil st : program_is kw st [] [] st
| PI_cons st text xs st1 src xss st2 : line_is kw text st xs st1 -> program_is kw st1 src xss st2 ->
    program_is kw st (text :: src) (xs :: xss) st2.

(* The code of a program: each line begins with its marker. *)
Fixpoint pcode (index : nat) (xss : list (list stmt)) : list instr :=
  match xss with
  | [] => []
  | xs :: r => I_SOURCE_LINE index :: lcode xs ++ pcode (S index) r
  end.

(* ---------- when the compiler gives up ---------- *)

(* L' comes after L in the line *)
Inductive later (kw : bool) : lexst -> lexst -> Prop :=
| La_refl L : later kw L L
| La_next t r L1 L2 : advance kw r = Some L1 -> later kw L1 L2 -> later kw (t, r) L2
| La_data t r w st r1 L2 : lex_next_data r = Some (w, st, r1) -> later kw (t, r1) L2 -> later kw (t, r) L2
| La_rem t r L2 : later kw (T_NL, []) L2 -> later kw (t, r) L2.

(* a name the compiler knows but does not support *)
Definition unsupported (t : token) : Prop := exists w b, t = T_ID w /\ find_builtin w = Some b /\ bi_type b = TErr.

(* text that is not made of tokens: the interpreter is ended *)
Definition bad_text (kw : bool) (r : bytes) : Prop := lex_next kw r = LxExit \/ lex_next_data r = None.

(* ---------- symbol tables ---------- *)

(* variables, arrays and functions have the type their name says *)
Definition well_named (st : symtab) : Prop :=
  forall p s, nth_error (st_syms st) p = Some s -> s_kind s = KBuiltin \/ s_type s = type_of_name (s_name s).

Definition fine (st : symtab) : Prop := table st /\ well_named st.

(* ---------- parts of statements ---------- *)

(* P holds of the expression and of its parts *)
Fixpoint everywhere (P : expr -> Prop) (e : expr) : Prop :=
  P e /\
  let all := fix all (l : list expr) : Prop := match l with [] => True | a :: r => everywhere P a /\ all r end in
  match e with
  | EElem _ _ l | EFun _ l => all l
  | EDrop _ a | ENegs _ a | ENots _ a => everywhere P a
  | EBin _ a b | EBad a b => everywhere P a /\ everywhere P b
  | ENum _ | EStr _ | EVar _ _ => True
  end.

(* the variables and elements a statement assigns or dimensions *)
Definition targets (x : stmt) : list place :=
  match x with
  | SDim l | SInput _ l | SRead l => l
  | SLineInput _ p | SLet p _ => [p]
  | _ => []
  end.
Definition opt_list {A} (o : option A) : list A := match o with Some a => [a] | None => [] end.
(* the expressions of a statement *)
Definition exprs (x : stmt) : list expr :=
  flat_map pl_subs (targets x) ++
  match x with
  | SDef _ _ e | SIf e _ | SIfGo e _ | SOn e _ _ | SLet _ e => [e]
  | SFor _ a b c => a :: b :: opt_list c
  | SPrint l => flat_map (fun i => match i with PExpr e | PSpc e | PTab e => [e] | PComma | PSemi => [] end) l
  | SRandomize e => opt_list e
  | _ => []
  end.

(* At most two subscripts, or arguments. *)
Definition few_subs (x : stmt) : Prop :=
  Forall (fun p => length (pl_subs p) <= 2) (targets x) /\
  Forall (everywhere (fun e => match e with EElem _ _ l => length l <= 2 | _ => True end)) (exprs x).
(* The targets are not names of built-in functions. *)
Definition proper_targets (x : stmt) : Prop := Forall (fun p => pl_kind p <> KBuiltin) (targets x).
Definition no_bad (x : stmt) : Prop := Forall (everywhere (fun e => match e with EBad _ _ => False | _ => True end)) (exprs x).

(* ---------- texts of DATA statements that cannot be read ---------- *)

(* after blanks, a quotation that is not closed on the line within 127
   characters, or a text without quotation of more than 127 characters *)
Inductive bad_item (s : bytes) : Prop :=
| Bi_open b v : s = b ++ DQ :: v -> Forall data_blank b -> (forall x y, v = x ++ DQ :: y -> In NL x \/ 127 < length x) -> bad_item s
| Bi_long b v t : s = b ++ v ++ t -> Forall data_blank b -> length v = 128 ->
    Forall (fun c => c <> DQ /\ c <> ","%char /\ c <> ":"%char /\ c <> NL) v -> bad_item s.

(* ---------- compiled programs ---------- *)

(* the code is that of the statements of the source; names used with
   parentheses only are arrays in the end *)
Record compiled (kw : bool) (src : source) (st : symtab) (bc : bcode) (st' : symtab) : Prop := {
  co_fine : fine st';
  co_program : exists xss st1, program_is kw st (map ln_text src) xss st1 /\ st' = sym_make_unknown_array st1 /\
    bc_inst bc = pcode 0 xss /\ bc_has_data bc = existsb is_data (bc_inst bc)
}.

(* no more names than identifiers *)
Definition few_names (st : symtab) : Prop := (N.of_nat (length (st_syms st)) <= 65536)%N.
