(* Model of Basic/token.c and Basic/lexer.c: splitting a line into tokens. *)
From Verif Require Import Base Num SymbolModel.

(* ---------- Basic/token.c ---------- *)

(* the keyword tokens, Basic/token.h:19-48 *)
Inductive keyword :=
| K_AND | K_CLEAR | K_CLS | K_DATA | K_DEF | K_DIM | K_ELSE | K_END | K_FOR | K_GOSUB
| K_GOTO | K_IF | K_INPUT | K_LET | K_LINE | K_NEXT | K_NOT | K_ON | K_OR | K_PRINT
| K_RANDOMIZE | K_READ | K_REM | K_RESTORE | K_RETURN | K_STEP | K_STOP | K_THEN | K_TO.

(* keywords, Basic/token.c:15-47 *)
Definition keywords : list (bytes * keyword) :=
  [ (lit "AND", K_AND); (lit "CLEAR", K_CLEAR); (lit "CLS", K_CLS); (lit "DATA", K_DATA);
    (lit "DEF", K_DEF); (lit "DIM", K_DIM); (lit "ELSE", K_ELSE); (lit "END", K_END);
    (lit "FOR", K_FOR); (lit "GOSUB", K_GOSUB); (lit "GOTO", K_GOTO); (lit "IF", K_IF);
    (lit "INPUT", K_INPUT); (lit "LET", K_LET); (lit "LINE", K_LINE); (lit "NEXT", K_NEXT);
    (lit "NOT", K_NOT); (lit "ON", K_ON); (lit "OR", K_OR); (lit "PRINT", K_PRINT);
    (lit "RANDOMIZE", K_RANDOMIZE); (lit "READ", K_READ); (lit "REM", K_REM);
    (lit "RESTORE", K_RESTORE); (lit "RETURN", K_RETURN); (lit "STEP", K_STEP);
    (lit "STOP", K_STOP); (lit "THEN", K_THEN); (lit "TO", K_TO) ].

(* KEYWORD_HASH_SIZE, Basic/token.c:49 *)
Definition KEYWORD_HASH_SIZE : N := 79.

Definition kw_bucket (s : bytes) : nat := N.to_nat (hashpjw_upper s mod KEYWORD_HASH_SIZE).

(* init_keywords, Basic/token.c:60-90: the keyword chains *)
Definition keyword_hash : list (list (bytes * keyword)) :=
  fold_left (fun h p => let b := kw_bucket (fst p) in list_upd h b (p :: nth b h []))
            keywords (repeat [] (N.to_nat KEYWORD_HASH_SIZE)).

(* keyword_prefix, Basic/token.c:117-126 *)
Definition keyword_prefix (s : bytes) : option (bytes * keyword) :=
  find (fun p => striprefix (fst p) s) keywords.

(* ---------- Basic/lexer.c ---------- *)

(* Tokens (Basic/token.h:7-49). lex_word is only used after an identifier, a
   number or a string and lex_num after a number, so they are carried by the
   token. *)
Inductive token :=
| T_CHAR (c : ascii)
| T_NONE | T_ERROR | T_EOF
| T_ID (word : bytes)
| T_NUM (x : num) (word : bytes)
| T_STR (word : bytes)
| T_NE | T_LE | T_GE
| T_KW (k : keyword).

Definition T_NL : token := T_CHAR NL.

(* identifier_token, Basic/token.c:102-111 *)
Definition identifier_token (s : bytes) : token :=
  match find (fun p => strieq (fst p) s) (nth (kw_bucket s) keyword_hash []) with
  | Some p => T_KW (snd p)
  | None => T_ID s
  end.

(* sizeof lex->word, Basic/lexer.h:9 *)
Definition MAX_WORD : nat := 128.

(* Byte 255 is -1 as a char, hence EOF (Basic/lexer.c:77, 97) *)
Definition is_eof_char (c : ascii) : bool := (code c =? 255)%N.

(* validate, Basic/lexer.c:76-81: false when the process exits *)
Definition lex_valid (c : ascii) : bool := (code c <? 127)%N || is_eof_char c.

(* pushback, Basic/lexer.c:145-156, of the character just read from c :: r.
   At the end of the text lex_char returns a newline and does not move, and
   pushback of a newline there does not move either. *)
Definition pushback (c : ascii) (r : bytes) : bytes :=
  match r with
  | [] => if ceq c NL then [] else [c]
  | _ => c :: r
  end.

Definition pushback_rest (s : bytes) : bytes :=
  match s with [] => [] | c :: r => pushback c r end.

(* Result of lex_next: the token, the text from the start of the token
   (token_pos) and the text left (pos). Exit: the process has ended. *)
Inductive lexout :=
| LxTok (t : token) (start rest : bytes)
| LxExit.

(* the loop reading a name, Basic/lexer.c:217-232; n is the number of
   characters so far, acc those characters in reverse *)
Fixpoint scan_name (s : bytes) (n : nat) (acc : bytes) : option (token * bytes) :=
  match s with
  | [] => Some (identifier_token (rev acc), [])
  | c :: r =>
      if negb (lex_valid c) then None
      else if is_alnum c then
        if Nat.leb MAX_WORD (n + 2) then Some (T_ERROR, r)
        else scan_name r (S n) (c :: acc)
      else if ceq c "$" then Some (identifier_token (rev (c :: acc)), r)
      else Some (identifier_token (rev acc), pushback c r)
  end.

(* the loop reading a name when keywords are recognised anywhere,
   Basic/lexer.c:199-214 *)
Fixpoint scan_name_kw (s : bytes) (n : nat) (acc : bytes) : option (token * bytes) :=
  match s with
  | [] => Some (T_ID (rev acc), [])
  | c :: r =>
      if negb (lex_valid c) then None
      else if is_alnum c then
        if is_alpha c && match keyword_prefix s with Some _ => true | None => false end
        then Some (T_ID (rev acc), s)
        else if Nat.leb MAX_WORD (n + 2) then Some (T_ERROR, s)
        else scan_name_kw r (S n) (c :: acc)
      else if ceq c "$" then Some (T_ID (rev (c :: acc)), r)
      else Some (T_ID (rev acc), s)
  end.

(* a run of digits appended to word, Basic/lexer.c:239-242 and 247-250 and
   260-264, with append (168-177): characters, their number, text left *)
Inductive digout :=
| DgOk (digits : bytes) (n : nat) (rest : bytes)
| DgErr (rest : bytes)
| DgExit.

Fixpoint scan_digits (s : bytes) (n : nat) : digout :=
  match s with
  | [] => DgOk [] n []
  | c :: r =>
      if negb (lex_valid c) then DgExit
      else if is_digit c then
        if Nat.leb MAX_WORD (n + 1) then DgErr r
        else match scan_digits r (S n) with
             | DgOk ds m t => DgOk (c :: ds) m t
             | x => x
             end
      else DgOk [] n s
  end.

(* an optional part starting with the current character *)
Definition scan_part (s : bytes) (n : nat) (starts : ascii -> bool)
  (k : bytes -> nat -> digout) : digout :=
  match s with
  | c :: r =>
      if starts c then
        if Nat.leb MAX_WORD (n + 1) then DgErr r
        else match k r (S n) with
             | DgOk ds m t => DgOk (c :: ds) m t
             | x => x
             end
      else DgOk [] n s
  | [] => DgOk [] n []
  end.

(* the exponent after e, Basic/lexer.c:255-264 *)
Definition scan_exponent (s : bytes) (n : nat) : digout :=
  match s with
  | c :: r =>
      if ceq c "-" then
        if Nat.leb MAX_WORD (n + 1) then DgErr r
        else match scan_digits r (S n) with
             | DgOk ds m t => DgOk (c :: ds) m t
             | x => x
             end
      else scan_digits s n
  | [] => DgOk [] n []
  end.

Definition is_exp_char (c : ascii) : bool := ceq c "e" || ceq c "E".

(* a number, Basic/lexer.c:235-275; s starts with a digit or a point *)
Definition scan_number (s : bytes) : option (token * bytes) :=
  match scan_digits s 0 with
  | DgExit => None
  | DgErr r => Some (T_ERROR, r)
  | DgOk d1 n1 s1 =>
      match scan_part s1 n1 (fun c => ceq c ".") scan_digits with
      | DgExit => None
      | DgErr r => Some (T_ERROR, r)
      | DgOk d2 n2 s2 =>
          match scan_part s2 n2 is_exp_char scan_exponent with
          | DgExit => None
          | DgErr r => Some (T_ERROR, r)
          | DgOk d3 _ s3 =>
              let rest := pushback_rest s3 in
              match strtod (d1 ++ d2 ++ d3) with
              | (x, []) => Some (T_NUM x (d1 ++ d2 ++ d3), rest)
              | _ => Some (T_ERROR, rest)
              end
          end
      end
  end.

(* the characters of a string up to the closing quote, Basic/lexer.c:279-292
   and 326-337. StrErr: too long or unterminated. *)
Inductive strout :=
| StrOk (word rest : bytes)
| StrErr (rest : bytes)
| StrExit.

Fixpoint scan_string (s : bytes) (n : nat) (acc : bytes) : strout :=
  match s with
  | [] => StrErr []
  | c :: r =>
      if negb (lex_valid c) then StrExit
      else if ceq c DQ then StrOk (rev acc) r
      else if ceq c NL || is_eof_char c then StrErr r
      else if Nat.leb MAX_WORD (n + 1) then StrErr r
      else scan_string r (S n) (c :: acc)
  end.

(* lex_next from the first character that is not space, Basic/lexer.c:188-311 *)
Definition scan_token (kw : bool) (c : ascii) (r : bytes) : option (token * bytes) :=
  if is_alpha c then
    if kw then
      match keyword_prefix (c :: r) with
      | Some (name, k) => Some (T_KW k, skipn (length name) (c :: r))
      | None => scan_name_kw r 1 [c]
      end
    else scan_name r 1 [c]
  else if is_digit c || ceq c "." then scan_number (c :: r)
  else if ceq c DQ then
    match scan_string r 0 [] with
    | StrOk w t => Some (T_STR w, t)
    | StrErr t => Some (T_ERROR, t)
    | StrExit => None
    end
  else if ceq c "<" then
    match r with
    | [] => Some (T_CHAR c, [])
    | d :: t =>
        if negb (lex_valid d) then None
        else if ceq d ">" then Some (T_NE, t)
        else if ceq d "=" then Some (T_LE, t)
        else Some (T_CHAR c, pushback d t)
    end
  else if ceq c ">" then
    match r with
    | [] => Some (T_CHAR c, [])
    | d :: t =>
        if negb (lex_valid d) then None
        else if ceq d "=" then Some (T_GE, t)
        else Some (T_CHAR c, pushback d t)
    end
  else if is_eof_char c then Some (T_EOF, r)
  else Some (T_CHAR c, r).

Definition is_lex_space (c : ascii) : bool := ceq c SP || ceq c TABCH || ceq c CR.

(* lex_next, Basic/lexer.c:179-312, on the text from lex->pos *)
Fixpoint lex_next (kw : bool) (s : bytes) : lexout :=
  match s with
  | [] => LxTok T_NL [] []
  | c :: r =>
      if negb (lex_valid c) then LxExit
      else if is_lex_space c then lex_next kw r
      else match scan_token kw c r with
           | Some (t, rest) => LxTok t s rest
           | None => LxExit
           end
  end.

(* the unquoted text of a datum, Basic/lexer.c:340-349; None: exit *)
Fixpoint scan_datum (s : bytes) (n : nat) (acc : bytes) : option (bytes * bytes) :=
  match s with
  | [] => Some (acc, [])
  | c :: r =>
      if negb (lex_valid c) then None
      else if ceq c DQ || ceq c "," || ceq c ":" || ceq c NL || is_eof_char c
      then Some (acc, pushback c r)
      else if Nat.leb MAX_WORD (n + 1) then None
      else scan_datum r (S n) (c :: acc)
  end.

Definition is_data_space (c : ascii) : bool := ceq c SP || ceq c TABCH.

(* lex_next_data, Basic/lexer.c:315-357: the text of the datum, the text from
   its start and the text left; None: the process exits *)
Fixpoint lex_next_data (s : bytes) : option (bytes * bytes * bytes) :=
  match s with
  | [] => Some ([], [], [])
  | c :: r =>
      if negb (lex_valid c) then None
      else if is_data_space c then lex_next_data r
      else if ceq c DQ then
        match scan_string r 0 [] with
        | StrOk w t => Some (w, s, t)
        | _ => None
        end
      else
        match scan_datum s 0 [] with
        | Some (acc, t) => Some (rev (drop_while is_data_space acc), s, t)
        | None => None
        end
  end.

(* lex_unsigned, Basic/lexer.c:397-406, and line_number, Basic/parse.c:948-949 *)
Definition num_line (x : num) : option N :=
  if fgtb x fzero && fleb x (fofN 65535) && feqb (ffloor x) x
  then match ftoZ x with Some z => Some (Z.to_N z) | None => None end
  else None.

Definition lex_unsigned (t : token) : option N :=
  match t with T_NUM x _ => num_line x | _ => None end.
