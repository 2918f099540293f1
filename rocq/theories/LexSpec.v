(* What C29 means: how a piece of text spells a token. *)
From Verif Require Import Base Num SymbolModel SymbolSpec LexModel.

Definition blank (c : ascii) : Prop := c = SP \/ c = TABCH \/ c = CR.
Definition letter (c : ascii) : Prop := is_alpha c = true.
Definition digit (c : ascii) : Prop := is_digit c = true.
Definition letter_or_digit (c : ascii) : Prop := letter c \/ digit c.

Definition begins_with (P : ascii -> Prop) (s : bytes) : Prop := exists c r, s = c :: r /\ P c.

(* A keyword written in any mixture of upper and lower case. *)
Definition keyword_word (k : keyword) (w : bytes) : Prop := exists name, In (name, k) keywords /\ same_name name w.
Definition starts_keyword (s : bytes) : Prop := exists k w r, keyword_word k w /\ s = w ++ r.

(* A letter, letters and digits, and possibly a dollar sign. *)
Definition name_word (w : bytes) : Prop :=
  exists c r d, w = c :: r ++ d /\ letter c /\ Forall letter_or_digit r /\ (d = [] \/ d = lit "$").

(* Digits, possibly a point and digits, possibly an exponent; before tail,
   which does not continue the number. *)
Definition number_word (w tail : bytes) : Prop :=
  exists d1 d2 d3, w = d1 ++ d2 ++ d3 /\ Forall digit d1 /\
    (d2 = [] \/ exists e, d2 = "."%char :: e /\ Forall digit e) /\ (d1 <> [] \/ d2 <> []) /\
    (d3 = [] \/ exists x e, d3 = x :: e /\ (x = "e"%char \/ x = "E"%char) /\
                  (Forall digit e \/ exists f, e = "-"%char :: f /\ Forall digit f)) /\
    ~ begins_with digit tail /\
    (d2 = [] -> ~ begins_with (eq "."%char) (d3 ++ tail)) /\
    (d3 = [] -> ~ begins_with (fun c => c = "e"%char \/ c = "E"%char) tail).

(* Characters that begin no other token. *)
Definition single (c : ascii) : Prop :=
  ~ blank c /\ ~ letter_or_digit c /\ c <> "."%char /\ c <> DQ /\ is_eof_char c = false.

(* spells anywhere w tail t: in w ++ tail, w is the token t. anywhere tells
   that keywords are recognised inside words. *)
Inductive spells (anywhere : bool) (w tail : bytes) : token -> Prop :=
| Sp_keyword k : keyword_word k w -> (anywhere = false -> ~ begins_with letter_or_digit tail) ->
    spells anywhere w tail (T_KW k)
| Sp_name : name_word w -> length w <= 127 ->
    (anywhere = false -> (forall k, ~ keyword_word k w) /\
       (last_opt w = Some "$"%char \/ ~ begins_with (fun c => letter_or_digit c \/ c = "$"%char) tail)) ->
    (anywhere = true -> ~ starts_keyword (w ++ tail) /\
       (forall a b, w = a ++ b -> b <> [] -> ~ starts_keyword (b ++ tail)) /\
       (last_opt w = Some "$"%char \/ starts_keyword tail \/
        ~ begins_with (fun c => letter_or_digit c \/ c = "$"%char) tail)) ->
    spells anywhere w tail (T_ID w)
| Sp_number x : number_word w tail -> length w <= 127 -> strtod w = (x, []) -> spells anywhere w tail (T_NUM x w)
| Sp_string v : w = DQ :: v ++ [DQ] -> ~ In DQ v -> ~ In NL v -> length v <= 127 -> spells anywhere w tail (T_STR v)
| Sp_ne : w = lit "<>" -> spells anywhere w tail T_NE
| Sp_le : w = lit "<=" -> spells anywhere w tail T_LE
| Sp_ge : w = lit ">=" -> spells anywhere w tail T_GE
| Sp_char c : w = [c] -> single c ->
    (c = "<"%char -> ~ begins_with (fun d => d = ">"%char \/ d = "="%char) tail) ->
    (c = ">"%char -> ~ begins_with (eq "="%char) tail) -> spells anywhere w tail (T_CHAR c)
| Sp_end : w = [] -> tail = [] -> spells anywhere w tail T_NL
| Sp_eof c : w = [c] -> is_eof_char c = true -> spells anywhere w tail T_EOF
| Sp_long_name c r : w = c :: r -> letter c -> Forall letter_or_digit r -> 126 <= length w ->
    begins_with letter_or_digit (skipn 126 (w ++ tail)) -> spells anywhere w tail T_ERROR
| Sp_open_string v : w = DQ :: v -> ~ In DQ v ->
    (tail = [] \/ In NL v \/ Exists (fun c => is_eof_char c = true) v \/ length v = 128) -> spells anywhere w tail T_ERROR
| Sp_bad_number : number_word w tail -> snd (strtod w) <> [] -> spells anywhere w tail T_ERROR
| Sp_long_number c v : w = c :: v -> digit c \/ c = "."%char -> length w = 128 ->
    Forall (fun c => digit c \/ In c (lit ".eE-")) v -> spells anywhere w tail T_ERROR.

(* The end of a line with or without the newline. *)
Definition same_text (s s' : bytes) : Prop := s' = s \/ (s = [NL] /\ s' = []).

(* The tokens of a line, each with its blanks and its text, up to the first
   end of line. *)
Inductive tokens_of (anywhere : bool) : bytes -> list (bytes * bytes * token) -> Prop :=
| To_end b w : Forall blank b -> w = [] \/ w = [NL] -> tokens_of anywhere (b ++ w) [(b, w, T_NL)]
| To_next b w tail t s' l : Forall blank b -> w <> [] -> spells anywhere w tail t -> same_text tail s' ->
    (w = [NL] -> tail <> []) -> tokens_of anywhere s' l -> tokens_of anywhere (b ++ w ++ tail) ((b, w, t) :: l).

(* The tokens the lexer gives, up to the end of line after which no text is
   left. *)
Inductive lexer_gives (anywhere : bool) : bytes -> list token -> Prop :=
| Lg_end s start : lex_next anywhere s = LxTok T_NL start [] -> lexer_gives anywhere s [T_NL]
| Lg_next s t start rest ts : lex_next anywhere s = LxTok t start rest -> ~ (t = T_NL /\ rest = []) ->
    lexer_gives anywhere rest ts -> lexer_gives anywhere s (t :: ts).

(* The characters a line may have. *)
Definition allowed (c : ascii) : Prop := (code c < 127)%N.

Definition piece (p : bytes * bytes * token) : bytes := fst (fst p) ++ snd (fst p).
