(* C29: the tokenizer. *)
From Verif Require Import Base Num SymbolModel SymbolSpec LexModel LexSpec LexProofs.
Local Open Scope nat_scope.

(* Every token is spelled by the text that follows the blanks, in both modes;
   the text after it is left for the next one. *)
Theorem C29_token : forall kw s t start rest, lex_next kw s = LxTok t start rest ->
  exists b w tail, s = b ++ w ++ tail /\ Forall blank b /\ start = w ++ tail /\ same_text tail rest /\
    ((w <> [] /\ spells kw w tail t) \/ (w = [] /\ tail = [] /\ t = T_NL)).
Proof. exact lex_next_spec. Qed.
Print Assumptions C29_token.

(* Progress. *)
Theorem C29_progress : forall kw s t start rest, lex_next kw s = LxTok t start rest -> s <> [] -> length rest < length s.
Proof. exact lex_next_less. Qed.
Print Assumptions C29_progress.

(* A line of allowed characters is tokenized to its end. *)
Theorem C29_line : forall kw s, Forall allowed s -> exists l, tokens_of kw s l /\ lexer_gives kw s (map snd l).
Proof. exact lex_line. Qed.
Print Assumptions C29_line.

(* The tokens with the blanks before them are the line, in order, but for the
   newline at its end. *)
Theorem C29_cover : forall kw s l, tokens_of kw s l -> s = concat (map piece l) \/ s = concat (map piece l) ++ [NL].
Proof. exact tokens_cover. Qed.
Print Assumptions C29_cover.

(* A word of up to 126 letters and digits, possibly followed by a dollar sign,
   is one token: a keyword when it is one in upper or lower case, else the
   name. *)
Theorem C29_word : forall b c r d tail, Forall blank b -> letter c -> Forall letter_or_digit r -> length r <= 125 -> d = [] \/ d = lit "$" ->
  (d = [] -> ~ begins_with (fun c => letter_or_digit c \/ c = "$"%char) tail) -> begins_with allowed tail \/ tail = [] ->
  exists rest, lex_next false (b ++ c :: r ++ d ++ tail) = LxTok (identifier_token (c :: r ++ d)) (c :: r ++ d ++ tail) rest /\ same_text tail rest.
Proof. exact lex_word. Qed.
Print Assumptions C29_word.
Theorem C29_keyword : forall k w, keyword_word k w -> identifier_token w = T_KW k.
Proof. exact keyword_token. Qed.
Print Assumptions C29_keyword.
Theorem C29_name : forall w, (forall k, ~ keyword_word k w) -> identifier_token w = T_ID w.
Proof. exact name_token. Qed.
Print Assumptions C29_name.

(* A string literal is exactly what is between the quotes. *)
Theorem C29_string : forall kw b v tail, Forall blank b -> Forall allowed v -> ~ In DQ v -> ~ In NL v -> length v <= 127 ->
  lex_next kw (b ++ DQ :: v ++ DQ :: tail) = LxTok (T_STR v) (DQ :: v ++ DQ :: tail) tail.
Proof. exact lex_string. Qed.
Print Assumptions C29_string.

(* not vacuous: PRINT a$;"X" in lower case *)
Definition ex_text : bytes := lit " print a$;" ++ [DQ; "X"%char; DQ; NL].
Example C29_ex_allowed : Forall allowed ex_text.
Proof. repeat constructor. Qed.
Example C29_ex_line : exists l, tokens_of false ex_text l /\ lexer_gives false ex_text (map snd l).
Proof. exact (lex_line false ex_text C29_ex_allowed). Qed.
Example C29_ex_tokens : lexer_gives false ex_text [T_KW K_PRINT; T_ID (lit "a$"); T_CHAR ";"; T_STR (lit "X"); T_NL].
Proof.
  eapply Lg_next; [vm_compute; reflexivity | intros [H _]; discriminate H|].
  eapply Lg_next; [vm_compute; reflexivity | intros [H _]; discriminate H|].
  eapply Lg_next; [vm_compute; reflexivity | intros [H _]; discriminate H|].
  eapply Lg_next; [vm_compute; reflexivity | intros [H _]; discriminate H|].
  eapply Lg_end. vm_compute. reflexivity.
Qed.
Example C29_ex_anywhere : lexer_gives true (lit "FORI=1TO9") [T_KW K_FOR; T_ID (lit "I"); T_CHAR "="; T_NUM fone (lit "1"); T_KW K_TO; T_NUM (fofN 9) (lit "9"); T_NL].
Proof.
  eapply Lg_next; [vm_compute; reflexivity | intros [H _]; discriminate H|].
  eapply Lg_next; [vm_compute; reflexivity | intros [H _]; discriminate H|].
  eapply Lg_next; [vm_compute; reflexivity | intros [H _]; discriminate H|].
  eapply Lg_next; [vm_compute; reflexivity | intros [H _]; discriminate H|].
  eapply Lg_next; [vm_compute; reflexivity | intros [H _]; discriminate H|].
  eapply Lg_next; [vm_compute; reflexivity | intros [H _]; discriminate H|].
  eapply Lg_end. vm_compute. reflexivity.
Qed.
