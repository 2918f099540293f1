(* Programs that differ in the letter case of names (C11). *)
From Verif Require Import Base SymbolModel SymbolSpec LexModel GrammarSpec.

(* the same token, or the same name in other letters *)
Inductive spelled : token -> token -> Prop :=
| Sp_same t : spelled t t
| Sp_name a b : same_name a b -> spelled (T_ID a) (T_ID b).

(* The texts have the same tokens but for the letter case of names. What
   follows DATA is the same. *)
Inductive same_text (kw : bool) : bytes -> bytes -> Prop :=
| St_same a : same_text kw a a
| St_token a b t u a' b' : advance kw a = Some (t, a') -> advance kw b = Some (u, b') -> spelled t u ->
    (t = T_KW K_DATA -> b' = a') -> same_text kw a' b' -> same_text kw a b.

(* The tables have the same symbols but for the letter case of their names. *)
Definition same_symbol (s s' : symbol) : Prop :=
  same_name (s_name s) (s_name s') /\ s_id s' = s_id s /\ s_kind s' = s_kind s /\ s_type s' = s_type s /\ s_defined s' = s_defined s /\ s_val s' = s_val s.
Definition same_symbols (st st' : symtab) : Prop :=
  Forall2 same_symbol (st_syms st) (st_syms st') /\ st_hash st' = st_hash st /\ st_next st' = st_next st.
