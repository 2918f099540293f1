(* C11 and C12 at the level of the symbol table. *)
From Verif Require Import Base Num SymbolModel SymbolSpec SymbolProofs.

(* C11: looking up a name finds the symbol its use denotes, and nothing else,
   whatever other names exist. *)
Theorem C11_lookup : forall st name paren p, table st ->
  (sym_lookup st name paren = Some p <-> denotes (st_syms st) name paren p).
Proof. exact lookup_iff. Qed.
Print Assumptions C11_lookup.

(* C11: two uses of names, however far apart, mean the same object exactly
   when the names differ at most in letter case and are used alike (with or
   without parentheses); only the names of built-in functions mean the same
   with and without. *)
Theorem C11_two_uses : forall st n1 pa1 k1 t1 st1 p1 st2 n2 pa2 k2 t2 st3 p2,
  table st -> can_mean pa1 k1 -> k1 <> KBuiltin -> can_mean pa2 k2 -> k2 <> KBuiltin ->
  use_name st n1 pa1 k1 t1 = (st1, p1) -> changes st1 st2 ->
  use_name st2 n2 pa2 k2 t2 = (st3, p2) ->
  (p1 = p2 <-> same_name n1 n2 /\ (pa1 = pa2 \/ builtin_name n1)).
Proof. exact two_uses. Qed.
Print Assumptions C11_two_uses.

(* C11: the identifier the compiler puts into an instruction leads the machine
   back to the same symbol, as long as there are at most 65536 symbols. *)
Theorem C11_identifiers : forall st p s, table st -> length (st_syms st) <= N.to_nat 65536 ->
  nth_error (st_syms st) p = Some s -> symbol_at st (s_id s) = Some s.
Proof. exact id_position. Qed.
Print Assumptions C11_identifiers.

(* With more symbols the 16-bit identifiers wrap around: an instruction
   compiled for one name then works on another (here ABS). *)
Theorem C11_identifiers_refuted : exists st p s s', table st /\ nth_error (st_syms st) p = Some s /\
  symbol_at st (s_id s) = Some s' /\ ~ same_name (s_name s) (s_name s') /\ s_name s' = lit "ABS".
Proof. exact ids_wrap. Qed.
Print Assumptions C11_identifiers_refuted.

(* C12: after clearing the values every symbol is still there with its name,
   identifier, kind and type; variables read 0 or the empty string, arrays are
   undimensioned and functions undefined; built-in symbols are unchanged. *)
Theorem C12_clear_values : forall st p s, nth_error (st_syms st) p = Some s ->
  exists s', nth_error (st_syms (clear_symbol_table_values st)) p = Some s' /\
    s_name s' = s_name s /\ s_id s' = s_id s /\ s_kind s' = s_kind s /\ s_type s' = s_type s /\
    seen s' = fresh_view (s_kind s) (s_type s) /\
    (s_kind s <> KBuiltin -> s_defined s' = false) /\
    (s_kind s = KBuiltin -> s' = s).
Proof. exact clear_view. Qed.
Print Assumptions C12_clear_values.

(* C12: and every name means what it meant, there being no new symbols. *)
Theorem C12_clear_names_kept : forall st name paren,
  sym_lookup (clear_symbol_table_values st) name paren = sym_lookup st name paren /\
  length (st_syms (clear_symbol_table_values st)) = length (st_syms st).
Proof. exact (fun st name paren => conj (clear_lookup st name paren) (clear_length st)). Qed.
Print Assumptions C12_clear_names_kept.

(* Non-vacuity: a, A( ), A$ and aBs in one table. *)
Definition ex_t0 : symtab := init_builtins new_symbol_table.
Definition ex_u1 := use_name ex_t0 (lit "a") false KVariable TNum.
Definition ex_u2 := use_name (fst ex_u1) (lit "A") true KUnknown TNum.
Definition ex_u3 := use_name (fst ex_u2) (lit "A$") false KVariable TStr.
Definition ex_u4 := use_name (fst ex_u3) (lit "A") false KVariable TNum.
Definition ex_u5 := use_name (fst ex_u4) (lit "aBs") true KUnknown TNum.

Example ex_table_uses : map snd [ex_u1; ex_u2; ex_u3; ex_u4; ex_u5] = [26; 27; 28; 26; 0].
Proof. vm_compute. reflexivity. Qed.

Lemma ex_step t name paren k ty : table t -> can_mean paren k -> k <> KBuiltin ->
  table (fst (use_name t name paren k ty)).
Proof. intros T C K. exact (Chs_step _ _ _ T (Ch_use t name paren k ty C K)). Qed.

Example ex_table_table : table (fst ex_u5).
Proof.
  unfold ex_u5. apply ex_step; [|reflexivity|discriminate].
  unfold ex_u4. apply ex_step; [|reflexivity|discriminate].
  unfold ex_u3. apply ex_step; [|reflexivity|discriminate].
  unfold ex_u2. apply ex_step; [|reflexivity|discriminate].
  unfold ex_u1. apply ex_step; [|reflexivity|discriminate].
  unfold ex_t0. apply Chs_refl.
Qed.
