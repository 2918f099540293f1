(* The compiler accepts the grammar of GrammarSpec and emits its code. *)
From Coq Require Import Lia ZifyBool ZifyNat ZifyN.
From Verif Require Import Base BaseLemmas Num SourceModel BcodeModel SymbolModel SymbolSpec SymbolProofs
  LexModel LexSpec LexProofs ParseModel GrammarSpec.
Local Open Scope nat_scope.
Local Open Scope parse_scope.

(* ---------- what the compiler does to the symbol table ---------- *)

Inductive name_step : symtab -> symtab -> Prop :=
| Ns_use st name paren k : can_mean paren k -> k <> KBuiltin -> name_step st (fst (use_name st name paren k (name_type name)))
| Ns_kind st p s k : nth_error (st_syms st) p = Some s -> s_kind s = KUnknown -> k = KArray \/ k = KDef ->
    name_step st (sym_update st p (set_kind s k)).
Inductive names : symtab -> symtab -> Prop :=
| Nm_refl st : names st st
| Nm_step st st1 st2 : names st st1 -> name_step st1 st2 -> names st st2.

Lemma names_trans a b c : names a b -> names b c -> names a c.
Proof. intros H K. induction K as [|b c d K IH X]; [exact H|]. exact (Nm_step _ _ _ (IH H) X). Qed.
Lemma names_one a b : name_step a b -> names a b.
Proof. intros H. eapply Nm_step; [apply Nm_refl | exact H]. Qed.

Lemma name_step_change a b : name_step a b -> change a b.
Proof. intros [st name paren k C B | st p s k E U K]; [apply Ch_use; assumption | apply (Ch_kind _ _ _ _ E U K)]. Qed.
Lemma names_changes a b : names a b -> changes a b.
Proof. induction 1 as [|a b c H IH K]; [apply Chs_refl | eapply Chs_step; [exact IH | apply name_step_change; exact K]]. Qed.

(* ---------- progress ---------- *)

Definition view (s : pstate) : lexst := (p_tok s, p_rest s).

(* how much there is to read *)
Definition phi (L : lexst) : nat :=
  match L with
  | (t, []) => if is_char NL t then 0 else 1
  | (_, r) => S (length r)
  end.

Lemma phi_le t r : phi (t, r) <= S (length r).
Proof. destruct r; cbn [phi length]; [destruct (is_char NL t)|]; lia. Qed.

Lemma is_char_iff c t : is_char c t = true <-> t = T_CHAR c.
Proof. destruct t; cbn; split; intros H; try discriminate H; [apply ceq_eq in H; congruence | injection H as ->; apply ceq_refl]. Qed.

Lemma phi_pos t r : t <> T_NL -> 0 < phi (t, r).
Proof. intros H. destruct r; cbn [phi length]; [|lia]. destruct (is_char NL t) eqn:E; [|lia]. apply is_char_iff in E. contradiction. Qed.

Lemma advance_phi kw t r L : advance kw r = Some L -> phi L <= phi (t, r) /\ (0 < phi (t, r) -> phi L < phi (t, r)).
Proof.
  unfold advance. destruct (lex_next kw r) as [t' st r'|] eqn:H; [|discriminate]. intros E. injection E as <-.
  destruct r as [|c r].
  - cbn [lex_next] in H. injection H as <- <- <-. cbn [phi]. change (is_char NL T_NL) with true. destruct (is_char NL t); lia.
  - pose proof (lex_next_less _ _ _ _ _ H ltac:(discriminate)) as LT. pose proof (phi_le t' r').
    cbn [phi length] in *. lia.
Qed.

Lemma data_le s w st r : lex_next_data s = Some (w, st, r) -> length r <= length s.
Proof.
  revert w st r. induction s as [|c s IH]; intros w st r H; cbn [lex_next_data] in H.
  - injection H as <- <- <-. lia.
  - destruct (negb (lex_valid c)); [discriminate H|]. destruct (is_data_space c); [specialize (IH _ _ _ H); cbn; lia|].
    destruct (ceq c DQ).
    + pose proof (scan_string_spec s 0 [] eq_refl ltac:(lia)) as K. destruct (scan_string s 0 []) as [w' t'| |]; [|discriminate H..].
      injection H as <- <- <-. destruct K as (v & _ & -> & _). cbn [length]. rewrite app_length. cbn [length]. lia.
    + assert (X : forall s n acc a t, scan_datum s n acc = Some (a, t) -> length t <= length s).
      { clear. induction s as [|c s IH]; intros n acc a t H; cbn [scan_datum] in H.
        - injection H as <- <-. lia.
        - destruct (negb (lex_valid c)); [discriminate H|]. destruct (_ || _).
          + injection H as <- <-. apply same_le, pushback_same.
          + destruct (Nat.leb MAX_WORD (n + 1)); [discriminate H|]. specialize (IH _ _ _ _ H). cbn; lia. }
      destruct (scan_datum (c :: s) 0 []) as [[a t]|] eqn:D; [|discriminate H]. injection H as <- <- <-. exact (X _ _ _ _ _ D).
Qed.

Lemma later_trans kw a b c : later kw a b -> later kw b c -> later kw a c.
Proof.
  intros H K. induction H; [exact K | eapply La_next; eauto | eapply La_data; eauto | eapply La_rem; eauto].
Qed.

Lemma later_phi kw a b : later kw a b -> phi b <= phi a.
Proof.
  induction 1 as [L | t r L1 L2 A K IH | t r w st r1 L2 D K IH | t r L2 K IH].
  - lia.
  - destruct (advance_phi kw t r L1 A). lia.
  - apply data_le in D. assert (phi (t, r1) <= phi (t, r)); [|lia]. destruct r1; [|destruct r; cbn [phi length] in *; lia].
    destruct r; [lia|]. cbn [length phi]. destruct (is_char NL t); lia.
  - change (phi (T_NL, [])) with 0 in IH. lia.
Qed.

Lemma reads_later kw L ts L' : reads kw L ts L' -> later kw L L'.
Proof. induction 1; [apply La_refl | eapply La_next; eauto]. Qed.

Lemma reads_app kw a ts b us c : reads kw a ts b -> reads kw b us c -> reads kw a (ts ++ us) c.
Proof. intros H K. induction H; [exact K|]. cbn. eapply Rd_cons; eauto. Qed.

(* ---------- specifications of the compiler's functions ---------- *)

(* the tables that occur *)
Definition good (st : symtab) : Prop := st_wf st /\ builtin_syms st.

Record moves (s s' : pstate) : Prop := mkMoves {
  mv_names : names (p_st s) (p_st s');
  mv_later : later (p_kw s) (view s) (view s');
  mv_kw : p_kw s' = p_kw s
}.

Lemma moves_refl s : moves s s.
Proof. split; [apply Nm_refl | apply La_refl | reflexivity]. Qed.
Lemma moves_trans a b c : moves a b -> moves b c -> moves a c.
Proof.
  intros [N1 L1 K1] [N2 L2 K2]. split; [eapply names_trans; eauto | | congruence].
  rewrite K1 in L2. eapply later_trans; eauto.
Qed.

Definition crash_at (s : pstate) : Prop := exists L, later (p_kw s) (view s) L /\ unsupported (fst L).

Lemma crash_moves a b : moves a b -> crash_at b -> crash_at a.
Proof. intros [_ L1 K1] (L & L2 & U). rewrite K1 in L2. exists L. split; [eapply later_trans; eauto | exact U]. Qed.

Definition exit_at (s : pstate) : Prop := exists L, later (p_kw s) (view s) L /\ bad_text (p_kw s) (snd L).

Lemma exit_moves a b : moves a b -> exit_at b -> exit_at a.
Proof. intros [_ L1 K1] (L & L2 & U). rewrite K1 in L2, U. exists L. split; [eapply later_trans; eauto | exact U]. Qed.

(* m from s: does not run out of fuel, and ends in states reached from s *)
Definition ok {A} (m : P A) (s : pstate) (Q : A -> pstate -> Prop) : Prop :=
  match m s with
  | POk a s' => moves s s' /\ Q a s'
  | PErr _ s' => moves s s'
  | PExit => exit_at s
  | PCrash => crash_at s
  | PNoFuel => False
  end.

Lemma ok_bind {A B} (m : P A) (f : A -> P B) s Q R :
  ok m s Q -> (forall a s1, moves s s1 -> Q a s1 -> ok (f a) s1 R) -> ok (pbind m f) s R.
Proof.
  unfold ok, pbind. intros H K. destruct (m s) as [a s1 | e s1 | | |]; auto. destruct H as [M H]. specialize (K a s1 M H).
  destruct (f a s1) as [b s2 | e s2 | | |]; auto.
  - destruct K as [M2 K]. split; [exact (moves_trans _ _ _ M M2) | exact K].
  - exact (moves_trans _ _ _ M K).
  - exact (exit_moves _ _ M K).
  - exact (crash_moves _ _ M K).
Qed.

Lemma ok_ret {A} (a : A) s (Q : A -> pstate -> Prop) : Q a s -> ok (pret a) s Q.
Proof. intros H. split; [apply moves_refl | exact H]. Qed.

Lemma ok_error {A} e s (Q : A -> pstate -> Prop) : ok (perror e) s Q.
Proof. apply moves_refl. Qed.

Lemma ok_tok {B} (f : token -> P B) s Q : ok (f (p_tok s)) s Q -> ok (pbind tok f) s Q.
Proof. intros H. exact H. Qed.

Lemma ok_weaken {A} (m : P A) s (Q R : A -> pstate -> Prop) :
  ok m s Q -> (forall a s', moves s s' -> Q a s' -> R a s') -> ok m s R.
Proof.
  unfold ok. intros H K. destruct (m s); auto. destruct H as [M H]. split; [exact M | exact (K _ _ M H)].
Qed.

(* s' is s after the tokens ts, with code added *)
Definition emits (bc : bcode) (l : list instr) : bcode := fold_left emit_instr l bc.

Record steps (s : pstate) (ts : list token) (c : list instr) (s' : pstate) : Prop := mkSteps {
  sp_reads : reads (p_kw s) (view s) ts (view s');
  sp_kw : p_kw s' = p_kw s;
  sp_code : p_code s' = emits (p_code s) c;
  sp_if : p_ifthen s' = p_ifthen s
}.

Lemma steps_refl s : steps s [] [] s.
Proof. split; [apply Rd_nil | reflexivity | reflexivity | reflexivity]. Qed.

Lemma emits_app bc a b : emits (emits bc a) b = emits bc (a ++ b).
Proof. unfold emits. rewrite fold_left_app. reflexivity. Qed.

Lemma steps_trans a ts c b us d e : steps a ts c b -> steps b us d e -> steps a (ts ++ us) (c ++ d) e.
Proof.
  intros [R1 K1 C1 I1] [R2 K2 C2 I2]. split; [|congruence| |congruence].
  - rewrite K1 in R2. eapply reads_app; eauto.
  - rewrite C2, C1. apply emits_app.
Qed.

Lemma ok_next s (Q : unit -> pstate -> Prop) :
  (forall s', steps s [p_tok s] [] s' -> p_st s' = p_st s -> (p_tok s <> T_NL -> phi (view s') < phi (view s)) -> Q tt s') ->
  ok next_token s Q.
Proof.
  intros H. unfold ok, next_token. destruct (lex_next (p_kw s) (p_rest s)) as [t st r|] eqn:E; [|exists (view s); split; [apply La_refl | left; exact E]].
  assert (A : advance (p_kw s) (p_rest s) = Some (t, r)) by (unfold advance; rewrite E; reflexivity).
  split.
  - split; [apply Nm_refl | eapply La_next; [exact A | apply La_refl] | reflexivity].
  - apply H; [|reflexivity|].
    + split; [|reflexivity..]. eapply Rd_cons; [exact A | apply Rd_nil].
    + intros N. destruct (advance_phi _ (p_tok s) _ _ A) as [_ X]. exact (X (phi_pos _ _ N)).
Qed.

Lemma ok_emit i s (Q : unit -> pstate -> Prop) :
  (forall s', steps s [] [i] s' -> p_st s' = p_st s -> view s' = view s -> Q tt s') -> ok (emit_ i) s Q.
Proof.
  intros H. unfold ok, emit_, emit, pbind, pret.
  split; [split; [apply Nm_refl | apply La_refl | reflexivity]|].
  apply H; [|reflexivity..]. split; [apply Rd_nil | reflexivity | reflexivity | reflexivity].
Qed.

Lemma kw_eqb_iff a b : kw_eqb a b = true <-> a = b.
Proof. split; [destruct a, b; intros H; discriminate H || reflexivity | intros ->; destruct b; reflexivity]. Qed.
Lemma is_kw_iff k t : is_kw k t = true <-> t = T_KW k.
Proof. destruct t; cbn; split; intros H; try discriminate H; [apply kw_eqb_iff in H; congruence | injection H as ->; apply kw_eqb_iff; reflexivity]. Qed.

Lemma ok_match_kw k s (Q : unit -> pstate -> Prop) :
  (forall s', steps s [T_KW k] [] s' -> p_st s' = p_st s -> phi (view s') < phi (view s) -> Q tt s') -> ok (match_kw k) s Q.
Proof.
  intros H. unfold match_kw. apply ok_tok. destruct (is_kw k (p_tok s)) eqn:E; [|apply ok_error]. apply is_kw_iff in E.
  apply ok_next. rewrite E. intros s' S1 S2 S3. apply H; auto. apply S3. discriminate.
Qed.
Lemma ok_match_char c s (Q : unit -> pstate -> Prop) : c <> NL ->
  (forall s', steps s [T_CHAR c] [] s' -> p_st s' = p_st s -> phi (view s') < phi (view s) -> Q tt s') -> ok (match_char c) s Q.
Proof.
  intros N H. unfold match_char. apply ok_tok. destruct (is_char c (p_tok s)) eqn:E; [|apply ok_error]. apply is_char_iff in E.
  apply ok_next. rewrite E. intros s' S1 S2 S3. apply H; auto. apply S3. intros X. injection X as X. exact (N X).
Qed.

(* the same rules with a fixed conclusion *)
Definition took (s : pstate) (ts : list token) (c : list instr) (s' : pstate) : Prop := steps s ts c s' /\ p_st s' = p_st s.

Lemma next_ok s : p_tok s <> T_NL -> ok next_token s (fun _ s' => took s [p_tok s] [] s' /\ phi (view s') < phi (view s)).
Proof. intros N. apply ok_next. intros s' S T F. split; [split; assumption | exact (F N)]. Qed.
Lemma emit_ok i s : ok (emit_ i) s (fun _ s' => took s [] [i] s' /\ view s' = view s).
Proof. apply ok_emit. intros s' S T F. split; [split; assumption | exact F]. Qed.
Lemma kw_ok k s : ok (match_kw k) s (fun _ s' => took s [T_KW k] [] s' /\ phi (view s') < phi (view s)).
Proof. apply ok_match_kw. intros s' S T F. split; [split; assumption | exact F]. Qed.
Lemma char_ok c s : c <> NL -> ok (match_char c) s (fun _ s' => took s [T_CHAR c] [] s' /\ phi (view s') < phi (view s)).
Proof. intros N. apply ok_match_char; [exact N|]. intros s' S T F. split; [split; assumption | exact F]. Qed.

(* ---------- the grammar's tokens ---------- *)

Lemma reads_phi kw L ts L' : reads kw L ts L' -> Forall (fun t => t <> T_NL) ts -> phi L' + length ts <= phi L.
Proof.
  induction 1 as [L | t r L ts L' A H IH]; intros F; cbn [length]; [lia|].
  destruct (advance_phi kw t r L A) as [_ X]. specialize (X (phi_pos _ _ (Forall_inv F))). specialize (IH (Forall_inv_tail F)). lia.
Qed.

Definition solid (ts : list token) : Prop := ts <> [] /\ Forall (fun t => t <> T_NL) ts.

Lemma solid_app ts t us : solid ts -> t <> T_NL -> solid us -> solid (ts ++ t :: us).
Proof.
  intros [N1 F1] T [N2 F2]. split; [destruct ts; [contradiction | discriminate]|]. apply Forall_app. split; [exact F1|]. constructor; assumption.
Qed.
Lemma solid_one t : t <> T_NL -> solid [t].
Proof. intros H. split; [discriminate | constructor; [exact H | constructor]]. Qed.
Lemma solid_cons t ts : t <> T_NL -> solid ts -> solid (t :: ts).
Proof. intros H [N F]. split; [discriminate | constructor; assumption]. Qed.
Lemma solid_paren ts : solid ts -> solid (LPAREN :: ts ++ [RPAREN]).
Proof. intros H. apply solid_cons; [discriminate|]. destruct H as [N F]. split; [destruct ts; [contradiction | discriminate]|]. apply Forall_app. split; [exact F | constructor; [discriminate | constructor]]. Qed.
Lemma solid_repeat t n ts : t <> T_NL -> solid ts -> solid (repeat t n ++ ts).
Proof. intros T H. induction n; [exact H|]. cbn. apply solid_cons; assumption. Qed.

Lemma gram_solid :
  (forall l st ts e st', gram l st ts e st' -> solid ts) /\
  (forall k st ts es st', gargs k st ts es st' -> solid ts) /\
  (forall k st ts name s es st', guse k st ts name s es st' -> solid ts).
Proof.
  apply gram_ind3; intros; auto;
    try (apply solid_app; [assumption | discriminate || (destruct r; discriminate) | assumption]).
  - apply (solid_repeat _ (S n)); [discriminate | assumption].
  - apply (solid_repeat _ (S n)); [discriminate | assumption].
  - apply solid_one. discriminate.
  - apply solid_one. discriminate.
  - apply solid_paren. assumption.
  - apply solid_cons; [discriminate | assumption].
  - apply solid_cons; [discriminate | apply solid_paren; assumption].
  - apply solid_one. discriminate.
  - apply solid_cons; [discriminate|]. apply solid_cons; [discriminate|]. apply solid_one. discriminate.
  - apply solid_cons; [discriminate | apply solid_paren; assumption].
  - apply solid_one. discriminate.
  - apply solid_cons; [discriminate | apply solid_paren; assumption].
Qed.

Lemma steps_phi s ts c s' : steps s ts c s' -> solid ts -> phi (view s') < phi (view s).
Proof.
  intros [R _ _ _] [N F]. pose proof (reads_phi _ _ _ _ R F). destruct ts; [contradiction|]. cbn [length] in *. lia.
Qed.

(* ---------- uses of names ---------- *)

Lemma lookup_nth st name paren p : sym_lookup st name paren = Some p ->
  exists s, nth_error (st_syms st) p = Some s /\ match_paren (s_kind s) paren = true.
Proof.
  unfold sym_lookup. intros H. apply find_some in H. destruct H as [_ H]. unfold sym_matches in H.
  destruct (nth_error (st_syms st) p) as [s|]; [|discriminate H]. apply andb_prop in H. exists s. tauto.
Qed.

Lemma list_upd_same {A} (l : list A) p x : nth_error l p = Some x -> list_upd l p x = l.
Proof. revert p. induction l as [|y l IH]; intros [|p] H; try discriminate H; cbn in *; [congruence | rewrite (IH _ H); reflexivity]. Qed.

Lemma set_kind_same s k : s_kind s = k -> set_kind s k = s.
Proof. destruct s. cbn. intros <-. reflexivity. Qed.

Lemma update_kind_same st p s : nth_error (st_syms st) p = Some s -> s_kind s = KUnknown -> sym_update st p (set_kind s KUnknown) = st.
Proof. intros E K. rewrite (set_kind_same s KUnknown K). unfold sym_update. rewrite (list_upd_same _ _ _ E). destruct st; reflexivity. Qed.

Lemma name_type_eq name : name_type name = type_of_name name.
Proof. unfold name_type, string_name, type_of_name. destruct (last_opt name); [destruct (ceq a "$")|]; reflexivity. Qed.

(* kinds a name with parentheses can be used as *)
Definition paren_kind (k : skind) : Prop := k = KUnknown \/ k = KArray \/ k = KDef.

Lemma names_insert st name paren k : paren_kind k -> sym_lookup st name paren = None ->
  names st (fst (sym_insert st name (if paren then k else KVariable) (name_type name))).
Proof.
  intros K L. apply names_one. pose proof (Ns_use st name paren (if paren then k else KVariable)) as X. unfold use_name in X. rewrite L in X. apply X.
  - destruct paren; [|reflexivity]. destruct K as [-> | [-> | ->]]; reflexivity.
  - destruct paren; [|discriminate]. destruct K as [-> | [-> | ->]]; discriminate.
Qed.

Lemma names_settle st p s k : paren_kind k -> nth_error (st_syms st) p = Some s -> s_kind s = KUnknown -> names st (sym_update st p (set_kind s k)).
Proof.
  intros [-> | K] E U; [rewrite (update_kind_same _ _ _ E U); apply Nm_refl|]. apply names_one. exact (Ns_kind _ _ _ _ E U K).
Qed.

Lemma occurs_names k name paren st s st' : paren_kind k -> occurs k name paren st s st' -> names st st'.
Proof.
  intros K [p s0 P L E | p s0 P L E N U | p s0 P L E U | st1 p s0 L I E].
  - apply Nm_refl.
  - apply Nm_refl.
  - exact (names_settle _ _ _ _ K E U).
  - replace st1 with (fst (sym_insert st name (if paren then k else KVariable) (name_type name))); [exact (names_insert _ _ _ _ K L)|].
    rewrite name_type_eq, I. reflexivity.
Qed.

Lemma insert_nth st name k t : nth_error (st_syms (fst (sym_insert st name k t))) (snd (sym_insert st name k t)) =
  Some (mkSym name (st_next st) k t false VZero).
Proof. cbn. rewrite nth_error_app2, Nat.sub_diag by lia. reflexivity. Qed.

(* a name with parentheses is not a variable *)
Lemma occurs_paren k name st s st' : paren_kind k -> occurs k name true st s st' -> s_kind s <> KVariable.
Proof.
  intros K [p s0 P L E | p s0 P L E N U | p s0 P L E U | st1 p s0 L I E].
  - discriminate P.
  - intros V. destruct (lookup_nth _ _ _ _ L) as (s1 & E1 & M). rewrite E in E1. injection E1 as <-. rewrite V in M. discriminate M.
  - cbn. destruct K as [-> | [-> | ->]]; discriminate.
  - pose proof (insert_nth st name k (type_of_name name)) as X. cbn [negb] in *. rewrite I in X. cbn [fst snd] in X. rewrite E in X. injection X as ->. cbn.
    destruct K as [-> | [-> | ->]]; discriminate.
Qed.

(* ---------- expressions ---------- *)

(* a parenthesis after a name was read with it *)
Definition paren_done (ts : list token) (s : pstate) : Prop := p_tok s = LPAREN -> ends_id ts = false.

Lemma last_opt_suffix {X} (ts us : list X) : us <> [] -> last_opt (ts ++ us) = last_opt us.
Proof.
  intros N. induction ts as [|t ts IH]; [reflexivity|]. cbn [app]. rewrite <- IH.
  destruct (ts ++ us) eqn:E; [|reflexivity]. destruct ts; [cbn in E; contradiction | discriminate E].
Qed.
Lemma ends_id_suffix ts us : us <> [] -> ends_id (ts ++ us) = ends_id us.
Proof. intros N. unfold ends_id. rewrite (last_opt_suffix ts us N). reflexivity. Qed.

Lemma done_suffix ts us s : us <> [] -> paren_done us s -> paren_done (ts ++ us) s.
Proof. intros N Z T. rewrite (ends_id_suffix ts us N). exact (Z T). Qed.
Lemma done_cons t us s : us <> [] -> paren_done us s -> paren_done (t :: us) s.
Proof. exact (done_suffix [t] us s). Qed.
Lemma done_op ts t us s : us <> [] -> paren_done us s -> paren_done (ts ++ t :: us) s.
Proof. intros N Z. apply done_suffix; [discriminate | apply done_cons; assumption]. Qed.
Lemma done_rparen ts s : paren_done (ts ++ [RPAREN]) s.
Proof. intros _. rewrite ends_id_suffix by discriminate. reflexivity. Qed.
Lemma done_view ts s s' : view s' = view s -> paren_done ts s -> paren_done ts s'.
Proof. intros V Z T. apply Z. unfold view in V. congruence. Qed.

(* an expression of level l was read *)
Definition parses (l : level) (s : pstate) (ty : vtype) (s' : pstate) : Prop :=
  exists ts e, steps s ts (ecode e) s' /\ gram l (p_st s) ts e (p_st s') /\ etype e = ty /\ phi (view s') < phi (view s) /\ paren_done ts s'.

Lemma parses_intro l s ts e c s' st ty : steps s ts c s' -> c = ecode e -> gram l (p_st s) ts e st -> st = p_st s' -> etype e = ty -> paren_done ts s' -> parses l s ty s'.
Proof.
  intros S -> G -> T Z. exists ts, e. split; [exact S|]. split; [exact G|]. split; [exact T|]. split; [exact (steps_phi _ _ _ _ S (proj1 gram_solid _ _ _ _ _ G)) | exact Z].
Qed.

Lemma parses_up l s ty s' : l <> LPrim -> parses (tighter l) s ty s' -> parses l s ty s'.
Proof. intros N (ts & e & S & G & T & F & Z). exists ts, e. split; [exact S|]. split; [apply G_tighter; assumption|]. auto. Qed.

Lemma vtype_eqb_iff a b : vtype_eqb a b = true <-> a = b.
Proof. destruct a, b; cbn; split; intros H; congruence. Qed.
Lemma vtype_eqb_false a b : vtype_eqb a b = false <-> a <> b.
Proof. destruct a, b; cbn; split; intros H; congruence. Qed.

Section Ex.
Variable ex : P vtype.
Variable n : nat.
Hypothesis EX : forall s, phi (view s) < n -> ok ex s (parses LOr s).

Definition gets (t : vtype) (s s' : pstate) : Prop :=
  exists ts e, steps s ts (ecode e) s' /\ gexp t (p_st s) ts e (p_st s') /\ phi (view s') < phi (view s).

Lemma ok_numeric s : phi (view s) < n -> ok (numeric_expression_ ex) s (fun _ s' => gets TNum s s').
Proof.
  intros L. unfold numeric_expression_. eapply ok_bind; [exact (EX s L)|]. intros ty s1 M (ts & e & S & G & T & F & _).
  destruct (vtype_eqb ty TNum) eqn:V; [|apply ok_error]. apply vtype_eqb_iff in V. apply ok_ret. exists ts, e. split; [exact S|].
  split; [split; [exact G | congruence] | exact F].
Qed.
Lemma ok_string s : phi (view s) < n -> ok (string_expression_ ex) s (fun _ s' => gets TStr s s').
Proof.
  intros L. unfold string_expression_. eapply ok_bind; [exact (EX s L)|]. intros ty s1 M (ts & e & S & G & T & F & _).
  destruct (vtype_eqb ty TStr) eqn:V; [|apply ok_error]. apply vtype_eqb_iff in V. apply ok_ret. exists ts, e. split; [exact S|].
  split; [split; [exact G | congruence] | exact F].
Qed.

Lemma steps_nil_l s ts c s' : steps s ([] ++ ts) ([] ++ c) s' -> steps s ts c s'.
Proof. auto. Qed.

Lemma ok_subscripts : forall fuel c s, p_tok s <> T_NL -> phi (view s) <= n -> phi (view s) <= fuel ->
  ok (subscripts ex fuel c) s (fun m s' => exists ts es,
    steps s (p_tok s :: ts) (flat_map ecode es) s' /\ gargs (repeat ArgNum (length es)) (p_st s) ts es (p_st s') /\
    m = c + length es /\ es <> [] /\ phi (view s') < phi (view s)).
Proof.
  induction fuel as [|f IH]; intros c s NT LN LF.
  - pose proof (phi_pos (p_tok s) (p_rest s) NT). unfold view in *. lia.
  - cbn [subscripts]. eapply ok_bind; [exact (next_ok s NT)|].
    intros _ s1 M1 ((S1 & T1) & F1). eapply ok_bind; [apply ok_numeric; lia|]. intros _ s2 M2 (ts & e & S2 & (G2 & Y2) & F2).
    apply ok_tok. destruct (is_char "," (p_tok s2)) eqn:C.
    + apply is_char_iff in C. eapply ok_weaken; [apply (IH (S c) s2)|].
      * rewrite C. discriminate.
      * lia.
      * lia.
      * intros m s3 M3 (us & es & S3 & G3 & -> & NE & F3). exists (ts ++ COMMA :: us), (e :: es). split.
        -- pose proof (steps_trans _ _ _ _ _ _ _ (steps_trans _ _ _ _ _ _ _ S1 S2) S3) as X. cbn [app] in X. rewrite C in X. exact X.
        -- split; [|split; [cbn [length]; lia | split; [discriminate | lia]]]. cbn [length repeat]. apply (GA_more ArgNum _ _ _ _ (p_st s2)); [rewrite <- T1; exact G2 | exact Y2 | exact G3].
    + apply ok_ret. exists ts, [e]. split.
      * pose proof (steps_trans _ _ _ _ _ _ _ S1 S2) as X. cbn [app] in X. cbn [flat_map]. rewrite app_nil_r. exact X.
      * split; [|split; [cbn; lia | split; [discriminate | lia]]]. cbn. apply GA_last; [rewrite <- T1; exact G2 | exact Y2].
Qed.

(* the end of identifier *)
Lemma ok_symbol k name params s (Q : nat * nat -> pstate -> Prop) : paren_kind k ->
  (forall p sym s', occurs k name (negb (Nat.eqb params 0)) (p_st s) sym (p_st s') -> nth_error (st_syms (p_st s')) p = Some sym ->
     steps s [] [] s' -> view s' = view s -> Q (p, params) s') ->
  ok (fun s => let paren := negb (Nat.eqb params 0) in
        match sym_lookup (p_st s) name paren with
        | Some p =>
            if paren then
              match nth_error (st_syms (p_st s)) p with
              | None => PCrash
              | Some sym =>
                  if skind_eqb (s_kind sym) KUnknown
                  then POk (p, params) (set_pst (sym_update (p_st s) p (set_kind sym k)) s)
                  else if negb (skind_eqb k KUnknown) && negb (skind_eqb (s_kind sym) k)
                  then PErr (PE_kind k (s_kind sym) name) s
                  else POk (p, params) s
              end
            else POk (p, params) s
        | None =>
            let (st', p) := sym_insert (p_st s) name (if paren then k else KVariable) (name_type name) in
            POk (p, params) (set_pst st' s)
        end) s Q.
Proof.
  intros K H. cbv zeta. unfold ok. set (paren := negb (Nat.eqb params 0)) in *.
  assert (KE : forall a b, skind_eqb a b = true <-> a = b) by (intros [] []; cbn; split; congruence).
  assert (SR : forall st, steps s [] [] (set_pst st s)) by (intros st; split; [apply Rd_nil | reflexivity | reflexivity | reflexivity]).
  destruct (sym_lookup (p_st s) name paren) as [p|] eqn:L.
  - destruct (lookup_nth _ _ _ _ L) as (sym & E & M). destruct paren eqn:PA.
    + rewrite E. destruct (skind_eqb (s_kind sym) KUnknown) eqn:U.
      * apply KE in U. split; [split; [exact (names_settle _ _ _ _ K E U) | apply La_refl | reflexivity]|].
        apply (H p (set_kind sym k)); [apply (Oc_settle _ _ _ _ p sym eq_refl L E U) | | apply SR | reflexivity].
        cbn. apply nth_error_list_upd_eq. apply nth_error_Some. rewrite E. discriminate.
      * assert (NU : s_kind sym <> KUnknown) by (intros X; apply KE in X; congruence).
        destruct (negb (skind_eqb k KUnknown) && negb (skind_eqb (s_kind sym) k)) eqn:X; [apply moves_refl|].
        split; [apply moves_refl|]. apply (H p sym); [|exact E | apply steps_refl | reflexivity].
        apply (Oc_settled _ _ _ _ p sym eq_refl L E NU). apply andb_false_iff in X. destruct X as [X | X]; apply negb_false_iff, KE in X; auto.
    + split; [apply moves_refl|]. apply (H p sym); [|exact E | apply steps_refl | reflexivity]. exact (Oc_simple _ _ _ _ p sym eq_refl L E).
  - destruct (sym_insert (p_st s) name (if paren then k else KVariable) (name_type name)) as [st' p] eqn:I.
    pose proof (insert_nth (p_st s) name (if paren then k else KVariable) (name_type name)) as X. rewrite I in X. cbn [fst snd] in X.
    split; [split; [|apply La_refl | reflexivity]|].
    + pose proof (names_insert _ _ _ _ K L) as Y. rewrite I in Y. exact Y.
    + eapply (H p); [|exact X | apply SR | reflexivity]. rewrite name_type_eq in I. exact (Oc_new _ _ _ _ st' p _ L I X).
Qed.

Definition uses (k : skind) (s : pstate) (r : nat * nat) (s' : pstate) : Prop :=
  exists ts name sym es, steps s ts (flat_map ecode es) s' /\ guse k (p_st s) ts name sym es (p_st s') /\ p_tok s = T_ID name /\
    nth_error (st_syms (p_st s')) (fst r) = Some sym /\ snd r = length es /\ phi (view s') < phi (view s).

Definition uses_done (k : skind) (s : pstate) (r : nat * nat) (s' : pstate) : Prop :=
  exists ts name sym es, steps s ts (flat_map ecode es) s' /\ guse k (p_st s) ts name sym es (p_st s') /\ p_tok s = T_ID name /\
    nth_error (st_syms (p_st s')) (fst r) = Some sym /\ snd r = length es /\ phi (view s') < phi (view s) /\ paren_done ts s'.

Lemma ok_identifier_done k fuel s : paren_kind k -> phi (view s) <= n -> phi (view s) <= fuel -> ok (identifier_ ex fuel k) s (uses_done k s).
Proof.
  intros K LN LF. unfold identifier_. apply ok_tok. destruct (p_tok s) as [c| | | |name| | | | | |] eqn:T; try apply ok_error.
  eapply ok_bind with (Q := fun _ s1 => steps s [T_ID name] [] s1 /\ p_st s1 = p_st s /\ phi (view s1) < phi (view s)).
  { unfold match_id. apply ok_tok. rewrite T. cbn [is_id]. apply ok_next. rewrite T. intros s1 S1 T1 F1. split; [exact S1|]. split; [exact T1|]. apply F1. discriminate. }
  intros _ s1 M1 (S1 & T1 & F1). apply ok_tok.
  eapply ok_bind with (Q := fun params s2 => exists ts es, steps s1 ts (flat_map ecode es) s2 /\ params = length es /\ phi (view s2) <= phi (view s1) /\
    ((es = [] /\ ts = [] /\ p_st s2 = p_st s1 /\ p_tok s2 <> LPAREN) \/
     (es <> [] /\ exists us, ts = LPAREN :: us ++ [RPAREN] /\ gargs (repeat ArgNum (length es)) (p_st s1) us es (p_st s2)))).
  { destruct (is_char "(" (p_tok s1)) eqn:C.
    - apply is_char_iff in C. eapply ok_bind; [apply (ok_subscripts fuel 0 s1); [rewrite C; discriminate | lia | lia]|].
      intros m s2 M2 (ts & es & S2 & G2 & -> & NE & F2). eapply ok_bind; [apply (char_ok ")"); discriminate|].
      intros _ s3 M3 ((S3 & T3) & F3). apply ok_ret. exists (LPAREN :: ts ++ [RPAREN]), es. split.
      + pose proof (steps_trans _ _ _ _ _ _ _ S2 S3) as X. rewrite app_nil_r, C in X. exact X.
      + split; [cbn; lia|]. split; [lia|]. right. split; [exact NE|]. exists ts. split; [reflexivity|]. rewrite T3. exact G2.
    - apply ok_ret. exists [], []. split; [apply steps_refl|]. split; [reflexivity|]. split; [lia|]. left. split; [reflexivity|]. split; [reflexivity|]. split; [reflexivity|]. intros X. rewrite X in C. discriminate C. }
  intros params s2 M2 (ts & es & S2 & -> & F2 & D). apply (ok_symbol k name (length es) s2); [exact K|].
  intros p sym s3 O E S3 V3. exists ([T_ID name] ++ ts), name, sym, es.
  pose proof (steps_trans _ _ _ _ _ _ _ (steps_trans _ _ _ _ _ _ _ S1 S2) S3) as X. rewrite !app_nil_r in X. split; [exact X|].
  split; [|split; [exact T | split; [exact E | split; [reflexivity | split; [rewrite V3; lia|]]]]].
  - destruct D as [(-> & -> & ST & _) | (NE & us & -> & G)].
    + cbn. apply GU_simple. rewrite ST, T1 in O. exact O.
    + cbn [app]. apply (GU_paren _ _ _ _ _ (p_st s2)); [rewrite <- T1; exact G|]. destruct es; [contradiction|]. exact O.
  - apply (done_view _ s2 _ V3). destruct D as [(_ & -> & _ & NP) | (NE & us & -> & G)]; [intros Y; contradiction|].
    exact (done_rparen (T_ID name :: LPAREN :: us) s2).
Qed.

Lemma ok_identifier k fuel s : paren_kind k -> phi (view s) <= n -> phi (view s) <= fuel -> ok (identifier_ ex fuel k) s (uses k s).
Proof.
  intros K LN LF. eapply ok_weaken; [exact (ok_identifier_done k fuel s K LN LF)|].
  intros r s' M (ts & name & sym & es & S1 & G1 & T1 & E1 & EP & F1 & _). exists ts, name, sym, es. auto 10.
Qed.

Definition no_dummy (a : argkind) : bool := match a with ArgDummy => false | _ => true end.

Lemma builtin_args_ok b : In b builtins -> bi_type b <> TErr ->
  (exists r, bi_args b = ArgDummy :: r) \/ (exists a r, bi_args b = a :: r /\ ~ In ArgDummy (a :: r)).
Proof.
  assert (H : forallb (fun b => match bi_type b, bi_args b with
    | TErr, _ => true | _, [] => false | _, ArgDummy :: _ => true | _, l => forallb no_dummy l end) builtins = true) by (vm_compute; reflexivity).
  rewrite forallb_forall in H. intros I T. specialize (H b I).
  assert (X : forall l, forallb no_dummy l = true -> ~ In ArgDummy l) by (intros l F J; rewrite forallb_forall in F; discriminate (F _ J)).
  destruct (bi_type b); [contradiction| |]; (destruct (bi_args b) as [|[] r] eqn:Y; [discriminate H|..];
    try (left; exists r; reflexivity); right; eexists; exists r; (split; [reflexivity | apply X; exact H])).
Qed.

Lemma ok_builtin_arg a s : a <> ArgDummy -> phi (view s) < n -> ok (builtin_arg ex a) s (fun _ s' =>
  exists ts e, steps s ts (ecode e) s' /\ gram LOr (p_st s) ts e (p_st s') /\ arg_ok a e /\ phi (view s') < phi (view s)).
Proof.
  intros N L. destruct a; [| |contradiction]; cbn [builtin_arg].
  - eapply ok_weaken; [exact (ok_numeric s L)|]. intros _ s' M (ts & e & S & (G & T) & F). exists ts, e. auto.
  - eapply ok_weaken; [exact (ok_string s L)|]. intros _ s' M (ts & e & S & (G & T) & F). exists ts, e. auto.
Qed.

Lemma ok_builtin_args : forall l s, ~ In ArgDummy l -> phi (view s) <= n -> ok (builtin_args ex l) s (fun _ s' =>
  (l = [] /\ s' = s) \/ exists ts es, steps s (COMMA :: ts) (flat_map ecode es) s' /\ gargs l (p_st s) ts es (p_st s')).
Proof.
  induction l as [|a l IH]; intros s N L; cbn [builtin_args]; [apply ok_ret; left; auto|].
  eapply ok_bind; [apply (char_ok ","); discriminate|]. intros _ s1 M1 ((S1 & T1) & F1).
  eapply ok_bind; [apply (ok_builtin_arg a s1); [intros ->; apply N; left; reflexivity | lia]|]. intros _ s2 M2 (ts & e & S2 & G2 & A2 & F2).
  eapply ok_weaken; [apply (IH s2); [intros X; apply N; right; exact X | lia]|]. intros _ s3 M3 [(E1 & E2) | (us & es & S3 & G3)]; right.
  - subst l s3. exists ts, [e]. pose proof (steps_trans _ _ _ _ _ _ _ S1 S2) as X. cbn [flat_map]. rewrite app_nil_r. split; [exact X|].
    apply GA_last; [rewrite <- T1; exact G2 | exact A2].
  - exists (ts ++ COMMA :: us), (e :: es). pose proof (steps_trans _ _ _ _ _ _ _ (steps_trans _ _ _ _ _ _ _ S1 S2) S3) as X. split; [exact X|].
    apply (GA_more _ _ _ _ _ (p_st s2)); [rewrite <- T1; exact G2 | exact A2 | exact G3].
Qed.

Lemma ok_discard s : phi (view s) < n -> ok (discard_expression_ ex) s (fun _ s' =>
  exists ts e, steps s ts (ecode e ++ drop_code (etype e)) s' /\ gram LOr (p_st s) ts e (p_st s') /\ phi (view s') < phi (view s)).
Proof.
  intros L. unfold discard_expression_. eapply ok_bind; [exact (EX s L)|]. intros ty s1 M (ts & e & S & G & T & F & _). rewrite <- T.
  assert (X : forall i, ok (emit_ i) s1 (fun _ s' => steps s ts (ecode e ++ [i]) s' /\ p_st s' = p_st s1 /\ view s' = view s1)).
  { intros i. apply ok_emit. intros s2 S2 T2 V2. pose proof (steps_trans _ _ _ _ _ _ _ S S2) as Y. rewrite app_nil_r in Y. auto. }
  destruct (etype e) eqn:TE; cbn [drop_code].
  - apply ok_ret. exists ts, e. rewrite TE. cbn. rewrite app_nil_r. auto.
  - eapply ok_weaken; [apply X|]. intros _ s2 M2 (S2 & T2 & V2). exists ts, e. rewrite TE, T2, V2. auto.
  - eapply ok_weaken; [apply X|]. intros _ s2 M2 (S2 & T2 & V2). exists ts, e. rewrite TE, T2, V2. auto.
Qed.

Ltac chain :=
  repeat match goal with
  | A : steps ?a _ _ ?b, B : steps ?b _ _ ?c |- _ =>
      let X := fresh "X" in pose proof (steps_trans _ _ _ _ _ _ _ A B) as X; clear A B
  end.

Lemma find_builtin_in w b : find_builtin w = Some b -> In b builtins.
Proof. unfold find_builtin. intros H. apply find_some in H. tauto. Qed.

Lemma ok_psym p s (Q : symbol -> pstate -> Prop) x : nth_error (st_syms (p_st s)) p = Some x -> Q x s -> ok (psym p) s Q.
Proof. intros E H. unfold ok, psym. rewrite E. split; [apply moves_refl | exact H]. Qed.

Lemma steps_eq s ts c s' ts' c' : steps s ts c s' -> ts = ts' -> c = c' -> steps s ts' c' s'.
Proof. intros H -> ->. exact H. Qed.

Lemma ok_primary fuel s : phi (view s) <= n -> phi (view s) <= fuel -> ok (primary_expression ex fuel) s (parses LPrim s).
Proof.
  intros LN LF. unfold primary_expression. apply ok_tok.
  assert (NX : forall t, p_tok s = t -> t <> T_NL -> ok next_token s (fun _ s' => took s [t] [] s' /\ phi (view s') < phi (view s))).
  { intros t <- N. exact (next_ok s N). }
  assert (PA : p_tok s = LPAREN -> ok (next_token ;;; (let* ty := ex in (if vtype_eqb ty TErr then pret tt else match_char ")") ;;; pret ty)) s (parses LPrim s)).
  { intros T. eapply ok_bind; [apply (NX _ T); discriminate|]. intros _ s1 M1 ((S1 & T1) & F1).
    eapply ok_bind; [apply (EX s1); lia|]. intros ty s2 M2 (ts & e & S2 & G2 & Y2 & F2 & Z2).
    destruct (vtype_eqb ty TErr) eqn:V.
    - apply vtype_eqb_iff in V. subst ty. unfold pbind at 1, pret at 1. apply ok_ret. chain. rewrite T1 in G2.
      exact (parses_intro _ _ _ _ _ _ _ _ X eq_refl (G_bad_paren _ _ _ _ G2 V) eq_refl eq_refl (done_cons _ _ _ (proj1 (proj1 gram_solid _ _ _ _ _ G2)) Z2)).
    - apply vtype_eqb_false in V. eapply ok_bind; [apply (char_ok ")"); discriminate|]. intros _ s3 M3 ((S3 & T3) & F3). apply ok_ret.
      rewrite T1 in G2. apply (parses_intro _ _ (LPAREN :: ts ++ [RPAREN]) e _ _ (p_st s2) _ (steps_trans _ _ _ _ _ _ _ (steps_trans _ _ _ _ _ _ _ S1 S2) S3)); auto.
      + cbn. apply app_nil_r.
      + apply G_paren; [exact G2 | congruence].
      + exact (done_rparen (LPAREN :: ts) s3). }
  destruct (p_tok s) as [c| | | |w|x w|w| | | |] eqn:T; try apply ok_error.
  - (* a parenthesis *)
    destruct (is_char "(" (T_CHAR c)) eqn:C; [apply is_char_iff in C; apply PA; exact C | apply ok_error].
  - (* a name *)
    destruct (find_builtin w) as [b|] eqn:B.
    + destruct (vtype_eqb (bi_type b) TErr) eqn:V; [apply ok_error|]. apply vtype_eqb_false in V.
      eapply ok_bind; [apply (NX _ eq_refl); discriminate|]. intros _ s1 M1 ((S1 & T1) & F1).
      assert (FIN : forall c ts e s2, steps s (T_ID w :: ts) c s2 -> c ++ [bi_op b] = ecode e -> etype e = bi_type b ->
                gram LPrim (p_st s) (T_ID w :: ts) e (p_st s2) -> paren_done (T_ID w :: ts) s2 -> ok (emit_ (bi_op b) ;;; pret (bi_type b)) s2 (parses LPrim s)).
      { intros c ts e s2 S2 E Y G Z. eapply ok_bind; [apply (emit_ok (bi_op b))|]. intros _ s3 M3 ((S3 & T3) & F3). apply ok_ret.
        apply (parses_intro _ _ (T_ID w :: ts) e (c ++ [bi_op b]) _ (p_st s2)); auto.
        - pose proof (steps_trans _ _ _ _ _ _ _ S2 S3) as X. rewrite app_nil_r in X. exact X.
        - exact (done_view _ _ _ F3 Z). }
      destruct (builtin_args_ok b (find_builtin_in _ _ B) V) as [(r & A) | (a & r & A & ND)]; rewrite A.
      * eapply ok_bind with (Q := fun _ s2 => exists c ts e, steps s (T_ID w :: ts) c s2 /\ c ++ [bi_op b] = ecode e /\
          etype e = bi_type b /\ gram LPrim (p_st s) (T_ID w :: ts) e (p_st s2) /\ paren_done (T_ID w :: ts) s2).
        2:{ intros _ s2 M2 (c & ts & e & S2 & E & Y & G & Z). exact (FIN c ts e s2 S2 E Y G Z). }
        apply ok_tok. destruct (is_char "(" (p_tok s1)) eqn:C.
        -- apply is_char_iff in C. eapply ok_bind; [apply next_ok; rewrite C; discriminate|]. intros _ s2 M2 ((S2 & T2) & F2). rewrite C in S2.
           apply ok_tok. destruct (is_char ")" (p_tok s2)) eqn:C2.
           ++ unfold pbind, pret. eapply ok_weaken; [apply (char_ok ")"); discriminate|]. intros _ s3 M3 ((S3 & T3) & F3).
              exists [], [LPAREN; RPAREN], (EFun b []). chain. split; [exact X0|]. split; [reflexivity|]. split; [reflexivity|].
              rewrite T3, T2, T1. split; [exact (G_nothing w b r _ B V A) | exact (done_rparen [T_ID w; LPAREN] s3)].
           ++ eapply ok_bind; [apply ok_discard; lia|]. intros _ s3 M3 (ts & e & S3 & G3 & F3).
              eapply ok_weaken; [apply (char_ok ")"); discriminate|]. intros _ s4 M4 ((S4 & T4) & F4).
              rewrite T2, T1 in G3. exists ((ecode e ++ drop_code (etype e)) ++ []), (LPAREN :: ts ++ [RPAREN]), (EDrop b e).
              split; [exact (steps_trans _ _ _ _ _ _ _ (steps_trans _ _ _ _ _ _ _ (steps_trans _ _ _ _ _ _ _ S1 S2) S3) S4)|].
              split; [cbn [ecode]; rewrite app_nil_r, <- app_assoc; reflexivity|]. split; [reflexivity|].
              rewrite T4. split; [exact (G_drop w b r _ _ _ _ B V A G3) | exact (done_rparen (T_ID w :: LPAREN :: ts) s4)].
        -- apply ok_ret. exists [], [], (EFun b []). split; [exact S1|]. split; [reflexivity|]. split; [reflexivity|]. rewrite T1.
           split; [exact (G_bare w b r _ B V A) | intros X; rewrite X in C; discriminate C].
      * eapply ok_bind with (Q := fun _ s2 => exists c ts e, steps s (T_ID w :: ts) c s2 /\ c ++ [bi_op b] = ecode e /\
          etype e = bi_type b /\ gram LPrim (p_st s) (T_ID w :: ts) e (p_st s2) /\ paren_done (T_ID w :: ts) s2).
        2:{ intros _ s2 M2 (c & ts & e & S2 & E & Y & G & Z). exact (FIN c ts e s2 S2 E Y G Z). }
        assert (OK : ok (match_char "(" ;;; builtin_arg ex a ;;; builtin_args ex r ;;; match_char ")") s1 (fun _ s2 => exists c ts e,
          steps s (T_ID w :: ts) c s2 /\ c ++ [bi_op b] = ecode e /\ etype e = bi_type b /\ gram LPrim (p_st s) (T_ID w :: ts) e (p_st s2) /\ paren_done (T_ID w :: ts) s2)).
        2:{ destruct a; [exact OK | exact OK | exfalso; apply ND; left; reflexivity]. }
        eapply ok_bind; [apply (char_ok "("); discriminate|]. intros _ s2 M2 ((S2 & T2) & F2).
        eapply ok_bind; [apply (ok_builtin_arg a s2); [intros ->; apply ND; left; reflexivity | lia]|]. intros _ s3 M3 (ts & e & S3 & G3 & A3 & F3).
        eapply ok_bind; [apply (ok_builtin_args r s3); [intros I; apply ND; right; exact I | lia]|].
        rewrite T2, T1 in G3. intros _ s4 M4 [(E1 & E2) | (us & es & S4 & G4)].
        -- subst r s4. eapply ok_weaken; [apply (char_ok ")"); discriminate|]. intros _ s4 M4' ((S4 & T4) & F4).
           exists (ecode e ++ []), (LPAREN :: ts ++ [RPAREN]), (EFun b [e]).
           split; [exact (steps_trans _ _ _ _ _ _ _ (steps_trans _ _ _ _ _ _ _ (steps_trans _ _ _ _ _ _ _ S1 S2) S3) S4)|].
           split; [reflexivity|]. split; [reflexivity|]. rewrite T4. split; [|exact (done_rparen (T_ID w :: LPAREN :: ts) s4)]. apply G_fun; auto. rewrite A. apply GA_last; assumption.
        -- eapply ok_weaken; [apply (char_ok ")"); discriminate|]. intros _ s5 M5 ((S5 & T5) & F5).
           exists ((ecode e ++ flat_map ecode es) ++ []), (LPAREN :: (ts ++ COMMA :: us) ++ [RPAREN]), (EFun b (e :: es)).
           split; [exact (steps_trans _ _ _ _ _ _ _ (steps_trans _ _ _ _ _ _ _ (steps_trans _ _ _ _ _ _ _ (steps_trans _ _ _ _ _ _ _ S1 S2) S3) S4) S5)|].
           split; [cbn [ecode flat_map]; rewrite app_nil_r; reflexivity|]. split; [reflexivity|]. rewrite T5. split; [|exact (done_rparen (T_ID w :: LPAREN :: ts ++ COMMA :: us) s5)]. apply G_fun; auto. rewrite A.
           apply (GA_more _ _ _ _ _ (p_st s3)); assumption.
    + eapply ok_bind; [apply (ok_identifier_done KUnknown fuel s); [left; reflexivity | assumption | assumption]|].
      intros [p params] s1 M1 (ts & name & sym & es & S1 & G1 & T1 & E1 & EP & F1 & Z1). cbn [fst snd] in E1, EP. subst params. rewrite T in T1. injection T1 as <-.
      eapply ok_bind; [apply (ok_psym p s1 (fun x s' => x = sym /\ s' = s1) sym E1); auto|]. intros x s1' M1' (-> & ->).
      eapply ok_bind; [apply emit_ok|]. intros _ s2 M2 ((S2 & T2) & F2). apply ok_ret. pose proof (steps_trans _ _ _ _ _ _ _ S1 S2) as X. rewrite app_nil_r in X.
      apply (parses_intro _ _ ts (match es with [] => EVar (s_id sym) (s_type sym) | _ => EElem (s_id sym) (s_type sym) es end) _ _ (p_st s1) _ X); auto.
      * destruct es as [|e es]; [cbn; destruct (s_type sym); reflexivity|]. cbn [ecode length flat_map]. unfold paren_instr, params8. cbn [length].
        destruct (s_type sym); reflexivity.
      * exact (G_name _ _ _ _ _ _ B G1).
      * destruct es; reflexivity.
      * exact (done_view _ _ _ F2 Z1).
  - eapply ok_bind; [apply emit_ok|]. intros _ s1 M1 ((S1 & T1) & F1). eapply ok_bind; [apply next_ok|].
    + replace (p_tok s1) with (p_tok s) by (unfold view in F1; congruence). rewrite T. discriminate.
    + intros _ s2 M2 ((S2 & T2) & F2). apply ok_ret. replace (p_tok s1) with (T_NUM x w) in S2 by (unfold view in F1; congruence).
      chain. exact (parses_intro _ _ _ (ENum x) _ _ (p_st s) _ X eq_refl (G_num _ x w) (eq_sym (eq_trans T2 T1)) eq_refl (fun _ => eq_refl)).
  - eapply ok_bind; [apply emit_ok|]. intros _ s1 M1 ((S1 & T1) & F1). eapply ok_bind; [apply next_ok|].
    + replace (p_tok s1) with (p_tok s) by (unfold view in F1; congruence). rewrite T. discriminate.
    + intros _ s2 M2 ((S2 & T2) & F2). apply ok_ret. replace (p_tok s1) with (T_STR w) in S2 by (unfold view in F1; congruence).
      chain. exact (parses_intro _ _ _ (EStr w) _ _ (p_st s) _ X eq_refl (G_str _ w) (eq_sym (eq_trans T2 T1)) eq_refl (fun _ => eq_refl)).
Qed.

Lemma ok_power : forall fuel s, phi (view s) <= n -> phi (view s) < fuel -> ok (power_expr ex fuel) s (parses LPow s).
Proof.
  induction fuel as [|f IH]; intros s LN LF; [lia|]. cbn [power_expr].
  eapply ok_bind; [apply (ok_primary (S f) s); lia|]. intros ty s1 M1 (ts & e & S1 & G1 & Y1 & F1 & Z1). apply ok_tok.
  destruct (vtype_eqb ty TNum && is_char "^" (p_tok s1)) eqn:C.
  - apply andb_prop in C. destruct C as [C1 C2]. apply vtype_eqb_iff in C1. apply is_char_iff in C2. subst ty.
    eapply ok_bind; [apply next_ok; rewrite C2; discriminate|]. intros _ s2 M2 ((S2 & T2) & F2). rewrite C2 in S2.
    eapply ok_bind; [apply (IH s2); lia|]. intros ty2 s3 M3 (us & e2 & S3 & G3 & Y3 & F3 & Z3). rewrite T2 in G3. pose proof (proj1 (proj1 gram_solid _ _ _ _ _ G3)) as NE.
    pose proof (steps_trans _ _ _ _ _ _ _ (steps_trans _ _ _ _ _ _ _ S1 S2) S3) as X. rewrite app_nil_r, <- app_assoc in X. cbn [app] in X.
    destruct (vtype_eqb ty2 TNum) eqn:V.
    + apply vtype_eqb_iff in V. eapply ok_bind; [apply emit_ok|]. intros _ s4 M4 ((S4 & T4) & F4). apply ok_ret.
      pose proof (steps_trans _ _ _ _ _ _ _ X S4) as X2. rewrite app_nil_r, <- app_assoc in X2.
      apply (parses_intro _ _ _ (EBin OPow e e2) _ _ (p_st s3) _ X2); auto.
      * apply (G_pow _ _ _ (p_st s1)); auto. congruence.
      * apply (done_view _ _ _ F4). apply done_op; assumption.
    + apply vtype_eqb_false in V. apply ok_ret. apply (parses_intro _ _ _ (EBad e e2) _ _ (p_st s3) _ X); auto.
      * apply (G_bad _ _ _ (p_st s1)); auto. congruence.
      * apply done_op; assumption.
  - apply ok_ret. apply parses_up; [discriminate|]. exists ts, e. auto.
Qed.

Lemma ok_count t is : t <> T_NL -> (forall u, is u = true <-> u = t) -> forall fuel c s, phi (view s) < fuel ->
  ok (count_tokens fuel is c) s (fun m s' => exists k, m = c + k /\ took s (repeat t k) [] s' /\ phi (view s') <= phi (view s)).
Proof.
  intros NT I. induction fuel as [|f IH]; intros c s L; [lia|]. cbn [count_tokens]. apply ok_tok. destruct (is (p_tok s)) eqn:E.
  - apply I in E. eapply ok_bind; [apply next_ok; rewrite E; exact NT|]. intros _ s1 M1 ((S1 & T1) & F1). rewrite E in S1.
    eapply ok_weaken; [apply (IH (S c) s1); lia|]. intros m s2 M2 (k & -> & (S2 & T2) & F2). exists (S k). split; [lia|]. split; [|lia].
    split; [|congruence]. exact (steps_trans _ _ _ _ _ _ _ S1 S2).
  - apply ok_ret. exists 0. split; [lia|]. split; [split; [apply steps_refl | reflexivity] | lia].
Qed.

Lemma ok_neg fuel s : phi (view s) <= n -> phi (view s) < fuel -> ok (neg_expr ex fuel) s (parses LNeg s).
Proof.
  intros LN LF. unfold neg_expr. eapply ok_bind; [apply (ok_count (T_CHAR "-") (is_char "-")); [discriminate | apply is_char_iff | exact LF]|].
  intros k s1 M1 (k' & -> & (S1 & T1) & F1). cbn [Nat.add]. eapply ok_bind; [apply (ok_power fuel s1); lia|]. intros ty s2 M2 (ts & e & S2 & G2 & Y2 & F2 & Z2). pose proof (proj1 (proj1 gram_solid _ _ _ _ _ G2)) as NE.
  rewrite T1 in G2. pose proof (steps_trans _ _ _ _ _ _ _ S1 S2) as X. cbn [app] in X. destruct k' as [|k]; cbn [Nat.eqb].
  - unfold pbind at 1, pret at 1. apply ok_ret. apply parses_up; [discriminate|]. exists ts, e. split; [exact X|]. split; [exact G2|]. split; [exact Y2 | split; [lia | exact Z2]].
  - destruct (vtype_eqb ty TNum) eqn:V; cbn [negb]; [|apply ok_error]. apply vtype_eqb_iff in V. subst ty.
    pose proof (G_neg k _ _ _ _ G2 V) as G. destruct (Nat.odd (S k)) eqn:O.
    + eapply ok_bind; [apply emit_ok|]. intros _ s3 M3 ((S3 & T3) & F3). apply ok_ret.
      pose proof (steps_trans _ _ _ _ _ _ _ X S3) as X2. rewrite app_nil_r in X2. apply (parses_intro _ _ _ (ENegs (S k) e) _ _ (p_st s2) _ X2); auto.
      * cbn [ecode]. rewrite O. reflexivity.
      * apply (done_view _ _ _ F3). apply done_suffix; assumption.
    + unfold pbind at 1, pret at 1. apply ok_ret. apply (parses_intro _ _ _ (ENegs (S k) e) _ _ (p_st s2) _ X); auto.
      * cbn [ecode]. rewrite O, app_nil_r. reflexivity.
      * apply done_suffix; assumption.
Qed.

(* after an operator: the operand, and the instruction *)
Lemma ok_operand (m : P vtype) lev s0 t1 s t (K : vtype -> P unit) (Q : unit -> pstate -> Prop) l :
  parses l s0 t1 s -> p_tok s = t -> t <> T_NL -> phi (view s) <= n ->
  (forall s1, phi (view s1) < phi (view s) -> ok m s1 (parses lev s1)) ->
  (forall ts a us b ty s2, steps s0 (ts ++ t :: us) (ecode a ++ ecode b) s2 -> gram l (p_st s0) ts a (p_st s) -> gram lev (p_st s) us b (p_st s2) ->
     etype a = t1 -> etype b = ty -> phi (view s2) < phi (view s) -> paren_done (ts ++ t :: us) s2 -> ok (K ty) s2 Q) ->
  ok (next_token ;;; let* ty := m in K ty) s Q.
Proof.
  intros (ts & a & S0 & G0 & Y0 & F0 & _) T N LN O H. subst t.
  eapply ok_bind; [apply next_ok; exact N|]. intros _ s1 M1 ((S1 & T1) & F1). eapply ok_bind; [apply O; exact F1|].
  intros ty s2 M2 (us & b & S2 & G2 & Y2 & F2 & Z2). rewrite T1 in G2. apply (H ts a us b); auto; [|lia|exact (done_op _ _ _ _ (proj1 (proj1 gram_solid _ _ _ _ _ G2)) Z2)].
  pose proof (steps_trans _ _ _ _ _ _ _ (steps_trans _ _ _ _ _ _ _ S0 S1) S2) as X. rewrite app_nil_r, <- app_assoc in X. exact X.
Qed.

(* the instruction of the operator, and the rest of the loop *)
Lemma ok_operator i s0 l e ts c s2 (K : P unit) (Q : unit -> pstate -> Prop) ty :
  steps s0 ts c s2 -> c ++ [i] = ecode e -> gram l (p_st s0) ts e (p_st s2) -> etype e = ty -> paren_done ts s2 ->
  (forall s3, parses l s0 ty s3 -> view s3 = view s2 -> ok K s3 Q) -> ok (emit_ i ;;; K) s2 Q.
Proof.
  intros S2 C G Y Z H. eapply ok_bind; [apply emit_ok|]. intros _ s3 M3 ((S3 & T3) & F3). apply H; [|exact F3].
  pose proof (steps_trans _ _ _ _ _ _ _ S2 S3) as X. rewrite app_nil_r in X. apply (parses_intro _ _ ts e _ _ (p_st s2) _ X); auto.
  exact (done_view _ _ _ F3 Z).
Qed.

Lemma ok_mult_loop fuel s0 : forall k t1 s, parses LMul s0 t1 s -> phi (view s) <= n -> phi (view s) < fuel -> phi (view s) < k ->
  ok (mult_loop ex fuel k t1) s (fun _ s' => parses LMul s0 t1 s').
Proof.
  induction k as [|k IH]; intros t1 s PS LN LF LK; [lia|]. cbn [mult_loop]. apply ok_tok.
  destruct (is_char "*" (p_tok s) || is_char "/" (p_tok s)) eqn:C; [|apply ok_ret; exact PS].
  eapply (ok_operand (neg_expr ex fuel) LNeg s0 t1 s (p_tok s)); [exact PS | reflexivity | | lia | intros s1 F; apply ok_neg; lia|].
  { intros E. rewrite E in C. discriminate C. }
  intros ts a us b ty s2 S2 GA GB Y1 Y2 F2 Z2. destruct (vtype_eqb t1 TNum && vtype_eqb ty TNum) eqn:V; [|apply ok_error].
  apply andb_prop in V. destruct V as [V1 V2]. apply vtype_eqb_iff in V1, V2. subst t1 ty.
  destruct (is_char "*" (p_tok s)) eqn:C1.
  - apply is_char_iff in C1. rewrite C1 in S2, Z2. eapply (ok_operator I_MUL s0 LMul (EBin OMul a b)); [exact S2 | rewrite <- app_assoc; reflexivity | apply (G_mul _ _ _ (p_st s)); assumption | reflexivity | exact Z2|].
    intros s3 P3 V3. rewrite V1 in *. apply IH; [exact P3 | rewrite V3; lia..].
  - cbn [orb] in C. apply is_char_iff in C. rewrite C in S2, Z2. eapply (ok_operator I_DIV s0 LMul (EBin ODiv a b)); [exact S2 | rewrite <- app_assoc; reflexivity | apply (G_div _ _ _ (p_st s)); assumption | reflexivity | exact Z2|].
    intros s3 P3 V3. rewrite V1 in *. apply IH; [exact P3 | rewrite V3; lia..].
Qed.

Lemma ok_mult fuel s : phi (view s) <= n -> phi (view s) < fuel -> ok (mult_expr ex fuel) s (parses LMul s).
Proof.
  intros LN LF. unfold mult_expr. eapply ok_bind; [apply (ok_neg fuel s); assumption|]. intros ty s1 M1 P1.
  assert (F1 : phi (view s1) < phi (view s)) by (destruct P1 as (? & ? & _ & _ & _ & F & _); exact F).
  eapply ok_bind; [apply (ok_mult_loop fuel s fuel ty s1); [apply parses_up; [discriminate | exact P1] | lia..]|].
  intros ? s2 M2 P2. apply ok_ret. exact P2.
Qed.

Lemma ok_add_loop fuel s0 : forall k s, parses LAdd s0 TNum s -> phi (view s) <= n -> phi (view s) < fuel -> phi (view s) < k ->
  ok (add_loop ex fuel k) s (fun _ s' => parses LAdd s0 TNum s' /\ p_tok s' <> T_CHAR "-").
Proof.
  induction k as [|k IH]; intros s PS LN LF LK; [lia|]. cbn [add_loop]. apply ok_tok.
  destruct (is_char "+" (p_tok s) || is_char "-" (p_tok s)) eqn:C; [|apply ok_ret; split; [exact PS | intros X; rewrite X in C; discriminate C]].
  eapply (ok_operand (mult_expr ex fuel) LMul s0 TNum s (p_tok s)); [exact PS | reflexivity | | lia | intros s1 F; apply ok_mult; lia|].
  { intros E. rewrite E in C. discriminate C. }
  intros ts a us b ty s2 S2 GA GB Y1 Y2 F2 Z2. destruct (vtype_eqb ty TNum) eqn:V; [|apply ok_error].
  apply vtype_eqb_iff in V. subst ty.
  destruct (is_char "+" (p_tok s)) eqn:C1.
  - apply is_char_iff in C1. rewrite C1 in S2, Z2. eapply (ok_operator I_ADD s0 LAdd (EBin OAdd a b)); [exact S2 | cbn [ecode]; rewrite Y1, <- app_assoc; reflexivity | apply (G_add _ _ _ (p_st s)); congruence | exact Y1 | exact Z2|].
    intros s3 P3 V3. apply IH; [exact P3 | rewrite V3; lia..].
  - cbn [orb] in C. apply is_char_iff in C. rewrite C in S2, Z2. eapply (ok_operator I_SUB s0 LAdd (EBin OSub a b)); [exact S2 | rewrite <- app_assoc; reflexivity | apply (G_sub _ _ _ (p_st s)); assumption | reflexivity | exact Z2|].
    intros s3 P3 V3. apply IH; [exact P3 | rewrite V3; lia..].
Qed.

Lemma ok_concat_loop fuel s0 : forall k s, parses LAdd s0 TStr s -> phi (view s) <= n -> phi (view s) < fuel -> phi (view s) < k ->
  ok (concat_loop ex fuel k) s (fun _ s' => parses LAdd s0 TStr s').
Proof.
  induction k as [|k IH]; intros s PS LN LF LK; [lia|]. cbn [concat_loop]. apply ok_tok.
  destruct (is_char "+" (p_tok s)) eqn:C; [|apply ok_ret; exact PS]. apply is_char_iff in C.
  eapply (ok_operand (mult_expr ex fuel) LMul s0 TStr s (T_CHAR "+")); [exact PS | exact C | discriminate | lia | intros s1 F; apply ok_mult; lia|].
  intros ts a us b ty s2 S2 GA GB Y1 Y2 F2 Z2. destruct (vtype_eqb ty TStr) eqn:V; [|apply ok_error].
  apply vtype_eqb_iff in V. subst ty.
  eapply (ok_operator I_CONCAT s0 LAdd (EBin OAdd a b)); [exact S2 | cbn [ecode]; rewrite Y1, <- app_assoc; reflexivity | apply (G_add _ _ _ (p_st s)); congruence | exact Y1 | exact Z2|].
  intros s3 P3 V3. apply IH; [exact P3 | rewrite V3; lia..].
Qed.

(* the expression is not followed by a minus sign that would continue it *)
Definition minus_done (t : vtype) (s : pstate) : Prop := p_tok s = T_CHAR "-" -> t <> TNum.

Lemma ok_add fuel s : phi (view s) <= n -> phi (view s) < fuel -> ok (add_expr ex fuel) s (fun ty s' => parses LAdd s ty s' /\ minus_done ty s').
Proof.
  intros LN LF. unfold add_expr. eapply ok_bind; [apply (ok_mult fuel s); assumption|]. intros ty s1 M1 P1.
  assert (F1 : phi (view s1) < phi (view s)) by (destruct P1 as (? & ? & _ & _ & _ & F & _); exact F).
  assert (P1' : parses LAdd s ty s1) by (apply parses_up; [discriminate | exact P1]).
  eapply ok_bind with (Q := fun _ s' => parses LAdd s ty s' /\ minus_done ty s'); [|intros ? s2 M2 P2; apply ok_ret; exact P2].
  destruct ty.
  - apply ok_ret. split; [exact P1' | discriminate].
  - eapply ok_weaken; [apply ok_add_loop; [exact P1' | lia..]|]. intros ? s2 M2 [P2 N2]. split; [exact P2 | intros X; contradiction].
  - eapply ok_weaken; [apply ok_concat_loop; [exact P1' | lia..]|]. intros ? s2 M2 P2. split; [exact P2 | discriminate].
Qed.

Lemma minus_view t s s' : view s' = view s -> minus_done t s -> minus_done t s'.
Proof. intros V Z T. apply Z. unfold view in V. congruence. Qed.

Lemma sum_gram l st ts e st' t : sum_end l st ts e st' t -> gram l st ts e st'.
Proof.
  induction 1.
  - assumption.
  - apply G_tighter; [|assumption]. intros ->. repeat match goal with H : In _ _ |- _ => destruct H as [H|H]; try discriminate H end. assumption.
  - eapply G_or; eassumption.
  - eapply G_and; eassumption.
  - apply G_not; assumption.
  - eapply G_rel; eassumption.
  - eapply G_bad_rel; eassumption.
Qed.

(* an expression was read and its end was reached *)
Definition parsed (l : level) (s : pstate) (ty : vtype) (s' : pstate) : Prop :=
  exists ts e t, steps s ts (ecode e) s' /\ sum_end l (p_st s) ts e (p_st s') t /\ etype e = ty /\ phi (view s') < phi (view s) /\
    paren_done ts s' /\ minus_done t s'.

Lemma parsed_intro l s ts e c s' st ty t : steps s ts c s' -> c = ecode e -> sum_end l (p_st s) ts e st t -> st = p_st s' -> etype e = ty ->
  paren_done ts s' -> minus_done t s' -> parsed l s ty s'.
Proof.
  intros S -> G -> T Z D. exists ts, e, t. split; [exact S|]. split; [exact G|]. split; [exact T|].
  split; [exact (steps_phi _ _ _ _ S (proj1 gram_solid _ _ _ _ _ (sum_gram _ _ _ _ _ _ G))) | auto].
Qed.
Lemma parsed_up l s ty s' : In l [LOr; LAnd; LNot; LRel] -> parsed (tighter l) s ty s' -> parsed l s ty s'.
Proof. intros N (ts & e & t & S & G & R). exists ts, e, t. split; [exact S|]. split; [apply SE_tighter; assumption|]. exact R. Qed.
Lemma parsed_parses l s ty s' : parsed l s ty s' -> parses l s ty s'.
Proof. intros (ts & e & t & S & G & Y & F & Z & _). exists ts, e. split; [exact S|]. split; [exact (sum_gram _ _ _ _ _ _ G) | auto]. Qed.

Lemma relop_token t i j : relop t = Some (i, j) -> exists r, t = rel_token r /\ i = rel_instr r TNum /\ j = rel_instr r TStr.
Proof.
  unfold relop. destruct t as [c| | | | | | | | | |]; intros H; try discriminate H; try (injection H as <- <-).
  - destruct (ceq c "=") eqn:C1; [apply ceq_eq in C1; subst c; injection H as <- <-; exists REq; auto|].
    destruct (ceq c "<") eqn:C2; [apply ceq_eq in C2; subst c; injection H as <- <-; exists RLt; auto|].
    destruct (ceq c ">") eqn:C3; [apply ceq_eq in C3; subst c; injection H as <- <-; exists RGt; auto|]. discriminate H.
  - exists RNe. auto.
  - exists RLe. auto.
  - exists RGe. auto.
Qed.

Lemma ok_relational fuel s : phi (view s) <= n -> phi (view s) < fuel -> ok (relational_expression ex fuel) s (parsed LRel s).
Proof.
  intros LN LF. unfold relational_expression. eapply ok_bind; [apply (ok_add fuel s); assumption|]. intros ty s1 M1 [P1 D1].
  assert (F1 : phi (view s1) < phi (view s)) by (destruct P1 as (? & ? & _ & _ & _ & F & _); exact F).
  assert (UP : parsed LRel s ty s1).
  { apply parsed_up; [right; right; right; left; reflexivity|]. destruct P1 as (ts & e & S1 & G1 & Y1 & _ & Z1). rewrite <- Y1 in D1.
    exists ts, e, (etype e). split; [exact S1|]. split; [apply SE_sum; exact G1|]. auto. }
  destruct (vtype_eqb ty TErr) eqn:V.
  { apply vtype_eqb_iff in V. subst ty. apply ok_ret. exact UP. }
  apply vtype_eqb_false in V. apply ok_tok. destruct (relop (p_tok s1)) as [[i j]|] eqn:R; [|apply ok_ret; exact UP].
  destruct (relop_token _ _ _ R) as (r & T & -> & ->). destruct P1 as (ts & a & S1 & G1 & Y1 & _).
  eapply ok_bind; [apply next_ok; rewrite T; destruct r; discriminate|]. intros _ s2 M2 ((S2 & T2) & F2). rewrite T in S2.
  eapply ok_bind; [apply (ok_add fuel s2); lia|]. intros ty2 s3 M3 [(us & b & S3 & G3 & Y3 & F3 & Z3) D3]. rewrite T2 in G3.
  pose proof (proj1 (proj1 gram_solid _ _ _ _ _ G3)) as NE.
  pose proof (steps_trans _ _ _ _ _ _ _ (steps_trans _ _ _ _ _ _ _ S1 S2) S3) as X. rewrite app_nil_r, <- app_assoc in X. cbn [app] in X.
  pose proof (SE_sum _ _ _ _ G3) as E3. rewrite <- Y3 in D3.
  destruct (vtype_eqb ty2 TErr) eqn:V2.
  { apply vtype_eqb_iff in V2. subst ty2. apply ok_ret. apply (parsed_intro _ _ _ (EBad a b) _ _ (p_st s3) _ (etype b) X); auto.
    - apply (SE_bad_rel r _ _ _ (p_st s1)); auto. congruence.
    - apply done_op; assumption. }
  apply vtype_eqb_false in V2. destruct (vtype_eqb ty ty2) eqn:V3; cbn [negb]; [|apply ok_error]. apply vtype_eqb_iff in V3.
  eapply ok_bind; [apply emit_ok|]. intros _ s4 M4 ((S4 & T4) & F4). apply ok_ret.
  pose proof (steps_trans _ _ _ _ _ _ _ X S4) as X2. rewrite app_nil_r, <- app_assoc in X2.
  apply (parsed_intro _ _ _ (EBin (ORel r) a b) _ _ (p_st s3) _ (etype b) X2); auto.
  - cbn [ecode bin_instr]. rewrite Y1. destruct ty; [contradiction | destruct r; reflexivity..].
  - apply (SE_rel r _ _ _ (p_st s1)); auto; congruence.
  - apply (done_view _ _ _ F4). apply done_op; assumption.
  - exact (minus_view _ _ _ F4 D3).
Qed.

Lemma ok_not fuel s : phi (view s) <= n -> phi (view s) < fuel -> ok (not_expression ex fuel) s (parsed LNot s).
Proof.
  intros LN LF. unfold not_expression. eapply ok_bind; [apply (ok_count (T_KW K_NOT) (is_kw K_NOT)); [discriminate | apply is_kw_iff | exact LF]|].
  intros k s1 M1 (k' & -> & (S1 & T1) & F1). cbn [Nat.add]. eapply ok_bind; [apply (ok_relational fuel s1); lia|].
  intros ty s2 M2 (ts & e & t & S2 & G2 & Y2 & F2 & Z2 & D2). rewrite T1 in G2. pose proof (proj1 (proj1 gram_solid _ _ _ _ _ (sum_gram _ _ _ _ _ _ G2))) as NE.
  pose proof (steps_trans _ _ _ _ _ _ _ S1 S2) as X. cbn [app] in X. destruct k' as [|k]; cbn [Nat.eqb].
  - unfold pbind at 1, pret at 1. apply ok_ret. apply parsed_up; [right; right; left; reflexivity|]. exists ts, e, t. split; [exact X|]. split; [exact G2|]. split; [exact Y2 | split; [lia | auto]].
  - destruct (vtype_eqb ty TNum) eqn:V; cbn [negb]; [|apply ok_error]. apply vtype_eqb_iff in V. subst ty.
    pose proof (SE_not k _ _ _ _ _ G2 V) as G. destruct (Nat.odd (S k)) eqn:O.
    + eapply ok_bind; [apply emit_ok|]. intros _ s3 M3 ((S3 & T3) & F3). apply ok_ret.
      pose proof (steps_trans _ _ _ _ _ _ _ X S3) as X2. rewrite app_nil_r in X2. apply (parsed_intro _ _ _ (ENots (S k) e) _ _ (p_st s2) _ t X2); auto.
      * cbn [ecode]. rewrite O. reflexivity.
      * apply (done_view _ _ _ F3). apply done_suffix; assumption.
      * exact (minus_view _ _ _ F3 D2).
    + unfold pbind at 1, pret at 1. apply ok_ret. apply (parsed_intro _ _ _ (ENots (S k) e) _ _ (p_st s2) _ t X); auto.
      * cbn [ecode]. rewrite O, app_nil_r. reflexivity.
      * apply done_suffix; assumption.
Qed.

(* the operand after AND or OR, and the instruction *)
Lemma ok_logical (m : P vtype) lev s0 t1 s (o : binop) t i (K : P unit) (Q : unit -> pstate -> Prop) l er :
  parsed l s0 t1 s -> p_tok s = t -> t <> T_NL -> phi (view s) <= n ->
  (forall s1, phi (view s1) < phi (view s) -> ok m s1 (parsed lev s1)) ->
  (forall a b, etype a = TNum -> ecode (EBin o a b) = ecode a ++ ecode b ++ [i] /\ etype (EBin o a b) = TNum) ->
  (forall st ts a st1 us b st2 y, gram l st ts a st1 -> sum_end lev st1 us b st2 y -> etype a = TNum -> etype b = TNum ->
     sum_end l st (ts ++ t :: us) (EBin o a b) st2 y) ->
  (forall s3, parsed l s0 TNum s3 -> phi (view s3) < phi (view s) -> t1 = TNum -> ok K s3 Q) ->
  ok (next_token ;;; let* ty := m in if vtype_eqb t1 TNum && vtype_eqb ty TNum then emit_ i ;;; K else perror er) s Q.
Proof.
  intros (ts & a & y0 & S0 & G0 & Y0 & F0 & _) T N LN O CO SE H. subst t.
  eapply ok_bind; [apply next_ok; exact N|]. intros _ s1 M1 ((S1 & T1) & F1). eapply ok_bind; [apply O; exact F1|].
  intros ty s2 M2 (us & b & y & S2 & G2 & Y2 & F2 & Z2 & D2). rewrite T1 in G2.
  destruct (vtype_eqb t1 TNum && vtype_eqb ty TNum) eqn:V; [|apply ok_error].
  apply andb_prop in V. destruct V as [V1 V2]. apply vtype_eqb_iff in V1, V2. subst t1 ty.
  pose proof (steps_trans _ _ _ _ _ _ _ (steps_trans _ _ _ _ _ _ _ S0 S1) S2) as X. rewrite app_nil_r, <- app_assoc in X. cbn [app] in X.
  eapply ok_bind; [apply emit_ok|]. intros _ s3 M3 ((S3 & T3) & F3).
  pose proof (steps_trans _ _ _ _ _ _ _ X S3) as X2. rewrite app_nil_r, <- app_assoc in X2.
  destruct (CO a b V1) as [CE CT].
  apply H; [|rewrite F3; lia | exact V1].
  apply (parsed_intro _ _ _ (EBin o a b) _ _ (p_st s2) _ y X2); auto.
  - apply (SE _ _ _ (p_st s)); [exact (sum_gram _ _ _ _ _ _ G0) | exact G2 | exact V1 | exact V2].
  - apply (done_view _ _ _ F3). apply done_op; [exact (proj1 (proj1 gram_solid _ _ _ _ _ (sum_gram _ _ _ _ _ _ G2))) | exact Z2].
  - exact (minus_view _ _ _ F3 D2).
Qed.

Lemma ok_and_loop fuel s0 : forall k t1 s, parsed LAnd s0 t1 s -> phi (view s) <= n -> phi (view s) < fuel -> phi (view s) < k ->
  ok (and_loop ex fuel k t1) s (fun _ s' => parsed LAnd s0 t1 s').
Proof.
  induction k as [|k IH]; intros t1 s PS LN LF LK; [lia|]. cbn [and_loop]. apply ok_tok.
  destruct (is_kw K_AND (p_tok s)) eqn:C; [|apply ok_ret; exact PS]. apply is_kw_iff in C.
  apply (ok_logical (not_expression ex fuel) LNot s0 t1 s OAnd (T_KW K_AND) I_AND (and_loop ex fuel k t1) _ LAnd PE_and);
    [exact PS | exact C | discriminate | lia | intros s1 F; apply ok_not; lia | auto | intros; eapply SE_and; eassumption|].
  intros s3 P3 V3 ->. apply IH; [exact P3 | lia..].
Qed.

Lemma ok_and fuel s : phi (view s) <= n -> phi (view s) < fuel -> ok (and_expression ex fuel) s (parsed LAnd s).
Proof.
  intros LN LF. unfold and_expression. eapply ok_bind; [apply (ok_not fuel s); assumption|]. intros ty s1 M1 P1.
  assert (F1 : phi (view s1) < phi (view s)) by (destruct P1 as (? & ? & ? & _ & _ & _ & F & _); exact F).
  eapply ok_bind; [apply (ok_and_loop fuel s fuel ty s1); [apply parsed_up; [right; left; reflexivity | exact P1] | lia..]|].
  intros ? s2 M2 P2. apply ok_ret. exact P2.
Qed.

Lemma ok_or_loop fuel s0 : forall k t1 s, parsed LOr s0 t1 s -> phi (view s) <= n -> phi (view s) < fuel -> phi (view s) < k ->
  ok (or_loop ex fuel k t1) s (fun _ s' => parsed LOr s0 t1 s').
Proof.
  induction k as [|k IH]; intros t1 s PS LN LF LK; [lia|]. cbn [or_loop]. apply ok_tok.
  destruct (is_kw K_OR (p_tok s)) eqn:C; [|apply ok_ret; exact PS]. apply is_kw_iff in C.
  apply (ok_logical (and_expression ex fuel) LAnd s0 t1 s OOr (T_KW K_OR) I_OR (or_loop ex fuel k t1) _ LOr PE_or);
    [exact PS | exact C | discriminate | lia | intros s1 F; apply ok_and; lia | auto | intros; eapply SE_or; eassumption|].
  intros s3 P3 V3 ->. apply IH; [exact P3 | lia..].
Qed.

Lemma ok_or fuel s : phi (view s) <= n -> phi (view s) < fuel -> ok (or_expression ex fuel) s (parsed LOr s).
Proof.
  intros LN LF. unfold or_expression. eapply ok_bind; [apply (ok_and fuel s); assumption|]. intros ty s1 M1 P1.
  assert (F1 : phi (view s1) < phi (view s)) by (destruct P1 as (? & ? & ? & _ & _ & _ & F & _); exact F).
  eapply ok_bind; [apply (ok_or_loop fuel s fuel ty s1); [apply parsed_up; [left; reflexivity | exact P1] | lia..]|].
  intros ? s2 M2 P2. apply ok_ret. exact P2.
Qed.

End Ex.

Lemma ok_expression_done : forall n s, phi (view s) < n -> ok (expression_fuel n) s (parsed LOr s).
Proof.
  induction n as [|n IH]; intros s L; [lia|]. cbn [expression_fuel]. apply (ok_or (expression_fuel n) n); [|lia | lia].
  intros s1 L1. eapply ok_weaken; [exact (IH s1 L1)|]. intros ty s2 M2. exact (parsed_parses LOr s1 ty s2).
Qed.
Lemma ok_expression_fuel n s : phi (view s) < n -> ok (expression_fuel n) s (parses LOr s).
Proof. intros L. eapply ok_weaken; [exact (ok_expression_done n s L)|]. intros ty s2 M2. exact (parsed_parses LOr s ty s2). Qed.

Lemma phi_fuel s : phi (view s) < S (S (length (p_rest s))).
Proof. pose proof (phi_le (p_tok s) (p_rest s)). unfold view. lia. Qed.

Lemma ok_expression_end s : ok expression s (parsed LOr s).
Proof. unfold expression, with_fuel. apply (ok_expression_done _ s). apply phi_fuel. Qed.
Lemma ok_expression s : ok expression s (parses LOr s).
Proof. unfold expression, with_fuel. apply (ok_expression_fuel _ s). apply phi_fuel. Qed.
