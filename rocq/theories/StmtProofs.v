(* Statements, lines and programs: the compiler against GrammarSpec. *)
From Coq Require Import Lia ZifyBool ZifyNat ZifyN.
From Verif Require Import Base BaseLemmas Num SourceModel BcodeModel SymbolModel SymbolSpec SymbolProofs
  LexModel LexSpec LexProofs ParseModel GrammarSpec ParseProofs.
Local Open Scope nat_scope.
Local Open Scope parse_scope.

(* ---------- the tables the compiler meets ---------- *)

Lemma update_well_named st p s s' : nth_error (st_syms st) p = Some s -> s_name s' = s_name s -> s_type s' = s_type s ->
  (s_kind s = KBuiltin -> s_kind s' = KBuiltin) -> well_named st -> well_named (sym_update st p s').
Proof.
  intros E N T K W q x H. cbn [sym_update st_syms] in H. destruct (nth_list_upd_inv _ _ _ _ _ _ E H) as [(-> & ->) | (_ & H')]; [|exact (W q x H')].
  destruct (W p s E) as [B|B]; [left; auto | right; congruence].
Qed.

Lemma name_step_named st st' : name_step st st' -> well_named st -> well_named st'.
Proof.
  intros [st0 name paren k C B | st0 p s k E U K] W.
  - unfold use_name. destruct (sym_lookup st0 name paren); [exact W|]. intros q x H. cbn in H.
    destruct (Nat.lt_ge_cases q (length (st_syms st0))) as [L|L].
    + rewrite nth_error_app1 in H by exact L. exact (W q x H).
    + rewrite nth_error_app2 in H by exact L. destruct (q - length (st_syms st0)) as [|[|j]]; cbn in H; try discriminate H. injection H as <-. right. apply name_type_eq.
  - eapply update_well_named; eauto. cbn. intros X. congruence.
Qed.

Lemma names_fine st st' : names st st' -> fine st -> fine st'.
Proof.
  intros H [T W]. split.
  - unfold table in *. eapply changes_trans; [exact T | apply names_changes; exact H].
  - induction H; [exact W | eapply name_step_named; eauto].
Qed.

Lemma fine_moves s s' : moves s s' -> fine (p_st s) -> fine (p_st s').
Proof. intros [N _ _]. apply names_fine. exact N. Qed.

Lemma type_of_name_ok name : type_of_name name <> TErr.
Proof. unfold type_of_name. destruct (last_opt name); [destruct (ceq a "$")|]; discriminate. Qed.

(* a name of a built-in symbol is found among the built-in names *)
Lemma lookup_builtin st name paren p s : table st -> sym_lookup st name paren = Some p -> nth_error (st_syms st) p = Some s -> s_kind s = KBuiltin ->
  exists b, find_builtin name = Some b /\ nth_error builtins p = Some b /\ s_type s = bi_type b.
Proof.
  intros T L E K. pose proof (table_builtin_syms _ T p s E K) as I.
  apply (lookup_iff _ _ _ _ T) in L. destruct L as (s1 & E1 & N & _). rewrite E in E1. injection E1 as <-.
  destruct init_names as [HN _]. pose proof (map_nth_error s_name _ _ I) as H1. rewrite HN, nth_error_map in H1.
  destruct (nth_error builtins p) as [b|] eqn:B; [|discriminate H1]. cbn in H1. injection H1 as H1.
  destruct (builtin_denoted st b p paren T B) as (s2 & E2 & _ & _ & Y2 & _). rewrite E in E2. injection E2 as <-.
  exists b. split; [|split; [reflexivity | exact Y2]]. unfold find_builtin.
  destruct (find (fun b => strieq (bi_name b) name) builtins) as [c|] eqn:F.
  - apply find_some in F. destruct F as [J F]. destruct (In_nth_error _ _ J) as (q & Q).
    assert (p = q) as <-; [|congruence]. apply (builtin_names_distinct p q b c B Q). apply strieq_same.
    rewrite H1. eapply same_name_trans; [exact N|]. apply same_name_sym. apply strieq_same. exact F.
  - exfalso. pose proof (find_none _ _ F b (nth_error_In _ _ B)) as X. cbn in X. assert (Y : strieq (bi_name b) name = true); [|congruence].
    apply strieq_same. rewrite H1. exact N.
Qed.

(* a symbol without type is that of an unsupported name *)
Lemma untyped st name paren p s : fine st -> sym_lookup st name paren = Some p -> nth_error (st_syms st) p = Some s -> s_type s = TErr ->
  unsupported (T_ID name).
Proof.
  intros [T W] L E Y. destruct (W p s E) as [K|K]; [|exfalso; apply (type_of_name_ok (s_name s)); congruence].
  destruct (lookup_builtin _ _ _ _ _ T L E K) as (b & F & _ & Z). exists name, b. split; [reflexivity|]. split; [exact F | congruence].
Qed.

Lemma occurs_untyped k name paren st s st' : fine st -> occurs k name paren st s st' -> s_type s = TErr -> unsupported (T_ID name).
Proof.
  intros F [p s0 P L E | p s0 P L E N U | p s0 P L E U | st1 p s0 L I E] Y.
  - eapply untyped; eauto.
  - eapply untyped; eauto.
  - eapply untyped; eauto.
  - exfalso. pose proof (insert_nth st name (if paren then k else KVariable) (type_of_name name)) as X. rewrite I in X. cbn [fst snd] in X.
    rewrite E in X. injection X as ->. cbn in Y. exact (type_of_name_ok _ Y).
Qed.

(* the symbol keeps its identifier and its type *)
Lemma names_keep st st' p s : names st st' -> nth_error (st_syms st) p = Some s ->
  exists s', nth_error (st_syms st') p = Some s' /\ s_id s' = s_id s /\ s_type s' = s_type s.
Proof.
  intros H E. destruct (changes_evolves _ _ (names_changes _ _ H) p s E) as (s' & E' & Ev).
  exists s'. split; [exact E'|]. destruct Ev as (E1 & E2 & E3 & _). auto.
Qed.

(* ---------- parts of statements ---------- *)

Lemma numeric_ok s : ok numeric_expression s (fun _ s' => gets TNum s s').
Proof. apply (ok_numeric expression (S (phi (view s)))); [intros; apply ok_expression | lia]. Qed.
Lemma string_ok s : ok string_expression s (fun _ s' => gets TStr s s').
Proof. apply (ok_string expression (S (phi (view s)))); [intros; apply ok_expression | lia]. Qed.
Lemma identifier_ok k s : paren_kind k -> ok (identifier k) s (uses k s).
Proof.
  intros K. unfold identifier, with_fuel. apply (ok_identifier expression (phi (view s))); [intros; apply ok_expression | exact K | lia | pose proof (phi_fuel s); lia].
Qed.

(* an item with its code *)
Definition reads_one {A} (g : symtab -> list token -> A -> symtab -> Prop) (code : A -> list instr) (s : pstate) (x : A) (s' : pstate) : Prop :=
  exists ts, steps s ts (code x) s' /\ g (p_st s) ts x (p_st s') /\ phi (view s') < phi (view s).
Definition reads_item {A} (g : symtab -> list token -> A -> symtab -> Prop) (code : A -> list instr) (s s' : pstate) : Prop :=
  exists x, reads_one g code s x s'.

Lemma sym_after p sym s : nth_error (st_syms (p_st s)) p = Some sym -> ok (psym p) s (fun x s' => x = sym /\ s' = s).
Proof. intros E. apply (ok_psym p s _ sym E). auto. Qed.

Lemma array_kind : paren_kind KArray.
Proof. right. left. reflexivity. Qed.

(* a place, and the instruction after its subscripts *)
Lemma place_ok s : ok (identifier KArray) s (fun r s' => exists sym es ts name,
  nth_error (st_syms (p_st s')) (fst r) = Some sym /\ snd r = length es /\ p_tok s = T_ID name /\
  steps s ts (flat_map ecode es) s' /\ guse KArray (p_st s) ts name sym es (p_st s') /\
  gplace (p_st s) ts (mkPlace (s_id sym) (s_kind sym) (s_type sym) es) (p_st s') /\ phi (view s') < phi (view s)).
Proof.
  eapply ok_weaken; [exact (identifier_ok KArray s array_kind)|]. intros r s' M (ts & name & sym & es & S1 & G & T & E & N & F).
  exists sym, es, ts, name. split; [exact E|]. split; [exact N|]. split; [exact T|]. split; [exact S1|]. split; [exact G|]. split; [|exact F].
  exists name, sym, es. auto.
Qed.

Lemma after_emit {A} (g : symtab -> list token -> A -> symtab -> Prop) code s s1 x ts c i :
  steps s ts c s1 -> g (p_st s) ts x (p_st s1) -> code x = c ++ [i] -> phi (view s1) < phi (view s) -> ok (emit_ i) s1 (fun _ s' => reads_item g code s s').
Proof.
  intros S1 G C F. eapply ok_weaken; [apply emit_ok|]. intros _ s2 M2 ((S2 & T2) & V2). exists x, ts.
  pose proof (steps_trans _ _ _ _ _ _ _ S1 S2) as X. rewrite app_nil_r in X. rewrite C, T2, V2. auto.
Qed.

Lemma guse_head k st ts name sym es st' : guse k st ts name sym es st' -> exists us, ts = T_ID name :: us.
Proof. intros [|]; eexists; reflexivity. Qed.

Lemma gram_names :
  (forall l st ts e st', gram l st ts e st' -> names st st') /\
  (forall k st ts es st', gargs k st ts es st' -> names st st') /\
  (forall k st ts name s es st', guse k st ts name s es st' -> paren_kind k -> names st st').
Proof.
  apply gram_ind3; intros; try apply Nm_refl; try assumption; try (eapply names_trans; eassumption).
  - apply H1. left. reflexivity.
  - eapply occurs_names; eassumption.
  - eapply names_trans; [eassumption|]. eapply occurs_names; eassumption.
Qed.

Lemma guse_untyped k st ts name sym es st1 : paren_kind k -> fine st ->
  guse k st ts name sym es st1 -> s_type sym = TErr -> unsupported (T_ID name).
Proof.
  intros K F G Y. destruct G as [k0 name0 st0 s0 st0' O | k0 name0 st0 ts0 es0 st1' s0 st0' G O]; [exact (occurs_untyped _ _ _ _ _ _ F O Y)|].
  exact (occurs_untyped _ _ _ _ _ _ (names_fine _ _ (proj1 (proj2 gram_names) _ _ _ _ _ G) F) O Y).
Qed.

Lemma bind_or_crash {A B} (m : P A) (f : A -> P B) s Q R :
  ok m s Q -> (forall a s1, moves s s1 -> Q a s1 -> ok (f a) s1 R \/ (f a s1 = PCrash /\ crash_at s)) -> ok (pbind m f) s R.
Proof.
  unfold ok, pbind. intros H K. destruct (m s) as [a s1 | e s1 | | |]; auto. destruct H as [M H]. destruct (K a s1 M H) as [X | (-> & C)]; [|exact C].
  destruct (f a s1) as [b s2 | e s2 | | |]; auto.
  - destruct X as [M2 X]. split; [exact (moves_trans _ _ _ M M2) | exact X].
  - exact (moves_trans _ _ _ M X).
  - exact (exit_moves _ _ M X).
  - exact (crash_moves _ _ M X).
Qed.

Lemma read_item_ok s : fine (p_st s) -> ok read_item s (fun _ s' => reads_item gread read_code s s').
Proof.
  intros F. unfold read_item. eapply bind_or_crash; [exact (place_ok s)|].
  intros [p dim] s1 M (sym & es & ts & name & E & D & T & S1 & U & G & FI). cbn [fst snd] in E, D. subst dim.
  assert (X : s_type sym <> TErr -> gread (p_st s) ts (mkPlace (s_id sym) (s_kind sym) (s_type sym) es) (p_st s1)) by (intros; split; assumption).
  destruct (s_type sym) eqn:Y.
  - right. split; [unfold pbind, psym; rewrite E, Y; reflexivity|]. exists (view s). split; [apply La_refl|]. cbn [view fst]. rewrite T.
    exact (guse_untyped _ _ _ _ _ _ _ array_kind F U Y).
  - left. eapply ok_bind; [exact (sym_after _ _ _ E)|]. intros x s' M' (-> & ->). rewrite Y.
    eapply after_emit; [exact S1 | apply X; discriminate | reflexivity | exact FI].
  - left. eapply ok_bind; [exact (sym_after _ _ _ E)|]. intros x s' M' (-> & ->). rewrite Y.
    eapply after_emit; [exact S1 | apply X; discriminate | reflexivity | exact FI].
Qed.

Lemma dim_item_ok s : fine (p_st s) -> ok dim_array s (fun _ s' => reads_item gdim dim_code s s').
Proof.
  intros F. unfold dim_array. eapply ok_bind; [exact (place_ok s)|].
  intros [p dim] s1 M (sym & es & ts & name & E & D & T & S1 & U & G & FI). cbn [fst snd] in E, D. subst dim.
  eapply ok_bind; [exact (sym_after _ _ _ E)|]. intros x s' M' (-> & ->).
  destruct (skind_eqb (s_kind sym) KArray) eqn:K; cbn [negb]; [|apply ok_error].
  eapply after_emit; [exact S1 | split; [exact G | destruct (s_kind sym); [discriminate K | discriminate K | reflexivity | discriminate K..]] | | exact FI].
  unfold dim_code, subs_code, nsubs, params8. cbn [pl_subs pl_type pl_id]. destruct (s_type sym); reflexivity.
Qed.

Lemma input_item_ok s : fine (p_st s) -> ok input_item s (fun _ s' => reads_item gplace input_code s s').
Proof.
  intros F. unfold input_item. eapply ok_bind; [exact (place_ok s)|].
  intros [p dim] s1 M (sym & es & ts & name & E & D & T & S1 & U & G & FI). cbn [fst snd] in E, D. subst dim.
  eapply ok_bind; [exact (sym_after _ _ _ E)|]. intros x s' M' (-> & ->).
  eapply after_emit; [exact S1 | exact G | | exact FI].
  unfold input_code, subs_code, nsubs, params8. cbn [pl_subs pl_type pl_id]. destruct (s_type sym); reflexivity.
Qed.

(* lists with commas *)
Section Commas.
Variable A : Type.
Variable g : symtab -> list token -> A -> symtab -> Prop.
Variable code : A -> list instr.
Variable item : P unit.
Hypothesis ITEM : forall s, fine (p_st s) -> ok item s (fun _ s' => reads_item g code s s').

Lemma commas_ok : forall fuel s, fine (p_st s) -> phi (view s) < fuel ->
  ok (comma_list fuel item) s (fun _ s' => s' = s \/ exists ts l, steps s (COMMA :: ts) (flat_map code l) s' /\ glist g (p_st s) ts l (p_st s')).
Proof.
  induction fuel as [|f IH]; intros s F L; [lia|]. cbn [comma_list]. apply ok_tok. destruct (is_char "," (p_tok s)) eqn:C; [|apply ok_ret; left; reflexivity].
  apply is_char_iff in C. eapply ok_bind; [apply next_ok; rewrite C; discriminate|]. intros _ s1 M1 ((S1 & T1) & F1). rewrite C in S1.
  eapply ok_bind; [apply ITEM; rewrite T1; exact F|]. intros _ s2 M2 (x & ts & S2 & G2 & F2). rewrite T1 in G2.
  eapply ok_weaken; [apply IH; [apply (fine_moves _ _ (moves_trans _ _ _ M1 M2) F) | lia]|]. intros _ s3 M3 [-> | (us & l & S3 & G3)]; right.
  - exists ts, [x]. cbn [flat_map]. rewrite app_nil_r. split; [exact (steps_trans _ _ _ _ _ _ _ S1 S2) | apply GL_one; exact G2].
  - exists (ts ++ COMMA :: us), (x :: l). split; [exact (steps_trans _ _ _ _ _ _ _ (steps_trans _ _ _ _ _ _ _ S1 S2) S3)|].
    exact (GL_more _ _ _ _ _ _ _ _ G2 G3).
Qed.

Lemma items_ok s : fine (p_st s) -> ok (items item) s (fun _ s' => exists ts l, steps s ts (flat_map code l) s' /\ glist g (p_st s) ts l (p_st s')).
Proof.
  intros F. unfold items. eapply ok_bind; [exact (ITEM s F)|]. intros _ s1 M1 (x & ts & S1 & G1 & F1).
  unfold with_fuel. eapply ok_weaken; [apply (commas_ok _ s1 (fine_moves _ _ M1 F)); apply phi_fuel|].
  intros _ s2 M2 [-> | (us & l & S2 & G2)].
  - exists ts, [x]. cbn [flat_map]. rewrite app_nil_r. split; [exact S1 | apply GL_one; exact G1].
  - exists (ts ++ COMMA :: us), (x :: l). split; [exact (steps_trans _ _ _ _ _ _ _ S1 S2) | exact (GL_more _ _ _ _ _ _ _ _ G1 G2)].
Qed.
End Commas.

(* a numeric variable *)
Lemma variable_ok s : ok numeric_simple_variable s (fun sym s' => exists ts, steps s ts [] s' /\ gvar (p_st s) ts (s_id sym) (p_st s') /\ phi (view s') < phi (view s)).
Proof.
  unfold numeric_simple_variable, simple_variable.
  eapply ok_bind with (Q := fun sym s' => exists ts name, steps s ts [] s' /\ ts = [T_ID name] /\ occurs KUnknown name false (p_st s) sym (p_st s') /\
    s_kind sym = KVariable /\ phi (view s') < phi (view s)).
  - eapply ok_bind; [exact (identifier_ok KUnknown s (or_introl eq_refl))|]. intros [p m] s1 M (ts & name & sym & es & S1 & G & T & E & N & F).
    cbn [fst snd] in E, N. eapply ok_bind; [exact (sym_after _ _ _ E)|]. intros x s' M' (-> & ->).
    destruct (skind_eqb (s_kind sym) KVariable) eqn:K; [|apply ok_error].
    assert (KV : s_kind sym = KVariable) by (destruct (s_kind sym); [discriminate K | reflexivity | discriminate K..]).
    apply ok_ret.
    inversion G as [k0 name0 st0 s0 st0' O E1 E2 E3 E4 E5 E6 E7 | k0 name0 st0 ts0 es0 st1' s0 st0' G0 O E1 E2 E3 E4 E5 E6 E7]; subst.
    + exists [T_ID name], name. auto.
    + exfalso. exact (occurs_paren KUnknown _ _ _ _ (or_introl eq_refl) O KV).
  - intros sym s1 M1 (ts & name & S1 & -> & O & K & F). destruct (vtype_eqb (s_type sym) TNum) eqn:V; [|apply ok_error]. apply vtype_eqb_iff in V.
    apply ok_ret. exists [T_ID name]. split; [exact S1|]. split; [|exact F]. exists name, sym. auto.
Qed.

Lemma line_number_ok s : ok line_number s (fun m s' => exists t, took s [t] [] s' /\ gline (p_st s) [t] m (p_st s') /\ phi (view s') < phi (view s)).
Proof.
  unfold line_number. apply ok_tok. destruct (lex_unsigned (p_tok s)) as [m|] eqn:E; [|apply ok_error].
  eapply ok_bind; [apply next_ok; intros X; rewrite X in E; discriminate E|]. intros _ s1 M1 ((S1 & T1) & F1). apply ok_ret.
  exists (p_tok s). split; [split; assumption|]. split; [|exact F1]. exists (p_tok s). auto.
Qed.

(* ---------- statements made of tokens ---------- *)

Definition does (s s' : pstate) : Prop := exists ts x, steps s ts (scode x) s' /\ gstmt (p_st s) ts x (p_st s').

Lemma does_intro s s' ts c x st : steps s ts c s' -> c = scode x -> gstmt (p_st s) ts x st -> st = p_st s' -> does s s'.
Proof. intros S1 -> G ->. exists ts, x. auto. Qed.

Lemma emit_last i s s1 ts c x st : steps s ts c s1 -> c ++ [i] = scode x -> gstmt (p_st s) ts x st -> st = p_st s1 ->
  ok (emit_ i) s1 (fun _ s' => does s s').
Proof.
  intros S1 C G E. eapply ok_weaken; [apply emit_ok|]. intros _ s2 M2 ((S2 & T2) & V2).
  pose proof (steps_trans _ _ _ _ _ _ _ S1 S2) as X. rewrite app_nil_r in X. eapply does_intro; eauto. congruence.
Qed.

Lemma plain_ok k i x s : scode x = [i] -> (forall st, gstmt st [T_KW k] x st) -> ok (plain_statement k i) s (fun _ s' => does s s').
Proof.
  intros C G. unfold plain_statement. eapply ok_bind; [apply (kw_ok k s)|]. intros _ s1 M1 ((S1 & T1) & F1).
  eapply emit_last; [exact S1 | symmetry; exact C | apply G | symmetry; exact T1].
Qed.

Lemma read_ok s : fine (p_st s) -> ok read_statement s (fun _ s' => does s s').
Proof.
  intros F. unfold read_statement. eapply ok_bind; [apply (kw_ok K_READ s)|]. intros _ s1 M1 ((S1 & T1) & F1).
  eapply ok_weaken; [apply (items_ok _ gread read_code read_item read_item_ok); rewrite T1; exact F|]. intros _ s2 M2 (ts & l & S2 & G2). rewrite T1 in G2.
  eapply does_intro; [exact (steps_trans _ _ _ _ _ _ _ S1 S2) | | apply GS_read; exact G2 | reflexivity]. reflexivity.
Qed.

Lemma dim_ok s : fine (p_st s) -> ok dim_statement s (fun _ s' => does s s').
Proof.
  intros F. unfold dim_statement. eapply ok_bind; [apply (kw_ok K_DIM s)|]. intros _ s1 M1 ((S1 & T1) & F1).
  eapply ok_weaken; [apply (items_ok _ gdim dim_code dim_array dim_item_ok); rewrite T1; exact F|]. intros _ s2 M2 (ts & l & S2 & G2). rewrite T1 in G2.
  eapply does_intro; [exact (steps_trans _ _ _ _ _ _ _ S1 S2) | | apply GS_dim; exact G2 | reflexivity]. reflexivity.
Qed.

Lemma restore_ok s : ok restore_statement s (fun _ s' => does s s').
Proof.
  unfold restore_statement. eapply ok_bind; [apply (kw_ok K_RESTORE s)|]. intros _ s1 M1 ((S1 & T1) & F1). apply ok_tok.
  assert (X : ok (emit_ I_RESTORE) s1 (fun _ s' => does s s')).
  { eapply (emit_last _ _ _ _ _ (SRestore None)); [exact S1 | reflexivity | apply GS_restore | congruence]. }
  destruct (p_tok s1); try exact X.
  eapply ok_bind; [exact (line_number_ok s1)|]. intros m s2 M2 (t & (S2 & T2) & G2 & F2). rewrite T1 in G2.
  eapply (emit_last _ _ _ _ _ (SRestore (Some m))); [exact (steps_trans _ _ _ _ _ _ _ S1 S2) | reflexivity | apply GS_restore_line; exact G2 | reflexivity].
Qed.

Lemma goto_ok s : ok goto_statement s (fun _ s' => does s s').
Proof.
  unfold goto_statement. eapply ok_bind; [apply (kw_ok K_GOTO s)|]. intros _ s1 M1 ((S1 & T1) & F1).
  eapply ok_bind; [exact (line_number_ok s1)|]. intros m s2 M2 (t & (S2 & T2) & G2 & F2). rewrite T1 in G2.
  eapply (emit_last _ _ _ _ _ (SGoto m)); [exact (steps_trans _ _ _ _ _ _ _ S1 S2) | reflexivity | apply GS_goto; exact G2 | reflexivity].
Qed.
Lemma gosub_ok s : ok gosub_statement s (fun _ s' => does s s').
Proof.
  unfold gosub_statement. eapply ok_bind; [apply (kw_ok K_GOSUB s)|]. intros _ s1 M1 ((S1 & T1) & F1).
  eapply ok_bind; [exact (line_number_ok s1)|]. intros m s2 M2 (t & (S2 & T2) & G2 & F2). rewrite T1 in G2.
  eapply (emit_last _ _ _ _ _ (SGosub m)); [exact (steps_trans _ _ _ _ _ _ _ S1 S2) | reflexivity | apply GS_gosub; exact G2 | reflexivity].
Qed.

Lemma skind_eqb_iff a b : skind_eqb a b = true <-> a = b.
Proof. destruct a, b; cbn; split; congruence. Qed.

Lemma def_symbol_ok name s : ok (def_symbol name) s (fun id s' => exists sym, id = s_id sym /\ occurs KDef name true (p_st s) sym (p_st s') /\
  steps s [] [] s' /\ view s' = view s).
Proof.
  unfold ok, def_symbol.
  assert (SR : forall st, steps s [] [] (set_pst st s)) by (intros st; split; [apply Rd_nil | reflexivity | reflexivity | reflexivity]).
  assert (PK : paren_kind KDef) by (right; right; reflexivity).
  destruct (sym_lookup (p_st s) name true) as [p|] eqn:L.
  - destruct (lookup_nth _ _ _ _ L) as (sym & E & M). rewrite E. destruct (skind_eqb (s_kind sym) KUnknown) eqn:U.
    + apply skind_eqb_iff in U. split; [split; [exact (names_settle _ _ _ _ PK E U) | apply La_refl | reflexivity]|].
      exists (set_kind sym KDef). split; [reflexivity|]. split; [exact (Oc_settle _ _ _ _ p sym eq_refl L E U)|]. split; [apply SR | reflexivity].
    + assert (NU : s_kind sym <> KUnknown) by (intros X; apply skind_eqb_iff in X; congruence).
      destruct (skind_eqb (s_kind sym) KDef) eqn:X; cbn [negb]; [|apply moves_refl]. apply skind_eqb_iff in X. split; [apply moves_refl|].
      exists sym. split; [reflexivity|]. split; [exact (Oc_settled _ _ _ _ p sym eq_refl L E NU (or_intror X))|]. split; [apply steps_refl | reflexivity].
  - pose proof (names_insert _ _ true KDef PK L) as N. cbn iota in N.
    destruct (sym_insert (p_st s) name KDef (name_type name)) as [st' p] eqn:I.
    pose proof (insert_nth (p_st s) name KDef (name_type name)) as X. rewrite I in X. cbn [fst snd] in X.
    split; [split; [exact N | apply La_refl | reflexivity]|].
    eexists. split; [|split; [|split; [apply SR | reflexivity]]]; [|rewrite name_type_eq in I; exact (Oc_new _ _ _ _ st' p _ L I X)]. reflexivity.
Qed.

Lemma string_name_type name : type_of_name name = if string_name name then TStr else TNum.
Proof. rewrite <- name_type_eq. reflexivity. Qed.

Lemma def_ok s : ok def_statement s (fun _ s' => does s s').
Proof.
  unfold def_statement. eapply ok_bind; [apply (kw_ok K_DEF s)|]. intros _ s1 M1 ((S1 & T1) & F1). apply ok_tok.
  destruct (p_tok s1) as [c| | | |name|x w|w| | | |] eqn:T; try apply ok_error.
  eapply ok_bind; [exact (def_symbol_ok name s1)|]. intros id s2 M2 (sym & -> & O2 & S2 & V2). rewrite T1 in O2.
  eapply ok_bind with (Q := fun _ s3 => took s2 [T_ID name] [] s3).
  { unfold match_id. apply ok_tok. replace (p_tok s2) with (T_ID name) by (unfold view in V2; congruence). cbn [is_id].
    eapply ok_weaken; [apply next_ok; replace (p_tok s2) with (T_ID name) by (unfold view in V2; congruence); discriminate|].
    replace (p_tok s2) with (T_ID name) by (unfold view in V2; congruence). intros _ s3 M3 (H & _). exact H. }
  intros _ s3 M3 (S3 & T3). eapply ok_bind; [apply emit_ok|]. intros _ s4 M4 ((S4 & T4) & V4).
  eapply ok_bind; [apply (char_ok "("); discriminate|]. intros _ s5 M5 ((S5 & T5) & F5).
  eapply ok_bind; [exact (variable_ok s5)|]. intros param s6 M6 (ps & S6 & G6 & F6). rewrite T5, T4, T3 in G6.
  eapply ok_bind; [apply emit_ok|]. intros _ s7 M7 ((S7 & T7) & V7).
  eapply ok_bind; [apply (char_ok ")"); discriminate|]. intros _ s8 M8 ((S8 & T8) & F8).
  eapply ok_bind; [apply (char_ok "="); discriminate|]. intros _ s9 M9 ((S9 & T9) & F9).
  eapply ok_bind with (Q := fun _ s' => gets (type_of_name name) s9 s').
  { rewrite string_name_type. destruct (string_name name); [apply string_ok | apply numeric_ok]. }
  intros _ s10 M10 (ts & e & S10 & G10 & F10). rewrite T9, T8, T7 in G10.
  pose proof (steps_trans _ _ _ _ _ _ _ (steps_trans _ _ _ _ _ _ _ (steps_trans _ _ _ _ _ _ _ S1 S2) S3) S4) as X1.
  pose proof (steps_trans _ _ _ _ _ _ _ (steps_trans _ _ _ _ _ _ _ (steps_trans _ _ _ _ _ _ _ X1 S5) S6) S7) as X2.
  pose proof (steps_trans _ _ _ _ _ _ _ (steps_trans _ _ _ _ _ _ _ (steps_trans _ _ _ _ _ _ _ X2 S8) S9) S10) as X3.
  cbn [app] in X3. rewrite !app_nil_r in X3. repeat rewrite <- app_assoc in X3. cbn [app] in X3.
  eapply (emit_last _ _ _ _ _ (SDef (s_id sym) (s_id param) e)); [exact X3 | reflexivity | eapply GS_def; [exact O2 | exact G6 | exact G10] | reflexivity].
Qed.

Lemma for_ok s : ok for_statement s (fun _ s' => does s s').
Proof.
  unfold for_statement. eapply ok_bind; [apply (kw_ok K_FOR s)|]. intros _ s1 M1 ((S1 & T1) & F1).
  eapply ok_bind; [exact (variable_ok s1)|]. intros sym s2 M2 (vs & S2 & G2 & F2). rewrite T1 in G2.
  eapply ok_bind; [apply (char_ok "="); discriminate|]. intros _ s3 M3 ((S3 & T3) & F3).
  eapply ok_bind; [exact (numeric_ok s3)|]. intros _ s4 M4 (ts & a & S4 & G4 & F4). rewrite T3 in G4.
  eapply ok_bind; [apply (kw_ok K_TO)|]. intros _ s5 M5 ((S5 & T5) & F5).
  eapply ok_bind; [exact (numeric_ok s5)|]. intros _ s6 M6 (us & b & S6 & G6 & F6). rewrite T5 in G6. apply ok_tok.
  pose proof (steps_trans _ _ _ _ _ _ _ (steps_trans _ _ _ _ _ _ _ (steps_trans _ _ _ _ _ _ _ S1 S2) S3) S4) as X1.
  pose proof (steps_trans _ _ _ _ _ _ _ (steps_trans _ _ _ _ _ _ _ X1 S5) S6) as X2.
  cbn [app] in X2. rewrite !app_nil_r in X2. repeat rewrite <- app_assoc in X2. cbn [app] in X2.
  destruct (is_kw K_STEP (p_tok s6)) eqn:K.
  - apply is_kw_iff in K.
    eapply ok_bind with (Q := fun _ s8 => exists ws c, steps s6 (T_KW K_STEP :: ws) (ecode c) s8 /\ gexp TNum (p_st s6) ws c (p_st s8)).
    { eapply ok_bind; [apply next_ok; rewrite K; discriminate|]. rewrite K. intros _ s7 M7 ((S7 & T7) & F7).
      eapply ok_weaken; [exact (numeric_ok s7)|]. intros _ s8 M8 (ws & c & S8 & G8 & F8). rewrite T7 in G8. exists ws, c. split; [exact (steps_trans _ _ _ _ _ _ _ S7 S8) | exact G8]. }
    intros _ s8 M8 (ws & c & S8 & G8). pose proof (steps_trans _ _ _ _ _ _ _ X2 S8) as X3. cbn [app] in X3. repeat (rewrite <- app_assoc in X3; cbn [app] in X3).
    eapply (emit_last _ _ _ _ _ (SFor (s_id sym) a b (Some c))); [exact X3 | cbn [scode]; rewrite <- !app_assoc; reflexivity | eapply GS_for_step; eassumption | reflexivity].
  - eapply ok_bind; [apply emit_ok|]. intros _ s7 M7 ((S7 & T7) & V7). pose proof (steps_trans _ _ _ _ _ _ _ X2 S7) as X3. rewrite app_nil_r in X3.
    eapply (emit_last _ _ _ _ _ (SFor (s_id sym) a b None)); [exact X3 | cbn [scode]; rewrite <- !app_assoc; reflexivity | eapply GS_for; eassumption | congruence].
Qed.

Lemma next_item_ok s : fine (p_st s) -> ok next_item s (fun _ s' => reads_item gvar (fun id => [I_NEXT_VAR id]) s s').
Proof.
  intros _. unfold next_item. eapply ok_bind; [exact (variable_ok s)|]. intros sym s1 M1 (ts & S1 & G1 & F1).
  eapply after_emit; [exact S1 | exact G1 | reflexivity | exact F1].
Qed.

Lemma flat_map_single {A B} (f : A -> B) l : flat_map (fun x => [f x]) l = map f l.
Proof. induction l; [reflexivity|]. cbn. congruence. Qed.

Lemma glist_cons {A} (g : symtab -> list token -> A -> symtab -> Prop) st ts l st' : glist g st ts l st' -> l <> [].
Proof. intros [|]; discriminate. Qed.

Lemma next_stmt_ok s : fine (p_st s) -> ok next_statement s (fun _ s' => does s s').
Proof.
  intros F. unfold next_statement. eapply ok_bind; [apply (kw_ok K_NEXT s)|]. intros _ s1 M1 ((S1 & T1) & F1). apply ok_tok.
  destruct (is_id (p_tok s1)).
  - eapply ok_weaken; [apply (items_ok _ gvar _ next_item next_item_ok); rewrite T1; exact F|]. intros _ s2 M2 (ts & l & S2 & G2). rewrite T1 in G2.
    eapply (does_intro _ _ _ _ (SNext l)); [exact (steps_trans _ _ _ _ _ _ _ S1 S2) | | apply GS_next_vars; exact G2 | reflexivity].
    rewrite flat_map_single. pose proof (glist_cons _ _ _ _ _ G2). destruct l; [contradiction | reflexivity].
  - eapply (emit_last _ _ _ _ _ (SNext [])); [exact S1 | reflexivity | apply GS_next | congruence].
Qed.

Lemma input_buffer_ok s : ok input_buffer s (fun _ s' => exists ps prompt, took s ps [I_INPUT_BUF prompt] s' /\ gprompt ps prompt).
Proof.
  unfold input_buffer. apply ok_tok.
  assert (X : ok (emit_ (I_INPUT_BUF None)) s (fun _ s' => exists ps prompt, took s ps [I_INPUT_BUF prompt] s' /\ gprompt ps prompt)).
  { eapply ok_weaken; [apply emit_ok|]. intros _ s1 M1 (H & _). exists [], None. split; [exact H | apply GP_none]. }
  destruct (p_tok s) as [c| | | |name|x w|w| | | |] eqn:T; try exact X.
  eapply ok_bind; [apply next_ok; rewrite T; discriminate|]. rewrite T. intros _ s1 M1 ((S1 & T1) & F1). apply ok_tok.
  eapply ok_bind with (Q := fun _ s2 => exists qs, took s1 qs [] s2 /\ gprompt (T_STR w :: qs) (Some w)).
  - destruct (is_char ";" (p_tok s1) || is_char "," (p_tok s1)) eqn:C.
    + eapply ok_weaken; [apply next_ok; intros E; rewrite E in C; discriminate C|]. intros _ s2 M2 (H & _). exists [p_tok s1]. split; [exact H|].
      apply orb_prop in C. destruct C as [C|C]; apply is_char_iff in C; rewrite C; [apply GP_semi | apply GP_comma].
    + apply ok_ret. exists []. split; [split; [apply steps_refl | reflexivity] | apply GP_alone].
  - intros _ s2 M2 (qs & (S2 & T2) & G2). eapply ok_weaken; [apply emit_ok|]. intros _ s3 M3 ((S3 & T3) & V3). exists (T_STR w :: qs), (Some w).
    split; [|exact G2]. split; [|congruence]. pose proof (steps_trans _ _ _ _ _ _ _ (steps_trans _ _ _ _ _ _ _ S1 S2) S3) as Y. rewrite app_nil_r in Y. exact Y.
Qed.

Lemma sep_item_ok s : fine (p_st s) -> ok (emit_ I_INPUT_SEP ;;; input_item) s (fun _ s' => reads_item gplace (fun q => I_INPUT_SEP :: input_code q) s s').
Proof.
  intros F. eapply ok_bind; [apply emit_ok|]. intros _ s1 M1 ((S1 & T1) & V1). eapply ok_weaken; [apply input_item_ok; rewrite T1; exact F|].
  intros _ s2 M2 (x & ts & S2 & G2 & F2). rewrite T1 in G2. rewrite V1 in F2. exists x, ts. split; [exact (steps_trans _ _ _ _ _ _ _ S1 S2) | auto].
Qed.

Lemma input_ok s : fine (p_st s) -> ok input_statement s (fun _ s' => does s s').
Proof.
  intros F. unfold input_statement. eapply ok_bind; [apply (kw_ok K_INPUT s)|]. intros _ s1 M1 ((S1 & T1) & F1).
  eapply ok_bind; [exact (input_buffer_ok s1)|]. intros _ s2 M2 (ps & prompt & (S2 & T2) & P2).
  eapply ok_bind; [apply input_item_ok; rewrite T2, T1; exact F|]. intros _ s3 M3 (p & ts & S3 & G3 & F3). rewrite T2, T1 in G3.
  eapply ok_bind; [unfold with_fuel; apply (commas_ok _ gplace _ _ sep_item_ok _ s3); [apply (fine_moves _ _ (moves_trans _ _ _ (moves_trans _ _ _ M1 M2) M3) F) | apply phi_fuel]|].
  pose proof (steps_trans _ _ _ _ _ _ _ (steps_trans _ _ _ _ _ _ _ S1 S2) S3) as X. cbn [app] in X. repeat rewrite <- app_assoc in X. cbn [app] in X.
  intros _ s4 M4 [-> | (us & l & S4 & G4)].
  - eapply (emit_last _ _ _ _ _ (SInput prompt [p])); [exact X | cbn [scode flat_map]; rewrite app_nil_r; reflexivity | apply GS_input; [exact P2 | apply GL_one; exact G3] | reflexivity].
  - pose proof (steps_trans _ _ _ _ _ _ _ X S4) as Y. cbn [app] in Y. rewrite <- app_assoc in Y.
    eapply (emit_last _ _ _ _ _ (SInput prompt (p :: l))); [exact Y | cbn [scode app]; rewrite <- !app_assoc; reflexivity | apply GS_input; [exact P2 | exact (GL_more _ _ _ _ _ _ _ _ G3 G4)] | reflexivity].
Qed.

Lemma line_input_ok s : ok line_input_statement s (fun _ s' => does s s').
Proof.
  unfold line_input_statement. eapply ok_bind; [apply (kw_ok K_LINE s)|]. intros _ s1 M1 ((S1 & T1) & F1).
  eapply ok_bind; [apply (kw_ok K_INPUT s1)|]. intros _ s1' M1' ((S1' & T1') & F1').
  eapply ok_bind; [exact (input_buffer_ok s1')|]. intros _ s2 M2 (ps & prompt & (S2 & T2) & P2).
  eapply ok_bind; [exact (place_ok s2)|]. intros [p dim] s3 M (sym & es & ts & name & E & D & T & S3 & U & G & FI). cbn [fst snd] in E, D. subst dim.
  eapply ok_bind; [exact (sym_after _ _ _ E)|]. intros x s' M' (-> & ->). destruct (vtype_eqb (s_type sym) TStr) eqn:V; [|apply ok_error]. apply vtype_eqb_iff in V.
  rewrite T2, T1', T1 in G.
  pose proof (steps_trans _ _ _ _ _ _ _ (steps_trans _ _ _ _ _ _ _ (steps_trans _ _ _ _ _ _ _ S1 S1') S2) S3) as X. cbn [app] in X. 
  eapply (emit_last _ _ _ _ _ (SLineInput prompt (mkPlace (s_id sym) (s_kind sym) (s_type sym) es))); [exact X | reflexivity | apply GS_line_input; [exact P2 | exact G | exact V] | reflexivity].
Qed.

Lemma assignment_ok s : ok assignment s (fun _ s' => exists ts p st1 us e, steps s (ts ++ T_CHAR "=" :: us) (scode (SLet p e)) s' /\
  gplace (p_st s) ts p st1 /\ gexp (pl_type p) st1 us e (p_st s')).
Proof.
  unfold assignment. eapply ok_bind; [exact (place_ok s)|]. intros [p dim] s1 M1 (sym & es & ts & name & E & D & T & S1 & U & G & FI). cbn [fst snd] in E, D. subst dim.
  eapply ok_bind; [apply (char_ok "="); discriminate|]. intros _ s2 M2 ((S2 & T2) & F2).
  eapply ok_bind; [exact (ok_expression s2)|]. intros ty s3 M3 (us & e & S3 & G3 & Y3 & F3). rewrite <- T2 in E.
  destruct (names_keep _ _ _ _ (mv_names _ _ M3) E) as (sym' & E' & I' & Y').
  eapply ok_bind; [exact (sym_after _ _ _ E')|]. intros x s' M' (-> & ->).
  destruct (vtype_eqb ty (s_type sym')) eqn:V; cbn [negb]; [|apply ok_error]. apply vtype_eqb_iff in V. rewrite T2 in G3.
  eapply ok_weaken; [apply emit_ok|]. intros _ s4 M4 ((S4 & T4) & V4).
  exists ts, (mkPlace (s_id sym) (s_kind sym) (s_type sym) es), (p_st s1), us, e. split; [|split; [exact G | split; [rewrite T4; exact G3 | cbn; congruence]]].
  pose proof (steps_trans _ _ _ _ _ _ _ (steps_trans _ _ _ _ _ _ _ (steps_trans _ _ _ _ _ _ _ S1 S2) S3) S4) as X.
  rewrite !app_nil_r, <- !app_assoc in X. cbn [app] in X. cbn [scode subs_code pl_subs]. unfold subs_code. cbn [pl_subs].
  replace (set_instr _) with (match length es, vtype_eqb (s_type sym') TStr with
              | O, true => I_SET_SIMPLE_STR (s_id sym')
              | O, false => I_SET_SIMPLE_NUM (s_id sym')
              | S _, true => I_SET_ARRAY_STR (s_id sym') (params8 (length es))
              | S _, false => I_SET_ARRAY_NUM (s_id sym') (params8 (length es)) end); [exact X|].
  unfold set_instr, nsubs, params8. cbn [pl_subs pl_type pl_id]. rewrite I', Y'. destruct es, (s_type sym); reflexivity.
Qed.

Lemma let_ok s : ok (match_kw K_LET ;;; assignment) s (fun _ s' => does s s').
Proof.
  eapply ok_bind; [apply (kw_ok K_LET s)|]. intros _ s1 M1 ((S1 & T1) & F1).
  eapply ok_weaken; [exact (assignment_ok s1)|]. intros _ s2 M2 (ts & p & st1 & us & e & S2 & G2 & X2). rewrite T1 in G2.
  eapply (does_intro _ _ _ _ (SLet p e)); [exact (steps_trans _ _ _ _ _ _ _ S1 S2) | reflexivity | eapply GS_let; eassumption | reflexivity].
Qed.
Lemma assign_stmt_ok s : ok assignment s (fun _ s' => does s s').
Proof.
  eapply ok_weaken; [exact (assignment_ok s)|]. intros _ s2 M2 (ts & p & st1 & us & e & S2 & G2 & X2).
  eapply (does_intro _ _ _ _ (SLet p e)); [exact S2 | reflexivity | eapply GS_assign; eassumption | reflexivity].
Qed.

Lemma randomize_ok s : ok randomize_statement s (fun _ s' => does s s').
Proof.
  unfold randomize_statement. eapply ok_bind; [apply (kw_ok K_RANDOMIZE s)|]. intros _ s1 M1 ((S1 & T1) & F1). apply ok_tok.
  destruct (eos (p_tok s1)).
  - eapply (emit_last _ _ _ _ _ (SRandomize None)); [exact S1 | reflexivity | apply GS_randomize | congruence].
  - eapply ok_bind; [exact (numeric_ok s1)|]. intros _ s2 M2 (ts & e & S2 & G2 & F2). rewrite T1 in G2.
    eapply (emit_last _ _ _ _ _ (SRandomize (Some e))); [exact (steps_trans _ _ _ _ _ _ _ S1 S2) | reflexivity | apply GS_seed; exact G2 | reflexivity].
Qed.

(* ---------- PRINT ---------- *)

Lemma reads_head kw t r ts L' : reads kw (t, r) ts L' -> ts <> [] -> exists us, ts = t :: us.
Proof. intros H N. inversion H; subst; [contradiction | eexists; reflexivity]. Qed.

Lemma print_builtin_ok i s w : p_tok s = T_ID w -> ok (print_builtin i) s (fun _ s' => exists ts e, steps s (T_ID w :: LPAREN :: ts ++ [RPAREN]) (ecode e ++ [i]) s' /\
  gexp TNum (p_st s) ts e (p_st s') /\ phi (view s') < phi (view s)).
Proof.
  intros T. unfold print_builtin. eapply ok_bind; [apply next_ok; rewrite T; discriminate|]. rewrite T. intros _ s1 M1 ((S1 & T1) & F1).
  eapply ok_bind; [apply (char_ok "("); discriminate|]. intros _ s2 M2 ((S2 & T2) & F2).
  eapply ok_bind; [exact (numeric_ok s2)|]. intros _ s3 M3 (ts & e & S3 & G3 & F3). rewrite T2, T1 in G3.
  eapply ok_bind; [apply (char_ok ")"); discriminate|]. intros _ s4 M4 ((S4 & T4) & F4).
  eapply ok_weaken; [apply emit_ok|]. intros _ s5 M5 ((S5 & T5) & V5). exists ts, e. split; [|rewrite T5, T4, V5; split; [exact G3 | lia]].
  pose proof (steps_trans _ _ _ _ _ _ _ (steps_trans _ _ _ _ _ _ _ (steps_trans _ _ _ _ _ _ _ (steps_trans _ _ _ _ _ _ _ S1 S2) S3) S4) S5) as X.
  rewrite !app_nil_r in X. exact X.
Qed.

Lemma print_item_ok s : ok print_item s (fun _ s' => exists ts e us, steps s ts (item_code (PExpr e)) s' /\ gram LOr (p_st s) ts e (p_st s') /\ etype e <> TErr /\
  ts = p_tok s :: us /\ phi (view s') < phi (view s) /\ (forall t r, p_tok s' = t -> apart (p_st s) ts e (p_st s') (t :: r))).
Proof.
  unfold print_item. eapply ok_bind; [exact (ok_expression_end s)|]. intros ty s1 M1 (ts & e & t & S1 & G0 & Y1 & F1 & Z1 & D1).
  pose proof (sum_gram _ _ _ _ _ _ G0) as G1.
  assert (AP : forall u r, p_tok s1 = u -> apart (p_st s) ts e (p_st s1) (u :: r)).
  { intros u r <-. split; [exact Z1|]. intros E. exists t. split; [exact G0 | exact (D1 E)]. }
  destruct (reads_head _ _ _ _ _ (sp_reads _ _ _ _ S1) (proj1 (proj1 gram_solid _ _ _ _ _ G1))) as (us & E).
  destruct ty; [apply ok_error|..]; (eapply ok_weaken; [apply emit_ok|]; intros _ s2 M2 ((S2 & T2) & V2); exists ts, e, us;
    pose proof (steps_trans _ _ _ _ _ _ _ S1 S2) as X; rewrite app_nil_r in X; cbn [item_code]; rewrite Y1, T2, V2;
    assert (K2 : p_tok s2 = p_tok s1) by (unfold view in V2; congruence);
    split; [exact X | split; [exact G1 | split; [discriminate | split; [exact E | split; [exact F1 | rewrite K2; exact AP]]]]]).
Qed.

Definition separator (i : pitem) : bool := match i with PComma | PSemi => true | _ => false end.
Definition ends (sep : bool) (l : list pitem) : bool := match l with [] => sep | _ => separator_last l end.

Lemma ends_cons sep x l : ends sep (x :: l) = ends (separator x) l.
Proof. unfold ends, separator_last. destruct l as [|y l]; [destruct x; reflexivity | reflexivity]. Qed.

Lemma print_loop_ok : forall fuel sep s, phi (view s) < fuel ->
  ok (print_loop fuel sep) s (fun b s' => exists ts l, steps s ts (flat_map item_code l) s' /\ gitems (p_st s) ts l (p_st s') /\ b = ends sep l).
Proof.
  induction fuel as [|f IH]; intros sep s L; [lia|]. cbn [print_loop]. apply ok_tok.
  destruct (eos (p_tok s)) eqn:EO.
  { apply ok_ret. exists [], []. split; [apply steps_refl|]. split; [apply GI_nil | reflexivity]. }
  assert (REST : forall ts c x s1, steps s ts c s1 -> c = item_code x -> phi (view s1) < phi (view s) ->
    (forall us l st', (forall t r, us = t :: r -> p_tok s1 = t) -> gitems (p_st s1) us l st' -> gitems (p_st s) (ts ++ us) (x :: l) st') ->
    ok (print_loop f (separator x)) s1 (fun b s' => exists ts l, steps s ts (flat_map item_code l) s' /\ gitems (p_st s) ts l (p_st s') /\ b = ends sep l)).
  { intros ts c x s1 S1 -> F1 G. eapply ok_weaken; [apply (IH _ s1); lia|]. intros b s2 M2 (us & l & S2 & G2 & ->).
    exists (ts ++ us), (x :: l). split; [exact (steps_trans _ _ _ _ _ _ _ S1 S2)|]. split; [|symmetry; apply ends_cons]. apply G; [|exact G2].
    intros t r ->. destruct (reads_head _ _ _ _ _ (sp_reads _ _ _ _ S2) ltac:(discriminate)) as (v & E). injection E as <- _. reflexivity. }
  assert (EXPR : ~ starts_spc_tab [p_tok s] -> ok (print_item ;;; print_loop f false) s
    (fun b s' => exists ts l, steps s ts (flat_map item_code l) s' /\ gitems (p_st s) ts l (p_st s') /\ b = ends sep l)).
  { intros N. eapply ok_bind; [exact (print_item_ok s)|]. intros _ s1 M1 (ts & e & us & S1 & G1 & Y1 & -> & F1 & AP).
    eapply (REST _ _ (PExpr e)); [exact S1 | reflexivity | exact F1|]. intros us' l st' HD GI. apply (GI_expr _ _ _ (p_st s1)); [exact G1 | exact Y1 | | exact GI | destruct us' as [|t r]; [exact I | exact (AP t r (HD t r eq_refl))]].
    intros (w & r & E & D). apply N. injection E as E _. exists w, []. rewrite E. auto. }
  assert (OTHER : (forall w, p_tok s <> T_ID w) -> ok
           (if is_char ";" (p_tok s) then next_token ;;; print_loop f true
            else if is_char "," (p_tok s) then next_token ;;; emit_ I_PRINT_COMMA ;;; print_loop f true
            else print_item ;;; print_loop f false) s
    (fun b s' => exists ts l, steps s ts (flat_map item_code l) s' /\ gitems (p_st s) ts l (p_st s') /\ b = ends sep l)).
  { intros NI. destruct (is_char ";" (p_tok s)) eqn:C1.
    - apply is_char_iff in C1. eapply ok_bind; [apply next_ok; rewrite C1; discriminate|]. rewrite C1. intros _ s1 M1 ((S1 & T1) & F1).
      eapply (REST _ _ PSemi); [exact S1 | reflexivity | exact F1|]. intros us l st' _ GI. rewrite T1 in GI. apply GI_semi. exact GI.
    - destruct (is_char "," (p_tok s)) eqn:C2.
      + apply is_char_iff in C2. eapply ok_bind; [apply next_ok; rewrite C2; discriminate|]. rewrite C2. intros _ s1 M1 ((S1 & T1) & F1).
        eapply ok_bind; [apply emit_ok|]. intros _ s2 M2 ((S2 & T2) & V2).
        eapply (REST _ _ PComma); [exact (steps_trans _ _ _ _ _ _ _ S1 S2) | reflexivity | rewrite V2; exact F1|]. intros us l st' _ GI. rewrite T2, T1 in GI. apply GI_comma. exact GI.
      + apply EXPR. intros (w & r & E & D). injection E as E _. exact (NI w E). }
  destruct (p_tok s) as [c| | | |w|x w|w| | | |] eqn:T; try (apply OTHER; discriminate).
  destruct (strieq w (lit "SPC")) eqn:A1.
  - eapply ok_bind; [exact (print_builtin_ok I_PRINT_SPC s w T)|]. intros _ s1 M1 (ts & e & S1 & G1 & F1).
    eapply (REST _ _ (PSpc e)); [exact S1 | reflexivity | exact F1|]. intros us l st' _ GI. cbn [app]. rewrite <- app_assoc. apply (GI_spc w _ _ _ (p_st s1)); assumption.
  - destruct (strieq w (lit "TAB")) eqn:A2.
    + eapply ok_bind; [exact (print_builtin_ok I_PRINT_TAB s w T)|]. intros _ s1 M1 (ts & e & S1 & G1 & F1).
      eapply (REST _ _ (PTab e)); [exact S1 | reflexivity | exact F1|]. intros us l st' _ GI. cbn [app]. rewrite <- app_assoc. apply (GI_tab w _ _ _ (p_st s1)); assumption.
    + apply EXPR. intros (w' & r & E & D). injection E as <- _. unfold named in D. destruct D; congruence.
Qed.

Lemma ends_last l : ends false l = separator_last l.
Proof. destruct l; reflexivity. Qed.

Lemma print_ok s : ok print_statement s (fun _ s' => does s s').
Proof.
  unfold print_statement. apply ok_tok.
  eapply ok_bind with (Q := fun _ s1 => exists t, took s [t] [] s1 /\ (t = T_KW K_PRINT \/ t = T_CHAR "?")).
  { destruct (is_char "?" (p_tok s)) eqn:C.
    - apply is_char_iff in C. eapply ok_weaken; [apply next_ok; rewrite C; discriminate|]. rewrite C. intros _ s1 M1 (H & _). exists (T_CHAR "?"). auto.
    - eapply ok_weaken; [apply kw_ok|]. intros _ s1 M1 (H & _). exists (T_KW K_PRINT). auto. }
  intros _ s1 M1 (t & (S1 & T1) & D). unfold with_fuel. eapply ok_bind; [apply print_loop_ok; apply phi_fuel|].
  intros b s2 M2 (ts & l & S2 & G2 & ->). rewrite T1 in G2. rewrite ends_last.
  pose proof (steps_trans _ _ _ _ _ _ _ S1 S2) as X. cbn [app] in X.
  assert (G : gstmt (p_st s) (t :: ts) (SPrint l) (p_st s2)) by (destruct D as [-> | ->]; [apply GS_print | apply GS_query]; exact G2).
  destruct (separator_last l) eqn:E.
  - apply ok_ret. eapply (does_intro _ _ _ _ (SPrint l)); [exact X | cbn [scode]; rewrite E, app_nil_r; reflexivity | exact G | reflexivity].
  - eapply (emit_last _ _ _ _ _ (SPrint l)); [exact X | cbn [scode]; rewrite E; reflexivity | exact G | reflexivity].
Qed.

(* ---------- changing an instruction ---------- *)

Lemma emits_inst bc l : bc_inst (emits bc l) = bc_inst bc ++ l.
Proof.
  revert bc. induction l as [|i l IH]; intros bc; cbn; [symmetry; apply app_nil_r|]. unfold emits in *. rewrite IH. cbn. rewrite <- app_assoc. reflexivity.
Qed.
Lemma emits_data bc l : bc_has_data (emits bc l) = existsb is_data l || bc_has_data bc.
Proof.
  revert bc. induction l as [|i l IH]; intros bc; cbn; [reflexivity|]. unfold emits in *. rewrite IH. cbn. destruct (is_data i), (existsb is_data l); reflexivity.
Qed.
Lemma bcode_ext a b : bc_inst a = bc_inst b -> bc_has_data a = bc_has_data b -> a = b.
Proof. destruct a, b. cbn. intros -> ->. reflexivity. Qed.

Lemma list_upd_app {A} (a : list A) x b y : list_upd (a ++ x :: b) (length a) y = a ++ y :: b.
Proof. induction a as [|z a IH]; cbn; [reflexivity | rewrite IH; reflexivity]. Qed.

Lemma patch_code bc a x b y f : is_data y = is_data x -> y = f x ->
  nth_error (bc_inst (emits bc (a ++ x :: b))) (bc_used bc + length a) = Some x /\
  mkBcode (list_upd (bc_inst (emits bc (a ++ x :: b))) (bc_used bc + length a) (f x)) (bc_has_data (emits bc (a ++ x :: b))) = emits bc (a ++ y :: b).
Proof.
  intros D ->. unfold bc_used. rewrite emits_inst, app_assoc, <- app_length. split.
  - rewrite nth_error_app2, Nat.sub_diag by lia. reflexivity.
  - apply bcode_ext; cbn [bc_inst bc_has_data].
    + rewrite emits_inst, list_upd_app, <- app_assoc. reflexivity.
    + rewrite !emits_data, !existsb_app. cbn [existsb]. rewrite D. reflexivity.
Qed.

Lemma patch_ok f x y a b bc s : p_code s = emits bc (a ++ x :: b) -> is_data y = is_data x -> y = f x ->
  ok (patch (bc_used bc + length a) f) s (fun _ s' => p_code s' = emits bc (a ++ y :: b) /\ view s' = view s /\ p_kw s' = p_kw s /\ p_st s' = p_st s /\ p_ifthen s' = p_ifthen s).
Proof.
  intros C D E. destruct (patch_code bc a x b y f D E) as [N U]. unfold ok, patch. rewrite C, N, U.
  split; [split; [apply Nm_refl | apply La_refl | reflexivity]|]. cbn. auto.
Qed.

Lemma emit_at i s : ok (emit i) s (fun k s' => k = bc_used (p_code s) /\ took s [] [i] s' /\ view s' = view s).
Proof.
  unfold ok, emit. split; [split; [apply Nm_refl | apply La_refl | reflexivity]|].
  split; [reflexivity|]. split; [|reflexivity]. split; [|reflexivity]. split; [apply Rd_nil | reflexivity | reflexivity | reflexivity].
Qed.

Lemma on_line_ok s : ok on_line s (fun _ s' => reads_item gline (fun m => [I_ON_LINE m]) s s').
Proof.
  unfold on_line. eapply ok_bind; [exact (line_number_ok s)|]. intros m s1 M1 (t & (S1 & T1) & G1 & F1).
  eapply after_emit; [exact S1 | exact G1 | reflexivity | exact F1].
Qed.

Lemma on_loop_ok : forall fuel k s, phi (view s) < fuel ->
  ok (on_loop fuel k) s (fun m s' => (s' = s /\ m = k) \/ exists ts l, steps s (COMMA :: ts) (map I_ON_LINE l) s' /\ glist gline (p_st s) ts l (p_st s') /\ m = k + length l).
Proof.
  induction fuel as [|f IH]; intros k s L; [lia|]. cbn [on_loop]. apply ok_tok. destruct (is_char "," (p_tok s)) eqn:C; [|apply ok_ret; left; auto].
  apply is_char_iff in C. eapply ok_bind; [apply next_ok; rewrite C; discriminate|]. intros _ s1 M1 ((S1 & T1) & F1). rewrite C in S1.
  eapply ok_bind; [exact (on_line_ok s1)|]. intros _ s2 M2 (x & ts & S2 & G2 & F2). rewrite T1 in G2.
  eapply ok_weaken; [apply IH; lia|]. intros m s3 M3 [(-> & ->) | (us & l & S3 & G3 & ->)]; right.
  - exists ts, [x]. split; [exact (steps_trans _ _ _ _ _ _ _ S1 S2)|]. split; [apply GL_one; exact G2 | cbn; lia].
  - exists (ts ++ COMMA :: us), (x :: l). split; [exact (steps_trans _ _ _ _ _ _ _ (steps_trans _ _ _ _ _ _ _ S1 S2) S3)|].
    split; [exact (GL_more _ _ _ _ _ _ _ _ G2 G3) | cbn; lia].
Qed.

Lemma on_ok s : ok on_statement s (fun _ s' => does s s').
Proof.
  unfold on_statement. eapply ok_bind; [apply (kw_ok K_ON s)|]. intros _ s1 M1 ((S1 & T1) & F1).
  eapply ok_bind; [exact (numeric_ok s1)|]. intros _ s2 M2 (ts & e & S2 & G2 & F2). rewrite T1 in G2. apply ok_tok.
  destruct (is_kw K_GOTO (p_tok s2) || is_kw K_GOSUB (p_tok s2)) eqn:C; [|apply ok_error].
  eapply ok_bind; [apply emit_at|]. intros k s3 M3 (-> & (S3 & T3) & V3).
  assert (TK : p_tok s3 = p_tok s2) by (unfold view in V3; congruence).
  eapply ok_bind; [apply next_ok; rewrite TK; intros E; rewrite E in C; discriminate C|]. rewrite TK. intros _ s4 M4 ((S4 & T4) & F4).
  eapply ok_bind; [exact (on_line_ok s4)|]. intros _ s5 M5 (x & us & S5 & G5 & F5). rewrite T4, T3 in G5.
  unfold with_fuel. eapply ok_bind; [apply (on_loop_ok _ 1 s5); apply phi_fuel|].
  intros m s6 M6 D.
  assert (X : exists us' l, steps s5 us' (tl (map I_ON_LINE l)) s6 /\ hd_error l = Some x /\ glist gline (p_st s2) (us ++ us') l (p_st s6) /\ m = length l).
  { destruct D as [(-> & ->) | (us' & l & S6 & G6 & ->)].
    - exists [], [x]. split; [apply steps_refl|]. split; [reflexivity|]. rewrite app_nil_r. split; [apply GL_one; exact G5 | reflexivity].
    - exists (COMMA :: us'), (x :: l). split; [exact S6|]. split; [reflexivity|]. split; [exact (GL_more _ _ _ _ _ _ _ _ G5 G6) | reflexivity]. }
  clear D. destruct X as (us' & l & S6 & HD & GL & ->). destruct l as [|x0 l]; [discriminate HD|]. injection HD as ->. cbn [map tl] in S6.
  pose proof (steps_trans _ _ _ _ _ _ _ (steps_trans _ _ _ _ _ _ _ (steps_trans _ _ _ _ _ _ _ (steps_trans _ _ _ _ _ _ _ (steps_trans _ _ _ _ _ _ _ S1 S2) S3) S4) S5) S6) as Y.
  destruct Y as [RD KW CO IF]. cbn [app] in CO. repeat (rewrite <- app_assoc in CO; cbn [app] in CO).
  cbn [app] in RD. rewrite !app_nil_r in RD. rewrite <- !app_assoc in RD. cbn [app] in RD. rewrite <- ?app_assoc in RD.
  assert (US : bc_used (p_code s2) = bc_used (p_code s) + length (ecode e)).
  { rewrite (sp_code _ _ _ _ (steps_trans _ _ _ _ _ _ _ S1 S2)). unfold bc_used. rewrite emits_inst, app_length. reflexivity. }
  rewrite US. set (L := x :: l) in *.
  assert (FIN : forall y, y = set_count (length L) (if is_kw K_GOTO (p_tok s2) then I_ON_GOTO 0 else I_ON_GOSUB 0) ->
     ok (patch (bc_used (p_code s) + length (ecode e)) (set_count (length L))) s6 (fun _ s' => steps s (T_KW K_ON :: ts ++ p_tok s2 :: us ++ us') (ecode e ++ y :: map I_ON_LINE L) s' /\ p_st s' = p_st s6)).
  { intros y Hy. eapply ok_weaken; [eapply (patch_ok (set_count (length L)) _ y); [exact CO | | exact Hy]|].
    - rewrite Hy. destruct (is_kw K_GOTO (p_tok s2)); reflexivity.
    - intros _ s7 M7 (A1 & A2 & A3 & A4 & A5). split; [|exact A4]. split; [rewrite A2; exact RD | congruence | exact A1 | congruence]. }
  eapply ok_weaken; [apply FIN; reflexivity|]. intros _ s7 M7 (S7 & T7).
  destruct (is_kw K_GOTO (p_tok s2)) eqn:K.
  - apply is_kw_iff in K. rewrite K in S7. exists (T_KW K_ON :: ts ++ T_KW K_GOTO :: us ++ us'), (SOn e false L). split; [exact S7|].
    rewrite T7. apply (GS_on_goto _ _ _ (p_st s2)); assumption.
  - cbn [orb] in C. apply is_kw_iff in C. rewrite C in S7. exists (T_KW K_ON :: ts ++ T_KW K_GOSUB :: us ++ us'), (SOn e true L). split; [exact S7|].
    rewrite T7. apply (GS_on_gosub _ _ _ (p_st s2)); assumption.
Qed.

(* ---------- DATA ---------- *)

(* s' is s with the code c added, and the lexer elsewhere *)
Definition adds (s : pstate) (c : list instr) (s' : pstate) : Prop :=
  p_code s' = emits (p_code s) c /\ p_kw s' = p_kw s /\ p_st s' = p_st s /\ p_ifthen s' = p_ifthen s.

Lemma scan_datum_spec s : forall n acc, match scan_datum s n acc with
  | Some (acc', t) => exists v r, acc' = rev v ++ acc /\ s = v ++ r /\ Forall (fun x => ~ ends_datum x) v /\ match r with x :: _ => ends_datum x | [] => True end /\
      ((t = r /\ r <> [NL]) \/ (t = [] /\ r = [NL])) /\ (v = [] \/ n + length v <= 127)
  | None => True
  end.
Proof.
  induction s as [|c s IH]; intros n acc; cbn [scan_datum].
  - exists [], []. split; [reflexivity|]. split; [reflexivity|]. split; [constructor|]. split; [exact I|]. split; [|left; reflexivity]. left. split; [reflexivity|discriminate].
  - destruct (negb (lex_valid c)); [exact I|]. destruct (ceq c DQ || ceq c ","%char || ceq c ":"%char || ceq c NL || is_eof_char c) eqn:C.
    + exists [], (c :: s). split; [reflexivity|]. split; [reflexivity|]. split; [constructor|]. split.
      * unfold ends_datum. repeat (apply orb_prop in C; destruct C as [C|C]); try (apply ceq_eq in C; tauto). unfold is_eof_char in C. apply N.eqb_eq in C. tauto.
      * split; [|left; reflexivity]. unfold pushback. destruct s; [|left; split; [reflexivity|discriminate]]. destruct (ceq c NL) eqn:E; [apply ceq_eq in E; subst c; right; split; reflexivity|]. apply ceq_neq in E. left. split; [reflexivity|congruence].
    + destruct (Nat.leb MAX_WORD (n + 1)) eqn:M; [exact I|]. apply Nat.leb_gt in M. unfold MAX_WORD in M. specialize (IH (S n) (c :: acc)). destruct (scan_datum s (S n) (c :: acc)) as [[acc' t]|]; [|exact I].
      destruct IH as (v & r & A & B & F & R & T & L). exists (c :: v), r. split; [rewrite A; cbn [rev]; rewrite <- app_assoc; reflexivity|]. split; [rewrite B; reflexivity|]. split.
      * constructor; [|exact F]. apply orb_false_iff in C as [C C5]. apply orb_false_iff in C as [C C4]. apply orb_false_iff in C as [C C3]. apply orb_false_iff in C as [C1 C2]. apply ceq_neq in C1, C2, C3, C4. apply N.eqb_neq in C5.
        unfold ends_datum. tauto.
      * split; [exact R|]. split; [exact T|]. right. destruct L as [->|L]; cbn [length]; lia.
Qed.
Lemma is_data_space_iff c : is_data_space c = true <-> data_blank c.
Proof. unfold is_data_space, data_blank. rewrite orb_true_iff, !ceq_eq. tauto. Qed.
(* without the blanks at the end *)
Lemma trimmed_rev l : exists c, rev l = rev (drop_while is_data_space l) ++ c /\ Forall data_blank c /\
  match rev (drop_while is_data_space l) with [] => True | x :: y => ~ data_blank (last (x :: y) x) end.
Proof.
  induction l as [|a l IH]; [exists []; repeat split; constructor|]. cbn [drop_while rev]. destruct (is_data_space a) eqn:A.
  - destruct IH as (c & V & F & Q). exists (c ++ [a]). split; [rewrite V at 1; rewrite app_assoc; reflexivity|]. split; [|exact Q]. apply Forall_app. split; [exact F|]. constructor; [apply is_data_space_iff, A|constructor].
  - exists []. rewrite app_nil_r. split; [reflexivity|]. split; [constructor|]. cbn [rev]. assert (L : forall d, last (rev l ++ [a]) d = a) by (intros d; apply last_last). destruct (rev l ++ [a]) as [|x y] eqn:X; [exact I|]. rewrite L. intros B. apply is_data_space_iff in B. congruence.
Qed.
Lemma trimmed v : exists c, v = rev (drop_while is_data_space (rev v)) ++ c /\ Forall data_blank c /\
  match rev (drop_while is_data_space (rev v)) with [] => True | x :: y => ~ data_blank (last (x :: y) x) end.
Proof. destruct (trimmed_rev (rev v)) as (c & V & Q). rewrite rev_involutive in V. exists c. split; assumption. Qed.
Lemma data_is s w start r : lex_next_data s = Some (w, start, r) -> datum_is s w r.
Proof.
  revert w start r. induction s as [|c s IH]; intros w start r H; cbn [lex_next_data] in H.
  - injection H as <- <- <-. apply (Di_plain [] [] [] [] []); [constructor|constructor|constructor|cbn; lia|split; [reflexivity|discriminate]|exact I|left; split; [reflexivity|discriminate]].
  - destruct (negb (lex_valid c)); [discriminate H|]. destruct (is_data_space c) eqn:B.
    + apply is_data_space_iff in B. specialize (IH w start r H). inversion IH as [b w' r0 F1 F2 F3 F4 | b w' c' r0 r1 F1 F2 F3 F4 F5 F6 F7]; subst.
      * apply (Di_quoted (c :: b)); try assumption. constructor; assumption.
      * apply (Di_plain (c :: b) w c' r0 r); try assumption. constructor; assumption.
    + destruct (ceq c DQ) eqn:Q.
      * apply ceq_eq in Q. subst c. pose proof (LexProofs.scan_string_spec s 0 [] eq_refl ltac:(lia)) as S. destruct (scan_string s 0 []) as [w' t|t|]; try discriminate H. injection H as <- <- <-.
        destruct S as (v & W & X & N1 & N2 & L). cbn [rev app] in W. subst w' s. apply (Di_quoted [] v t); try assumption. constructor.
      * pose proof (scan_datum_spec (c :: s) 0 []) as S. destruct (scan_datum (c :: s) 0 []) as [[acc t]|]; [|discriminate H]. injection H as <- <- <-. destruct S as (v & r & A & X & F & R & T & L).
        rewrite app_nil_r in A. subst acc. destruct (trimmed v) as (b & V & FB & Q'). set (w := rev (drop_while is_data_space (rev v))) in *. rewrite X, V, <- app_assoc.
        assert (LW : length (w ++ b) <= 127). { rewrite <- V. destruct L as [->|L]; [cbn [length]|]; lia. }
        rewrite V in F. apply Forall_app in F as [FW _]. apply (Di_plain [] w b r t); try assumption; [constructor|].
        assert (B' : ~ data_blank c) by (intros Y; apply is_data_space_iff in Y; congruence). destruct w as [|x y] eqn:W.
        -- cbn [app] in V. split.
           ++ destruct v as [|x v']; [symmetry; exact V|exfalso]. injection X as <- _. rewrite <- V in FB. inversion FB; contradiction.
           ++ apply ceq_neq in Q. destruct v as [|x v']; [rewrite <- V in *; cbn [app] in X; rewrite <- X; exact Q|exfalso]. injection X as <- _. rewrite <- V in FB. inversion FB; contradiction.
        -- split; [|exact Q']. rewrite V in X. injection X as <- _. exact B'.
Qed.
Lemma datum_ok s : ok datum s (fun _ s' => exists w start r, lex_next_data (p_rest s) = Some (w, start, r) /\ view s' = (p_tok s, r) /\ adds s [I_DATA w] s').
Proof.
  unfold ok, datum. destruct (lex_next_data (p_rest s)) as [[[w start] r]|] eqn:E; [|exists (view s); split; [apply La_refl | right; exact E]]. cbn.
  split; [split; [apply Nm_refl | | reflexivity]|].
  - cbn. eapply La_data; [exact E | apply La_refl].
  - exists w, start, r. split; [reflexivity|]. split; [reflexivity|]. repeat split.
Qed.

Lemma phi_data t r w start r' : lex_next_data r = Some (w, start, r') -> phi (t, r') <= phi (t, r).
Proof. intros D. apply data_le in D. destruct r'; [|destruct r; cbn [phi length] in *; lia]. destruct r; [lia|]. cbn [length phi]. destruct (is_char NL t); lia. Qed.

Lemma data_loop_ok : forall fuel s, phi (view s) < fuel ->
  ok (data_loop fuel) s (fun _ s' => (exists L, advance (p_kw s) (p_rest s) = Some L /\ view s' = L /\ fst L <> COMMA /\ adds s [] s') \/
    (exists r l, advance (p_kw s) (p_rest s) = Some (COMMA, r) /\ gdata (p_kw s) r l (view s') /\ adds s (map I_DATA l) s')).
Proof.
  induction fuel as [|f IH]; intros s L; [lia|]. cbn [data_loop].
  eapply ok_bind with (Q := fun _ s1 => advance (p_kw s) (p_rest s) = Some (view s1) /\ adds s [] s1 /\ phi (view s1) <= phi (view s) /\ (0 < phi (view s) -> phi (view s1) < phi (view s))).
  { apply ok_next. intros s1 S1 T1 F1. destruct S1 as [R K C I]. assert (A : advance (p_kw s) (p_rest s) = Some (view s1)).
    { inversion R as [|t r L0 ts L' A H]; subst. inversion H; subst. exact A. }
    split; [exact A|]. split; [repeat split; assumption|]. exact (advance_phi _ (p_tok s) _ _ A). }
  intros _ s1 M1 (A1 & B1 & F1 & F1'). apply ok_tok. destruct (is_char "," (p_tok s1)) eqn:C.
  - apply is_char_iff in C. assert (P1 : 0 < phi (view s1)) by (apply phi_pos; rewrite C; discriminate).
    eapply ok_bind; [exact (datum_ok s1)|]. intros _ s2 M2 (w & start & r & D & V2 & B2).
    eapply ok_weaken; [apply (IH s2)|].
    { rewrite V2. pose proof (phi_data (p_tok s1) _ _ _ _ D). unfold view in *. lia. }
    destruct B1 as (B11 & B12 & B13 & B14). destruct B2 as (B21 & B22 & B23 & B24).
    assert (R2 : p_rest s2 = r) by (unfold view in V2; congruence).
    assert (A1' : advance (p_kw s) (p_rest s) = Some (COMMA, p_rest s1)) by (rewrite A1; unfold view; rewrite C; reflexivity).
    intros _ s3 M3 [(L3 & A3 & V3 & N3 & (B31 & B32 & B33 & B34)) | (r3 & l & A3 & G3 & (B31 & B32 & B33 & B34))]; right;
      rewrite B22, B12, R2 in A3.
    + exists (p_rest s1), [w]. split; [exact A1'|]. split.
      * rewrite V3. eapply GD_last; [exact (data_is _ _ _ _ D) | exact A3 | exact N3].
      * split; [|split; [|split]]; try congruence. rewrite B31, B21, B11, !emits_app. reflexivity.
    + exists (p_rest s1), (w :: l). split; [exact A1'|]. rewrite B22, B12 in G3. split.
      * eapply GD_more; [exact (data_is _ _ _ _ D) | exact A3 | exact G3].
      * split; [|split; [|split]]; try congruence. rewrite B31, B21, B11, !emits_app. reflexivity.
  - apply ok_ret. left. exists (view s1). split; [exact A1|]. split; [reflexivity|]. split; [|exact B1]. cbn [view fst]. intros E. rewrite E in C. discriminate C.
Qed.

Lemma data_ok s : ok data_statement s (fun _ s' => exists l, gdata (p_kw s) (p_rest s) l (view s') /\ adds s (map I_DATA l) s').
Proof.
  unfold data_statement. eapply ok_bind; [exact (datum_ok s)|]. intros _ s1 M1 (w & start & r & D & V1 & (B11 & B12 & B13 & B14)).
  unfold with_fuel. eapply ok_weaken; [apply (data_loop_ok _ s1); apply phi_fuel|].
  assert (R1 : p_rest s1 = r) by (unfold view in V1; congruence).
  intros _ s2 M2 [(L3 & A3 & V3 & N3 & (B31 & B32 & B33 & B34)) | (r3 & l & A3 & G3 & (B31 & B32 & B33 & B34))]; rewrite B12, R1 in A3.
  - exists [w]. split; [rewrite V3; eapply GD_last; [exact (data_is _ _ _ _ D) | exact A3 | exact N3]|].
    split; [|split; [|split]]; try congruence. rewrite B31, B11, !emits_app. reflexivity.
  - exists (w :: l). rewrite B12 in G3. split; [eapply GD_more; [exact (data_is _ _ _ _ D) | exact A3 | exact G3]|].
    split; [|split; [|split]]; try congruence. rewrite B31, B11, !emits_app. reflexivity.
Qed.

(* ---------- IF and ELSE ---------- *)

Lemma lcode_app a b : lcode (a ++ b) = lcode a ++ lcode b.
Proof. apply flat_map_app. Qed.

(* where the instruction of the open IF is; 0 when there is none *)
Definition if_pos (base : nat) (xs : list stmt) : nat :=
  match open_if xs with Some k => base + length (lcode (firstn (S k) xs)) - 1 | None => 0 end.

(* the code and the pending IF of a line so far *)
Definition coded (bc : bcode) (xs : list stmt) (s : pstate) : Prop :=
  p_code s = emits bc (lcode xs) /\ p_ifthen s = if_pos (bc_used bc) xs /\
  (forall k, open_if xs = Some k -> exists e, nth_error xs k = Some (SIf e false)).

Definition simple (x : stmt) : Prop := match x with SIf _ _ | SIfGo _ _ | SElse => False | _ => True end.

Lemma open_simple xs x : simple x -> open_if (xs ++ [x]) = open_if xs.
Proof. intros H. unfold open_if. rewrite rev_app_distr. cbn. destruct x; cbn in H; contradiction || reflexivity. Qed.

Lemma open_lt xs k : open_if xs = Some k -> k < length xs.
Proof.
  unfold open_if. rewrite <- rev_length. induction (rev xs) as [|x l IH]; [discriminate|]. cbn [open_rev length].
  destruct x; intros H; try discriminate H; try (injection H as <-; lia); specialize (IH H); lia.
Qed.

Lemma if_pos_simple base xs x : simple x -> if_pos base (xs ++ [x]) = if_pos base xs.
Proof.
  intros H. unfold if_pos. rewrite open_simple by exact H. destruct (open_if xs) as [k|] eqn:E; [|reflexivity].
  apply open_lt in E. rewrite firstn_app. replace (S k - length xs) with 0 by lia. cbn [firstn]. rewrite app_nil_r. reflexivity.
Qed.

Lemma coded_simple bc xs x s s' : simple x -> coded bc xs s -> p_code s' = emits (p_code s) (scode x) -> p_ifthen s' = p_ifthen s -> coded bc (xs ++ [x]) s'.
Proof.
  intros H (C & I & E) C' I'. split; [|split].
  - rewrite C', C, emits_app, lcode_app. cbn [lcode flat_map]. rewrite app_nil_r. reflexivity.
  - rewrite I', I, if_pos_simple by exact H. reflexivity.
  - intros k K. rewrite open_simple in K by exact H. destruct (E k K) as (e & N). exists e. rewrite nth_error_app1 by (apply open_lt; exact K). exact N.
Qed.

Lemma coded_none bc xs x s s' : open_if (xs ++ [x]) = None -> coded bc xs s -> p_code s' = emits (p_code s) (scode x) -> p_ifthen s' = 0 -> coded bc (xs ++ [x]) s'.
Proof.
  intros H (C & I & E) C' I'. split; [|split].
  - rewrite C', C, emits_app, lcode_app. cbn [lcode flat_map]. rewrite app_nil_r. reflexivity.
  - unfold if_pos. rewrite H. exact I'.
  - rewrite H. discriminate.
Qed.

Lemma open_go xs e m : open_if (xs ++ [SIfGo e m]) = None.
Proof. unfold open_if. rewrite rev_app_distr. reflexivity. Qed.
Lemma open_else xs : open_if (xs ++ [SElse]) = None.
Proof. unfold open_if. rewrite rev_app_distr. reflexivity. Qed.
Lemma open_then xs e b : open_if (xs ++ [SIf e b]) = Some (length xs).
Proof. unfold open_if. rewrite rev_app_distr. cbn. rewrite rev_length. reflexivity. Qed.

Lemma gstmt_simple st ts x st' : gstmt st ts x st' -> simple x.
Proof. intros []; exact I. Qed.

Definition free (ph : phase) : Prop := ph = Start \/ ph = AfterThen.

(* the result of a statement's body, or of a statement *)
Definition goes (bc : bcode) (ph : phase) (s : pstate) (xs : list stmt) (ph' : phase) (s' : pstate) : Prop :=
  exists xs', lsteps (p_kw s) ph (view s) (p_st s) xs ph' (view s') (p_st s') xs' /\ coded bc xs' s' /\ (ph' = AfterThen -> open_if xs' <> None).

Lemma lsteps_one kw ph L st xs ph' L' st' xs' : lstep kw ph L st xs ph' L' st' xs' -> lsteps kw ph L st xs ph' L' st' xs'.
Proof. intros H. eapply LSs_step; [apply LSs_refl | exact H]. Qed.
Lemma lsteps_trans kw ph L st xs ph1 L1 st1 xs1 ph2 L2 st2 xs2 : lsteps kw ph L st xs ph1 L1 st1 xs1 -> lsteps kw ph1 L1 st1 xs1 ph2 L2 st2 xs2 ->
  lsteps kw ph L st xs ph2 L2 st2 xs2.
Proof. intros H K. induction K; [exact H | eapply LSs_step; [apply IHK; exact H | eassumption]]. Qed.

Lemma simple_goes bc ph xs s s' : free ph -> coded bc xs s -> does s s' -> goes bc ph s xs After s'.
Proof.
  intros F C (ts & x & S1 & G). exists (xs ++ [x]). split.
  - apply lsteps_one. eapply LS_stmt; [exact F | exact (sp_reads _ _ _ _ S1) | exact G].
  - split; [|discriminate]. eapply coded_simple; [exact (gstmt_simple _ _ _ _ G) | exact C | exact (sp_code _ _ _ _ S1) | exact (sp_if _ _ _ _ S1)].
Qed.

Lemma set_ifthen_ok k s : ok (set_ifthen k) s (fun _ s' => p_ifthen s' = k /\ p_code s' = p_code s /\ view s' = view s /\ p_st s' = p_st s /\ p_kw s' = p_kw s).
Proof. unfold ok, set_ifthen. split; [split; [apply Nm_refl | apply La_refl | reflexivity]|]. cbn. auto. Qed.

Lemma if_ok bc ph xs s : free ph -> coded bc xs s -> 0 < bc_used bc -> ok if_statement s (fun b s' => goes bc ph s xs (if b then AfterThen else After) s').
Proof.
  intros F C B. unfold if_statement. eapply ok_bind; [apply (kw_ok K_IF s)|]. intros _ s1 M1 ((S1 & T1) & F1).
  eapply ok_bind; [exact (numeric_ok s1)|]. intros _ s2 M2 (ts & e & S2 & G2 & F2). rewrite T1 in G2.
  eapply ok_bind; [apply (kw_ok K_THEN)|]. intros _ s3 M3 ((S3 & T3) & F3). apply ok_tok.
  pose proof (steps_trans _ _ _ _ _ _ _ (steps_trans _ _ _ _ _ _ _ S1 S2) S3) as X. cbn [app] in X. rewrite app_nil_r in X.
  assert (THEN : (forall y w, p_tok s3 <> T_NUM y w) -> ok (let* i := emit I_IF_THEN in set_ifthen i ;;; pret true) s3 (fun b s' => goes bc ph s xs (if b then AfterThen else After) s')).
  { intros N. eapply ok_bind; [apply emit_at|]. intros k s4 M4 (-> & (S4 & T4) & V4). eapply ok_bind; [apply set_ifthen_ok|].
    intros _ s5 M5 (A1 & A2 & A3 & A4 & A5). apply ok_ret. pose proof (steps_trans _ _ _ _ _ _ _ X S4) as Y. rewrite app_nil_r in Y.
    exists (xs ++ [SIf e false]). destruct C as (C1 & C2 & C3). split.
    - apply lsteps_one. rewrite A3, V4, A4, T4, T3. eapply LS_if; [exact F | rewrite <- V4; exact (sp_reads _ _ _ _ Y) | exact G2 | exact N].
    - split; [|intros _; rewrite open_then; discriminate]. split; [|split].
      + rewrite A2, (sp_code _ _ _ _ Y), C1, emits_app, lcode_app. cbn [lcode flat_map scode]. rewrite app_nil_r. reflexivity.
      + rewrite A1. unfold if_pos. rewrite open_then, firstn_all2 by (rewrite app_length; cbn; lia).
        rewrite (sp_code _ _ _ _ X), C1, emits_app. unfold bc_used. rewrite emits_inst, !app_length, lcode_app, app_length. cbn [lcode flat_map scode].
        rewrite app_nil_r, app_length. cbn [length]. lia.
      + intros k K. rewrite open_then in K. injection K as <-. exists e. rewrite nth_error_app2, Nat.sub_diag by lia. reflexivity. }
  destruct (p_tok s3) eqn:T; try (apply THEN; discriminate). clear THEN.
  eapply ok_bind; [exact (line_number_ok s3)|]. intros m s4 M4 (t & (S4 & T4) & (t' & Et & Lm & _) & F4). injection Et as <-.
  eapply ok_bind; [apply emit_ok|]. intros _ s5 M5 ((S5 & T5) & V5). eapply ok_bind; [apply set_ifthen_ok|].
  intros _ s6 M6 (A1 & A2 & A3 & A4 & A5). apply ok_ret. pose proof (steps_trans _ _ _ _ _ _ _ (steps_trans _ _ _ _ _ _ _ X S4) S5) as Y. cbn [app] in Y. rewrite !app_nil_r in Y.
  exists (xs ++ [SIfGo e m]). split.
  - apply lsteps_one. rewrite A3, A4, T5, T4, T3. pose proof (sp_reads _ _ _ _ Y) as R. cbn [app] in R. rewrite <- app_assoc in R. eapply LS_if_go; [exact F | exact R | exact G2 | exact Lm].
  - split; [|discriminate]. eapply coded_none; [apply open_go | exact C | rewrite A2, (sp_code _ _ _ _ Y); reflexivity | exact A1].
Qed.

Lemma body_ok bc ph xs s : fine (p_st s) -> free ph -> coded bc xs s -> 0 < bc_used bc ->
  ok statement_body s (fun b s' => goes bc ph s xs (if b then AfterThen else After) s' /\ (b = true -> phi (view s') < phi (view s))).
Proof.
  intros FI F C B. unfold statement_body. apply ok_tok.
  assert (SIM : forall m, ok m s (fun _ s' => does s s') -> ok (no_continue m) s (fun b s' => goes bc ph s xs (if b then AfterThen else After) s' /\ (b = true -> phi (view s') < phi (view s)))).
  { intros m H. unfold no_continue. eapply ok_bind; [exact H|]. intros ? s1 M1 D. apply ok_ret. split; [apply simple_goes; assumption | discriminate]. }
  destruct (p_tok s) as [c| | | |name|x w|w| | | |k] eqn:T; try apply ok_error.
  - destruct (ceq c "?"); [apply SIM; apply print_ok|]. destruct (ceq c NL || ceq c ":") eqn:E; [|apply ok_error]. apply ok_ret. split; [|discriminate].
    exists xs. split; [|split; [exact C | discriminate]]. apply lsteps_one. unfold view. apply LS_empty; [exact F|]. rewrite T. apply orb_prop in E. destruct E as [E|E]; apply ceq_eq in E; subst c; auto.
  - apply SIM. apply assign_stmt_ok.
  - destruct k; try apply ok_error.
    + apply SIM. apply (plain_ok K_CLEAR I_CLEAR SClear s); [reflexivity | apply GS_clear].
    + apply SIM. apply (plain_ok K_CLS I_CLS SCls s); [reflexivity | apply GS_cls].
    + (* DATA *) unfold no_continue. eapply ok_bind; [exact (data_ok s)|]. intros _ s1 M1 (l & G & (A1 & A2 & A3 & A4)). apply ok_ret. split; [|discriminate].
      exists (xs ++ [SData l]). split.
      * apply lsteps_one. unfold view at 1. rewrite T, A3. apply LS_data; [exact F | exact G].
      * split; [|discriminate]. eapply coded_simple; [exact I | exact C | exact A1 | exact A4].
    + apply SIM. apply def_ok.
    + apply SIM. apply dim_ok. exact FI.
    + apply SIM. apply (plain_ok K_END I_END SEnd s); [reflexivity | apply GS_end].
    + apply SIM. apply for_ok.
    + apply SIM. apply gosub_ok.
    + apply SIM. apply goto_ok.
    + (* IF *) pose proof (if_ok bc ph xs s F C B) as H. unfold ok in H |- *. destruct (if_statement s) as [b s1 | | | |] eqn:E; auto. destruct H as [M H].
      split; [exact M|]. split; [exact H|]. intros _.
      unfold if_statement, pbind in E. destruct (match_kw K_IF s) as [[] s0 | | | |] eqn:E0; try discriminate E.
      pose proof (kw_ok K_IF s) as K0. unfold ok in K0. rewrite E0 in K0. destruct K0 as (_ & _ & P0).
      assert (M1 : moves s0 s1); [|destruct M1 as [_ L1 _]; apply later_phi in L1; lia].
      pose proof (numeric_ok s0) as H1. unfold ok in H1. destruct (numeric_expression s0) as [[] s2 | | | |] eqn:E1; try discriminate E. destruct H1 as (M1 & _).
      pose proof (kw_ok K_THEN s2) as H2. unfold ok in H2. destruct (match_kw K_THEN s2) as [[] s3 | | | |] eqn:E2; try discriminate E. destruct H2 as (M2 & _).
      eapply moves_trans; [exact M1|]. eapply moves_trans; [exact M2|].
      unfold tok in E. destruct (p_tok s3) eqn:T3; try (cbn in E; injection E as <- <-; split; [apply Nm_refl | apply La_refl | reflexivity]).
      pose proof (line_number_ok s3) as H3. unfold ok in H3. destruct (line_number s3) as [m s4 | | | |] eqn:E3; try discriminate E. destruct H3 as (M3 & _).
      cbn in E. injection E as <- <-. eapply moves_trans; [exact M3|]. split; [apply Nm_refl | apply La_refl | reflexivity].
    + apply SIM. apply input_ok. exact FI.
    + apply SIM. apply let_ok.
    + apply SIM. apply line_input_ok.
    + apply SIM. apply next_stmt_ok. exact FI.
    + apply SIM. apply on_ok.
    + apply SIM. apply print_ok.
    + apply SIM. apply randomize_ok.
    + apply SIM. apply read_ok. exact FI.
    + (* REM *) unfold no_continue. unfold ok, pbind, pret, rem_statement. split; [split; [apply Nm_refl | eapply La_rem; apply La_refl | reflexivity]|].
      split; [|discriminate]. exists (xs ++ [SRem]). split.
      * apply lsteps_one. unfold view at 1. rewrite T. apply LS_rem. exact F.
      * split; [|discriminate]. eapply coded_simple; [exact I | exact C | reflexivity | reflexivity].
    + apply SIM. apply restore_ok.
    + apply SIM. apply (plain_ok K_RETURN I_RETURN SReturn s); [reflexivity | apply GS_return].
    + apply SIM. apply (plain_ok K_STOP I_STOP SStop s); [reflexivity | apply GS_stop].
Qed.

(* the instruction of the open IF *)
Lemma if_pos_split base xs k e : open_if xs = Some k -> nth_error xs k = Some (SIf e false) ->
  exists a b, xs = a ++ SIf e false :: b /\ length a = k /\ if_pos base xs = base + length (lcode a ++ ecode e).
Proof.
  intros O N. destruct (nth_error_split _ _ N) as (a & b & -> & L). exists a, b. split; [reflexivity|]. split; [exact L|].
  unfold if_pos. rewrite O. replace (S k) with (length (a ++ [SIf e false])) by (rewrite app_length; cbn; lia).
  replace (a ++ SIf e false :: b) with ((a ++ [SIf e false]) ++ b) by (rewrite <- app_assoc; reflexivity).
  rewrite firstn_app, firstn_all, Nat.sub_diag. cbn [firstn]. rewrite app_nil_r, lcode_app. cbn [lcode flat_map scode]. rewrite !app_length. cbn [length]. lia.
Qed.

Lemma last_opt_snoc {A} (l : list A) x : last_opt (l ++ [x]) = Some x.
Proof. induction l as [|y l IH]; [reflexivity|]. cbn. destruct (l ++ [x]) eqn:E; [destruct l; discriminate E | exact IH]. Qed.
Lemma last_opt_app {A} (a b : list A) : b <> [] -> last_opt (a ++ b) = last_opt b.
Proof. intros N. destruct (exists_last N) as (c & x & ->). rewrite app_assoc, !last_opt_snoc. reflexivity. Qed.

(* the code of the earlier lines and the marker of this one *)
Definition line_base (bc : bcode) : Prop := exists bc0 i, bc = emit_instr bc0 (I_SOURCE_LINE i).

Lemma line_base_used bc : line_base bc -> 0 < bc_used bc.
Proof. intros (bc0 & i & ->). unfold bc_used. cbn. rewrite app_length. cbn. lia. Qed.

Lemma latest_goes bc xs s m : line_base bc -> coded bc xs s -> bcode_latest (p_code s) = Some (I_GOTRUE m) -> last_opt (lcode xs) = Some (I_GOTRUE m).
Proof.
  intros (bc0 & i & ->) (C & _) H. unfold bcode_latest in H. rewrite C, emits_inst in H. destruct (lcode xs) as [|j l] eqn:E.
  - rewrite app_nil_r in H. cbn [emit_instr bc_inst] in H. rewrite last_opt_snoc in H. discriminate H.
  - rewrite last_opt_app in H by discriminate. exact H.
Qed.

Lemma else_ok bc ph xs s : line_base bc -> ph = After \/ ph = AfterThen -> (ph = AfterThen -> open_if xs <> None) -> coded bc xs s ->
  ok else_clause s (fun b s' => goes bc ph s xs (if b then Start else AfterElse) s' /\ (b = true -> phi (view s') < phi (view s))).
Proof.
  intros LB PH PO C. pose proof (line_base_used _ LB) as B. destruct C as (C1 & C2 & C3).
  destruct (open_if xs) as [k|] eqn:O.
  - destruct (C3 k eq_refl) as (e & N). destruct (if_pos_split (bc_used bc) xs k e O N) as (a & b & X & LA & IP). rewrite IP in C2.
    assert (E : else_clause s = (match_kw K_ELSE ;;; patch (p_ifthen s) (fun _ => I_IF_ELSE) ;;; emit_ I_ELSE ;;; set_ifthen 0 ;;; pret true) s).
    { unfold else_clause. destruct (p_ifthen s); [lia | reflexivity]. }
    unfold ok. rewrite E. apply (ok_bind (match_kw K_ELSE) _ s _ _ (kw_ok K_ELSE s)). intros _ s1 M1 ((S1 & T1) & F1). rewrite C2.
    assert (CO : p_code s1 = emits bc ((lcode a ++ ecode e) ++ I_IF_THEN :: lcode b)).
    { rewrite (sp_code _ _ _ _ S1). cbn [emits fold_left]. rewrite C1, X, lcode_app. cbn [lcode flat_map scode]. rewrite <- !app_assoc. reflexivity. }
    eapply ok_bind; [eapply (patch_ok (fun _ => I_IF_ELSE) I_IF_THEN I_IF_ELSE); [exact CO | reflexivity | reflexivity]|]. intros _ s2 M2 (A1 & A2 & A3 & A4 & A5).
    eapply ok_bind; [apply emit_ok|]. intros _ s3 M3 ((S3 & T3) & V3). eapply ok_bind; [apply set_ifthen_ok|]. intros _ s4 M4 (B1 & B2 & B3 & B4 & B5).
    apply ok_ret. split; [|intros _; rewrite B3, V3, A2; exact F1]. exists (a ++ SIf e true :: b ++ [SElse]).
    assert (ON : open_if (a ++ SIf e true :: b ++ [SElse]) = None).
    { replace (a ++ SIf e true :: b ++ [SElse]) with ((a ++ SIf e true :: b) ++ [SElse]) by (rewrite <- app_assoc; reflexivity). apply open_else. }
    split; [|split; [|discriminate]].
    + apply lsteps_one. rewrite X. rewrite B3, V3, A2, B4, T3, A4, T1. eapply LS_else; [tauto | exact (sp_reads _ _ _ _ S1)|]. rewrite <- X, O. congruence.
    + split; [|split; [rewrite B1; unfold if_pos; rewrite ON; reflexivity | rewrite ON; discriminate]].
      rewrite B2, (sp_code _ _ _ _ S3), A1, emits_app, lcode_app. cbn [lcode flat_map scode]. rewrite flat_map_app. cbn [flat_map scode]. rewrite <- !app_assoc. reflexivity.
  - assert (PH' : ph = After) by (destruct PH as [P|P]; [exact P | exfalso; exact (PO P eq_refl)]). subst ph.
    unfold if_pos in C2. rewrite O in C2.
    destruct (bcode_latest (p_code s)) as [i|] eqn:BL.
    2:{ unfold ok, else_clause. rewrite C2, BL. apply moves_refl. }
    destruct i; try (unfold ok, else_clause; rewrite C2, BL; apply moves_refl).
    assert (CD : coded bc xs s) by (split; [exact C1 | split; [unfold if_pos; rewrite O; exact C2 | rewrite O; discriminate]]).
    pose proof (latest_goes _ _ _ _ LB CD BL) as LG.
    assert (E : else_clause s = (match_kw K_ELSE ;;; (let* n := line_number in emit_ (I_GOTO n) ;;; pret false)) s).
    { unfold else_clause. rewrite C2, BL. reflexivity. }
    unfold ok. rewrite E. apply (ok_bind (match_kw K_ELSE) _ s _ _ (kw_ok K_ELSE s)). intros _ s1 M1 ((S1 & T1) & F1).
    eapply ok_bind; [exact (line_number_ok s1)|]. intros m s2 M2 (t & (S2 & T2) & (t' & Et & Lm & _) & F2). injection Et as <-.
    eapply ok_bind; [apply emit_ok|]. intros _ s3 M3 ((S3 & T3) & V3). apply ok_ret. split; [|discriminate].
    pose proof (steps_trans _ _ _ _ _ _ _ (steps_trans _ _ _ _ _ _ _ S1 S2) S3) as Y. cbn [app] in Y.
    exists (xs ++ [SElseGo m]). split; [|split; [|discriminate]].
    + apply lsteps_one. rewrite T3, T2, T1. eapply LS_else_go; [exact (sp_reads _ _ _ _ Y) | exact Lm | exact O | exact LG].
    + eapply coded_simple; [exact I | exact CD | exact (sp_code _ _ _ _ Y) | exact (sp_if _ _ _ _ Y)].
Qed.

Lemma moves_kw s s' : moves s s' -> p_kw s' = p_kw s.
Proof. intros [_ _ K]. exact K. Qed.
Lemma moves_phi s s' : moves s s' -> phi (view s') <= phi (view s).
Proof. intros [_ L _]. exact (later_phi _ _ _ L). Qed.

Lemma goes_trans bc ph s xs ph1 s1 : goes bc ph s xs ph1 s1 -> p_kw s1 = p_kw s ->
  exists xs1, coded bc xs1 s1 /\ (ph1 = AfterThen -> open_if xs1 <> None) /\ forall ph2 s2, goes bc ph1 s1 xs1 ph2 s2 -> goes bc ph s xs ph2 s2.
Proof.
  intros (xs1 & L1 & C1 & O1) K. exists xs1. split; [exact C1|]. split; [exact O1|]. intros ph2 s2 (xs2 & L2 & C2 & O2). exists xs2. split; [|auto].
  rewrite K in L2. exact (lsteps_trans _ _ _ _ _ _ _ _ _ _ _ _ _ L1 L2).
Qed.

(* after a statement: the next one follows, or not *)
Definition next_phase (b : bool) (ph : phase) : Prop := if b then free ph else ph = After \/ ph = AfterElse.

Lemma statement_ok bc ph xs s : line_base bc -> fine (p_st s) -> free ph -> coded bc xs s ->
  ok statement s (fun b s' => (exists ph', next_phase b ph' /\ goes bc ph s xs ph' s') /\ (b = true -> phi (view s') < phi (view s))).
Proof.
  intros LB FI F C. unfold statement. eapply ok_bind; [apply (body_ok bc ph xs s); [assumption.. | apply line_base_used; exact LB]|].
  intros b s1 M1 (G1 & D1). apply ok_tok. destruct (is_kw K_ELSE (p_tok s1)).
  - destruct (goes_trans _ _ _ _ _ _ G1 (moves_kw _ _ M1)) as (xs1 & C1 & O1 & TR).
    eapply ok_weaken; [apply (else_ok bc (if b then AfterThen else After) xs1 s1 LB); [destruct b; auto | exact O1 | exact C1]|].
    intros b2 s2 M2 (G2 & D2). split; [|intros E; specialize (D2 E); pose proof (moves_phi _ _ M1); lia].
    exists (if b2 then Start else AfterElse). split; [destruct b2; [left | right]; reflexivity|]. apply TR. exact G2.
  - apply ok_ret. split; [|exact D1]. exists (if b then AfterThen else After). split; [destruct b; [right | left]; reflexivity | exact G1].
Qed.

Lemma complete_ok bc : line_base bc -> forall fuel ph xs s, fine (p_st s) -> free ph -> coded bc xs s -> phi (view s) < fuel ->
  ok (complete_statement fuel) s (fun _ s' => exists ph', (ph' = After \/ ph' = AfterElse) /\ goes bc ph s xs ph' s').
Proof.
  intros LB. induction fuel as [|f IH]; intros ph xs s FI F C L; [lia|]. cbn [complete_statement].
  eapply ok_bind; [apply (statement_ok bc ph xs s); assumption|]. intros b s1 M1 ((ph1 & N1 & G1) & D1). destruct b.
  - destruct (goes_trans _ _ _ _ _ _ G1 (moves_kw _ _ M1)) as (xs1 & C1 & O1 & TR). specialize (D1 eq_refl).
    eapply ok_weaken; [apply (IH ph1 xs1 s1); [exact (fine_moves _ _ M1 FI) | exact N1 | exact C1 | lia]|].
    intros _ s2 M2 (ph2 & N2 & G2). exists ph2. split; [exact N2 | apply TR; exact G2].
  - apply ok_ret. exists ph1. split; [exact N1 | exact G1].
Qed.

Lemma line_loop_ok bc : line_base bc -> forall fuel ph xs s, fine (p_st s) -> ph = After \/ ph = AfterElse -> coded bc xs s -> phi (view s) < fuel ->
  ok (line_loop fuel) s (fun _ s' => exists ph', (ph' = After \/ ph' = AfterElse) /\ goes bc ph s xs ph' s').
Proof.
  intros LB. induction fuel as [|f IH]; intros ph xs s FI F C L; [lia|]. cbn [line_loop]. apply ok_tok. destruct (is_char ":" (p_tok s)) eqn:CH.
  - apply is_char_iff in CH. eapply ok_bind; [apply next_ok; rewrite CH; discriminate|]. rewrite CH. intros _ s1 M1 ((S1 & T1) & F1).
    assert (C1 : coded bc xs s1).
    { destruct C as (X1 & X2 & X3). split; [rewrite (sp_code _ _ _ _ S1); exact X1|]. split; [rewrite (sp_if _ _ _ _ S1); exact X2 | exact X3]. }
    assert (G1 : goes bc ph s xs Start s1).
    { exists xs. split; [|split; [exact C1 | discriminate]]. apply lsteps_one. rewrite T1. apply LS_colon; [exact F | exact (sp_reads _ _ _ _ S1)]. }
    unfold with_fuel. eapply ok_bind; [apply (complete_ok bc LB _ Start xs s1); [exact (fine_moves _ _ M1 FI) | left; reflexivity | exact C1 | apply phi_fuel]|].
    intros _ s2 M2 (ph2 & N2 & G2). destruct (goes_trans _ _ _ _ _ _ G2 (moves_kw _ _ M2)) as (xs2 & C2 & _ & TR2).
    eapply ok_weaken; [apply (IH ph2 xs2 s2); [exact (fine_moves _ _ (moves_trans _ _ _ M1 M2) FI) | exact N2 | exact C2 | pose proof (moves_phi _ _ M2); lia]|].
    intros _ s3 M3 (ph3 & N3 & G3). exists ph3. split; [exact N3|].
    destruct G1 as (y & L1 & Cy & Oy). destruct (TR2 _ _ G3) as (z & L3 & Cz & Oz). exists z. split; [|auto]. eapply lsteps_trans; [apply lsteps_one; apply LS_colon; [exact F | exact (sp_reads _ _ _ _ S1)]|].
    rewrite T1 in L3. rewrite (sp_kw _ _ _ _ S1) in L3. exact L3.
  - apply ok_ret. exists ph. split; [exact F|]. exists xs. split; [apply LSs_refl|]. split; [exact C | destruct F; subst ph; discriminate].
Qed.

(* ---------- a line ---------- *)

Lemma parse_line_ok index text s : fine (p_st s) ->
  match parse_line index text s with
  | POk _ s' => names (p_st s) (p_st s') /\ p_kw s' = p_kw s /\
      exists xs, line_is (p_kw s) text (p_st s) xs (p_st s') /\ p_code s' = emits (p_code s) (I_SOURCE_LINE index :: lcode xs)
  | PErr _ s' => names (p_st s) (p_st s')
  | PExit => exists L, later (p_kw s) (T_NL, text) L /\ bad_text (p_kw s) (snd L)
  | PCrash => exists L, later (p_kw s) (T_NL, text) L /\ unsupported (fst L)
  | PNoFuel => False
  end.
Proof.
  intros FI. unfold parse_line. set (s0 := set_lex T_NL text text s).
  assert (FI0 : fine (p_st s0)) by exact FI.
  change (((fun s1 => next_token (set_lex (p_tok s1) text text s1));;; emit_ (I_SOURCE_LINE index);;; set_ifthen 0;;; with_fuel complete_statement;;; with_fuel line_loop;;; match_char NL) s)
    with ((next_token;;; emit_ (I_SOURCE_LINE index);;; set_ifthen 0;;; with_fuel complete_statement;;; with_fuel line_loop;;; match_char NL) s0).
  assert (H : ok (next_token;;; emit_ (I_SOURCE_LINE index);;; set_ifthen 0;;; with_fuel complete_statement;;; with_fuel line_loop;;; match_char NL) s0
    (fun _ s' => exists xs, line_is (p_kw s) text (p_st s) xs (p_st s') /\ p_code s' = emits (p_code s) (I_SOURCE_LINE index :: lcode xs))).
  { eapply ok_bind with (Q := fun _ s1 => took s0 [T_NL] [] s1).
    { apply ok_next. intros s1 S1 T1 _. split; assumption. }
    intros _ s1 M1 (S1 & T1). eapply ok_bind; [apply emit_ok|]. intros _ s2 M2 ((S2 & T2) & V2).
    eapply ok_bind; [apply set_ifthen_ok|]. intros _ s3 M3 (A1 & A2 & A3 & A4 & A5).
    set (bc := emit_instr (p_code s) (I_SOURCE_LINE index)). assert (LB : line_base bc) by (exists (p_code s), index; reflexivity).
    assert (C3 : coded bc [] s3).
    { split; [rewrite A2, (sp_code _ _ _ _ S2), (sp_code _ _ _ _ S1); reflexivity|]. split; [exact A1 | discriminate]. }
    pose proof (moves_trans _ _ _ (moves_trans _ _ _ M1 M2) M3) as M13. pose proof (fine_moves _ _ M13 FI0) as FI3.
    unfold with_fuel at 1. eapply ok_bind; [apply (complete_ok bc LB _ Start [] s3); [exact FI3 | left; reflexivity | exact C3 | apply phi_fuel]|].
    intros _ s4 M4 (ph4 & N4 & G4). destruct (goes_trans _ _ _ _ _ _ G4 (moves_kw _ _ M4)) as (xs4 & C4 & _ & TR4).
    unfold with_fuel. eapply ok_bind; [apply (line_loop_ok bc LB _ ph4 xs4 s4); [exact (fine_moves _ _ M4 FI3) | exact N4 | exact C4 | apply phi_fuel]|].
    intros _ s5 M5 (ph5 & N5 & G5). destruct (TR4 _ _ G5) as (xs & L & (C5 & _ & _) & _).
    assert (ADV : advance (p_kw s) text = Some (view s3)).
    { rewrite A3, V2. pose proof (sp_reads _ _ _ _ S1) as R. inversion R as [|t r L0 ts L' AD HR]; subst. inversion HR; subst. exact AD. }
    rewrite A4, T2, T1 in L. change (p_st s0) with (p_st s) in L. rewrite (moves_kw _ _ M13) in L. change (p_kw s0) with (p_kw s) in L.
    unfold match_char. apply ok_tok. destruct (is_char NL (p_tok s5)) eqn:NLT; [|apply ok_error]. apply is_char_iff in NLT.
    apply ok_next. intros s6 S6 T6 _. exists xs. split.
    - exists (view s3), ph5, (p_rest s5). split; [exact ADV|]. split; [|exact N5]. rewrite T6. replace (T_NL, p_rest s5) with (view s5) by (unfold view; rewrite NLT; reflexivity). exact L.
    - rewrite (sp_code _ _ _ _ S6). cbn [emits fold_left]. rewrite C5. reflexivity. }
  unfold ok in H. destruct ((next_token;;; emit_ (I_SOURCE_LINE index);;; set_ifthen 0;;; with_fuel complete_statement;;; with_fuel line_loop;;; match_char NL) s0) as [[] s' | e s' | | |].
  - destruct H as (M & H). split; [exact (mv_names _ _ M)|]. split; [exact (mv_kw _ _ M) | exact H].
  - exact (mv_names _ _ H).
  - exact H.
  - exact H.
  - exact H.
Qed.

(* ---------- programs ---------- *)

Lemma parse_lines_ok : forall src index s, fine (p_st s) ->
  match parse_lines index src s with
  | POk _ s' => names (p_st s) (p_st s') /\
      exists xss, program_is (p_kw s) (p_st s) (map ln_text src) xss (p_st s') /\ p_code s' = emits (p_code s) (pcode index xss)
  | PErr _ s' => names (p_st s) (p_st s')
  | PExit => exists l L, In l src /\ later (p_kw s) (T_NL, ln_text l) L /\ bad_text (p_kw s) (snd L)
  | PCrash => exists l L, In l src /\ later (p_kw s) (T_NL, ln_text l) L /\ unsupported (fst L)
  | PNoFuel => False
  end.
Proof.
  induction src as [|l src IH]; intros index s FI; cbn [parse_lines].
  - split; [apply Nm_refl|]. exists []. split; [apply PI_nil | reflexivity].
  - pose proof (parse_line_ok index (ln_text l) s FI) as H. unfold pbind. destruct (parse_line index (ln_text l) s) as [[] s1 | e s1 | | |].
    + destruct H as (N1 & K1 & xs & L1 & C1). specialize (IH (S index) s1 (names_fine _ _ N1 FI)).
      destruct (parse_lines (S index) src s1) as [[] s2 | e s2 | | |].
      * destruct IH as (N2 & xss & P2 & C2). split; [exact (names_trans _ _ _ N1 N2)|]. exists (xs :: xss). rewrite K1 in P2. split.
        -- cbn [map]. eapply PI_cons; [exact L1 | exact P2].
        -- rewrite C2, C1, emits_app. reflexivity.
      * exact (names_trans _ _ _ N1 IH).
      * destruct IH as (l' & L & J & X). rewrite K1 in X. exists l', L. split; [right; exact J | exact X].
      * destruct IH as (l' & L & J & X). rewrite K1 in X. exists l', L. split; [right; exact J | exact X].
      * exact IH.
    + exact H.
    + destruct H as (L & X). exists l, L. split; [left; reflexivity | exact X].
    + destruct H as (L & X). exists l, L. split; [left; reflexivity | exact X].
    + exact H.
Qed.

Lemma parse_source_ok src st kw : fine st ->
  match parse_source src st kw with
  | PoOk (Some bc) e st' => e = None /\ exists xss st1, program_is kw st (map ln_text src) xss st1 /\ names st st1 /\ st' = sym_make_unknown_array st1 /\
      bc_inst bc = pcode 0 xss /\ bc_has_data bc = existsb is_data (pcode 0 xss)
  | PoOk None e st' => e <> None /\ exists st1, names st st1 /\ st' = sym_make_unknown_array st1
  | PoExit => exists l L, In l src /\ later kw (T_NL, ln_text l) L /\ bad_text kw (snd L)
  | PoCrash => exists l L, In l src /\ later kw (T_NL, ln_text l) L /\ unsupported (fst L)
  | PoNoFuel => False
  end.
Proof.
  intros FI. unfold parse_source. pose proof (parse_lines_ok src 0 (mkPs kw [] [] T_NONE new_bcode st 0) FI) as H.
  destruct (parse_lines 0 src (mkPs kw [] [] T_NONE new_bcode st 0)) as [[] s | e s | | |]; auto.
  - destruct H as (N & xss & P & C). split; [reflexivity|]. exists xss, (p_st s). split; [exact P|]. split; [exact N|]. split; [reflexivity|].
    rewrite C, emits_inst, emits_data. cbn. rewrite orb_false_r. auto.
  - split; [discriminate|]. exists (p_st s). auto.
Qed.
