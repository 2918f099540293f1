(* The code of a program uses the symbols of its final table correctly. *)
From Coq Require Import Lia ZifyBool ZifyNat ZifyN.
From Verif Require Import Base BaseLemmas Num NumSpec DoubleProofs SourceModel BcodeModel SymbolModel SymbolSpec SymbolProofs
  LexModel LexSpec LexProofs ParseModel GrammarSpec ParseProofs StmtProofs VmModel VmSpec VmTyping ValueSpec TypeSpec.
Local Open Scope nat_scope.

(* ---------- tokens ---------- *)

Definition tok_ok (t : token) : Prop :=
  match t with T_NUM x _ => double x | T_STR w => length w <= 127 | _ => True end.

Lemma advance_tok kw r L : advance kw r = Some L -> tok_ok (fst L).
Proof.
  unfold advance. destruct (lex_next kw r) as [t st r'|] eqn:E; [|discriminate]. intros H. injection H as <-. cbn [fst].
  destruct (lex_next_spec _ _ _ _ _ E) as (b & w & tail & _ & _ & _ & _ & [(_ & S) | (_ & _ & ->)]); [|exact I].
  destruct S; try exact I; cbn [tok_ok].
  - pose proof (strtod_double w) as D. rewrite H1 in D. exact D.
  - assumption.
Qed.

Lemma reads_tok kw L ts L' : reads kw L ts L' -> tok_ok (fst L) -> Forall tok_ok ts /\ tok_ok (fst L').
Proof.
  induction 1 as [L | t r L ts L' A R IH]; intros T; [split; [constructor | exact T]|].
  destruct (IH (advance_tok _ _ _ A)). split; [constructor; assumption | assumption].
Qed.

(* ---------- symbols ---------- *)

(* the table when the whole program is compiled *)
Definition final (st : symtab) : list sig := sigs (sym_make_unknown_array st).

Lemma occurs_denotes k name paren st s st' : paren_kind k -> fine st -> occurs k name paren st s st' ->
  exists p, nth_error (st_syms st') p = Some s /\ denotes (st_syms st') name paren p.
Proof.
  intros K [T W] O. assert (D : forall p, sym_lookup st name paren = Some p -> denotes (st_syms st) name paren p) by (intros; apply (lookup_iff _ _ _ _ T); assumption).
  destruct O as [p s0 P L E | p s0 P L E N U | p s0 P L E U | st1 p s0 L I E].
  - exists p. auto.
  - exists p. auto.
  - exists p. destruct (D p L) as (s1 & E1 & N1 & _). rewrite E in E1. injection E1 as <-.
    assert (X : nth_error (st_syms (sym_update st p (set_kind s0 k))) p = Some (set_kind s0 k)).
    { cbn [sym_update st_syms]. apply nth_error_list_upd_eq. apply nth_error_Some. congruence. }
    split; [exact X|]. exists (set_kind s0 k). split; [exact X|]. split; [exact N1|]. cbn [set_kind s_kind]. subst paren. destruct K as [-> | [-> | ->]]; reflexivity.
  - exists p. pose proof (insert_nth st name (if paren then k else KVariable) (type_of_name name)) as X. rewrite I in X. cbn [fst snd] in X.
    rewrite E in X. injection X as ->. split; [exact E|]. eexists. split; [exact E|]. split; [reflexivity|]. cbn [s_kind].
    destruct paren; [|reflexivity]. destruct K as [-> | [-> | ->]]; reflexivity.
Qed.

Lemma final_known st p nm i k t : nth_error (final st) p = Some (nm, i, k, t) -> k <> KUnknown.
Proof.
  unfold final, sigs, sym_make_unknown_array. cbn [st_syms]. rewrite map_map, nth_error_map.
  destruct (nth_error (st_syms st) p) as [s|]; [|discriminate]. cbn [option_map]. intros H. injection H as _ _ K _. intros ->.
  destruct (s_kind s) eqn:Q; cbn in K; congruence.
Qed.

Lemma occurs_final k name paren st s st' stF : paren_kind k -> fine st -> occurs k name paren st s st' -> names st' stF -> few_names stF ->
  exists k', nth_error (final stF) (N.to_nat (s_id s)) = Some (s_name s, s_id s, k', s_type s) /\ can_mean paren k' /\ k' <> KUnknown /\
    (s_kind s = KUnknown \/ k' = s_kind s) /\ (k' = KBuiltin -> s_kind s = KBuiltin).
Proof.
  intros K F O N FEW. destruct (occurs_denotes _ _ _ _ _ _ K F O) as (p & E & (s1 & E1 & _ & C)). rewrite E in E1. injection E1 as <-.
  assert (F' : fine st') by (apply (names_fine _ _ (occurs_names _ _ _ _ _ _ K O) F)).
  assert (CH : changes st' (sym_make_unknown_array stF)) by (eapply Chs_step; [apply names_changes; exact N | apply Ch_unknown]).
  destruct (changes_evolves _ _ CH p s E) as (s' & E' & (V1 & V2 & V3 & V4 & (_ & V5) & _)).
  assert (ID : N.to_nat (s_id s) = p).
  { destruct (table_good _ (proj1 F')) as (_ & _ & (_ & IDS)). rewrite (IDS p s E). unfold u16.
    assert (p < length (st_syms stF)). { replace (length (st_syms stF)) with (length (st_syms (sym_make_unknown_array stF))) by apply map_length. apply nth_error_Some. congruence. }
    unfold few_names in FEW. rewrite N.mod_small by lia. lia. }
  exists (s_kind s'). rewrite ID. unfold final, sigs. rewrite nth_error_map, E'. cbn [option_map]. unfold sig_of at 1. rewrite V1, V2, V3.
  split; [reflexivity|]. split; [apply V5; exact C|]. split; [|split; [exact V4|]].
  2:{ intros B. pose proof (proj1 (V5 true)) as X1. pose proof (proj1 (V5 false)) as X2. rewrite B in X1, X2. specialize (X1 I). specialize (X2 I). destruct (s_kind s); try discriminate; reflexivity. }
  apply (final_known stF p (s_name s') (s_id s') _ (s_type s')). unfold final, sigs. rewrite nth_error_map, E'. reflexivity.
Qed.

(* ---------- expressions ---------- *)

Section Wt.
Variable g : list sig.
Notation wt := (wt g).
Lemma wt_all l : (fix all (l : list expr) : Prop := match l with [] => True | a :: r => wt a /\ all r end) l <-> Forall wt l.
Proof.
  induction l as [|a l IH]; split; intros H; [constructor | exact I | |].
  - destruct H as [H K]. constructor; [exact H | apply IH; exact K].
  - inversion H; subst. split; [assumption | apply IH; assumption].
Qed.
End Wt.

Lemma find_builtin_in w b : find_builtin w = Some b -> In b builtins.
Proof. intros H. apply find_some in H. apply H. Qed.

Lemma builtin_free k name paren st s st' : paren_kind k -> fine st -> occurs k name paren st s st' -> find_builtin name = None -> s_kind s <> KBuiltin.
Proof.
  intros K [T W] O F B. destruct O as [p s0 P L E | p s0 P L E N U | p s0 P L E U | st1 p s0 L I E].
  - destruct (lookup_builtin _ _ _ _ _ T L E B) as (b & X & _). congruence.
  - destruct (lookup_builtin _ _ _ _ _ T L E B) as (b & X & _). congruence.
  - cbn in B. destruct K as [-> | [-> | ->]]; discriminate.
  - pose proof (insert_nth st name (if paren then k else KVariable) (type_of_name name)) as X. rewrite I in X. cbn [fst snd] in X.
    rewrite E in X. injection X as ->. cbn in B. destruct paren; [destruct K as [-> | [-> | ->]]|]; discriminate.
Qed.

Lemma Forall2_ArgNum l : Forall2 arg_ok (repeat ArgNum (length l)) l -> Forall (fun a => etype a = TNum) l.
Proof. induction l; intros H; inversion H; subst; constructor; auto. Qed.

Lemma occurs_typed k name paren st s st' : paren_kind k -> fine st -> occurs k name paren st s st' -> s_type s <> TErr \/ s_kind s = KBuiltin.
Proof.
  intros K F O. destruct (s_type s) eqn:Y; try (left; discriminate). right.
  destruct F as [T W]. destruct O as [p s0 P L E | p s0 P L E N U | p s0 P L E U | st1 p s0 L I E].
  - destruct (W p s0 E) as [B|B]; [exact B | exfalso; apply (type_of_name_ok (s_name s0)); congruence].
  - destruct (W p s0 E) as [B|B]; [exact B | exfalso; apply (type_of_name_ok (s_name s0)); congruence].
  - destruct (W p s0 E) as [B|B]; [congruence | exfalso; apply (type_of_name_ok (s_name s0)); cbn in Y; congruence].
  - exfalso. pose proof (insert_nth st name (if paren then k else KVariable) (type_of_name name)) as X. rewrite I in X. cbn [fst snd] in X.
    rewrite E in X. injection X as ->. exact (type_of_name_ok _ Y).
Qed.

Lemma gargs_len k st ts es st' : gargs k st ts es st' -> length es = length k /\ es <> [].
Proof. induction 1; cbn; [split; [reflexivity | discriminate] | split; [lia | discriminate]]. Qed.
Lemma gargs_fit k st ts es st' : gargs k st ts es st' -> Forall2 arg_ok k es.
Proof. induction 1; constructor; auto. Qed.

Definition names3 := gram_names.
Lemma gnames l st ts e st' : gram l st ts e st' -> names st st'. Proof. apply gram_names. Qed.
Lemma anames k st ts e st' : gargs k st ts e st' -> names st st'. Proof. apply gram_names. Qed.
Lemma unames k st ts n s e st' : guse k st ts n s e st' -> paren_kind k -> names st st'. Proof. apply gram_names. Qed.

Ltac toks := repeat match goal with
  | H : Forall tok_ok (_ ++ _) |- _ => apply Forall_app in H; destruct H
  | H : Forall tok_ok (_ :: _) |- _ => inversion H; subst; clear H
  end.

(* what a use of a name is made of *)
Definition use_ok (g : list sig) (k : skind) (s : symbol) (es : list expr) : Prop :=
  Forall (wt g) es /\ Forall (fun a => etype a = TNum) es /\
  (s_kind s = KBuiltin \/
   s_type s <> TErr /\ ((es = [] /\ s_kind s = KVariable /\ sg_kind g (s_id s) KVariable (s_type s)) \/
                        (es <> [] /\ s_kind s <> KBuiltin /\ (sg_kind g (s_id s) KArray (s_type s) \/ (k <> KArray /\ sg_kind g (s_id s) KDef (s_type s)))))).

Lemma guse_kind k st ts name s es st' : guse k st ts name s es st' -> paren_kind k -> fine st -> find_builtin name = None -> s_kind s <> KBuiltin.
Proof.
  intros [k0 name0 st0 s0 st0' O | k0 name0 st0 ts0 es0 st1 s0 st0' G O] K F B.
  - eapply builtin_free; eauto.
  - exact (builtin_free _ _ _ _ _ _ K (names_fine _ _ (anames _ _ _ _ _ G) F) O B).
Qed.

Lemma occurs_kind_paren k name st s st' : paren_kind k -> fine st -> occurs k name true st s st' -> k = KArray ->
  s_kind s = KArray.
Proof.
  intros K [T W] O ->. destruct O as [p s0 P L E | p s0 P L E N U | p s0 P L E U | st1 p s0 L I E]; try discriminate.
  - destruct U as [U|U]; [discriminate | exact U].
  - reflexivity.
  - pose proof (insert_nth st name KArray (type_of_name name)) as X. rewrite I in X. cbn [fst snd] in X. rewrite E in X. injection X as ->. reflexivity.
Qed.

Lemma gram_wt stF : few_names stF ->
  (forall l st ts e st', gram l st ts e st' -> fine st -> Forall tok_ok ts -> names st' stF -> wt (final stF) e) /\
  (forall k st ts es st', gargs k st ts es st' -> fine st -> Forall tok_ok ts -> names st' stF -> Forall (wt (final stF)) es) /\
  (forall k st ts name s es st', guse k st ts name s es st' -> paren_kind k -> fine st -> Forall tok_ok ts -> names st' stF -> use_ok (final stF) k s es).
Proof.
  intros FEW. apply gram_ind3; intros; toks;
    try (match goal with H1 : gram _ _ _ _ ?st1, H2 : gram _ ?st1 _ _ ?st2, H3 : names ?st2 _ |- _ =>
           pose proof (names_trans _ _ _ (gnames _ _ _ _ _ H2) H3); pose proof (names_fine _ _ (gnames _ _ _ _ _ H1) ltac:(assumption)) end);
    try (cbn [wt bin_ok]; tauto).
  - (* name *) assert (K : paren_kind KUnknown) by (left; reflexivity).
    pose proof (guse_kind _ _ _ _ _ _ _ H0 K H2 H) as B. specialize (H1 K H2 H3 H4). destruct H1 as (U1 & U2 & [U3 | (U3 & U4)]); [contradiction|].
    destruct args as [|a args].
    + cbn [wt]. destruct U4 as [(_ & _ & U4) | (U4 & _)]; [auto | congruence].
    + cbn [wt]. destruct U4 as [(U4 & _) | (_ & _ & U4)]; [discriminate|]. split; [exact U3|]. split; [discriminate|]. split; [tauto|]. split; [exact U2|]. exact (proj2 (wt_all _ (a :: args)) U1).
  - (* function *) cbn [wt]. split; [exact (find_builtin_in _ _ H)|]. split; [assumption|]. split; [left; exact (gargs_fit _ _ _ _ _ H1)|].
    apply (proj2 (wt_all _ args)). apply H2; assumption.
  - cbn [wt]. split; [exact (find_builtin_in _ _ H)|]. split; [assumption|]. split; [right; eauto | exact I].
  - cbn [wt]. split; [exact (find_builtin_in _ _ H)|]. split; [assumption|]. split; [right; eauto | exact I].
  - cbn [wt]. split; [exact (find_builtin_in _ _ H)|]. split; [assumption|]. split; [eauto|]. apply H3; assumption.
  - constructor; [auto | constructor].
  - match goal with H1 : gram _ _ _ _ ?st1, H2 : gargs _ ?st1 _ _ ?st2, H3 : names ?st2 _ |- _ =>
           pose proof (names_trans _ _ _ (anames _ _ _ _ _ H2) H3); pose proof (names_fine _ _ (gnames _ _ _ _ _ H1) ltac:(assumption)) end.
    constructor; auto.
  - split; [constructor|]. split; [constructor|]. destruct (occurs_final _ _ _ _ _ _ _ H0 H1 H H3 FEW) as (k' & E & C & U & V & BU).
    destruct (occurs_typed _ _ _ _ _ _ H0 H1 H) as [Y|Y]; [|left; exact Y].
    destruct k'; cbn in C; try discriminate C.
    + right. split; [exact Y|]. left. split; [reflexivity|]. split; [|exists (s_name s), (s_id s); exact E].
      destruct V as [V|V]; [|congruence]. destruct (occurs_denotes _ _ _ _ _ _ H0 H1 H) as (p & E1 & (s1 & E2 & _ & C2)). rewrite E1 in E2. injection E2 as <-. rewrite V in C2. discriminate C2.
    + left. apply BU. reflexivity.
  - assert (F1 : fine st1) by (apply (names_fine _ _ (anames _ _ _ _ _ H) H3)).
    assert (N1 : names st1 stF) by (eapply names_trans; [exact (occurs_names _ _ _ _ _ _ H2 H1) | assumption]).
    pose proof (gargs_len _ _ _ _ _ H) as (_ & NE). pose proof (gargs_fit _ _ _ _ _ H) as FIT.
    split; [apply H0; assumption|]. split; [apply Forall2_ArgNum; exact FIT|].
    destruct (occurs_final _ _ _ _ _ _ _ H2 F1 H1 H5 FEW) as (k' & E & C & U & V & BU).
    destruct (occurs_typed _ _ _ _ _ _ H2 F1 H1) as [Y|Y]; [|left; exact Y].
    destruct (s_kind s) eqn:SK; [| | | |left; reflexivity].
    all: right; split; [exact Y|]; right; split; [exact NE|]; split; [discriminate|].
    all: destruct k'; cbn in C; try discriminate C; try congruence.
    all: try (left; exists (s_name s), (s_id s); exact E).
    all: try (destruct V as [V|V]; congruence).
    all: try (specialize (BU eq_refl); congruence).
    all: right; split; [intros KA; rewrite (occurs_kind_paren _ _ _ _ _ H2 F1 H1 KA) in SK; try discriminate SK; destruct V; congruence | exists (s_name s), (s_id s); exact E].
Qed.

(* ---------- statements ---------- *)

Local Notation num := wnum.

Lemma glist_names {A} (g : symtab -> list token -> A -> symtab -> Prop) st ts l st' :
  (forall st ts x st', g st ts x st' -> names st st') -> glist g st ts l st' -> names st st'.
Proof. intros H. induction 1; [eauto | eapply names_trans; eauto]. Qed.
Lemma gplace_names st ts p st' : gplace st ts p st' -> names st st'.
Proof. intros (nm & s & es & U & _). exact (unames _ _ _ _ _ _ _ U array_kind). Qed.
Lemma unknown_kind : paren_kind KUnknown.
Proof. left. reflexivity. Qed.
Lemma gvar_names st ts p st' : gvar st ts p st' -> names st st'.
Proof. intros (nm & s & _ & O & _). exact (occurs_names _ _ _ _ _ _ unknown_kind O). Qed.
Lemma gline_names st ts n st' : gline st ts n st' -> names st st'.
Proof. intros (t & _ & _ & ->). apply Nm_refl. Qed.
Lemma gexp_names t st ts e st' : gexp t st ts e st' -> names st st'.
Proof. intros [G _]. exact (gnames _ _ _ _ _ G). Qed.
Lemma gread_names st ts p st' : gread st ts p st' -> names st st'.
Proof. intros [G _]. exact (gplace_names _ _ _ _ G). Qed.
Lemma gdim_names st ts p st' : gdim st ts p st' -> names st st'.
Proof. intros [G _]. exact (gplace_names _ _ _ _ G). Qed.
Lemma gitems_names st ts l st' : gitems st ts l st' -> names st st'.
Proof. induction 1; [apply Nm_refl | assumption | assumption | | |]; (eapply names_trans; [|eassumption]); [eapply gnames; eassumption | eapply gexp_names; eassumption | eapply gexp_names; eassumption]. Qed.

Lemma def_kind : paren_kind KDef.
Proof. right. right. reflexivity. Qed.

Lemma gstmt_names st ts x st' : gstmt st ts x st' -> names st st'.
Proof.
  destruct 1; try apply Nm_refl; try (eapply gline_names; eassumption); try (eapply gexp_names; eassumption); try (eapply gitems_names; eassumption);
    try (eapply glist_names; [|eassumption]; first [exact gdim_names | exact gplace_names | exact gread_names | exact gvar_names]); try (eapply gplace_names; eassumption).
  - eapply names_trans; [exact (occurs_names _ _ _ _ _ _ def_kind H)|]. eapply names_trans; [eapply gvar_names | eapply gexp_names]; eassumption.
  - eapply names_trans; [eapply gvar_names; eassumption|]. eapply names_trans; eapply gexp_names; eassumption.
  - eapply names_trans; [eapply gvar_names; eassumption|]. eapply names_trans; [eapply gexp_names; eassumption|]. eapply names_trans; eapply gexp_names; eassumption.
  - eapply names_trans; [eapply gplace_names | eapply gexp_names]; eassumption.
  - eapply names_trans; [eapply gplace_names | eapply gexp_names]; eassumption.
  - eapply names_trans; [eapply gexp_names; eassumption|]. eapply glist_names; [|eassumption]. exact gline_names.
  - eapply names_trans; [eapply gexp_names; eassumption|]. eapply glist_names; [|eassumption]. exact gline_names.
Qed.

Section Final.
Variable stF : symtab.
Hypothesis FEW : few_names stF.
Let g := final stF.

Definition good_part {A} (gr : symtab -> list token -> A -> symtab -> Prop) (P : A -> Prop) : Prop :=
  forall st ts x st', gr st ts x st' -> fine st -> Forall tok_ok ts -> names st' stF -> P x.

Lemma glist_good {A} (gr : symtab -> list token -> A -> symtab -> Prop) P :
  (forall st ts x st', gr st ts x st' -> names st st') -> good_part gr P -> good_part (glist gr) (Forall P).
Proof.
  intros N H st ts l st' L. induction L as [st ts x st' X | st ts x st1 us l st2 X L IH]; intros F T NF; toks.
  - constructor; [eapply H; eassumption | constructor].
  - constructor.
    + eapply H; [exact X | exact F | assumption|]. eapply names_trans; [|exact NF]. eapply glist_names; [exact N | exact L].
    + apply IH; [|assumption|exact NF]. exact (names_fine _ _ (N _ _ _ _ X) F).
Qed.
Lemma gexp_good t : good_part (gexp t) (fun e => wt g e /\ etype e = t).
Proof. intros st ts e st' [G E] F T N. split; [|exact E]. exact (proj1 (gram_wt stF FEW) _ _ _ _ _ G F T N). Qed.
Lemma gplace_good : good_part gplace (wplace g).
Proof.
  intros st ts p st' (nm & s & es & U & ->) F T N. destruct (proj2 (proj2 (gram_wt stF FEW)) _ _ _ _ _ _ _ U array_kind F T N) as (A & B & C).
  split; [exact A|]. split; [exact B|]. cbn [pl_kind pl_type pl_subs pl_id]. destruct C as [C | (C & [D | (D & D1 & [D2 | (D2 & _)])])]; tauto.
Qed.
Lemma gvar_good : good_part gvar (nvar g).
Proof.
  intros st ts id st' (nm & s & -> & O & K & Y & ->) F T N.
  destruct (occurs_final _ _ _ _ _ _ _ unknown_kind F O N FEW) as (k' & E & _ & _ & [V | ->] & _); [congruence|].
  exists (s_name s), (s_id s). rewrite K, Y in E. exact E.
Qed.
Lemma gitems_good : good_part gitems (Forall (witem g)).
Proof.
  intros st ts l st' G. induction G; intros F T N; toks.
  - constructor.
  - constructor; [exact I | auto].
  - constructor; [exact I | auto].
  - constructor; [|apply IHG; [exact (names_fine _ _ (gnames _ _ _ _ _ H) F) | assumption | assumption]]. cbn. split; [|assumption].
    eapply (proj1 (gram_wt stF FEW)); [exact H | exact F | assumption|]. eapply names_trans; [exact (gitems_names _ _ _ _ G) | exact N].
  - constructor; [|apply IHG; [exact (names_fine _ _ (gexp_names _ _ _ _ _ H0) F) | assumption | assumption]].
    eapply (gexp_good TNum); [exact H0 | exact F | assumption|]. eapply names_trans; [exact (gitems_names _ _ _ _ G) | exact N].
  - constructor; [|apply IHG; [exact (names_fine _ _ (gexp_names _ _ _ _ _ H0) F) | assumption | assumption]].
    eapply (gexp_good TNum); [exact H0 | exact F | assumption|]. eapply names_trans; [exact (gitems_names _ _ _ _ G) | exact N].
Qed.
Lemma gprompt_good ps o : gprompt ps o -> Forall tok_ok ps -> oall short o.
Proof. intros [|w|w|w] T; toks; cbn; auto. Qed.

Lemma def_good name st s st1 : fine st -> occurs KDef name true st s st1 -> names st1 stF -> sg_kind g (s_id s) KDef (type_of_name name).
Proof.
  intros F O N. pose proof (occurs_final _ _ _ _ _ _ _ def_kind F O N FEW) as (k' & E & C & U & V & BU).
  assert (K : s_kind s = KDef).
  { destruct O as [p s0 P L X | p s0 P L X NU S | p s0 P L X US | st1 p s0 L X E1]; try discriminate.
    - destruct S as [S|S]; [discriminate | exact S].
    - reflexivity.
    - pose proof (insert_nth st name KDef (type_of_name name)) as Y. rewrite X in Y. cbn [fst snd] in Y. rewrite E1 in Y. injection Y as ->. reflexivity. }
  assert (Y : s_type s = type_of_name name).
  { destruct (occurs_denotes _ _ _ _ _ _ def_kind F O) as (p & E1 & (s1 & E2 & NM & _)). rewrite E1 in E2. injection E2 as <-.
    destruct (names_fine _ _ (occurs_names _ _ _ _ _ _ def_kind O) F) as [_ W]. destruct (W p s E1) as [B|B]; [congruence|]. rewrite B.
    assert (Z : forall a b, same_name a b -> type_of_name a = type_of_name b).
    { clear. intros a b H. unfold type_of_name, same_name in *. assert (L : option_map to_upper (last_opt a) = option_map to_upper (last_opt b)).
      { clear - H. assert (X : forall l, last_opt (map to_upper l) = option_map to_upper (last_opt l)).
        { induction l as [|c l IH]; [reflexivity|]. destruct l; [reflexivity|]. exact IH. }
        rewrite <- !X, H. reflexivity. }
      destruct (last_opt a) as [c|], (last_opt b) as [d|]; try discriminate L; try reflexivity. cbn in L. injection L as L.
      assert (Q : ceq c "$" = ceq d "$"); [|rewrite Q; reflexivity].
      assert (R : forall c, ceq c "$" = ceq (to_upper c) "$").
      { clear. intros c. assert (X : forallb (fun c => Bool.eqb (ceq c "$") (ceq (to_upper c) "$")) all_ascii = true) by (vm_compute; reflexivity).
        rewrite forallb_forall in X. specialize (X c (all_ascii_in c)). apply Bool.eqb_prop in X. exact X. }
      rewrite (R c), (R d), L. reflexivity. }
    apply Z. exact NM. }
  exists (s_name s), (s_id s). destruct V as [V|V]; [congruence|]. rewrite V, K, Y in E. exact E.
Qed.

Lemma gstmt_good : good_part gstmt (wstmt g).
Proof.
  intros st ts x st' G F T N. destruct G; toks; cbn [wstmt]; try exact I.
  - (* DEF *) destruct (gexp_good _ _ _ _ _ H1 ltac:(eapply names_fine; [|exact F]; eapply names_trans; [exact (occurs_names _ _ _ _ _ _ def_kind H) | exact (gvar_names _ _ _ _ H0)]) ltac:(assumption) N) as (W & Y).
    assert (N2 : names st2 stF) by (eapply names_trans; [exact (gexp_names _ _ _ _ _ H1) | exact N]).
    assert (N1 : names st1 stF) by (eapply names_trans; [exact (gvar_names _ _ _ _ H0) | exact N2]).
    rewrite Y. split; [apply type_of_name_ok|]. split; [exact (def_good _ _ _ _ F H N1)|]. split; [|exact W].
    refine (gvar_good _ _ _ _ H0 _ _ N2); [|assumption]. exact (names_fine _ _ (occurs_names _ _ _ _ _ _ def_kind H) F).
  - refine (glist_good gdim (fun p => wplace g p /\ pl_kind p = KArray) gdim_names _ _ _ _ _ H F _ N); [|assumption].
    intros st0 ts0 p st0' [G K] F0 T0 N0. split; [exact (gplace_good _ _ _ _ G F0 T0 N0) | exact K].
  - assert (N2 : names st2 stF) by (eapply names_trans; [exact (gexp_names _ _ _ _ _ H1) | exact N]).
    assert (N1 : names st1 stF) by (eapply names_trans; [exact (gexp_names _ _ _ _ _ H0) | exact N2]).
    pose proof (names_fine _ _ (gvar_names _ _ _ _ H) F) as F1. pose proof (names_fine _ _ (gexp_names _ _ _ _ _ H0) F1) as F2.
    split; [exact (gvar_good _ _ _ _ H F ltac:(assumption) N1)|]. split; [exact (gexp_good _ _ _ _ _ H0 F1 ltac:(assumption) N2)|].
    split; [exact (gexp_good _ _ _ _ _ H1 F2 ltac:(assumption) N) | exact I].
  - assert (N3 : names st3 stF) by (eapply names_trans; [exact (gexp_names _ _ _ _ _ H2) | exact N]).
    assert (N2 : names st2 stF) by (eapply names_trans; [exact (gexp_names _ _ _ _ _ H1) | exact N3]).
    assert (N1 : names st1 stF) by (eapply names_trans; [exact (gexp_names _ _ _ _ _ H0) | exact N2]).
    pose proof (names_fine _ _ (gvar_names _ _ _ _ H) F) as F1. pose proof (names_fine _ _ (gexp_names _ _ _ _ _ H0) F1) as F2.
    pose proof (names_fine _ _ (gexp_names _ _ _ _ _ H1) F2) as F3.
    split; [exact (gvar_good _ _ _ _ H F ltac:(assumption) N1)|]. split; [exact (gexp_good _ _ _ _ _ H0 F1 ltac:(assumption) N2)|].
    split; [exact (gexp_good _ _ _ _ _ H1 F2 ltac:(assumption) N3) | exact (gexp_good _ _ _ _ _ H2 F3 ltac:(assumption) N)].
  - split; [eapply gprompt_good; eassumption|]. exact (glist_good gplace (wplace g) gplace_names gplace_good _ _ _ _ H0 F ltac:(assumption) N).
  - split; [eapply gprompt_good; eassumption|]. split; [exact (gplace_good _ _ _ _ H0 F ltac:(assumption) N) | assumption].
  - assert (N1 : names st1 stF) by (eapply names_trans; [exact (gexp_names _ _ _ _ _ H0) | exact N]).
    split; [exact (gplace_good _ _ _ _ H F ltac:(assumption) N1)|]. exact (gexp_good _ _ _ _ _ H0 (names_fine _ _ (gplace_names _ _ _ _ H) F) ltac:(assumption) N).
  - assert (N1 : names st1 stF) by (eapply names_trans; [exact (gexp_names _ _ _ _ _ H0) | exact N]).
    split; [exact (gplace_good _ _ _ _ H F ltac:(assumption) N1)|]. exact (gexp_good _ _ _ _ _ H0 (names_fine _ _ (gplace_names _ _ _ _ H) F) ltac:(assumption) N).
  - constructor.
  - exact (glist_good gvar (nvar g) gvar_names gvar_good _ _ _ _ H F ltac:(assumption) N).
  - assert (N1 : names st1 stF) by (eapply names_trans; [exact (glist_names _ _ _ _ _ gline_names H0) | exact N]).
    exact (gexp_good _ _ _ _ _ H F ltac:(assumption) N1).
  - assert (N1 : names st1 stF) by (eapply names_trans; [exact (glist_names _ _ _ _ _ gline_names H0) | exact N]).
    exact (gexp_good _ _ _ _ _ H F ltac:(assumption) N1).
  - exact (gitems_good _ _ _ _ H F ltac:(assumption) N).
  - exact (gitems_good _ _ _ _ H F ltac:(assumption) N).
  - exact (gexp_good _ _ _ _ _ H F ltac:(assumption) N).
  - refine (glist_good gread (fun p => wplace g p /\ pl_type p <> TErr) gread_names _ _ _ _ _ H F _ N); [|assumption].
    intros st0 ts0 p st0' [G K] F0 T0 N0. split; [exact (gplace_good _ _ _ _ G F0 T0 N0) | exact K].
Qed.
End Final.

(* ---------- lines ---------- *)

Lemma scan_datum_short s : forall n acc, length acc = n -> n <= 127 ->
  match scan_datum s n acc with Some (w, _) => length w <= 127 | None => True end.
Proof.
  induction s as [|c s IH]; intros n acc L B; cbn [scan_datum]; [lia|].
  destruct (negb (lex_valid c)); [exact I|]. destruct (_ || _)%bool; [lia|].
  destruct (Nat.leb MAX_WORD (n + 1)) eqn:M; [exact I|]. apply Nat.leb_gt in M. unfold MAX_WORD in M. apply IH; cbn; lia.
Qed.
Lemma drop_while_short {A} (p : A -> bool) l : length (drop_while p l) <= length l.
Proof. induction l as [|a l IH]; cbn; [lia|]. destruct (p a); cbn; lia. Qed.

Lemma datum_short s w r : datum_is s w r -> short w.
Proof. unfold short. destruct 1 as [|? w c ? ? ? ? ? L]; [assumption|]. rewrite app_length in L. lia. Qed.
Lemma gdata_short kw r l L : gdata kw r l L -> Forall short l /\ tok_ok (fst L).
Proof.
  induction 1 as [r w r' L D A _ | r w r' r1 l L D A G [IH T]]; apply datum_short in D.
  - split; [constructor; [exact D | constructor] | exact (advance_tok _ _ _ A)].
  - split; [constructor; assumption | exact T].
Qed.

Lemma lstep_names kw ph L st xs ph' L' st' xs' : lstep kw ph L st xs ph' L' st' xs' -> names st st'.
Proof. destruct 1; try apply Nm_refl; try (eapply gexp_names; eassumption). eapply gstmt_names; eassumption. Qed.
Lemma lsteps_names kw ph L st xs ph' L' st' xs' : lsteps kw ph L st xs ph' L' st' xs' -> names st st'.
Proof. induction 1; [apply Nm_refl|]. eapply names_trans; [eassumption | eapply lstep_names; eassumption]. Qed.
Lemma line_is_names kw text st xs st' : line_is kw text st xs st' -> names st st'.
Proof. intros (L & ph & r & _ & S & _). eapply lsteps_names; eassumption. Qed.
Lemma program_is_names kw st src xss st' : program_is kw st src xss st' -> names st st'.
Proof. induction 1; [apply Nm_refl|]. eapply names_trans; [eapply line_is_names|]; eassumption. Qed.

Section Lines.
Variable stF : symtab.
Hypothesis FEW : few_names stF.
Let g := final stF.

Lemma lstep_good kw ph L st xs ph' L' st' xs' : lstep kw ph L st xs ph' L' st' xs' -> fine st -> tok_ok (fst L) -> names st' stF ->
  Forall (wstmt g) xs -> Forall (wstmt g) xs' /\ tok_ok (fst L').
Proof.
  destruct 1; intros F T N X.
  - destruct (reads_tok _ _ _ _ H0 T) as (T1 & T2). split; [|exact T2]. apply Forall_app. split; [exact X|]. constructor; [|constructor].
    exact (gstmt_good stF FEW _ _ _ _ H1 F T1 N).
  - destruct (gdata_short _ _ _ _ H0) as (S0 & T1). split; [|exact T1]. apply Forall_app. split; [exact X|]. constructor; [exact S0 | constructor].
  - split; [|exact I]. apply Forall_app. split; [exact X|]. constructor; [exact I | constructor].
  - split; assumption.
  - destruct (reads_tok _ _ _ _ H0 T) as (T1 & T2). toks. split; [|exact T2]. apply Forall_app. split; [exact X|]. constructor; [|constructor].
    exact (gexp_good stF FEW TNum _ _ _ _ H1 F ltac:(assumption) N).
  - destruct (reads_tok _ _ _ _ H0 T) as (T1 & T2). toks. split; [|exact T2]. apply Forall_app. split; [exact X|]. constructor; [|constructor].
    exact (gexp_good stF FEW TNum _ _ _ _ H1 F ltac:(assumption) N).
  - destruct (reads_tok _ _ _ _ H0 T) as (_ & T2). split; [|exact T2]. apply Forall_app in X. destruct X as [X1 X2]. inversion X2; subst.
    apply Forall_app. split; [exact X1|]. constructor; [assumption|]. apply Forall_app. split; [assumption|]. constructor; [exact I | constructor].
  - destruct (reads_tok _ _ _ _ H T) as (_ & T2). split; [|exact T2]. apply Forall_app. split; [exact X|]. constructor; [exact I | constructor].
  - destruct (reads_tok _ _ _ _ H0 T) as (_ & T2). split; assumption.
Qed.
Lemma lsteps_good kw ph L st xs ph' L' st' xs' : lsteps kw ph L st xs ph' L' st' xs' -> fine st -> tok_ok (fst L) -> names st' stF ->
  Forall (wstmt g) xs -> Forall (wstmt g) xs' /\ tok_ok (fst L').
Proof.
  induction 1; intros F T N X; [auto|]. destruct IHlsteps as (X1 & T1); auto.
  { eapply names_trans; [eapply lstep_names; eassumption | exact N]. }
  refine (lstep_good _ _ _ _ _ _ _ _ _ H0 _ T1 N X1). exact (names_fine _ _ (lsteps_names _ _ _ _ _ _ _ _ _ H) F).
Qed.
Lemma line_good kw text st xs st' : line_is kw text st xs st' -> fine st -> names st' stF -> Forall (wstmt g) xs.
Proof. intros (L & ph & r & A & S & _) F N. exact (proj1 (lsteps_good _ _ _ _ _ _ _ _ _ S F (advance_tok _ _ _ A) N (Forall_nil _))). Qed.
Lemma program_good kw st src xss st' : program_is kw st src xss st' -> fine st -> names st' stF -> Forall (Forall (wstmt g)) xss.
Proof.
  induction 1; intros F N; constructor.
  - eapply line_good; [eassumption | exact F|]. eapply names_trans; [eapply program_is_names; eassumption | exact N].
  - apply IHprogram_is; [|exact N]. exact (names_fine _ _ (line_is_names _ _ _ _ _ H) F).
Qed.
End Lines.

(* ---------- code ---------- *)

Section ExprInd.
Variable P : expr -> Prop.
Hypothesis Hnum : forall x, P (ENum x).
Hypothesis Hstr : forall w, P (EStr w).
Hypothesis Hvar : forall id t, P (EVar id t).
Hypothesis Helem : forall id t l, Forall P l -> P (EElem id t l).
Hypothesis Hfun : forall b l, Forall P l -> P (EFun b l).
Hypothesis Hdrop : forall b a, P a -> P (EDrop b a).
Hypothesis Hnegs : forall n a, P a -> P (ENegs n a).
Hypothesis Hnots : forall n a, P a -> P (ENots n a).
Hypothesis Hbin : forall o a b, P a -> P b -> P (EBin o a b).
Hypothesis Hbad : forall a b, P a -> P b -> P (EBad a b).
Fixpoint expr_rec' (e : expr) : P e :=
  let all := fix all (l : list expr) : Forall P l := match l with [] => Forall_nil _ | a :: r => Forall_cons _ (expr_rec' a) (all r) end in
  match e with
  | ENum x => Hnum x | EStr w => Hstr w | EVar id t => Hvar id t
  | EElem id t l => Helem id t l (all l) | EFun b l => Hfun b l (all l)
  | EDrop b a => Hdrop b a (expr_rec' a) | ENegs n a => Hnegs n a (expr_rec' a) | ENots n a => Hnots n a (expr_rec' a)
  | EBin o a b => Hbin o a b (expr_rec' a) (expr_rec' b) | EBad a b => Hbad a b (expr_rec' a) (expr_rec' b)
  end.
End ExprInd.

Lemma everywhere_all P l : (fix all (l : list expr) : Prop := match l with [] => True | a :: r => everywhere P a /\ all r end) l <-> Forall (everywhere P) l.
Proof.
  induction l as [|a l IH]; split; intros H; [constructor | exact I | |].
  - destruct H as [H K]. constructor; [exact H | apply IH; exact K].
  - inversion H; subst. split; [assumption | apply IH; assumption].
Qed.

(* the instructions expressions are made of *)
Definition exprop (i : instr) : bool :=
  match i with
  | I_PUSH_NUM _ | I_PUSH_STR _ | I_GET_SIMPLE_NUM _ | I_GET_SIMPLE_STR _ | I_GET_PAREN_NUM _ _ | I_GET_PAREN_STR _ _
  | I_POP_NUM | I_POP_STR | I_NEG | I_NOT
  | I_ADD | I_SUB | I_MUL | I_DIV | I_POW | I_EQ_NUM | I_LT_NUM | I_GT_NUM | I_NE_NUM | I_LE_NUM | I_GE_NUM | I_OR | I_AND
  | I_EQ_STR | I_NE_STR | I_LT_STR | I_GT_STR | I_LE_STR | I_GE_STR | I_CONCAT
  | I_ABS | I_ASC | I_ATN | I_CHR | I_COS | I_EXP | I_INT | I_LEFT | I_LEN
  | I_LOG | I_MID3 | I_RIGHT | I_RND | I_SGN | I_SIN | I_SQR | I_STR | I_TAN | I_TIME_STR | I_VAL => true
  | _ => false
  end.

Lemma builtin_op b : In b builtins -> bi_type b <> TErr -> exprop (bi_op b) = true /\ forall g, instr_ok g (bi_op b) /\ const_ok (bi_op b).
Proof.
  intros H Y. assert (X : forallb (fun b => match bi_type b with TErr => true | _ => exprop (bi_op b) && match bi_op b with
    | I_PUSH_NUM _ | I_PUSH_STR _ | I_GET_SIMPLE_NUM _ | I_GET_SIMPLE_STR _ | I_GET_PAREN_NUM _ _ | I_GET_PAREN_STR _ _ => false | _ => true end end) builtins = true) by reflexivity.
  rewrite forallb_forall in X. specialize (X b H). destruct (bi_type b); [contradiction| |]; apply andb_prop in X; destruct X as [X1 X2];
    (split; [exact X1|]); intros g; destruct (bi_op b); try discriminate; split; exact I.
Qed.
Lemma bin_op_ok o t : exprop (bin_instr o t) = true /\ forall g, instr_ok g (bin_instr o t) /\ const_ok (bin_instr o t).
Proof. destruct o as [| |[]| | | | |], t; (split; [reflexivity|]); intros g; split; exact I. Qed.

Definition few_args (e : expr) : Prop := match e with EElem _ _ l => length l <= 2 | _ => True end.

Lemma Forall_flat_map {A B} (P : B -> Prop) (f : A -> list B) l : Forall (fun a => Forall P (f a)) l -> Forall P (flat_map f l).
Proof. induction 1; cbn; [constructor|]. apply Forall_app. auto. Qed.

Lemma ecode_exprop g e : wt g e -> Forall (fun i => exprop i = true /\ const_ok i) (ecode e).
Proof.
  induction e using expr_rec'; intros W; cbn [ecode].
  - constructor; [split; [reflexivity | exact W] | constructor].
  - constructor; [split; [reflexivity|] | constructor]. cbn in *. unfold string_ok. lia.
  - constructor; [|constructor]. destruct t; split; try reflexivity; exact I.
  - cbn [wt] in W. destruct W as (Y & NE & K & TN & AL). apply wt_all in AL. apply Forall_app. split.
    + apply Forall_flat_map. revert H AL. clear. induction 1; intros AL; inversion AL; subst; constructor; auto.
    + constructor; [|constructor]. destruct t; split; try reflexivity; exact I.
  - cbn [wt] in W. destruct W as (B & Y & F & AL). apply wt_all in AL. apply Forall_app. split.
    + apply Forall_flat_map. revert H AL. clear. induction 1; intros AL; inversion AL; subst; constructor; auto.
    + constructor; [|constructor]. destruct (builtin_op _ B Y) as [X1 X2]. split; [exact X1 | apply (X2 g)].
  - cbn [wt] in W. destruct W as (B & Y & F & AL). apply Forall_app. split; [auto|]. apply Forall_app. split.
    + destruct (etype e); repeat constructor.
    + constructor; [|constructor]. destruct (builtin_op _ B Y) as [X1 X2]. split; [exact X1 | apply (X2 g)].
  - destruct W. apply Forall_app. split; [auto|]. destruct (Nat.odd n); repeat constructor.
  - destruct W. apply Forall_app. split; [auto|]. destruct (Nat.odd n); repeat constructor.
  - destruct W as (_ & W1 & W2). apply Forall_app. split; [auto|]. apply Forall_app. split; [auto|]. constructor; [|constructor].
    destruct (bin_op_ok o (etype e1)) as [X1 X2]. split; [exact X1 | apply (X2 g)].
  - destruct W as (W1 & W2). apply Forall_app. split; auto.
Qed.

Lemma u8_small n : n <= 2 -> u8 (N.of_nat n) = N.of_nat n.
Proof. intros H. unfold u8. rewrite N.mod_small; lia. Qed.

Lemma ecode_ok g e : wt g e -> everywhere few_args e -> Forall (instr_ok g) (ecode e).
Proof.
  induction e using expr_rec'; intros W V; cbn [ecode].
  - repeat constructor.
  - repeat constructor.
  - constructor; [|constructor]. destruct W as [Y K]. destruct t; [contradiction | exact K | exact K].
  - cbn [wt] in W. destruct W as (Y & NE & K & TN & AL). apply wt_all in AL. destruct V as (V1 & V2). apply everywhere_all in V2. apply Forall_app. split.
    + apply Forall_flat_map. revert H AL V2. clear. induction 1; intros AL V2; inversion AL; inversion V2; subst; constructor; auto.
    + constructor; [|constructor]. cbn in V1. unfold paren_instr. rewrite u8_small by exact V1. assert (1 <= length l) by (destruct l; [contradiction | cbn; lia]).
      destruct t; [contradiction| |]; cbn [instr_ok]; (destruct K as [K|K]; [left; split; [lia | exact K] | right; exact K]).
  - cbn [wt] in W. destruct W as (B & Y & F & AL). apply wt_all in AL. destruct V as (V1 & V2). apply everywhere_all in V2. apply Forall_app. split.
    + apply Forall_flat_map. revert H AL V2. clear. induction 1; intros AL V2; inversion AL; inversion V2; subst; constructor; auto.
    + constructor; [|constructor]. destruct (builtin_op _ B Y) as [X1 X2]. apply X2.
  - cbn [wt] in W. destruct W as (B & Y & F & AL). destruct V as (V1 & V2). apply Forall_app. split; [auto|]. apply Forall_app. split.
    + destruct (etype e); repeat constructor.
    + constructor; [|constructor]. destruct (builtin_op _ B Y) as [X1 X2]. apply X2.
  - destruct W, V. apply Forall_app. split; [auto|]. destruct (Nat.odd n); repeat constructor.
  - destruct W, V. apply Forall_app. split; [auto|]. destruct (Nat.odd n); repeat constructor.
  - destruct W as (_ & W1 & W2), V as (_ & V1 & V2). apply Forall_app. split; [auto|]. apply Forall_app. split; [auto|]. constructor; [|constructor].
    apply bin_op_ok.
  - destruct W as (W1 & W2), V as (_ & V1 & V2). apply Forall_app. split; auto.
Qed.

(* the instructions a statement may consist of besides its DEF header *)
Lemma code_ok_app g l m : code_ok g l -> code_ok g m -> code_ok g (l ++ m).
Proof.
  intros [A B] [C D]. split; [apply Forall_app; auto|]. intros pc id n H. destruct (Nat.lt_ge_cases pc (length l)) as [X|X].
  - rewrite nth_error_app1 in H by exact X. destruct (B _ _ _ H) as (pid & E). exists pid. rewrite nth_error_app1; [exact E|]. apply nth_error_Some. congruence.
  - rewrite nth_error_app2 in H by exact X. destruct (D _ _ _ H) as (pid & E). exists pid. rewrite nth_error_app2 by lia. replace (S pc - length l) with (S (pc - length l)) by lia. exact E.
Qed.
Definition not_def (i : instr) : Prop := match i with I_DEF _ _ => False | _ => True end.
Lemma code_ok_plain g l : Forall (instr_ok g) l -> Forall not_def l -> code_ok g l.
Proof.
  intros A B. split; [exact A|]. intros pc id n H. exfalso. rewrite Forall_forall in B. apply nth_error_In in H. exact (B _ H).
Qed.
Lemma code_ok_flat {A} g (f : A -> list instr) l : Forall (fun x => code_ok g (f x)) l -> code_ok g (flat_map f l).
Proof. induction 1; cbn; [apply code_ok_plain; constructor | apply code_ok_app; assumption]. Qed.
Lemma code_ok_one g i : instr_ok g i -> not_def i -> code_ok g [i].
Proof. intros. apply code_ok_plain; (constructor; [assumption | constructor]). Qed.
Lemma code_ok_cons g i l : instr_ok g i -> not_def i -> code_ok g l -> code_ok g (i :: l).
Proof. intros. apply (code_ok_app g [i] l); [apply code_ok_one|]; assumption. Qed.
Lemma exprop_not_def i : exprop i = true -> not_def i.
Proof. destruct i; try discriminate; intros _; exact I. Qed.
Lemma ecode_code_ok g e : wt g e -> everywhere few_args e -> code_ok g (ecode e).
Proof.
  intros W V. apply code_ok_plain; [apply ecode_ok; assumption|]. apply Forall_impl with (2 := ecode_exprop g e W). intros i [H _]. exact (exprop_not_def i H).
Qed.

Section Places.
Variable g : list sig.
Variable p : place.
Hypothesis W : wplace g p.
Hypothesis FEW : length (pl_subs p) <= 2.
Hypothesis EV : Forall (everywhere few_args) (pl_subs p).
Hypothesis NB : pl_kind p <> KBuiltin.
Lemma subs_code_ok : code_ok g (subs_code p).
Proof.
  destruct W as (A & _). apply code_ok_flat. revert A EV. generalize (pl_subs p). clear. induction l; intros A EV; inversion A; inversion EV; subst; constructor; auto.
  apply ecode_code_ok; assumption.
Qed.
Lemma nsubs_len : nsubs p = N.of_nat (length (pl_subs p)).
Proof. unfold nsubs. apply u8_small. exact FEW. Qed.
Lemma place_var t : pl_type p = t -> var_ok g (pl_id p) (nsubs p) t.
Proof.
  intros <-. destruct W as (_ & _ & [K | (Y & [(E & _ & S) | (E & _ & S)])]); [contradiction| |]; rewrite nsubs_len.
  - left. rewrite E. split; [reflexivity | exact S].
  - right. split; [|exact S]. destruct (pl_subs p); [contradiction | cbn [length] in *; lia].
Qed.
Lemma place_typed : pl_type p <> TErr.
Proof. destruct W as (_ & _ & [K | (Y & _)]); [contradiction | exact Y]. Qed.
Lemma set_ok : instr_ok g (set_instr p) /\ not_def (set_instr p).
Proof.
  pose proof W as (_ & _ & [K | (Y & [(E & _ & S) | (E & _ & S)])]); [contradiction| |]; unfold set_instr.
  - rewrite E. destruct (pl_type p); [contradiction| |]; split; try exact I; exact S.
  - pose proof nsubs_len as N. destruct (pl_subs p); [contradiction|]. cbn [length] in *. destruct (pl_type p); [contradiction| |]; split; try exact I; (split; [lia | exact S]).
Qed.
Lemma input_ok : code_ok g (input_code p).
Proof.
  apply code_ok_app; [exact subs_code_ok|]. pose proof place_typed as Y. pose proof (place_var _ eq_refl) as V. destruct (pl_type p) eqn:E; [contradiction| |]; apply code_ok_one; try exact I; exact V.
Qed.
Lemma read_ok : code_ok g (read_code p).
Proof.
  apply code_ok_app; [exact subs_code_ok|]. pose proof place_typed as Y. pose proof (place_var _ eq_refl) as V. destruct (pl_type p) eqn:E; [contradiction| |]; apply code_ok_one; try exact I; exact V.
Qed.
Lemma dim_ok : pl_kind p = KArray -> code_ok g (dim_code p).
Proof.
  intros K. apply code_ok_app; [exact subs_code_ok|]. pose proof W as (_ & _ & [K' | (Y & [(E & K' & S) | (E & _ & S)])]); [contradiction|congruence|].
  pose proof nsubs_len as N. assert (1 <= length (pl_subs p)) by (destruct (pl_subs p); [contradiction | cbn; lia]).
  destruct (pl_type p); [contradiction| |]; apply code_ok_one; try exact I; (split; [lia | exact S]).
Qed.
End Places.

Lemma scode_ok g x : wstmt g x -> few_subs x -> proper_targets x -> code_ok g (scode x).
Proof.
  intros W [F1 F2] T. unfold exprs in F2. apply Forall_app in F2. destruct F2 as [F2 F3]. change (Forall (everywhere few_args) (flat_map pl_subs (targets x))) in F2.
  unfold proper_targets in T.
  assert (Z : forall l, Forall (everywhere few_args) (flat_map pl_subs l) -> Forall (fun p => Forall (everywhere few_args) (pl_subs p)) l).
  { clear. induction l; cbn; intros H; constructor; apply Forall_app in H; destruct H; auto. }
  apply Z in F2. clear Z.
  destruct x; cbn [scode wstmt targets] in *; try (apply code_ok_one; exact I).
  - apply code_ok_plain; constructor.
  - apply code_ok_plain; apply Forall_forall; intros i H; apply in_map_iff in H; destruct H as (w & <- & _); exact I.
  - destruct W as (Y & D & V & E). inversion F3; subst. split.
    + constructor; [exists (etype body); exact D|]. constructor; [exact V|]. apply Forall_app. split; [apply ecode_ok; assumption | repeat constructor].
    + intros [|[|pc]] id0 n H; cbn in H.
      * exists param. reflexivity.
      * discriminate.
      * exfalso. assert (X : Forall not_def (ecode body ++ [I_END_DEF])).
        { apply Forall_app. split; [|repeat constructor]. apply Forall_impl with (2 := ecode_exprop g body E). intros i [X _]. exact (exprop_not_def i X). }
        rewrite Forall_forall in X. apply nth_error_In in H. exact (X _ H).
  - apply code_ok_flat. revert W F1 F2 T. clear. induction 1 as [|p l [W K] _ IH]; intros F1 F2 T; inversion F1; inversion F2; inversion T; subst; constructor; auto. apply dim_ok; assumption.
  - destruct W as (V & (A & _) & (B & _) & C). inversion F3; subst. inversion H2; subst. apply code_ok_app; [apply ecode_code_ok; assumption|].
    apply code_ok_app; [apply ecode_code_ok; assumption|]. apply code_ok_app; [|apply code_ok_one; [exact V | exact I]].
    destruct step; cbn in *; [|apply code_ok_one; exact I]. destruct C as (C & _). inversion H4; subst. apply ecode_code_ok; assumption.
  - destruct W as (W & _). inversion F3; subst. apply code_ok_app; [apply ecode_code_ok; assumption|]. destruct has_else; apply code_ok_one; exact I.
  - destruct W as (W & _). inversion F3; subst. apply code_ok_app; [apply ecode_code_ok; assumption|]. apply code_ok_one; exact I.
  - destruct W as (_ & W). apply code_ok_cons; try exact I. apply code_ok_app; [|apply code_ok_one; exact I].
    destruct W as [|p l W1 W]; [apply code_ok_plain; constructor|]. inversion F1; inversion F2; inversion T; subst. apply code_ok_app; [apply input_ok; assumption|].
    apply code_ok_flat. revert W H2 H6 H10. clear. induction 1 as [|p l W _ IH]; intros F1 F2 T; inversion F1; inversion F2; inversion T; subst; constructor; auto.
    apply code_ok_cons; try exact I. apply input_ok; assumption.
  - destruct W as (_ & W & Y). inversion F1; inversion F2; inversion T; subst. apply code_ok_cons; try exact I. apply code_ok_app; [apply subs_code_ok; assumption|].
    apply code_ok_one; [|exact I]. apply place_var; assumption.
  - destruct W as (W & E & Y). inversion F1; inversion F2; inversion T; inversion F3; subst. apply code_ok_app; [apply subs_code_ok; assumption|].
    apply code_ok_app; [apply ecode_code_ok; assumption|]. pose proof (set_ok g p W H1 H5 H9) as [X1 X2]. apply code_ok_one; assumption.
  - destruct l as [|a l]; [apply code_ok_one; exact I|]. apply code_ok_plain; apply Forall_forall; intros i H; apply in_map_iff in H; destruct H as (w & <- & H); [|exact I].
    cbn. rewrite Forall_forall in W. apply W. exact H.
  - destruct W as (W & _). inversion F3; subst. apply code_ok_app; [apply ecode_code_ok; assumption|]. apply code_ok_cons; [destruct gosub; exact I | destruct gosub; exact I|].
    apply code_ok_plain; apply Forall_forall; intros i H; apply in_map_iff in H; destruct H as (w & <- & _); exact I.
  - apply code_ok_app; [|destruct (separator_last l); [apply code_ok_plain; constructor | apply code_ok_one; exact I]].
    apply code_ok_flat. cbn [app] in F3. revert W F3. clear. induction 1 as [|i l W _ IH]; intros F3; constructor.
    + destruct i; cbn [item_code witem flat_map app] in *; try (apply code_ok_one; exact I); try (apply code_ok_plain; constructor).
      * inversion F3; subst. destruct W. apply code_ok_app; [apply ecode_code_ok; assumption|]. destruct (etype e); apply code_ok_one; exact I.
      * inversion F3; subst. destruct W. apply code_ok_app; [apply ecode_code_ok; assumption|]. apply code_ok_one; exact I.
      * inversion F3; subst. destruct W. apply code_ok_app; [apply ecode_code_ok; assumption|]. apply code_ok_one; exact I.
    + apply IH. destruct i; cbn in F3; try exact F3; inversion F3; subst; assumption.
  - destruct e; [|apply code_ok_one; exact I]. destruct W as (W & _). inversion F3; subst. apply code_ok_app; [apply ecode_code_ok; assumption|]. apply code_ok_one; exact I.
  - apply code_ok_flat. revert W F1 F2 T. clear. induction 1 as [|p l [W K] _ IH]; intros F1 F2 T; inversion F1; inversion F2; inversion T; subst; constructor; auto. apply read_ok; assumption.
  - destruct n; apply code_ok_one; exact I.
Qed.

Lemma subs_consts g p : wplace g p -> Forall (fun i => exprop i = true /\ const_ok i) (subs_code p).
Proof. intros (A & _). apply Forall_flat_map. apply Forall_impl with (2 := A). intros e. apply ecode_exprop. Qed.

(* constants fit, and the code of a statement has no line markers and, but
   for ELSE itself, no ELSE *)
Definition unmarked (i : instr) : Prop := const_ok i /\ match i with I_SOURCE_LINE _ => False | _ => True end.
Definition plain (i : instr) : Prop := const_ok i /\ match i with I_SOURCE_LINE _ | I_ELSE => False | _ => True end.
Definition stmt_plain (x : stmt) : Prop := x = SElse \/ Forall plain (scode x).
Lemma exprop_plain i : exprop i = true /\ const_ok i -> plain i.
Proof. intros [A B]. split; [exact B|]. destruct i; try discriminate; exact I. Qed.
Lemma plain_one i : plain i -> Forall plain [i].
Proof. intros. constructor; [assumption | constructor]. Qed.
Ltac one_plain := apply plain_one; split; exact I.
Ltac map_plain := apply Forall_forall; intros ? HH; apply in_map_iff in HH; destruct HH as (? & <- & HH); split; exact I.

Lemma gram_plain :
  (forall l st ts e st', gram l st ts e st' -> Forall tok_ok ts -> Forall plain (ecode e)) /\
  (forall k st ts es st', gargs k st ts es st' -> Forall tok_ok ts -> Forall plain (flat_map ecode es)) /\
  (forall k st ts name s es st', guse k st ts name s es st' -> Forall tok_ok ts -> Forall plain (flat_map ecode es)).
Proof.
  assert (BP : forall w b, find_builtin w = Some b -> bi_type b <> TErr -> plain (bi_op b)).
  { intros w b F Y. destruct (builtin_op b (find_builtin_in _ _ F) Y) as [A B]. apply exprop_plain. split; [exact A | apply (B [])]. }
  assert (OP : forall o t, plain (bin_instr o t)).
  { intros o t. destruct (bin_op_ok o t) as [A B]. apply exprop_plain. split; [exact A | apply (B [])]. }
  apply gram_ind3; intros; toks; cbn [ecode flat_map app] in *; try (constructor; fail); auto;
    try (repeat (apply Forall_app; split); auto; try (constructor; [eauto | constructor]); fail).
  - apply Forall_app. split; [auto|]. destruct (Nat.odd _); [one_plain | constructor].
  - apply Forall_app. split; [auto|]. destruct (Nat.odd _); [one_plain | constructor].
  - apply plain_one. split; [assumption | exact I].
  - apply plain_one. split; [|exact I]. cbn in *. unfold string_ok. lia.
  - destruct args as [|a args]; cbn [ecode].
    + destruct (s_type s); one_plain.
    + apply Forall_app. split; [auto|]. destruct (s_type s); one_plain.
  - apply Forall_app. split; [auto|]. apply Forall_app. split; [|constructor; [eauto | constructor]]. destruct (etype e); try one_plain. constructor.
Qed.

Definition part_plain {A} (gr : symtab -> list token -> A -> symtab -> Prop) (f : A -> list instr) : Prop :=
  forall st ts x st', gr st ts x st' -> Forall tok_ok ts -> Forall plain (f x).
Lemma glist_plain {A} (gr : symtab -> list token -> A -> symtab -> Prop) f : part_plain gr f -> part_plain (glist gr) (flat_map f).
Proof.
  intros H st ts l st' L. induction L as [st ts x st' X | st ts x st1 us l st2 X L IH]; intros T; toks; cbn [flat_map]; apply Forall_app;
    (split; [exact (H _ _ _ _ X ltac:(assumption))|]); [constructor | auto].
Qed.
Lemma gexp_plain t : part_plain (gexp t) ecode.
Proof. intros st ts e st' [G _] T. exact (proj1 gram_plain _ _ _ _ _ G T). Qed.
Lemma gplace_plain : part_plain gplace subs_code.
Proof. intros st ts p st' (nm & s & es & U & ->) T. exact (proj2 (proj2 gram_plain) _ _ _ _ _ _ _ U T). Qed.
Lemma ginput_plain : part_plain gplace input_code.
Proof. intros st ts p st' G T. apply Forall_app. split; [exact (gplace_plain _ _ _ _ G T)|]. destruct (pl_type p); one_plain. Qed.
Lemma gread_plain : part_plain gread read_code.
Proof. intros st ts p st' [G _] T. apply Forall_app. split; [exact (gplace_plain _ _ _ _ G T)|]. destruct (pl_type p); one_plain. Qed.
Lemma gdim_plain : part_plain gdim dim_code.
Proof. intros st ts p st' [G _] T. apply Forall_app. split; [exact (gplace_plain _ _ _ _ G T)|]. destruct (pl_type p); one_plain. Qed.
Lemma gitems_plain : part_plain gitems (flat_map item_code).
Proof.
  intros st ts l st' G. induction G; intros T; toks; cbn [flat_map item_code app]; auto.
  - constructor; [split; exact I | auto].
  - apply Forall_app. split; [|auto]. apply Forall_app. split; [exact (proj1 gram_plain _ _ _ _ _ H ltac:(assumption))|]. destruct (etype e); one_plain.
  - apply Forall_app. split; [|auto]. apply Forall_app. split; [exact (gexp_plain _ _ _ _ _ H0 ltac:(assumption))|]. one_plain.
  - apply Forall_app. split; [|auto]. apply Forall_app. split; [exact (gexp_plain _ _ _ _ _ H0 ltac:(assumption))|]. one_plain.
Qed.

Lemma gstmt_plain : part_plain gstmt scode.
Proof.
  intros st ts x st' G T. destruct G; toks; cbn [scode]; try one_plain.
  - constructor; [split; exact I|]. constructor; [split; exact I|]. apply Forall_app. split; [exact (gexp_plain _ _ _ _ _ H1 ltac:(assumption)) | one_plain].
  - exact (glist_plain _ _ gdim_plain _ _ _ _ H ltac:(assumption)).
  - apply Forall_app. split; [exact (gexp_plain _ _ _ _ _ H0 ltac:(assumption))|]. apply Forall_app. split; [exact (gexp_plain _ _ _ _ _ H1 ltac:(assumption))|].
    constructor; [split; [reflexivity | exact I] | one_plain].
  - apply Forall_app. split; [exact (gexp_plain _ _ _ _ _ H0 ltac:(assumption))|]. apply Forall_app. split; [exact (gexp_plain _ _ _ _ _ H1 ltac:(assumption))|].
    apply Forall_app. split; [exact (gexp_plain _ _ _ _ _ H2 ltac:(assumption)) | one_plain].
  - constructor; [split; exact I|]. apply Forall_app. split; [|one_plain].
    assert (PP : part_plain gplace (fun q => I_INPUT_SEP :: input_code q)) by (intros st0 ts0 x0 st0' G0 T0; constructor; [split; exact I | exact (ginput_plain _ _ _ _ G0 T0)]).
    pose proof (glist_plain _ _ PP _ _ _ _ H0 ltac:(assumption)) as X.
    destruct l as [|p l]; [constructor|]. cbn [flat_map app] in X. inversion X; subst. assumption.
  - constructor; [split; exact I|]. apply Forall_app. split; [exact (gplace_plain _ _ _ _ H0 ltac:(assumption)) | one_plain].
  - apply Forall_app. split; [exact (gplace_plain _ _ _ _ H ltac:(assumption))|]. apply Forall_app. split; [exact (gexp_plain _ _ _ _ _ H0 ltac:(assumption))|].
    unfold set_instr. destruct (pl_subs p), (pl_type p); one_plain.
  - apply Forall_app. split; [exact (gplace_plain _ _ _ _ H ltac:(assumption))|]. apply Forall_app. split; [exact (gexp_plain _ _ _ _ _ H0 ltac:(assumption))|].
    unfold set_instr. destruct (pl_subs p), (pl_type p); one_plain.
  - destruct l as [|a l]; [one_plain | map_plain].
  - apply Forall_app. split; [exact (gexp_plain _ _ _ _ _ H ltac:(assumption))|]. constructor; [split; exact I | map_plain].
  - apply Forall_app. split; [exact (gexp_plain _ _ _ _ _ H ltac:(assumption))|]. constructor; [split; exact I | map_plain].
  - apply Forall_app. split; [exact (gitems_plain _ _ _ _ H ltac:(assumption))|]. destruct (separator_last l); [constructor | one_plain].
  - apply Forall_app. split; [exact (gitems_plain _ _ _ _ H ltac:(assumption))|]. destruct (separator_last l); [constructor | one_plain].
  - apply Forall_app. split; [exact (gexp_plain _ _ _ _ _ H ltac:(assumption)) | one_plain].
  - exact (glist_plain _ _ gread_plain _ _ _ _ H ltac:(assumption)).
Qed.

Lemma lcode_app xs ys : lcode (xs ++ ys) = lcode xs ++ lcode ys.
Proof. apply flat_map_app. Qed.

Lemma lstep_plain kw ph L st xs ph' L' st' xs' : lstep kw ph L st xs ph' L' st' xs' -> tok_ok (fst L) ->
  Forall stmt_plain xs -> Forall stmt_plain xs' /\ tok_ok (fst L').
Proof.
  assert (Z : forall xs x, Forall stmt_plain xs -> Forall plain (scode x) -> Forall stmt_plain (xs ++ [x])).
  { intros. apply Forall_app. split; [assumption|]. constructor; [right; assumption | constructor]. }
  destruct 1; intros T X.
  - destruct (reads_tok _ _ _ _ H0 T) as (T1 & T2). split; [|exact T2]. apply Z; [exact X|]. exact (gstmt_plain _ _ _ _ H1 T1).
  - destruct (gdata_short _ _ _ _ H0) as (S0 & T1). split; [|exact T1]. apply Z; [exact X|]. cbn [scode].
    apply Forall_forall. intros i Hi. apply in_map_iff in Hi. destruct Hi as (w & <- & Hi). split; [|exact I]. cbn. rewrite Forall_forall in S0. specialize (S0 _ Hi). unfold short in S0. unfold string_ok. lia.
  - split; [|exact I]. apply Z; [exact X|]. constructor.
  - split; assumption.
  - destruct (reads_tok _ _ _ _ H0 T) as (T1 & T2). toks. split; [|exact T2]. apply Z; [exact X|]. apply Forall_app. split; [exact (gexp_plain _ _ _ _ _ H1 ltac:(assumption)) | one_plain].
  - destruct (reads_tok _ _ _ _ H0 T) as (T1 & T2). toks. split; [|exact T2]. apply Z; [exact X|]. apply Forall_app. split; [exact (gexp_plain _ _ _ _ _ H1 ltac:(assumption)) | one_plain].
  - destruct (reads_tok _ _ _ _ H0 T) as (_ & T2). split; [|exact T2]. apply Forall_app in X. destruct X as [X1 X2]. inversion X2; subst.
    apply Forall_app. split; [exact X1|]. constructor.
    + right. destruct H4 as [H4|H4]; [discriminate|]. cbn [scode] in H4 |- *. apply Forall_app in H4. apply Forall_app. split; [tauto | one_plain].
    + apply Forall_app. split; [assumption|]. constructor; [left; reflexivity | constructor].
  - destruct (reads_tok _ _ _ _ H T) as (_ & T2). split; [|exact T2]. apply Z; [exact X | one_plain].
  - destruct (reads_tok _ _ _ _ H0 T) as (_ & T2). split; assumption.
Qed.
Lemma lsteps_plain kw ph L st xs ph' L' st' xs' : lsteps kw ph L st xs ph' L' st' xs' -> tok_ok (fst L) ->
  Forall stmt_plain xs -> Forall stmt_plain xs' /\ tok_ok (fst L').
Proof. induction 1; intros T X; [auto|]. destruct IHlsteps as (X1 & T1); auto. exact (lstep_plain _ _ _ _ _ _ _ _ _ H0 T1 X1). Qed.
Lemma line_plain kw text st xs st' : line_is kw text st xs st' -> Forall stmt_plain xs.
Proof. intros (L & ph & r & A & S & _). exact (proj1 (lsteps_plain _ _ _ _ _ _ _ _ _ S (advance_tok _ _ _ A) (Forall_nil _))). Qed.
Lemma plain_unmarked i : plain i -> unmarked i.
Proof. intros [A B]. split; [exact A|]. destruct i; try exact I; contradiction. Qed.
Lemma stmts_unmarked xs : Forall stmt_plain xs -> Forall unmarked (lcode xs).
Proof.
  intros H. apply Forall_flat_map. apply Forall_impl with (2 := H). intros x [-> | X].
  - constructor; [split; exact I | constructor].
  - apply Forall_impl with (2 := X). exact plain_unmarked.
Qed.
Lemma program_plain kw st src xss st' : program_is kw st src xss st' -> Forall (fun xs => Forall unmarked (lcode xs)) xss.
Proof. induction 1; constructor; [eapply stmts_unmarked, line_plain; eassumption | assumption]. Qed.
Lemma program_length kw st src xss st' : program_is kw st src xss st' -> length xss = length src.
Proof. induction 1; cbn; congruence. Qed.

Lemma pcode_consts xss : Forall (fun xs => Forall unmarked (lcode xs)) xss -> forall k, Forall const_ok (pcode k xss).
Proof.
  induction 1; intros k; cbn [pcode]; constructor; [exact I|]. apply Forall_app. split; [|auto]. apply Forall_impl with (2 := H). intros i [X _]. exact X.
Qed.

Lemma pcode_markers xss : Forall (fun xs => Forall unmarked (lcode xs)) xss ->
  forall k, filter is_source_line (pcode k xss) = map I_SOURCE_LINE (seq k (length xss)).
Proof.
  assert (Z : forall l, Forall unmarked l -> filter is_source_line l = []).
  { induction 1 as [|i l [_ X] _ IH]; [reflexivity|]. cbn. destruct i; try exact IH. contradiction. }
  induction 1 as [|xs xss H _ IH]; intros k; cbn [pcode length seq map]; [reflexivity|].
  cbn [filter is_source_line]. rewrite filter_app, (Z _ H). cbn [app]. rewrite IH. reflexivity.
Qed.

Lemma lcode_ok g xs : Forall (wstmt g) xs -> Forall few_subs xs -> Forall proper_targets xs -> code_ok g (lcode xs).
Proof.
  intros A B C. apply code_ok_flat. revert B C. induction A; intros B C; inversion B; inversion C; subst; constructor; auto. apply scode_ok; assumption.
Qed.
Lemma pcode_ok g xss : Forall (Forall (wstmt g)) xss -> Forall (Forall few_subs) xss -> Forall (Forall proper_targets) xss -> forall k, code_ok g (pcode k xss).
Proof.
  induction 1; intros B C k; inversion B; inversion C; subst; cbn [pcode]; [apply code_ok_plain; constructor|].
  apply code_ok_cons; try exact I. apply code_ok_app; [apply lcode_ok; assumption | auto].
Qed.
