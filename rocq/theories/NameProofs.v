(* Names in other letters are the same names (C11). *)
From Coq Require Import Lia ZifyBool ZifyNat ZifyN.
From Verif Require VmModel VmSpec KindProofs SessionSpec PromptProofs ContProofs.
From Verif Require Import Base BaseLemmas Num SourceModel BcodeModel SymbolModel SymbolSpec SymbolProofs
  LexModel LexSpec LexProofs ParseModel GrammarSpec NameSpec ParseProofs StmtProofs CodeProofs CompileProofs CompleteProofs CompleteStmts CompleteLines.
Local Open Scope nat_scope.
Local Open Scope list_scope.

(* ---------- two occurrences ---------- *)

Lemma symbol_evolves st st' k name paren s st1 : paren_kind k -> fine st -> occurs k name paren st s st1 -> changes st1 st' ->
  exists p s', nth_error (st_syms st') p = Some s' /\ s_id s = u16 (N.of_nat p) /\ denotes (st_syms st') name paren p.
Proof.
  intros K F O C. destruct (occurs_denotes _ _ _ _ _ _ K F O) as (p & E & D).
  assert (F1 : fine st1) by exact (names_fine _ _ (occurs_names _ _ _ _ _ _ K O) F).
  destruct (table_good _ (proj1 F1)) as (_ & _ & (_ & ID)). pose proof (denotes_changes _ _ _ _ _ C D) as D'. destruct D' as (s' & E' & D').
  exists p, s'. split; [exact E'|]. split; [exact (ID p s E) | exists s'; auto].
Qed.

Lemma occurrences st k1 n1 pa1 s1 st1 st2 k2 n2 pa2 s2 st3 :
  fine st -> paren_kind k1 -> paren_kind k2 -> occurs k1 n1 pa1 st s1 st1 -> changes st1 st2 -> fine st2 -> occurs k2 n2 pa2 st2 s2 st3 -> few_names st3 ->
  (s_id s1 = s_id s2 <-> same_name n1 n2 /\ (pa1 = pa2 \/ builtin_name n1)).
Proof.
  intros F K1 K2 O1 C F2 O2 FEW. pose proof (occurs_names _ _ _ _ _ _ K2 O2) as N2. pose proof (names_fine _ _ N2 F2) as F3.
  destruct (symbol_evolves st st3 _ _ _ _ _ K1 F O1 (changes_trans _ _ _ C (names_changes _ _ N2))) as (p1 & t1 & E1 & I1 & D1).
  destruct (symbol_evolves st2 st3 _ _ _ _ _ K2 F2 O2 (Chs_refl _)) as (p2 & t2 & E2 & I2 & D2).
  assert (L1 : p1 < length (st_syms st3)) by (apply nth_error_Some; congruence). assert (L2 : p2 < length (st_syms st3)) by (apply nth_error_Some; congruence).
  assert (X : s_id s1 = s_id s2 <-> p1 = p2).
  { rewrite I1, I2. unfold u16. unfold few_names in FEW. rewrite !N.mod_small by lia. lia. }
  rewrite X. destruct (table_good _ (proj1 F3)) as (_ & U & _). split.
  - intros <-. destruct D1 as (s & Hs & N1 & M1). destruct D2 as (s' & Hs' & N2' & M2). assert (s' = s) by congruence. subst s'.
    split; [exact (same_name_trans _ _ _ (same_name_sym _ _ N1) N2')|].
    destruct (Bool.bool_dec pa1 pa2) as [|NP]; [left; assumption|right].
    assert (KB : s_kind s = KBuiltin) by (destruct (s_kind s), pa1, pa2; cbn in *; congruence).
    destruct (builtin_sym_name _ _ _ (proj1 F3) Hs KB) as (b & Hb & Hn). exists b. split; [exact Hb|]. exact (same_name_trans _ _ _ Hn N1).
  - intros [N [<-|(b & Hb & Hn)]].
    + apply (U n1 pa1 p1 p2 D1). destruct D2 as (s & Hs & N2' & M2). exists s. split; [exact Hs|]. split; [exact (same_name_trans _ _ _ N2' (same_name_sym _ _ N)) | exact M2].
    + destruct (In_nth_error _ _ Hb) as (q & Hq).
      destruct (builtin_denoted st3 b q pa1 (proj1 F3) Hq) as (s3 & _ & _ & _ & _ & _ & _ & B1).
      destruct (builtin_denoted st3 b q pa2 (proj1 F3) Hq) as (s4 & _ & _ & _ & _ & _ & _ & B2).
      rewrite (U n1 pa1 p1 q D1 (B1 _ Hn)). symmetry.
      apply (U n2 pa2 p2 q D2), B2. exact (same_name_trans _ _ _ Hn N).
Qed.

(* ---------- other letters ---------- *)

Lemma same_name_refl a : same_name a a.
Proof. reflexivity. Qed.
Lemma spelled_id a u : spelled (T_ID a) u -> exists b, u = T_ID b /\ same_name a b.
Proof. intros H. inversion H; subst; [exists a; split; reflexivity | exists b; auto]. Qed.
Lemma spelled_other t u : spelled t u -> (forall a, t <> T_ID a) -> u = t.
Proof. intros H N. inversion H; subst; [reflexivity | destruct (N a eq_refl)]. Qed.
Lemma spelled_repeat t n : (forall a, t <> T_ID a) -> forall us, Forall2 spelled (repeat t n) us -> us = repeat t n.
Proof. intros N. induction n as [|n IH]; intros us H; cbn [repeat] in H; inversion H; subst; [reflexivity|]. cbn [repeat]. f_equal; [apply spelled_other; assumption | apply IH; assumption]. Qed.
Lemma rel_not_id r a : rel_token r <> T_ID a.
Proof. destruct r; discriminate. Qed.

Lemma strieq_trans a b w : same_name a b -> strieq w a = true -> strieq w b = true.
Proof. intros H X. apply strieq_same in X. apply strieq_same. exact (same_name_trans _ _ _ X H). Qed.
Lemma strieq_names a b w : same_name a b -> strieq w a = strieq w b.
Proof. intros H. destruct (strieq w a) eqn:X, (strieq w b) eqn:Y; try reflexivity; [rewrite (strieq_trans _ _ _ H X) in Y | rewrite (strieq_trans _ _ _ (same_name_sym _ _ H) Y) in X]; discriminate. Qed.
Lemma strieq_names_l a b w : same_name a b -> strieq a w = strieq b w.
Proof.
  intros H. destruct (strieq a w) eqn:X, (strieq b w) eqn:Y; try reflexivity; exfalso.
  - apply strieq_same in X. assert (Z : strieq b w = true) by (apply strieq_same; exact (same_name_trans _ _ _ (same_name_sym _ _ H) X)). congruence.
  - apply strieq_same in Y. assert (Z : strieq a w = true) by (apply strieq_same; exact (same_name_trans _ _ _ H Y)). congruence.
Qed.
Lemma find_builtin_same a b : same_name a b -> find_builtin b = find_builtin a.
Proof.
  intros H. unfold find_builtin. induction builtins as [|x l IH]; [reflexivity|]. cbn [find]. rewrite (strieq_names _ _ (bi_name x) H), IH. reflexivity.
Qed.
Lemma last_map {X Y} (f : X -> Y) l : last_opt (map f l) = option_map f (last_opt l).
Proof. induction l as [|a [|b r] IH]; [reflexivity | reflexivity|]. exact IH. Qed.
Lemma upper_dollar c : ceq (to_upper c) "$" = ceq c "$".
Proof. destruct c as [[] [] [] [] [] [] [] []]; reflexivity. Qed.
Lemma type_same a b : same_name a b -> type_of_name b = type_of_name a.
Proof.
  intros H. unfold type_of_name. apply (f_equal last_opt) in H. rewrite !last_map in H. destruct (last_opt a) as [x|], (last_opt b) as [y|]; cbn [option_map] in H; try discriminate H; [|reflexivity].
  injection H as H. rewrite <- (upper_dollar x), <- (upper_dollar y), H. reflexivity.
Qed.
Lemma named_same a b w : same_name a b -> named a w -> named b w.
Proof. unfold named. intros H. rewrite (strieq_names_l _ _ _ H). auto. Qed.

(* ---------- symbols ---------- *)

Lemma nth_same st st' p : same_symbols st st' ->
  match nth_error (st_syms st) p, nth_error (st_syms st') p with Some s, Some s' => same_symbol s s' | None, None => True | _, _ => False end.
Proof.
  intros (F & _). revert p. induction F as [|s s' l l' X F IH]; intros [|p]; cbn [nth_error]; auto. apply IH.
Qed.
Lemma lookup_same st st' a b paren : same_symbols st st' -> same_name a b -> sym_lookup st' b paren = sym_lookup st a paren.
Proof.
  intros SS N. unfold sym_lookup. rewrite (bucket_same _ _ (same_name_sym _ _ N)), (proj1 (proj2 SS)).
  assert (X : forall p, sym_matches (st_syms st') b paren p = sym_matches (st_syms st) a paren p).
  { intros p. unfold sym_matches. pose proof (nth_same _ _ p SS) as Q. destruct (nth_error (st_syms st) p) as [s|], (nth_error (st_syms st') p) as [s'|]; try contradiction; [|reflexivity].
    destruct Q as (Q1 & _ & Q2 & _). rewrite Q2, (strieq_names_l _ _ _ (same_name_sym _ _ Q1)), (strieq_names _ _ _ (same_name_sym _ _ N)). reflexivity. }
  generalize (nth (sym_bucket a) (st_hash st) []). intros l. induction l as [|p l IH]; [reflexivity|]. cbn [find]. rewrite X, IH. reflexivity.
Qed.
Lemma symbol_kind s s' k : same_symbol s s' -> same_symbol (set_kind s k) (set_kind s' k).
Proof. intros (A & B & C & D & E & F). unfold same_symbol, set_kind. cbn. auto 10. Qed.
Lemma upd_same st st' p s s' : same_symbols st st' -> same_symbol s s' -> same_symbols (sym_update st p s) (sym_update st' p s').
Proof.
  intros (F & H & N) X. split; [|split; [exact H | exact N]]. cbn [sym_update st_syms]. revert p. induction F as [|a a' l l' Y F IH]; intros [|p]; cbn; constructor; auto.
Qed.
Lemma insert_same st st' a b k t : same_symbols st st' -> same_name a b ->
  same_symbols (fst (sym_insert st a k t)) (fst (sym_insert st' b k t)) /\ snd (sym_insert st' b k t) = snd (sym_insert st a k t).
Proof.
  intros (F & H & N) X. assert (L : length (st_syms st') = length (st_syms st)) by (symmetry; clear - F; induction F; cbn; congruence).
  split; [|cbn [sym_insert snd]; exact L]. split; [|split].
  - cbn [sym_insert fst st_syms]. apply Forall2_app; [exact F|]. constructor; [|constructor]. unfold same_symbol. cbn. rewrite N. auto 10.
  - cbn [sym_insert fst st_hash]. rewrite (bucket_same _ _ (same_name_sym _ _ X)), H, L. reflexivity.
  - cbn [sym_insert fst st_next]. rewrite N. reflexivity.
Qed.

Lemma occurs_same k a b paren st s st1 st' : occurs k a paren st s st1 -> same_name a b -> same_symbols st st' ->
  exists s' st1', occurs k b paren st' s' st1' /\ same_symbol s s' /\ same_symbols st1 st1'.
Proof.
  intros O N SS. pose proof (lookup_same st st' a b paren SS N) as LS.
  assert (NT : forall p x, nth_error (st_syms st) p = Some x -> exists x', nth_error (st_syms st') p = Some x' /\ same_symbol x x').
  { intros p x E. pose proof (nth_same _ _ p SS) as Q. rewrite E in Q. destruct (nth_error (st_syms st') p) as [x'|]; [exists x'; auto | contradiction]. }
  destruct O as [p s P L E | p s P L E NK U | p s P L E U | st1 p s L I E].
  - destruct (NT p s E) as (s' & E' & S'). exists s', st'. rewrite L in LS. split; [exact (Oc_simple _ _ _ _ p s' P LS E') | auto].
  - destruct (NT p s E) as (s' & E' & S'). exists s', st'. rewrite L in LS. destruct (proj2 (proj2 S')) as (KS & _). rewrite <- KS in NK, U. split; [exact (Oc_settled _ _ _ _ p s' P LS E' NK U) | auto].
  - destruct (NT p s E) as (s' & E' & S'). rewrite L in LS. exists (set_kind s' k), (sym_update st' p (set_kind s' k)). destruct (proj2 (proj2 S')) as (KS & _). rewrite <- KS in U.
    split; [exact (Oc_settle _ _ _ _ p s' P LS E' U)|]. split; [apply symbol_kind; exact S' | apply upd_same; [exact SS | apply symbol_kind; exact S']].
  - rewrite L in LS. destruct (insert_same st st' a b (if paren then k else KVariable) (type_of_name a) SS N) as [SI SP]. rewrite I in SI, SP. cbn [fst snd] in SI, SP.
    rewrite <- (type_same _ _ N) in SI, SP. destruct (sym_insert st' b (if paren then k else KVariable) (type_of_name b)) as [st2 q] eqn:I'. cbn [fst snd] in SI, SP. subst q.
    pose proof (nth_same _ _ p SI) as Q. rewrite E in Q. destruct (nth_error (st_syms st2) p) as [s'|] eqn:E'; [|contradiction].
    exists s', st2. split; [exact (Oc_new _ _ _ _ st2 p s' LS I' E') | auto].
Qed.

(* ---------- expressions ---------- *)

Ltac sp := repeat match goal with
  | H : Forall2 spelled (repeat ?t _) _ |- _ => apply spelled_repeat in H; [subst|intros; discriminate]
  | H : Forall2 spelled (_ ++ _) _ |- _ => apply Forall2_app_inv_l in H; destruct H as (? & ? & ? & ? & ->)
  | H : Forall2 spelled (_ :: _) _ |- _ => inversion H; subst; clear H
  | H : Forall2 spelled [] _ |- _ => inversion H; subst; clear H
  | H : spelled (T_ID _) _ |- _ => apply spelled_id in H; destruct H as (? & -> & ?)
  | H : spelled (rel_token _) _ |- _ => apply spelled_other in H; [subst|apply rel_not_id]
  | H : spelled _ _ |- _ => apply spelled_other in H; [subst|intros; discriminate]
  end.

Definition expr_same (l : level) (st : symtab) (ts : list token) (e : expr) (st1 : symtab) : Prop :=
  forall us st', Forall2 spelled ts us -> same_symbols st st' -> exists st1', gram l st' us e st1' /\ same_symbols st1 st1'.
Definition args_same (k : list argkind) (st : symtab) (ts : list token) (es : list expr) (st1 : symtab) : Prop :=
  forall us st', Forall2 spelled ts us -> same_symbols st st' -> exists st1', gargs k st' us es st1' /\ same_symbols st1 st1'.
Definition use_same (k : skind) (st : symtab) (ts : list token) (name : bytes) (s : symbol) (es : list expr) (st1 : symtab) : Prop :=
  forall us st', Forall2 spelled ts us -> same_symbols st st' ->
  exists name' s' st1', guse k st' us name' s' es st1' /\ same_name name name' /\ same_symbol s s' /\ same_symbols st1 st1'.

Lemma gram_same : (forall l st ts e st1, gram l st ts e st1 -> expr_same l st ts e st1) /\
  (forall k st ts es st1, gargs k st ts es st1 -> args_same k st ts es st1) /\
  (forall k st ts name s es st1, guse k st ts name s es st1 -> use_same k st ts name s es st1).
Proof.
  apply gram_ind3; unfold expr_same, args_same, use_same; intros; sp;
    repeat match goal with IH : forall us st', Forall2 spelled ?ts us -> same_symbols ?st st' -> _, F : Forall2 spelled ?ts ?us, SS : same_symbols ?st ?st' |- _ =>
      first [destruct (IH us st' F SS) as (? & ? & ?) | destruct (IH us st' F SS) as (? & ? & ? & ? & ? & ? & ?)]; clear IH end.
  all: try (eexists; split; [econstructor; eassumption | assumption]).
  - (* a name *)
    match goal with H : exists st1', guse KUnknown _ _ _ _ _ st1' /\ _ |- _ => destruct H as (? & ? & ? & ? & ?) end.
    match goal with G : guse KUnknown _ _ ?nm ?s' args ?st1', S : same_symbol s ?s' |- _ => exists st1'; split; [|assumption];
      destruct S as (_ & S1 & _ & S2 & _); rewrite <- S1, <- S2; apply (G_name _ _ nm s' args st1'); [|exact G] end.
    match goal with N : same_name name ?nm |- _ => rewrite (find_builtin_same _ _ N); assumption end.
  - (* a built-in function *)
    match goal with N : same_name w ?nm |- _ => pose proof (find_builtin_same _ _ N) as FB end. eexists. split; [|eassumption]. apply G_fun; [rewrite FB; assumption | assumption | assumption].
  - match goal with N : same_name w ?nm |- _ => pose proof (find_builtin_same _ _ N) as FB end. eexists. split; [|eassumption]. apply (G_bare _ _ r); [rewrite FB; assumption | assumption | assumption].
  - match goal with N : same_name w ?nm |- _ => pose proof (find_builtin_same _ _ N) as FB end. eexists. split; [|eassumption]. apply (G_nothing _ _ r); [rewrite FB; assumption | assumption | assumption].
  - match goal with N : same_name w ?nm |- _ => pose proof (find_builtin_same _ _ N) as FB end. eexists. split; [|eassumption]. apply (G_drop _ _ r); [rewrite FB; assumption | assumption | assumption | assumption].
  - match goal with O : occurs k name false st s st', N : same_name name ?b, SS : same_symbols st ?t |- _ => destruct (occurs_same _ _ b _ _ _ _ t O N SS) as (s' & st1' & O' & S' & SS') end.
    eexists _, s', st1'. split; [constructor; exact O'|]. auto.
  - match goal with O : occurs k name true _ s st', N : same_name name ?b, SS : same_symbols _ ?t |- _ => destruct (occurs_same _ _ b _ _ _ _ t O N SS) as (s' & st1' & O' & S' & SS') end.
    eexists _, s', st1'. split; [econstructor; eassumption|]. auto.
Qed.

(* ---------- statements ---------- *)

Definition resp {A} (g : symtab -> list token -> A -> symtab -> Prop) : Prop :=
  forall st ts x st1, g st ts x st1 -> forall us st', Forall2 spelled ts us -> same_symbols st st' -> exists st1', g st' us x st1' /\ same_symbols st1 st1'.

Lemma resp_expr l : resp (gram l).
Proof. exact (proj1 gram_same l). Qed.
Lemma resp_exp t : resp (gexp t).
Proof. intros st ts e st1 [G T] us st' F SS. destruct (resp_expr LOr _ _ _ _ G _ _ F SS) as (st1' & G' & SS'). exists st1'. split; [split; assumption | exact SS']. Qed.
Lemma resp_place : resp gplace.
Proof.
  intros st ts p st1 (name & s & es & U & ->) us st' F SS. destruct (proj2 (proj2 gram_same) _ _ _ _ _ _ _ U us st' F SS) as (name' & s' & st1' & U' & _ & S' & SS').
  exists st1'. split; [|exact SS']. exists name', s', es. split; [exact U'|]. destruct S' as (_ & -> & -> & -> & _). reflexivity.
Qed.
Lemma resp_var : resp gvar.
Proof.
  intros st ts id st1 (name & s & -> & O & K & T & ->) us st' F SS. sp. match goal with N : same_name name ?b |- _ => destruct (occurs_same _ _ b _ _ _ _ st' O N SS) as (s' & st1' & O' & S' & SS'); exists st1'; split; [exists b, s'|exact SS'] end.
  destruct S' as (_ & S1 & S2 & S3 & _). split; [reflexivity|]. split; [exact O'|]. split; [congruence|]. split; congruence.
Qed.
Lemma unsigned_not_id t n : lex_unsigned t = Some n -> forall a, t <> T_ID a.
Proof. intros H a ->. discriminate H. Qed.
Lemma resp_line : resp gline.
Proof.
  intros st ts n st1 (t & -> & U & ->) us st' F SS. exists st'. split; [|exact SS]. inversion F as [|x y l l' S F']; subst. inversion F'; subst. apply spelled_other in S; [|exact (unsigned_not_id _ _ U)]. subst y. exists t. auto.
Qed.
Lemma resp_read : resp gread.
Proof. intros st ts p st1 [G T] us st' F SS. destruct (resp_place _ _ _ _ G us st' F SS) as (st1' & G' & SS'). exists st1'. split; [split; assumption | exact SS']. Qed.
Lemma resp_dim : resp gdim.
Proof. intros st ts p st1 [G T] us st' F SS. destruct (resp_place _ _ _ _ G us st' F SS) as (st1' & G' & SS'). exists st1'. split; [split; assumption | exact SS']. Qed.
Lemma resp_list {A} (g : symtab -> list token -> A -> symtab -> Prop) : resp g -> resp (glist g).
Proof.
  intros R st ts l st1 H. induction H as [st ts x st1 G | st ts x st1 us l st2 G H IH]; intros vs st' F SS.
  - destruct (R _ _ _ _ G vs st' F SS) as (st1' & G' & SS'). exists st1'. split; [constructor; exact G' | exact SS'].
  - sp. match goal with F1 : Forall2 spelled ts ?x, F2 : Forall2 spelled us ?y |- _ => destruct (R _ _ _ _ G x st' F1 SS) as (st1' & G' & SS'); destruct (IH y st1' F2 SS') as (st2' & H' & SS2) end.
    exists st2'. split; [econstructor; eassumption | exact SS2].
Qed.
Lemma resp_prompt ps p : gprompt ps p -> forall us, Forall2 spelled ps us -> us = ps.
Proof. intros H us F. destruct H; unfold COMMA in F; sp; reflexivity. Qed.

Lemma sum_same l st ts e st1 t : sum_end l st ts e st1 t -> forall us st', Forall2 spelled ts us -> same_symbols st st' -> exists st1', sum_end l st' us e st1' t /\ same_symbols st1 st1'.
Proof.
  induction 1; intros vs st0 F SS; sp;
    repeat match goal with
    | IH : forall us st', Forall2 spelled ?ts us -> same_symbols ?st st' -> _, F : Forall2 spelled ?ts ?us, SS : same_symbols ?st ?st' |- _ => destruct (IH us st' F SS) as (? & ? & ?); clear IH
    | G : gram _ ?st ?ts ?e ?st1, F : Forall2 spelled ?ts ?us, SS : same_symbols ?st ?st' |- _ => destruct (resp_expr _ _ _ _ _ G us st' F SS) as (? & ? & ?); clear G
    end; eexists; (split; [econstructor; eassumption | assumption]).
Qed.

Lemma last_spelled ts us : Forall2 spelled ts us -> ends_id us = ends_id ts.
Proof.
  unfold ends_id. induction 1 as [|t u ts us S F IH]; [reflexivity|]. destruct F as [|t2 u2 ts us S2 F]; [|exact IH].
  cbn. destruct S; reflexivity.
Qed.
Lemma resp_items : resp gitems.
Proof.
  intros st ts l st1 H. induction H as [st | st ts l st1 H IH | st ts l st1 H IH | st ts e st1 us l st2 G T NS H IH AP | w st ts e st1 us l st2 W G H IH | w st ts e st1 us l st2 W G H IH]; intros vs st' F SS; sp.
  - exists st'. split; [constructor | exact SS].
  - match goal with F1 : Forall2 spelled ts ?x |- _ => destruct (IH x st' F1 SS) as (st1' & H' & SS') end. exists st1'. split; [constructor; exact H' | exact SS'].
  - match goal with F1 : Forall2 spelled ts ?x |- _ => destruct (IH x st' F1 SS) as (st1' & H' & SS') end. exists st1'. split; [constructor; exact H' | exact SS'].
  - match goal with X1 : Forall2 spelled ts ?x, X2 : Forall2 spelled us ?y |- _ => rename x into ts', y into us', X1 into F1, X2 into F2 end.
    assert (X : exists st1', gram LOr st' ts' e st1' /\ same_symbols st1 st1' /\ apart st' ts' e st1' us').
    { destruct F2 as [|t u us us' S F2]; [destruct (resp_expr LOr _ _ _ _ G ts' st' F1 SS) as (st1' & G' & SS1); exists st1'; split; [exact G'|]; split; [exact SS1 | exact Logic.I]|].
      cbn [apart] in AP |- *. destruct AP as [A1 A2].
      assert (L1 : u = LPAREN -> ends_id ts' = false) by (intros ->; rewrite (last_spelled _ _ F1); apply A1; inversion S; reflexivity).
      destruct (is_char "-" u) eqn:M.
      - apply is_char_iff in M. subst u. assert (E : t = T_CHAR "-") by (inversion S; reflexivity). destruct (A2 E) as (ty & SE & NT). destruct (sum_same _ _ _ _ _ _ SE ts' st' F1 SS) as (st1' & SE' & SS1).
        exists st1'. split; [exact (sum_gram _ _ _ _ _ _ SE')|]. split; [exact SS1|]. split; [exact L1|]. intros _. exists ty. auto.
      - destruct (resp_expr LOr _ _ _ _ G ts' st' F1 SS) as (st1' & G' & SS1). exists st1'. split; [exact G'|]. split; [exact SS1|]. split; [exact L1|]. intros ->. discriminate M. }
    destruct X as (st1' & G' & SS1 & AP'). destruct (IH us' st1' F2 SS1) as (st2' & H' & SS2). exists st2'. split; [|exact SS2].
    apply (GI_expr _ _ _ st1'); [exact G' | exact T | | exact H' | exact AP'].
    intros (w' & r & E & W). apply NS. rewrite E in F1. inversion F1 as [|t u l1 l2 S1 S2]; subst. inversion S1; subst; [exists w', l1; auto|].
    match goal with Q : same_name ?a w' |- _ => exists a, l1; split; [reflexivity|]; destruct W as [W|W]; [left|right]; exact (named_same _ _ _ (same_name_sym _ _ Q) W) end.
  - match goal with F1 : Forall2 spelled ts ?x, F2 : Forall2 spelled us ?y, N : same_name w ?b |- _ => destruct (resp_exp _ _ _ _ _ G x st' F1 SS) as (st1' & G' & SS1); destruct (IH y st1' F2 SS1) as (st2' & H' & SS2); exists st2'; split; [|exact SS2];
      apply (GI_spc _ _ _ _ st1'); [exact (named_same _ _ _ N W) | exact G' | exact H'] end.
  - match goal with F1 : Forall2 spelled ts ?x, F2 : Forall2 spelled us ?y, N : same_name w ?b |- _ => destruct (resp_exp _ _ _ _ _ G x st' F1 SS) as (st1' & G' & SS1); destruct (IH y st1' F2 SS1) as (st2' & H' & SS2); exists st2'; split; [|exact SS2];
      apply (GI_tab _ _ _ _ st1'); [exact (named_same _ _ _ N W) | exact G' | exact H'] end.
Qed.

Lemma resp_stmt : resp gstmt.
Proof.
  intros st ts x st1 H. destruct H; intros toks tab0 F SS; sp;
    repeat match goal with
    | O : occurs _ ?n _ ?st _ _, N : same_name ?n ?b, SS : same_symbols ?st ?st' |- _ => destruct (occurs_same _ _ b _ _ _ _ st' O N SS) as (? & ? & ? & ? & ?); clear O
    | G : gvar ?st ?ts _ _, F : Forall2 spelled ?ts ?us, SS : same_symbols ?st ?st' |- _ => destruct (resp_var _ _ _ _ G us st' F SS) as (? & ? & ?); clear G
    | G : gexp _ ?st ?ts _ _, F : Forall2 spelled ?ts ?us, SS : same_symbols ?st ?st' |- _ => destruct (resp_exp _ _ _ _ _ G us st' F SS) as (? & ? & ?); clear G
    | G : gline ?st ?ts _ _, F : Forall2 spelled ?ts ?us, SS : same_symbols ?st ?st' |- _ => destruct (resp_line _ _ _ _ G us st' F SS) as (? & ? & ?); clear G
    | G : gplace ?st ?ts _ _, F : Forall2 spelled ?ts ?us, SS : same_symbols ?st ?st' |- _ => destruct (resp_place _ _ _ _ G us st' F SS) as (? & ? & ?); clear G
    | G : gitems ?st ?ts _ _, F : Forall2 spelled ?ts ?us, SS : same_symbols ?st ?st' |- _ => destruct (resp_items _ _ _ _ G us st' F SS) as (? & ? & ?); clear G
    | G : glist gdim ?st ?ts _ _, F : Forall2 spelled ?ts ?us, SS : same_symbols ?st ?st' |- _ => destruct (resp_list _ resp_dim _ _ _ _ G us st' F SS) as (? & ? & ?); clear G
    | G : glist gread ?st ?ts _ _, F : Forall2 spelled ?ts ?us, SS : same_symbols ?st ?st' |- _ => destruct (resp_list _ resp_read _ _ _ _ G us st' F SS) as (? & ? & ?); clear G
    | G : glist gplace ?st ?ts _ _, F : Forall2 spelled ?ts ?us, SS : same_symbols ?st ?st' |- _ => destruct (resp_list _ resp_place _ _ _ _ G us st' F SS) as (? & ? & ?); clear G
    | G : glist gvar ?st ?ts _ _, F : Forall2 spelled ?ts ?us, SS : same_symbols ?st ?st' |- _ => destruct (resp_list _ resp_var _ _ _ _ G us st' F SS) as (? & ? & ?); clear G
    | G : glist gline ?st ?ts _ _, F : Forall2 spelled ?ts ?us, SS : same_symbols ?st ?st' |- _ => destruct (resp_list _ resp_line _ _ _ _ G us st' F SS) as (? & ? & ?); clear G
    | P : gprompt ?ps _, F : Forall2 spelled ?ps ?us |- _ => apply (resp_prompt _ _ P) in F; subst us
    end.
  all: try (eexists; split; [econstructor; eassumption | assumption]).
  (* DEF *)
  match goal with S : same_symbol s ?s' |- _ => destruct S as (_ & S1 & _); rewrite <- S1 end.
  eexists; split; [|eassumption]. econstructor; [eassumption | eassumption|]. match goal with N : same_name name ?b |- _ => rewrite (type_same _ _ N) end. assumption.
Qed.

(* ---------- lines ---------- *)

Definition same_lex (kw : bool) (L M : lexst) : Prop := spelled (fst L) (fst M) /\ same_text kw (snd L) (snd M) /\ (fst L = T_KW K_DATA -> snd M = snd L).

Lemma same_advance kw a b L : same_text kw a b -> advance kw a = Some L -> exists M, advance kw b = Some M /\ same_lex kw L M.
Proof.
  intros H E. inversion H as [x | x y t u a' b' E1 E2 S D T]; subst.
  - exists L. split; [exact E|]. split; [apply Sp_same|]. split; [apply St_same | reflexivity].
  - rewrite E1 in E. injection E as <-. exists (u, b'). split; [exact E2|]. split; [exact S|]. split; [exact T | exact D].
Qed.
Lemma same_reads kw L ts L' : reads kw L ts L' -> forall M, same_lex kw L M -> exists us M', reads kw M us M' /\ Forall2 spelled ts us /\ same_lex kw L' M'.
Proof.
  induction 1 as [L | t r L ts L' E R IH]; intros M SL; [exists [], M; split; [constructor|]; split; [constructor | exact SL]|].
  destruct M as [u m]. destruct SL as (S & T & _). cbn [fst snd] in S, T. destruct (same_advance _ _ _ _ T E) as (M1 & E1 & SL1). destruct (IH M1 SL1) as (us & M' & R' & F & SL').
  exists (u :: us), M'. split; [exact (Rd_cons _ _ _ _ _ _ E1 R')|]. split; [constructor; assumption | exact SL'].
Qed.

Lemma step_same kw ph L st xs ph1 L1 st1 xs1 : lstep kw ph L st xs ph1 L1 st1 xs1 -> forall M st', same_lex kw L M -> same_symbols st st' ->
  exists M1 st1', lstep kw ph M st' xs ph1 M1 st1' xs1 /\ same_lex kw L1 M1 /\ same_symbols st1 st1'.
Proof.
  intros H. destruct H as [ph L ts L' st x st1 xs PH R G | ph r l L' st xs PH G | ph r st xs PH | ph t r st xs PH TT | ph L ts L' st e st1 xs PH R G N | ph L ts t n L' st e st1 xs PH R G N
    | ph L L' st xs e ys PH R O | L t n L' st xs m R N O LG | ph L L' st xs PH R]; intros M st' SL SS.
  - destruct (same_reads _ _ _ _ R M SL) as (us & M' & R' & F & SL'). destruct (resp_stmt _ _ _ _ G us st' F SS) as (st1' & G' & SS').
    exists M', st1'. split; [exact (LS_stmt _ _ _ _ _ _ _ _ _ PH R' G') | auto].
  - destruct M as [u m]. destruct SL as (S & _ & D). cbn [fst snd] in S, D. rewrite (D eq_refl). apply spelled_other in S; [|discriminate]. subst u.
    exists L', st'. split; [exact (LS_data _ _ _ _ _ _ _ PH G)|]. split; [split; [apply Sp_same|]; split; [apply St_same | reflexivity] | exact SS].
  - destruct M as [u m]. destruct SL as (S & _ & _). cbn [fst] in S. apply spelled_other in S; [|discriminate]. subst u.
    exists (T_NL, []), st'. split; [exact (LS_rem _ _ _ _ _ PH)|]. split; [split; [apply Sp_same|]; split; [apply St_same | reflexivity] | exact SS].
  - destruct M as [u m]. pose proof SL as (S & _ & _). cbn [fst] in S. apply spelled_other in S; [|destruct TT as [-> | ->]; discriminate]. subst u.
    exists (t, m), st'. split; [exact (LS_empty _ _ _ _ _ _ PH TT)|]. split; [exact SL | exact SS].
  - destruct (same_reads _ _ _ _ R M SL) as (us & M' & R' & F & SL'). sp. match goal with F1 : Forall2 spelled ts ?x |- _ => destruct (resp_exp _ _ _ _ _ G x st' F1 SS) as (st1' & G' & SS') end.
    exists M', st1'. split; [refine (LS_if _ _ _ _ _ _ _ _ _ PH R' G' _)|auto]. intros x0 w Q. destruct SL' as (S & _ & _). rewrite Q in S. apply (N x0 w). inversion S; reflexivity.
  - destruct (same_reads _ _ _ _ R M SL) as (us & M' & R' & F & SL').
    change (T_KW K_IF :: ts ++ [T_KW K_THEN; t]) with ((T_KW K_IF :: ts ++ [T_KW K_THEN; t])) in F.
    assert (TN : forall a, t <> T_ID a) by exact (unsigned_not_id _ _ N).
    inversion F as [|t1 u1 l1 l2 S1 F1]; subst. apply spelled_other in S1; [subst u1|discriminate]. apply Forall2_app_inv_l in F1. destruct F1 as (us1 & us2 & F1 & F2 & ->).
    inversion F2 as [|t2 u2 l3 l4 S2 F3]; subst. apply spelled_other in S2; [subst u2|discriminate]. inversion F3 as [|t3 u3 l5 l6 S3 F4]; subst. apply spelled_other in S3; [subst u3|exact TN]. inversion F4; subst.
    destruct (resp_exp _ _ _ _ _ G us1 st' F1 SS) as (st1' & G' & SS'). exists M', st1'. split; [exact (LS_if_go _ _ _ _ _ _ _ _ _ _ _ PH R' G' N) | auto].
  - destruct (same_reads _ _ _ _ R M SL) as (us & M' & R' & F & SL'). sp. exists M', st'. split; [exact (LS_else _ _ _ _ _ _ _ _ PH R' O) | auto].
  - destruct (same_reads _ _ _ _ R M SL) as (us & M' & R' & F & SL').
    inversion F as [|t1 u1 l1 l2 S1 F1]; subst. apply spelled_other in S1; [subst u1|discriminate]. inversion F1 as [|t3 u3 l5 l6 S3 F4]; subst. apply spelled_other in S3; [subst u3|exact (unsigned_not_id _ _ N)]. inversion F4; subst.
    exists M', st'. split; [exact (LS_else_go _ _ _ _ _ _ _ _ R' N O LG) | auto].
  - destruct (same_reads _ _ _ _ R M SL) as (us & M' & R' & F & SL'). sp. exists M', st'. split; [exact (LS_colon _ _ _ _ _ _ PH R') | auto].
Qed.
Lemma steps_same kw ph L st xs ph1 L1 st1 xs1 : lsteps kw ph L st xs ph1 L1 st1 xs1 -> forall M st', same_lex kw L M -> same_symbols st st' ->
  exists M1 st1', lsteps kw ph M st' xs ph1 M1 st1' xs1 /\ same_lex kw L1 M1 /\ same_symbols st1 st1'.
Proof.
  induction 1 as [|ph L st xs pha La sta xsa phb Lb stb xsb LS IH ST]; intros M st' SL SS; [exists M, st'; split; [constructor | auto]|].
  destruct (IH M st' SL SS) as (M1 & st1' & H1 & SL1 & SS1). destruct (step_same _ _ _ _ _ _ _ _ _ ST M1 st1' SL1 SS1) as (M2 & st2' & H2 & SL2 & SS2).
  exists M2, st2'. split; [exact (LSs_step _ _ _ _ _ _ _ _ _ _ _ _ _ H1 H2) | auto].
Qed.
Lemma line_same kw a b st xs st1 st' : line_is kw a st xs st1 -> same_text kw a b -> same_symbols st st' -> exists st1', line_is kw b st' xs st1' /\ same_symbols st1 st1'.
Proof.
  intros (L & ph & r & E & H & PH) T SS. destruct (same_advance _ _ _ _ T E) as (M & E' & SL). destruct (steps_same _ _ _ _ _ _ _ _ _ H M st' SL SS) as ([u m] & st1' & H' & SL' & SS').
  exists st1'. split; [|exact SS']. destruct SL' as (S & _ & _). cbn [fst] in S. apply spelled_other in S; [|discriminate]. subst u. exists M, ph, m. auto.
Qed.
Lemma program_same kw st src xss st1 : program_is kw st src xss st1 -> forall src' st', Forall2 (same_text kw) src src' -> same_symbols st st' ->
  exists st1', program_is kw st' src' xss st1' /\ same_symbols st1 st1'.
Proof.
  induction 1 as [st | st text xs st1 src xss st2 L P IH]; intros src' st' F SS; inversion F as [|x y l l' T F']; subst; [exists st'; split; [constructor | exact SS]|].
  destruct (line_same _ _ _ _ _ _ _ L T SS) as (st1' & L' & SS1). destruct (IH _ _ F' SS1) as (st2' & P' & SS2). exists st2'. split; [econstructor; eassumption | exact SS2].
Qed.
Lemma same_symbols_refl st : same_symbols st st.
Proof. split; [|auto]. induction (st_syms st) as [|s l IH]; constructor; [|exact IH]. unfold same_symbol. repeat split. Qed.
Lemma unknown_same st st' : same_symbols st st' -> same_symbols (sym_make_unknown_array st) (sym_make_unknown_array st').
Proof.
  intros (F & H & N). split; [|split; [exact H | exact N]]. cbn [sym_make_unknown_array st_syms]. induction F as [|s s' l l' X F IH]; cbn [map]; constructor; [|exact IH].
  destruct (proj2 (proj2 X)) as (K & _). rewrite K. destruct (skind_eqb (s_kind s) KUnknown); [apply symbol_kind; exact X | exact X].
Qed.

Lemma spelling src src' st kw xss st1 : fine st -> Forall (fun l => Forall allowed (ln_text l)) src -> Forall (fun l => Forall allowed (ln_text l)) src' ->
  Forall2 (fun l l' => same_text kw (ln_text l) (ln_text l')) src src' -> program_is kw st (map ln_text src) xss st1 -> Forall (Forall no_bad) xss ->
  exists bc bc' st2 st2', parse_source src st kw = PoOk (Some bc) None st2 /\ parse_source src' st kw = PoOk (Some bc') None st2' /\ bc_inst bc' = bc_inst bc /\ same_symbols st2 st2'.
Proof.
  intros FI FA FA' F P NB. assert (F2 : Forall2 (same_text kw) (map ln_text src) (map ln_text src')) by (clear - F; induction F; cbn; constructor; assumption).
  destruct (program_same _ _ _ _ _ P _ st F2 (same_symbols_refl st)) as (st1' & P' & SS).
  destruct (source_goes src st kw xss st1 FI FA P NB) as (bc & E & C & _). destruct (source_goes src' st kw xss st1' FI FA' P' NB) as (bc' & E' & C' & _).
  exists bc, bc', (sym_make_unknown_array st1), (sym_make_unknown_array st1'). split; [exact E|]. split; [exact E'|]. split; [congruence | apply unknown_same; exact SS].
Qed.

Lemma compiling_changes src st kw bc e st' : fine st -> parse_source src st kw = PoOk bc e st' -> fine st' /\ changes st st'.
Proof. intros F P. destruct (PromptProofs.parsed_table _ _ _ _ _ _ F P) as (F' & C & _). auto. Qed.
Lemma running_changes o s u E l w : SessionSpec.session o SessionSpec.any_line s -> SessionSpec.run_called s u -> VmSpec.runs E u l w -> table (VmModel.v_st u) /\ changes (VmModel.v_st u) (VmModel.v_st w).
Proof.
  intros S C R. destruct (ContProofs.called_ok o s u (ContProofs.session_any _ _ S) C) as [[F K] _]. split; [exact (proj1 F)|].
  exact (KindProofs.kn_changes _ _ (ContProofs.runs_kinded _ _ _ _ _ K R)).
Qed.
