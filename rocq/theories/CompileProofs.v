(* What compiling a program gives, in all cases. *)
From Coq Require Import Lia ZifyBool ZifyNat ZifyN.
From Verif Require Import Base BaseLemmas Num NumSpec DoubleProofs SourceModel BcodeModel SymbolModel SymbolSpec SymbolProofs
  LexModel LexSpec LexProofs ParseModel GrammarSpec ParseProofs StmtProofs VmModel VmSpec VmTyping ValueSpec TypeSpec CodeProofs.
Local Open Scope nat_scope.

Lemma fine_init : fine (init_builtins new_symbol_table).
Proof.
  split; [apply Chs_refl|]. intros p s H. left. destruct init_names as [_ X]. rewrite forallb_forall in X.
  specialize (X s (nth_error_In _ _ H)). destruct (s_kind s); try discriminate X. reflexivity.
Qed.
Lemma fine_unknown st : fine st -> fine (sym_make_unknown_array st).
Proof.
  intros [T W]. split; [eapply Chs_step; [exact T | apply Ch_unknown]|]. intros p s H. cbn [sym_make_unknown_array st_syms] in H.
  rewrite nth_error_map in H. destruct (nth_error (st_syms st) p) as [s0|] eqn:E; [|discriminate]. injection H as <-.
  destruct (W p s0 E) as [B|B]; [left | right]; [rewrite B; cbn; exact B|]. destruct (s_kind s0); exact B.
Qed.

(* ---------- the end of the interpreter ---------- *)

Lemma lex_allowed kw r t st r' : lex_next kw r = LxTok t st r' -> Forall allowed r -> Forall allowed r'.
Proof.
  intros H F. destruct (lex_next_spec _ _ _ _ _ H) as (b & w & tail & -> & _ & _ & T & _). apply (same_allowed _ _ T).
  apply Forall_app in F. destruct F as [_ F]. apply Forall_app in F. tauto.
Qed.
Lemma pushback_allowed c r : Forall allowed (c :: r) -> Forall allowed (pushback c r).
Proof. intros F. unfold pushback. repeat match goal with |- context [if ?x then _ else _] => destruct x end; try exact F; try constructor; inversion F; auto. Qed.
Lemma scan_datum_allowed s : forall n acc w t, scan_datum s n acc = Some (w, t) -> Forall allowed s -> Forall allowed t.
Proof.
  induction s as [|c s IH]; intros n acc w t H F; cbn [scan_datum] in H; [injection H as <- <-; constructor|].
  destruct (negb (lex_valid c)); [discriminate|]. destruct (_ || _)%bool; [injection H as <- <-; apply pushback_allowed; exact F|].
  destruct (Nat.leb MAX_WORD (n + 1)); [discriminate|]. inversion F; subst. eapply IH; eassumption.
Qed.
Lemma data_allowed r w st r' : lex_next_data r = Some (w, st, r') -> Forall allowed r -> Forall allowed r'.
Proof.
  induction r as [|c r IH]; intros H F; cbn [lex_next_data] in H; [injection H as <- <- <-; constructor|].
  destruct (negb (lex_valid c)); [discriminate|]. inversion F; subst. destruct (is_data_space c); [auto|]. destruct (ceq c DQ).
  - pose proof (scan_string_spec r 0 [] eq_refl ltac:(lia)) as X. destruct (scan_string r 0 []) as [w0 t| |]; try discriminate. injection H as <- <- <-.
    destruct X as (v & _ & -> & _). apply Forall_app in H3. destruct H3 as [_ H3]. inversion H3; assumption.
  - destruct (scan_datum (c :: r) 0 []) as [[acc t]|] eqn:S; [|discriminate]. injection H as <- <- <-. exact (scan_datum_allowed _ _ _ _ _ S F).
Qed.
Lemma later_allowed kw L L' : later kw L L' -> Forall allowed (snd L) -> Forall allowed (snd L').
Proof.
  induction 1; intros F; cbn [snd] in *; auto.
  - apply IHlater. unfold advance in H. destruct (lex_next kw r) as [t0 s0 r0|] eqn:E; [|discriminate]. injection H as <-. exact (lex_allowed _ _ _ _ _ E F).
  - apply IHlater. exact (data_allowed _ _ _ _ H F).
Qed.

Lemma scan_datum_none s : forall n acc, Forall allowed s -> scan_datum s n acc = None -> n <= 127 ->
  exists v t, s = v ++ t /\ n + length v = 128 /\ Forall (fun c => c <> DQ /\ c <> ","%char /\ c <> ":"%char /\ c <> NL) v.
Proof.
  induction s as [|c s IH]; intros n acc F H B; cbn [scan_datum] in H; [discriminate|]. inversion F; subst.
  rewrite (allowed_valid _ H2) in H. cbn [negb] in H. destruct (ceq c DQ) eqn:A1; [discriminate|]. destruct (ceq c ",") eqn:A2; [discriminate|].
  destruct (ceq c ":") eqn:A3; [discriminate|]. destruct (ceq c NL) eqn:A4; [discriminate|]. destruct (is_eof_char c); [discriminate|]. cbn [orb] in H.
  apply ceq_neq in A1, A2, A3, A4.
  destruct (Nat.leb MAX_WORD (n + 1)) eqn:M.
  - apply Nat.leb_le in M. unfold MAX_WORD in M. exists [c], s. split; [reflexivity|]. split; [cbn; lia|]. constructor; [auto | constructor].
  - apply Nat.leb_gt in M. unfold MAX_WORD in M. destruct (IH (S n) (c :: acc) H3 H ltac:(lia)) as (v & t & -> & L & G). exists (c :: v), t. split; [reflexivity|]. split; [cbn; lia|]. constructor; auto.
Qed.

Lemma prefix_of_quote (v : bytes) : forall x y t, ~ In DQ v -> v ++ t = x ++ DQ :: y -> exists z, x = v ++ z.
Proof.
  induction v as [|c v IH]; intros x y t N E; [exists x; reflexivity|]. destruct x as [|d x]; cbn in E.
  - injection E as -> E. exfalso. apply N. left. reflexivity.
  - injection E as -> E. destruct (IH x y t) as (z & ->); [intros K; apply N; right; exact K | exact E|]. exists z. reflexivity.
Qed.

Lemma eof_not_allowed c : is_eof_char c = true -> ~ allowed c.
Proof.
  intros H. assert (X : forallb (fun c => negb (is_eof_char c) || negb (code c <? 127)%N) all_ascii = true) by (vm_compute; reflexivity).
  rewrite forallb_forall in X. specialize (X c (all_ascii_in c)). rewrite H in X. cbn in X. unfold allowed. lia.
Qed.

Lemma data_none r : Forall allowed r -> lex_next_data r = None -> bad_item r.
Proof.
  induction r as [|c r IH]; intros F H; cbn [lex_next_data] in H; [discriminate|]. inversion F; subst. rewrite (allowed_valid _ H2) in H. cbn [negb] in H.
  destruct (is_data_space c) eqn:D.
  - assert (DB : data_blank c). { unfold is_data_space in D. apply orb_prop in D. destruct D as [D|D]; apply ceq_eq in D; [left | right]; exact D. }
    destruct (IH H3 H) as [b v E B O | b v t E B L G].
    + apply (Bi_open _ (c :: b) v); [rewrite E; reflexivity | constructor; assumption | exact O].
    + apply (Bi_long _ (c :: b) v t); [rewrite E; reflexivity | constructor; assumption | exact L | exact G].
  - destruct (ceq c DQ) eqn:Q.
    + apply ceq_eq in Q. subst c. apply (Bi_open _ [] r); [reflexivity | constructor|].
      pose proof (scan_string_spec r 0 [] eq_refl ltac:(lia)) as S. pose proof (scan_string_ok r 0 [] H3) as NX. destruct (scan_string r 0 []) as [w t | t |]; [discriminate | | contradiction].
      destruct S as (v & -> & N & K). intros x y E. destruct (prefix_of_quote _ _ _ _ N E) as (z & ->). destruct K as [-> | [K | [K | K]]].
      * exfalso. rewrite app_nil_r in E. apply N. rewrite E. apply in_or_app. right. left. reflexivity.
      * left. apply in_or_app. left. exact K.
      * exfalso. apply Forall_app in H3. destruct H3 as [H3 _]. rewrite Forall_forall in H3. apply Exists_exists in K. destruct K as (c & K1 & K2). exact (eof_not_allowed _ K2 (H3 _ K1)).
      * right. rewrite app_length. lia.
    + destruct (scan_datum (c :: r) 0 []) as [[acc t]|] eqn:S; [discriminate|]. destruct (scan_datum_none _ _ _ F S ltac:(lia)) as (v & t & E & L & G).
      apply (Bi_long _ [] v t); [exact E | constructor | exact L | exact G].
Qed.

Lemma bad_text_item kw r : Forall allowed r -> bad_text kw r -> bad_item r.
Proof.
  intros F [H|H]; [|exact (data_none _ F H)]. destruct (lex_next_ok kw r F) as (t & s & r' & E). congruence.
Qed.

(* ---------- the outcome ---------- *)

Lemma compile_outcome src st kw : fine st ->
  match parse_source src st kw with
  | PoOk (Some bc) e st' => e = None /\ compiled kw src st bc st'
  | PoOk None e st' => e <> None /\ fine st'
  | PoExit => exists l, In l src /\
      (~ Forall allowed (ln_text l) \/ exists L, later kw (T_NL, ln_text l) L /\ bad_item (snd L))
  | PoCrash => exists l L, In l src /\ later kw (T_NL, ln_text l) L /\ unsupported (fst L)
  | PoNoFuel => False
  end.
Proof.
  intros F. pose proof (parse_source_ok src st kw F) as H. destruct (parse_source src st kw) as [[bc|] e st' | | |]; auto.
  - destruct H as (E & xss & st1 & P & N & -> & B & D). split; [exact E|]. split; [apply fine_unknown; exact (names_fine _ _ N F)|].
    exists xss, st1. rewrite B. auto.
  - destruct H as (E & st1 & N & ->). split; [exact E|]. apply fine_unknown. exact (names_fine _ _ N F).
  - destruct H as (l & L & I & LA & B). exists l. split; [exact I|].
    assert (D : Forall allowed (ln_text l) \/ ~ Forall allowed (ln_text l)).
    { destruct (forallb (fun c => (code c <? 127)%N) (ln_text l)) eqn:Q.
      - left. apply Forall_forall. intros c K. rewrite forallb_forall in Q. specialize (Q c K). unfold allowed. lia.
      - right. intros K. assert (forallb (fun c => (code c <? 127)%N) (ln_text l) = true); [|congruence]. apply forallb_forall. intros c J.
        rewrite Forall_forall in K. specialize (K c J). unfold allowed in K. lia. }
    destruct D as [D|D]; [right | left; exact D]. exists L. split; [exact LA|]. apply (bad_text_item kw); [|exact B]. exact (later_allowed _ _ _ LA D).
Qed.

Lemma compiled_markers kw src st bc st' : compiled kw src st bc st' -> filter is_source_line (bc_inst bc) = map I_SOURCE_LINE (seq 0 (length src)).
Proof.
  intros [_ (xss & st1 & P & _ & -> & _)]. rewrite (pcode_markers _ (program_plain _ _ _ _ _ P)). rewrite (program_length _ _ _ _ _ P), map_length. reflexivity.
Qed.

Lemma compiled_consts kw src st bc st' : compiled kw src st bc st' -> consts_ok bc.
Proof. intros [_ (xss & st1 & P & _ & E & _)]. unfold consts_ok. rewrite E. apply pcode_consts. exact (program_plain _ _ _ _ _ P). Qed.

Lemma compiled_code kw st src xss st1 : fine st -> program_is kw st src xss st1 -> few_names st1 ->
  Forall (Forall few_subs) xss -> Forall (Forall proper_targets) xss -> code_ok (sigs (sym_make_unknown_array st1)) (pcode 0 xss).
Proof. intros F P FN FS PT. apply pcode_ok; [|exact FS | exact PT]. exact (program_good st1 FN _ _ _ _ _ P F (Nm_refl _)). Qed.
