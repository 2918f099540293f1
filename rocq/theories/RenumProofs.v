(* Proofs about RENUM (C05). *)
From Coq Require Import Lia ZifyBool ZifyNat ZifyN Sorted SpecFloat.
From Verif Require Import Base BaseLemmas Num NumSpec NumLemmas DoubleProofs SourceModel SourceSpec LineMapModel LineMapSpec LineMapProofs LexModel LexSpec LexProofs.
From Verif Require Import VmModel SessionModel ValueProofs MonitorModel MonSpec MonProofs RenumSpec.
Local Open Scope nat_scope.

(* ---------- numbers in the text ---------- *)

Lemma num_line_iff x n : double x -> num_line x = Some n <-> is_integer x (Z.of_N n) /\ (1 <= n <= 65535)%N.
Proof.
  intros D. unfold num_line.
  assert (D0 : double fzero) by reflexivity. assert (I0 : is_integer fzero 0) by reflexivity.
  destruct (fofZ_spec 65535 ltac:(lia)) as [D1 I1]. change (fofZ 65535) with (fofN 65535) in D1, I1.
  split.
  - destruct (fgtb x fzero) eqn:G; [|discriminate]. destruct (fleb x (fofN 65535)) eqn:L; [|discriminate]. destruct (feqb (ffloor x) x) eqn:Q; [|discriminate]. cbn [andb].
    apply (equal_floor x D) in Q. destruct Q as [[z I] | [s ->]].
    + rewrite (ftoZ_integer x z D I). intros E. injection E as <-.
      pose proof (compare_integers x fzero z 0 D D0 I I0) as C0. pose proof (compare_integers x (fofN 65535) z 65535 D D1 I I1) as C1.
      unfold fgtb, fleb in G, L. unfold fltb in G. 
      assert (Z0 : (0 < z)%Z). { pose proof (compare_integers fzero x 0 z D0 D I0 I) as C. unfold SFltb in G. rewrite C in G. clear - G. destruct (Z.compare_spec 0 z); try discriminate G. assumption. }
      assert (Z1 : (z <= 65535)%Z). { unfold SFleb in L. rewrite C1 in L. clear - L; destruct (Z.compare_spec z 65535); try discriminate L; lia. }
      rewrite Z2N.id by lia. split; [exact I | lia].
    + destruct s; discriminate.
  - intros [I R].
    pose proof (compare_integers fzero x 0 (Z.of_N n) D0 D I0 I) as C0. pose proof (compare_integers x (fofN 65535) (Z.of_N n) 65535 D D1 I I1) as C1.
    assert (G : fgtb x fzero = true) by (unfold fgtb, fltb, SFltb; rewrite C0; clear - R; destruct (Z.compare_spec 0 (Z.of_N n)); [lia | reflexivity | lia]).
    assert (L : fleb x (fofN 65535) = true) by (unfold fleb, SFleb; rewrite C1; clear - R; destruct (Z.compare_spec (Z.of_N n) 65535); [reflexivity | reflexivity | lia]).
    rewrite G, L, (proj2 (equal_floor x D) (or_introl (ex_intro _ _ I))), (ftoZ_integer x _ D I), N2Z.id. reflexivity.
Qed.

Lemma digits_span ds r : Forall digit ds -> ~ begins_with digit r -> span is_digit (ds ++ r) = (ds, r).
Proof.
  induction 1 as [|c ds C F IH]; intros NB; cbn [app span].
  - destruct r as [|c r]; [reflexivity|]. cbn [span]. destruct (is_digit c) eqn:D; [destruct NB; exists c, r; auto | reflexivity].
  - rewrite C, (IH NB). reflexivity.
Qed.
Lemma nothing_begins P : ~ begins_with P [].
Proof. intros (c & r & E & _). discriminate E. Qed.
Lemma strtod_digits ds : ds <> [] -> Forall digit ds -> exists x, strtod ds = (x, []).
Proof.
  intros NE F. destruct ds as [|c r]; [contradiction|]. pose proof (Forall_inv F) as C. unfold strtod. cbn [drop_while].
  assert (K : (48 <= code c <= 57)%N) by (unfold digit, is_digit in C; lia).
  replace (is_space c) with false by (symmetry; unfold is_space; lia).
  replace (ceq c "-") with false by (symmetry; apply ceq_neq; intros ->; discriminate C).
  replace (ceq c "+") with false by (symmetry; apply ceq_neq; intros ->; discriminate C).
  unfold scan_unsigned.
  assert (NP : forall d s, (58 <= code (to_lower d))%N -> striprefix (d :: s) (c :: r) = false).
  { intros d s LD. cbn [striprefix]. destruct (code (to_lower d) =? code (to_lower c))%N eqn:Q; [|reflexivity]. exfalso. apply N.eqb_eq in Q. rewrite Q in LD. revert LD. unfold to_lower.
    unfold is_upper. replace ((65 <=? code c)%N) with false by lia. cbn [andb]. lia. }
  change (lit "infinity") with ("i"%char :: lit "nfinity"). rewrite (NP "i"%char (lit "nfinity")) by (vm_compute; discriminate).
  change (lit "inf") with ("i"%char :: lit "nf"). rewrite (NP "i"%char (lit "nf")) by (vm_compute; discriminate).
  change (lit "nan") with ("n"%char :: lit "an"). rewrite (NP "n"%char (lit "an")) by (vm_compute; discriminate).
  match goal with |- context [match ?h with Some v => Some v | None => _ end] => assert (H : h = None) end.
  { destruct r as [|d r]; [reflexivity|]. destruct (ceq c "0" && ceq (to_lower d) "x") eqn:Q; [|reflexivity]. exfalso. apply andb_prop in Q. destruct Q as [_ Q]. apply ceq_eq in Q.
    pose proof (Forall_inv (Forall_inv_tail F)) as Dd. unfold digit, is_digit in Dd. unfold to_lower, is_upper in Q. replace ((65 <=? code d)%N) with false in Q by lia. cbn [andb] in Q. subst d. discriminate Dd. }
  rewrite H. unfold scan_mantissa. pose proof (digits_span (c :: r) [] F (nothing_begins _)) as SP'. rewrite app_nil_r in SP'. rewrite SP'. cbn [Num.scan_exponent]. eexists. reflexivity.
Qed.
Lemma digit_allowed c : digit c -> lex_valid c = true.
Proof. intros D. apply allowed_valid. unfold digit, is_digit in D. unfold allowed. lia. Qed.
Lemma scan_digits_run : forall ds n tail, Forall digit ds -> ~ begins_with digit tail -> Forall allowed tail -> n + length ds <= 127 ->
  scan_digits (ds ++ tail) n = DgOk ds (n + length ds) tail.
Proof.
  induction ds as [|c ds IH]; intros n tail F NB A L; cbn [app length].
  - rewrite Nat.add_0_r. destruct tail as [|c tail]; [reflexivity|]. cbn [scan_digits]. rewrite (allowed_valid _ (Forall_inv A)). cbn [negb].
    destruct (is_digit c) eqn:D; [destruct NB; exists c, tail; auto | reflexivity].
  - cbn [scan_digits]. rewrite (digit_allowed _ (Forall_inv F)). cbn [negb]. pose proof (Forall_inv F) as D. unfold digit in D. rewrite D. cbn [length] in L.
    replace (Nat.leb MAX_WORD (n + 1)) with false by (symmetry; apply Nat.leb_gt; unfold MAX_WORD; lia).
    rewrite (IH (S n) tail (Forall_inv_tail F) NB A) by lia. f_equal. lia.
Qed.
Definition exponent_mark (c : ascii) : Prop := c = "e"%char \/ c = "E"%char.
Lemma lex_digits kw ds tail : ds <> [] -> Forall digit ds -> length ds <= 127 -> Forall allowed tail -> ~ In NL tail ->
  ~ begins_with digit tail -> ~ begins_with (eq "."%char) tail -> ~ begins_with exponent_mark tail ->
  exists x, lex_next kw (ds ++ tail) = LxTok (T_NUM x ds) (ds ++ tail) tail.
Proof.
  intros NE F L A NN N1 N2 N3. destruct (strtod_digits ds NE F) as (x & SX). exists x. destruct ds as [|c r]; [contradiction|].
  pose proof (Forall_inv F) as C. assert (K : (48 <= code c <= 57)%N) by (unfold digit, is_digit in C; lia).
  cbn [app lex_next]. rewrite (digit_allowed c C). cbn [negb].
  replace (is_lex_space c) with false. 2: { symmetry. destruct (is_lex_space c) eqn:Q; [|reflexivity]. apply blank_iff in Q. destruct Q as [-> | [-> | ->]]; vm_compute in K; destruct K; congruence. }
  unfold scan_token. replace (is_alpha c) with false by (symmetry; unfold is_alpha, is_upper, is_lower; lia). unfold digit in C. rewrite C. cbn [orb].
  unfold scan_number. change (c :: r ++ tail) with ((c :: r) ++ tail). rewrite (scan_digits_run (c :: r) 0 tail F N1 A) by (cbn [length] in *; lia).
  assert (P1 : forall n, scan_part tail n (fun d => ceq d ".") scan_digits = DgOk [] n tail).
  { intros n. destruct tail as [|d tail]; [reflexivity|]. cbn [scan_part]. destruct (ceq d ".") eqn:Q; [|reflexivity]. apply ceq_eq in Q. subst d. destruct N2. exists "."%char, tail. auto. }
  assert (P2 : forall n, scan_part tail n is_exp_char LexModel.scan_exponent = DgOk [] n tail).
  { intros n. destruct tail as [|d tail]; [reflexivity|]. cbn [scan_part]. destruct (is_exp_char d) eqn:Q; [|reflexivity]. destruct N3. exists d, tail. split; [reflexivity|].
    unfold is_exp_char in Q. apply Bool.orb_true_iff in Q. destruct Q as [Q|Q]; apply ceq_eq in Q; subst d; [left | right]; reflexivity. }
  rewrite P1, P2. rewrite !app_nil_r. rewrite SX.
  assert (PB : pushback_rest tail = tail).
  { destruct (pushback_rest_same tail) as [E | [E _]]; [exact E|]. destruct NN. rewrite E. left. reflexivity. }
  rewrite PB. reflexivity.
Qed.

(* ---------- the text of a line ---------- *)

Lemma refers_iff t : takes_line_number t = true <-> refers t.
Proof.
  unfold refers. split; [|intros [-> | [-> | [-> | [-> | ->]]]]; reflexivity].
  destruct t as [| | | | | | | | | |k]; try discriminate. destruct k; try discriminate; intros _; [left | right; left | right; right; left | right; right; right; left | right; right; right; right]; auto.
Qed.
Lemma no_nl_same tail rest : ~ In NL tail -> same_text tail rest -> rest = tail.
Proof. intros NN [E | [E _]]; [exact E|]. destruct NN. rewrite E. left. reflexivity. Qed.
Lemma spells_not_nl kw w tail t : w <> [] -> ~ In NL w -> Forall allowed w -> spells kw w tail t -> t <> T_NL /\ t <> T_EOF.
Proof.
  intros NE NN A S. inversion S; subst; (split; [|try discriminate]); try discriminate.
  - unfold T_NL. intros E. injection E as ->. apply NN. left. reflexivity.
  - contradiction.
  - exfalso. apply Forall_inv in A. unfold allowed in A. unfold is_eof_char in H0. lia.
Qed.
Lemma go_other kw map text t rest f : t <> T_NL -> t <> T_EOF -> ~ refers t ->
  renum_text (S f) kw map text t rest = match lex_next kw rest with LxTok t' _ r' => renum_text f kw map text t' r' | LxExit => RnExit end.
Proof.
  intros N1 N2 N3. assert (TF : takes_line_number t = false) by (destruct (takes_line_number t) eqn:Q; [apply refers_iff in Q; contradiction | reflexivity]).
  cbn [renum_text]. destruct t as [c| | | | | | | | | |k]; cbn [takes_line_number] in TF; try reflexivity; try contradiction.
  - destruct (ceq c NL) eqn:Q; [|reflexivity]. apply ceq_eq in Q. subst c. contradiction.
  - change (takes_line_number (T_KW k)) with (match k with K_ELSE | K_GOSUB | K_GOTO | K_RESTORE | K_THEN => true | _ => false end). rewrite TF. reflexivity.
Qed.
Lemma go_refers kw map text t rest f : takes_line_number t = true ->
  renum_text (S f) kw map text t rest =
  let go_on txt r := match lex_next kw r with LxTok t' _ r' => renum_text f kw map txt t' r' | LxExit => RnExit end in
  match lex_next kw rest with
  | LxExit => RnExit
  | LxTok (T_NUM x w) start r1 =>
      match num_line x with
      | Some n =>
          match lookup_line_mapping map n with
          | Some n' =>
              let pos := length text - length start in
              match source_replace [mkLine 0 text] 0 pos w (dec_of_N n') with
              | Some [l] =>
                  match lex_next kw (skipn pos (ln_text l)) with
                  | LxExit => RnExit
                  | LxTok (T_NUM _ _) _ r2 => go_on (ln_text l) r2
                  | LxTok _ _ _ => RnBail (ln_text l)
                  end
              | _ => RnBail text
              end
          | None => go_on text r1
          end
      | None => go_on text r1
      end
  | LxTok _ _ r1 => go_on text r1
  end.
Proof. intros TK. cbn [renum_text]. destruct t as [c| | | | | | | | | |k]; try discriminate TK. rewrite TK. reflexivity. Qed.
Lemma go_end kw map text f : renum_text (S f) kw map text T_NL [] = RnOk text.
Proof. reflexivity. Qed.

Section Text.
Variable f : N -> N -> Prop.
Variable map : linemap.
Hypothesis MF : forall n n', lookup_line_mapping map n = Some n' <-> f n n'.
Hypothesis FB : forall n n', f n n' -> (n' < 4294967296)%N.

Lemma no_replacement kw w tail t s : spells kw w tail t ->
  (exists n', old_line f t n') \/
  ((forall n', ~ old_line f t n') /\ match t with T_NUM x _ => match num_line x with Some n => lookup_line_mapping map n = None | None => True end | _ => True end) \/ s = true.
Proof.
  intros S. destruct t as [| | | | |x w'| | | | |]; try (right; left; split; [intros n' (x & v & n & E & _); discriminate E | exact I]).
  assert (D : double x) by (inversion S; subst; match goal with H : strtod _ = _ |- _ => pose proof (strtod_double w') as D; rewrite H in D; exact D end).
  destruct (num_line x) as [n|] eqn:Q.
  - destruct (lookup_line_mapping map n) as [n'|] eqn:L.
    + left. exists n'. exists x, w', n. split; [reflexivity|]. apply (num_line_iff x n D) in Q. destruct Q as [Q1 Q2]. split; [exact Q1|]. split; [exact Q2 | apply MF, L].
    + right. left. split; [|reflexivity]. intros n' (x0 & v & n0 & E & I0 & R0 & F0). injection E as <- <-.
      assert (Q' : num_line x = Some n0) by (apply num_line_iff; auto). rewrite Q in Q'. injection Q' as <-. apply MF in F0. congruence.
  - right. left. split; [|exact I]. intros n' (x0 & v & n0 & E & I0 & R0 & F0). injection E as <- <-.
    assert (Q' : num_line x = Some n0) by (apply num_line_iff; auto). congruence.
Qed.
Lemma in_app3 {A} (P : A -> Prop) a b c : Forall P (a ++ b ++ c) -> Forall P b /\ Forall P c.
Proof. intros F. apply Forall_app in F. destruct F as [_ F]. apply Forall_app in F. exact F. Qed.

Lemma text_ok kw : forall n s, length s <= n -> Forall allowed s -> ~ In NL s -> forall t start rest, lex_next kw s = LxTok t start rest ->
  exists l, tokens_of kw s l /\ lexer_gives kw s (List.map snd l) /\
    (plain_refs f l -> exists s', retext f l s' /\ forall fuel pre, n < fuel -> renum_text (S fuel) kw map (pre ++ s) t rest = RnOk (pre ++ s')).
Proof.
  induction n as [n IH] using lt_wf_ind. intros s L A NN t start rest H.
  destruct (lex_next_spec kw s t start rest H) as (b & w & tail & E & B & ES & T & K). destruct K as [[W SP1] | (-> & -> & ->)].
  2: { cbn [app] in E. rewrite app_nil_r in E. subst s. assert (ER : rest = []) by (destruct T as [-> | [_ ->]]; reflexivity). subst rest.
       exists [(b, [], T_NL)]. split; [|split].
       - pose proof (To_end kw b [] B (or_introl eq_refl)) as Q. rewrite app_nil_r in Q. exact Q.
       - exact (Lg_end _ _ _ H).
       - intros _. exists (b ++ []). split; [apply Rt_end|]. intros fuel pre _. rewrite app_nil_r. apply go_end. }
  assert (NNw : ~ In NL w) by (intros Q; apply NN; rewrite E; apply in_app_iff; right; apply in_app_iff; left; exact Q).
  assert (NNt : ~ In NL tail) by (intros Q; apply NN; rewrite E; apply in_app_iff; right; apply in_app_iff; right; exact Q).
  rewrite E in A. destruct (in_app3 _ _ _ _ A) as [Aw At]. pose proof (no_nl_same _ _ NNt T) as ER. subst rest.
  destruct (spells_not_nl kw w tail t W NNw Aw SP1) as [TN TE].
  assert (LT : length tail < length s) by (rewrite E, !app_length; destruct w; [contradiction|]; cbn [length]; lia).
  destruct (lex_next_ok kw tail At) as (t2 & start2 & rest2 & H2).
  assert (NX : forall l', tokens_of kw tail l' -> lexer_gives kw tail (List.map snd l') -> tokens_of kw s ((b, w, t) :: l') /\ lexer_gives kw s (List.map snd ((b, w, t) :: l'))).
  { intros l' T1 T2. split.
    - rewrite E. apply (To_next _ b w tail t tail l' B W SP1 (same_refl _)); [|exact T1]. intros ->. destruct NNw. left. reflexivity.
    - refine (Lg_next _ _ _ _ _ _ H _ T2). intros [Q _]. contradiction. }
  destruct (takes_line_number t) eqn:TK.
  2: { assert (NR : ~ refers t) by (intros Q; apply refers_iff in Q; congruence).
       destruct (IH (length tail) ltac:(lia) tail ltac:(lia) At NNt t2 start2 rest2 H2) as (l & T1 & T2 & G).
       exists ((b, w, t) :: l). destruct (NX l T1 T2) as [X1 X2]. split; [exact X1|]. split; [exact X2|]. intros P. inversion P; subst.
       destruct (G H6) as (s' & R & Q). exists (b ++ w ++ s'). split; [apply Rt_other; assumption|]. intros fuel pre LF.
       rewrite (go_other _ _ _ _ _ _ TN TE NR), H2. destruct fuel as [|fuel]; [lia|].
       replace (pre ++ b ++ w ++ tail) with ((pre ++ b ++ w) ++ tail) by (rewrite <- !app_assoc; reflexivity).
       rewrite (Q fuel (pre ++ b ++ w)) by lia. rewrite <- !app_assoc. reflexivity. }
  assert (RF : refers t) by (apply refers_iff; exact TK).
  destruct (lex_next_spec kw tail t2 start2 rest2 H2) as (b2 & w2 & tail2 & E2 & B2 & ES2 & T2 & K2). destruct K2 as [[W2 SP2] | (-> & -> & ->)].
  2: { (* nothing after the word *)
       assert (ER2 : rest2 = []) by (destruct T2 as [-> | [_ ->]]; reflexivity). subst rest2. cbn [app] in E2. rewrite app_nil_r in E2. subst tail.
       exists [(b, w, t); (b2, [], T_NL)].
       assert (T1' : tokens_of kw b2 [(b2, [], T_NL)]) by (pose proof (To_end kw b2 [] B2 (or_introl eq_refl)) as Q; rewrite app_nil_r in Q; exact Q).
       destruct (NX _ T1' (Lg_end _ _ _ H2)) as [X1 X2]. split; [exact X1|]. split; [exact X2|]. intros _.
       exists (b ++ w ++ b2 ++ []). split; [apply Rt_word_end, RF|]. intros fuel pre LF. destruct fuel as [|fuel]; [lia|].
       assert (Z : renum_text (S (S fuel)) kw map (pre ++ s) t b2 = RnOk (pre ++ s)).
       { rewrite (go_refers _ _ _ _ _ _ TK). cbv zeta. rewrite H2. rewrite lex_next_nil. reflexivity. }
       rewrite Z. rewrite E, app_nil_r. reflexivity. }
  assert (NNw2 : ~ In NL w2) by (intros Q; apply NNt; rewrite E2; apply in_app_iff; right; apply in_app_iff; left; exact Q).
  assert (NNt2 : ~ In NL tail2) by (intros Q; apply NNt; rewrite E2; apply in_app_iff; right; apply in_app_iff; right; exact Q).
  rewrite E2 in At. destruct (in_app3 _ _ _ _ At) as [Aw2 At2]. pose proof (no_nl_same _ _ NNt2 T2) as ER2. subst rest2.
  destruct (spells_not_nl kw w2 tail2 t2 W2 NNw2 Aw2 SP2) as [TN2 TE2].
  assert (LT2 : length tail2 < length tail) by (rewrite E2, !app_length; destruct w2; [contradiction|]; cbn [length]; lia).
  destruct (lex_next_ok kw tail2 At2) as (t3 & start3 & rest3 & H3).
  destruct (IH (length tail2) ltac:(lia) tail2 ltac:(lia) At2 NNt2 t3 start3 rest3 H3) as (l & T1' & T2' & G).
  assert (NX2 : tokens_of kw tail ((b2, w2, t2) :: l) /\ lexer_gives kw tail (List.map snd ((b2, w2, t2) :: l))).
  { split.
    - rewrite E2. apply (To_next _ b2 w2 tail2 t2 tail2 l B2 W2 SP2 (same_refl _)); [|exact T1']. intros ->. destruct NNw2. left. reflexivity.
    - refine (Lg_next _ _ _ _ _ _ H2 _ T2'). intros [Q _]. contradiction. }
  destruct NX2 as [Y1 Y2]. destruct (NX _ Y1 Y2) as [X1 X2]. exists ((b, w, t) :: (b2, w2, t2) :: l). split; [exact X1|]. split; [exact X2|]. intros P.
  inversion P as [|? ? ? ? PR P2]; subst. inversion P2 as [|? ? ? ? PR2 P3]; subst. destruct (G P3) as (s' & R & Q). specialize (PR RF). cbn iota in PR.
  assert (STEP : forall fuel text, (match t2 with T_NUM x _ => match num_line x with Some n => lookup_line_mapping map n = None | None => True end | _ => True end) ->
    renum_text (S (S fuel)) kw map text t (b2 ++ w2 ++ tail2) = renum_text (S fuel) kw map text t3 rest3).
  { intros fuel text NO. rewrite (go_refers _ _ _ _ _ _ TK). cbv zeta. rewrite H2.
    destruct t2 as [| | | | |x w'| | | | |]; try (rewrite H3; reflexivity). destruct (num_line x) as [m|]; [rewrite NO|]; rewrite H3; reflexivity. }
  destruct (no_replacement kw w2 tail2 t2 false SP2) as [(n' & O) | [[NO1 NO2] | Q']]; [| |discriminate Q'].
  - (* replaced *)
    pose proof (PR n' O) as DG. destruct O as (x & v & m & -> & IX & RX & FX). inversion SP2 as [| |? NW LW ST | | | | | | | | | | | ]; subst.
    assert (D : double x) by (pose proof (strtod_double v) as D; rewrite ST in D; exact D).
    destruct NW as (d1 & d2 & d3 & EW & F1 & F2 & _ & F3 & NB1 & NB2 & NB3).
    assert (D2 : d2 = []). { destruct F2 as [-> | (e & -> & _)]; [reflexivity|]. exfalso. rewrite EW in DG. apply Forall_app in DG. destruct DG as [_ DG]. apply Forall_inv in DG. discriminate DG. }
    subst d2. assert (D3 : d3 = []). { destruct F3 as [-> | (y & e & -> & Y & _)]; [reflexivity|]. exfalso. rewrite EW in DG. apply Forall_app in DG. destruct DG as [_ DG]. cbn [app] in DG. apply Forall_inv in DG. destruct Y as [-> | ->]; discriminate DG. }
    subst d3. specialize (NB2 eq_refl). specialize (NB3 eq_refl). cbn [app] in NB2.
    destruct (lex_digits kw (dec_of_N n') tail2 (dec_of_N_nonempty n') (dec_of_N_digits n')) as (x' & LX); [pose proof (dec_of_N_length n' 32 (FB _ _ FX)); lia | exact At2 | exact NNt2 | exact NB1 | exact NB2 | exact NB3|].
    exists (b ++ w ++ b2 ++ dec_of_N n' ++ s'). split; [apply Rt_number; [exact RF | exists x, v, m; auto | exact R]|]. intros fuel pre LF. destruct fuel as [|fuel]; [lia|].
    set (text := pre ++ b ++ w ++ b2 ++ v ++ tail2). rewrite (go_refers _ _ _ _ _ _ TK). cbv zeta. rewrite H2.
    assert (NL' : num_line x = Some m) by (apply num_line_iff; auto). rewrite NL', (proj2 (MF m n') FX).
    replace (length text - length (v ++ tail2)) with (length (pre ++ b ++ w ++ b2)) by (unfold text; rewrite !app_length; lia).
    assert (TX : text = (pre ++ b ++ w ++ b2) ++ v ++ tail2) by (unfold text; rewrite <- !app_assoc; reflexivity).
    set (front := pre ++ b ++ w ++ b2) in *.
    assert (SR : source_replace [mkLine 0 text] 0 (length front) v (dec_of_N n') = Some [mkLine 0 (front ++ dec_of_N n' ++ tail2)]).
    { unfold source_replace. cbn [nth_error ln_text ln_num list_upd]. rewrite TX.
      replace (Nat.leb (length front) (length (front ++ v ++ tail2))) with true by (symmetry; apply Nat.leb_le; rewrite app_length; lia).
      replace (Nat.leb (length v) (length (front ++ v ++ tail2) - length front)) with true by (symmetry; apply Nat.leb_le; rewrite !app_length; lia).
      rewrite skipn_app, skipn_all, Nat.sub_diag. cbn [skipn app].
      assert (HP : forall p q, has_prefix p (p ++ q) = true) by (induction p as [|c0 p IHp]; intros q; [reflexivity|]; cbn [app has_prefix]; rewrite (proj2 (ceq_eq c0 c0) eq_refl), IHp; reflexivity).
      rewrite HP. cbn [andb]. rewrite firstn_app, firstn_all, Nat.sub_diag. cbn [firstn]. rewrite app_nil_r.
      replace (length front + length v) with (length (front ++ v)) by (rewrite app_length; reflexivity).
      replace (front ++ v ++ tail2) with ((front ++ v) ++ tail2) by (rewrite <- app_assoc; reflexivity).
      rewrite skipn_app, skipn_all, Nat.sub_diag. cbn [skipn app]. reflexivity. }
    rewrite SR. cbn [ln_text]. rewrite skipn_app, skipn_all, Nat.sub_diag. cbn [skipn app]. rewrite LX, H3.
    replace (front ++ dec_of_N n' ++ tail2) with ((front ++ dec_of_N n') ++ tail2) by (rewrite <- app_assoc; reflexivity).
    refine (eq_trans (Q fuel (front ++ dec_of_N n') _) _); [lia|]. unfold front. rewrite <- !app_assoc. reflexivity.
  - exists (b ++ w ++ b2 ++ w2 ++ s'). split; [apply Rt_no_number; assumption|]. intros fuel pre LF. destruct fuel as [|fuel]; [lia|].
    rewrite (STEP fuel _ NO2).
    replace (pre ++ b ++ w ++ b2 ++ w2 ++ tail2) with ((pre ++ b ++ w ++ b2 ++ w2) ++ tail2) by (rewrite <- !app_assoc; reflexivity).
    rewrite (Q fuel (pre ++ b ++ w ++ b2 ++ w2)) by lia. rewrite <- !app_assoc. reflexivity.
Qed.

Lemma line_ok kw s : Forall allowed s -> ~ In NL s ->
  exists l, tokens_of kw s l /\ lexer_gives kw s (List.map snd l) /\ (plain_refs f l -> exists s', retext f l s' /\ renum_line kw map s = RnOk s').
Proof.
  intros A NN. destruct (lex_next_ok kw s A) as (t & start & rest & H). destruct (text_ok kw (length s) s ltac:(lia) A NN t start rest H) as (l & T1 & T2 & G).
  exists l. split; [exact T1|]. split; [exact T2|]. intros P. destruct (G P) as (s' & R & Q). exists s'. split; [exact R|]. unfold renum_line. rewrite H. apply (Q (S (length s)) []). lia.
Qed.
End Text.

(* ---------- the numbers ---------- *)

Lemma lower_upper src old : increasing src -> src = lower old src ++ upper old src.
Proof.
  unfold increasing, lower, upper. induction src as [|l src IH]; intros I; [reflexivity|]. cbn [List.map] in I. inversion I as [|? ? I' F]; subst. cbn [filter].
  destruct (ln_num l <? old)%N eqn:Q; cbn [negb].
  - cbn [app]. f_equal. apply IH, I'.
  - assert (LO : filter (fun x => (ln_num x <? old)%N) src = []).
    { apply N.ltb_ge in Q. clear - Q F. induction src as [|x src IH]; [reflexivity|]. cbn [filter List.map] in *. inversion F; subst. replace (ln_num x <? old)%N with false by lia. apply IH. assumption. }
    rewrite LO in *. cbn [app] in *. f_equal. apply IH, I'.
Qed.
Lemma lower_below src old : Forall (fun l => (ln_num l < old)%N) (lower old src).
Proof. apply Forall_forall. intros l I. apply filter_In in I. destruct I as [_ I]. lia. Qed.
Lemma upper_above src old : Forall (fun l => (old <= ln_num l)%N) (upper old src).
Proof. apply Forall_forall. intros l I. apply filter_In in I. destruct I as [_ I]. lia. Qed.

Definition with_number (l : line) (n : N) : line := mkLine n (ln_text l).
Fixpoint numbered (src : source) (nums : list N) : source :=
  match src, nums with l :: r, n :: ns => with_number l n :: numbered r ns | _, _ => [] end.
Definition steps (new inc : N) (n : nat) : list N := List.map (fun k => (new + N.of_nat k * inc)%N) (seq 0 n).
Lemma steps_succ new inc n : steps new inc (S n) = new :: steps (new + inc) inc n.
Proof. unfold steps. cbn [seq List.map]. f_equal; [lia|]. rewrite <- seq_shift, map_map. apply map_ext. intros k. lia. Qed.
Definition pairs (src : source) (nums : list N) : list (N * N) := combine (List.map ln_num src) nums.

Definition tries (m : linemap) (kvs : list (N * N)) : linemap := fold_left insert_try kvs m.

Lemma renum_upper old inc : forall src m new prev, Forall (fun l => (old <= ln_num l)%N) src -> (new < 4294967296)%N -> (inc < 4294967296)%N ->
  (src <> [] -> (prev <= new)%N /\ (new + N.of_nat (length src - 1) * inc < 4294967296)%N) ->
  renum_lines src m new old inc prev = (numbered src (steps new inc (length src)), tries m (pairs src (steps new inc (length src))), None).
Proof.
  induction src as [|l src IH]; intros m new prev F LN LI H; [reflexivity|]. inversion F; subst. destruct (H ltac:(discriminate)) as [H1' H2']. cbn [renum_lines].
  replace (old <=? ln_num l)%N with true by lia. replace (new <? prev)%N with false by lia.
  cbn [length] in *. rewrite steps_succ. cbn [numbered pairs List.map combine tries fold_left]. unfold insert_try at 2. cbn [fst snd].
  destruct src as [|l2 src].
  - cbn [renum_lines length steps seq List.map numbered combine fold_left]. reflexivity.
  - assert (LT : (new + inc < 4294967296)%N) by (cbn [length] in H2'; lia). assert (U : u32 (new + inc) = (new + inc)%N) by (apply N.mod_small; exact LT). rewrite U.
    rewrite IH; [reflexivity | assumption | exact LT | exact LI|]. intros _. cbn [length] in *. split; [lia|]. replace (S (length src) - 1) with (length src) by lia. replace (S (S (length src)) - 1) with (S (length src)) in H2' by lia. lia.
Qed.
Lemma renum_upper_fails old inc : forall src m new prev, Forall (fun l => (old <= ln_num l)%N) src -> (new < 4294967296)%N -> (inc < 4294967296)%N -> src <> [] ->
  ~ ((prev <= new)%N /\ (new + N.of_nat (length src - 1) * inc < 4294967296)%N) -> exists l n p, In l src /\ (n < p)%N /\ snd (renum_lines src m new old inc prev) = Some (DRenumber (ln_num l) n p).
Proof.
  induction src as [|l src IH]; intros m new prev F LN LI NE H; [contradiction|]. inversion F; subst. cbn [renum_lines].
  replace (old <=? ln_num l)%N with true by lia. destruct (new <? prev)%N eqn:Q; [exists l, new, prev; split; [left; reflexivity|]; split; [lia | reflexivity]|].
  destruct src as [|l2 src]; [exfalso; apply H; split; [lia | cbn [length]; lia]|].
  match goal with |- context [renum_lines (l2 :: src) ?mm ?nn old inc ?pp] => destruct (IH mm nn pp) as (x & n & p & I & LTn & E) end.
  - assumption.
  - apply N.mod_lt. discriminate.
  - exact LI.
  - discriminate.
  - intros [A B]. apply H. split; [lia|]. unfold u32 in *.
    assert (LT : (new + inc < 4294967296)%N).
    { destruct (N.lt_ge_cases (new + inc) 4294967296) as [K|K]; [exact K|]. exfalso. clear - A K LN LI. lia. }
    rewrite N.mod_small in B by exact LT. cbn [length] in *. replace (S (length src) - 1) with (length src) in B by lia. replace (S (S (length src)) - 1) with (S (length src)) by lia. lia.
  - exists x, n, p. split; [right; exact I|]. split; [exact LTn|]. destruct (renum_lines (l2 :: src) _ _ old inc new) as [[r' m'] e]. exact E.
Qed.
Lemma renum_lower old inc b : forall a m new prev, Forall (fun l => (ln_num l < old)%N) a ->
  renum_lines (a ++ b) m new old inc prev =
  let '(r, m', e) := renum_lines b (tries m (pairs a (List.map ln_num a))) new old inc (last (List.map ln_num a) prev) in (a ++ r, m', e).
Proof.
  induction a as [|l a IH]; intros m new prev F.
  - cbn [app]. unfold pairs, tries. cbn [List.map combine fold_left last]. destruct (renum_lines b m new old inc prev) as [[r m'] e]. reflexivity.
  - inversion F; subst. cbn [app renum_lines]. replace (old <=? ln_num l)%N with false by lia. rewrite IH by assumption.
    unfold pairs, tries. cbn [List.map combine fold_left]. unfold insert_try at 3. cbn [fst snd].
    replace (last (ln_num l :: List.map ln_num a) prev) with (last (List.map ln_num a) (ln_num l)).
    + match goal with |- context [renum_lines b ?mm new old inc ?pp] => destruct (renum_lines b mm new old inc pp) as [[r m'] e] end. reflexivity.
    + destruct a as [|x a]; [reflexivity|]. cbn [List.map]. generalize (List.map ln_num a). intros k. generalize (ln_num x). induction k as [|y k IHk]; intros z; [reflexivity|]. cbn [last] in *. apply IHk.
Qed.
Lemma tries_app m a b : tries m (a ++ b) = tries (tries m a) b.
Proof. apply fold_left_app. Qed.
Lemma last_sorted (ks : list N) d n : StronglySorted N.lt ks -> (d <= n)%N -> (forall k, In k ks -> (k <= n)%N) <-> (last ks d <= n)%N.
Proof.
  intros S D. destruct ks as [|k ks]; [split; [intros _; exact D | intros _ ? []]|]. destruct (exists_last (l := k :: ks) ltac:(discriminate)) as (q & z & E). rewrite E in *. rewrite last_last. split.
  - intros H. apply H. apply in_app_iff. right. left. reflexivity.
  - intros H x I. apply in_app_iff in I. destruct I as [I | [<- | []]]; [|exact H]. assert (x < z)%N; [|lia].
    clear - S I. induction q as [|y q IH]; [destruct I|]. cbn [app] in S. inversion S; subst. destruct I as [-> | I]; [|apply IH; assumption]. rewrite Forall_forall in H2. apply H2. apply in_app_iff. right. left. reflexivity.
Qed.
Lemma sorted_app_l {A} (R : A -> A -> Prop) a b : StronglySorted R (a ++ b) -> StronglySorted R a.
Proof. induction a as [|x a IH]; intros S; [constructor|]. cbn [app] in S. inversion S; subst. constructor; [apply IH; assumption|]. apply Forall_app in H2. tauto. Qed.
Lemma sorted_app_r {A} (R : A -> A -> Prop) a b : StronglySorted R (a ++ b) -> StronglySorted R b.
Proof. induction a as [|x a IH]; intros S; [exact S|]. cbn [app] in S. inversion S; subst. apply IH. assumption. Qed.

Lemma numbered_same a : numbered a (List.map ln_num a) = a.
Proof. induction a as [|[n t] a IH]; [reflexivity|]. cbn [List.map numbered]. rewrite IH. reflexivity. Qed.
Lemma numbered_app a b na nb : length a = length na -> numbered (a ++ b) (na ++ nb) = numbered a na ++ numbered b nb.
Proof. revert na. induction a as [|l a IH]; intros [|n na] L; try discriminate L; [reflexivity|]. cbn [app numbered]. f_equal. apply IH. injection L as L. exact L. Qed.
Lemma combine_app {A B} (a1 : list A) (b1 : list B) a2 b2 : length a1 = length b1 -> combine (a1 ++ a2) (b1 ++ b2) = combine a1 b1 ++ combine a2 b2.
Proof. revert b1. induction a1 as [|x a1 IH]; intros [|y b1] L; try discriminate L; [reflexivity|]. cbn [app combine]. f_equal. apply IH. injection L as L. exact L. Qed.
Lemma new_numbers_length new old inc src : increasing src -> length (new_numbers new old inc src) = length src.
Proof.
  intros I. unfold new_numbers. rewrite app_length, !map_length, seq_length. rewrite (lower_upper src old I) at 3. rewrite app_length. reflexivity.
Qed.
Lemma renum_numbers new old inc src : increasing src -> (new < 4294967296)%N -> (inc < 4294967296)%N ->
  (fits new old inc src -> forall m, renum_lines src m new old inc 0 = (numbered src (new_numbers new old inc src), tries m (pairs src (new_numbers new old inc src)), None)) /\
  (~ fits new old inc src -> forall m, exists l n p, In l (upper old src) /\ (n < p)%N /\ snd (renum_lines src m new old inc 0) = Some (DRenumber (ln_num l) n p)).
Proof.
  intros I LN LI. pose proof (lower_upper src old I) as LU. set (a := lower old src) in *. set (b := upper old src) in *.
  assert (SA : StronglySorted N.lt (List.map ln_num a)). { unfold increasing in I. rewrite LU, map_app in I. exact (sorted_app_l _ _ _ I). }
  assert (FE : b <> [] -> fits new old inc src <-> (last (List.map ln_num a) 0%N <= new)%N /\ (new + N.of_nat (length b - 1) * inc < 4294967296)%N).
  { intros NE. rewrite <- (last_sorted (List.map ln_num a) 0 new SA ltac:(lia)). unfold fits. fold a b. split.
    - intros H. destruct (H NE) as [H1 H2]. split; [|exact H2]. intros k K. apply in_map_iff in K. destruct K as (l & <- & K). exact (H1 l K).
    - intros [H1 H2] _. split; [|exact H2]. intros l K. apply H1. apply in_map. exact K. }
  split.
  - intros FI m. pose proof (lower_below src old) as FA. pose proof (upper_above src old) as FU. fold a in FA. fold b in FU. unfold new_numbers. fold a b.
    assert (FE' : b <> [] -> (last (List.map ln_num a) 0%N <= new)%N /\ (new + N.of_nat (length b - 1) * inc < 4294967296)%N) by (intros NE; apply FE; assumption).
    clear FE FI. clearbody a b. clear I. subst src. rewrite (renum_lower old inc b a m new 0 FA). rewrite (renum_upper old inc b _ new _ FU LN LI FE').
    fold (steps new inc (length b)). unfold pairs. rewrite map_app.
    rewrite numbered_app by (rewrite map_length; reflexivity). rewrite numbered_same. rewrite combine_app by reflexivity. rewrite tries_app. reflexivity.
  - intros NF m. assert (NE : b <> []) by (intros E; apply NF; intros K; fold b in K; contradiction).
    assert (RE : renum_lines src m new old inc 0 = renum_lines (a ++ b) m new old inc 0) by (rewrite <- LU; reflexivity). rewrite RE, (renum_lower old inc b a m new 0 (lower_below src old)).
    destruct (renum_upper_fails old inc b (tries m (pairs a (List.map ln_num a))) new (last (List.map ln_num a) 0%N) (upper_above src old) LN LI NE) as (l & n & p & H1 & H2 & H3).
    { intros K. apply NF, FE; assumption. }
    exists l, n, p. split; [exact H1|]. split; [exact H2|]. destruct (renum_lines b _ new old inc _) as [[r m'] e]. exact H3.
Qed.

(* the map *)
Lemma latest_nodup ks : forall vs k v, NoDup ks -> latest_entry (combine ks vs) k = Some v <-> exists i, nth_error ks i = Some k /\ nth_error vs i = Some v.
Proof.
  induction ks as [|k0 ks IH]; intros vs k v ND; [split; [discriminate | intros ([|i] & E & _); discriminate E]|].
  destruct vs as [|v0 vs]; [split; [discriminate | intros (i & _ & E); destruct i; discriminate E]|]. inversion ND; subst. cbn [combine latest_entry]. specialize (IH vs k).
  destruct (latest_entry (combine ks vs) k) as [w|] eqn:Q.
  - destruct (proj1 (IH w H2) eq_refl) as (i & E1 & E2). assert (NK : k0 <> k) by (intros ->; apply H1, (nth_error_In _ _ E1)). rewrite (IH v H2). split.
    + intros (j & J1 & J2). exists (S j). auto.
    + intros ([|j] & J1 & J2); [injection J1 as ->; contradiction | exists j; auto].
  - split.
    + destruct (k =? k0)%N eqn:K; [|discriminate]. apply N.eqb_eq in K. subst k0. intros E. injection E as <-. exists 0. auto.
    + intros ([|j] & J1 & J2).
      * injection J1 as ->. injection J2 as ->. rewrite N.eqb_refl. reflexivity.
      * exfalso. assert (X : None = Some v) by (apply IH; [assumption | exists j; auto]). discriminate X.
Qed.
Lemma sorted_nodup ks : StronglySorted N.lt ks -> NoDup ks.
Proof. induction 1 as [|k ks S IH F]; constructor; [|exact IH]. intros I. rewrite Forall_forall in F. specialize (F k I). lia. Qed.
Lemma map_becomes src nums : increasing src -> length nums = length src ->
  forall n n', lookup_line_mapping (tries (new_line_map (N.of_nat (length src))) (pairs src nums)) n = Some n' <-> becomes src nums n n'.
Proof.
  intros I L n n'. change (tries (new_line_map (N.of_nat (length src))) (pairs src nums)) with (insert_all (N.of_nat (length src)) (pairs src nums)).
  rewrite line_map_latest, Nat2N.id. unfold pairs. rewrite firstn_all2 by (rewrite combine_length, map_length; lia). rewrite latest_nodup by (apply sorted_nodup, I). unfold becomes. split.
  - intros (i & E1 & E2). rewrite nth_error_map in E1. destruct (nth_error src i) as [l|] eqn:Q; [|discriminate E1]. injection E1 as E1. exists i, l. auto.
  - intros (i & l & E1 & E2 & E3). exists i. rewrite nth_error_map, E1. cbn [option_map]. rewrite E2. auto.
Qed.
Lemma steps_bound new inc n : (n <> 0 -> (new + N.of_nat (n - 1) * inc < 4294967296)%N) -> Forall (fun k => (k < 4294967296)%N) (steps new inc n).
Proof.
  intros H. apply Forall_forall. intros k I. apply in_map_iff in I. destruct I as (j & <- & I). apply in_seq in I. specialize (H ltac:(lia)).
  assert ((N.of_nat j * inc <= N.of_nat (n - 1) * inc)%N) by (apply N.mul_le_mono_r; lia). lia.
Qed.

(* ---------- the whole program ---------- *)

Lemma texts_done f m kw (MF : forall n n', lookup_line_mapping m n = Some n' <-> f n n') (FB : forall n n', f n n' -> (n' < 4294967296)%N) src : texts_ok src ->
  exists ls, Forall2 (fun x l => tokens_of kw (ln_text x) l /\ lexer_gives kw (ln_text x) (List.map snd l)) src ls /\
    (Forall (plain_refs f) ls -> exists ts, Forall2 (retext f) ls ts /\
       forall nums, length nums = length src -> renum_texts kw m (numbered src nums) = RsOk (program_of nums ts)).
Proof.
  induction 1 as [|x src [A NN] F IH].
  - exists []. split; [constructor|]. intros _. exists []. split; [constructor|]. intros [|n nums] L; [reflexivity | discriminate L].
  - destruct IH as (ls & H1 & H2). destruct (line_ok f m MF FB kw (ln_text x) A NN) as (l & T1 & T2 & G). exists (l :: ls). split; [constructor; auto|].
    intros P. inversion P; subst. destruct (G H3) as (s' & R & Q). destruct (H2 H4) as (ts & R2 & Q2). exists (s' :: ts). split; [constructor; assumption|].
    intros [|n nums] L; [discriminate L|]. cbn [numbered renum_texts with_number ln_text ln_num]. rewrite Q, (Q2 nums) by (injection L as L; exact L). reflexivity.
Qed.

Lemma becomes_bound new old inc src : increasing src -> (forall l, In l src -> (ln_num l < 4294967296)%N) -> fits new old inc src ->
  forall n n', becomes src (new_numbers new old inc src) n n' -> (n' < 4294967296)%N.
Proof.
  intros I B FI n n' (i & l & _ & _ & E). apply nth_error_In in E. unfold new_numbers in E. apply in_app_iff in E. destruct E as [E|E].
  - apply in_map_iff in E. destruct E as (x & <- & J). apply filter_In in J. apply B. tauto.
  - pose proof (steps_bound new inc (length (upper old src))) as SB. rewrite Forall_forall in SB. apply SB; [|exact E].
    intros NZ. apply FI. intros Q. rewrite Q in NZ. apply NZ. reflexivity.
Qed.

Lemma renumber_ok new old inc s src : stored_source (ss_vm s) = Some src -> increasing src -> (forall l, In l src -> (ln_num l < 4294967296)%N) -> texts_ok src ->
  (new < 4294967296)%N -> (inc < 4294967296)%N -> fits new old inc src ->
  let nums := new_numbers new old inc src in
  let kw := o_anywhere (v_opt (ss_vm s)) in
  exists ls, Forall2 (fun x l => tokens_of kw (ln_text x) l /\ lexer_gives kw (ln_text x) (List.map snd l)) src ls /\
    (Forall (plain_refs (becomes src nums)) ls -> exists ts, Forall2 (retext (becomes src nums)) ls ts /\
       renumber new old inc s = XOk tt (set_vm (set_source (program_of nums ts) (ss_vm s)) s)).
Proof.
  intros S I B T LN LI FI nums kw.
  pose proof (new_numbers_length new old inc src I) as NL'. fold nums in NL'.
  destruct (renum_numbers new old inc src I LN LI) as [RN _]. specialize (RN FI). fold nums in RN.
  destruct (texts_done (becomes src nums) _ kw (map_becomes src nums I NL') (becomes_bound new old inc src I B FI) src T) as (ls & L1 & L2).
  exists ls. split; [exact L1|]. intros P. destruct (L2 P) as (ts & R & Q). exists ts. split; [exact R|].
  unfold renumber, xbind, get_vm. rewrite S, RN. fold kw. rewrite (Q nums NL'). reflexivity.
Qed.
Lemma renumber_no_fit new old inc s src : stored_source (ss_vm s) = Some src -> increasing src -> (new < 4294967296)%N -> (inc < 4294967296)%N -> ~ fits new old inc src ->
  exists l n p src', In l (upper old src) /\ (n < p)%N /\ renumber new old inc s = xbind (mod_vm (set_source src')) (fun _ => say (DRenumber (ln_num l) n p)) s.
Proof.
  intros S I LN LI NF. destruct (renum_numbers new old inc src I LN LI) as [_ RN]. destruct (RN NF (new_line_map (N.of_nat (length src)))) as (l & n & p & H1 & H2 & H3).
  destruct (renum_lines src (new_line_map (N.of_nat (length src))) new old inc 0) as [[src' m] e] eqn:Q. cbn [snd] in H3. subst e.
  exists l, n, p, src'. split; [exact H1|]. split; [exact H2|]. unfold renumber, xbind at 1, get_vm. rewrite S, Q. reflexivity.
Qed.

(* with a positive step above the kept lines, the numbers increase *)
Lemma steps_sorted new inc n : (1 <= inc)%N -> StronglySorted N.lt (steps new inc n).
Proof.
  intros H. revert new. induction n as [|n IH]; intros new; [constructor|]. rewrite steps_succ. constructor; [apply IH|]. apply Forall_forall. intros k K. apply in_map_iff in K. destruct K as (j & <- & _). lia.
Qed.
Lemma sorted_join (a b : list N) : StronglySorted N.lt a -> StronglySorted N.lt b -> (forall x y, In x a -> In y b -> (x < y)%N) -> StronglySorted N.lt (a ++ b).
Proof.
  intros Sa Sb H. induction Sa as [|x a Sa IH F]; [exact Sb|]. cbn [app]. constructor.
  - apply IH. intros u v U V. apply H; [right; exact U | exact V].
  - apply Forall_app. split; [exact F|]. apply Forall_forall. intros v V. apply H; [left; reflexivity | exact V].
Qed.
Lemma new_increasing new old inc src : increasing src -> (1 <= inc)%N -> (forall l, In l (lower old src) -> (ln_num l < new)%N) -> StronglySorted N.lt (new_numbers new old inc src).
Proof.
  intros I H L. apply sorted_join.
  - unfold increasing in I. rewrite (lower_upper src old I), map_app in I. exact (sorted_app_l _ _ _ I).
  - apply steps_sorted, H.
  - intros x y X Y. apply in_map_iff in X. destruct X as (l & <- & X). apply in_map_iff in Y. destruct Y as (j & <- & _). specialize (L l X). lia.
Qed.
Lemma program_numbers nums ts : length ts = length nums -> List.map ln_num (program_of nums ts) = nums /\ List.map ln_text (program_of nums ts) = ts.
Proof.
  unfold program_of. revert ts. induction nums as [|n nums IH]; intros [|t ts] L; try discriminate L; [auto|]. cbn [combine List.map fst snd ln_num ln_text]. injection L as L. destruct (IH ts L) as [-> ->]. auto.
Qed.
Lemma retext_length f ls ts : Forall2 (retext f) ls ts -> length ts = length ls.
Proof. induction 1; cbn; congruence. Qed.

(* ---------- the request ---------- *)

Lemma skip_end g e : Forall gap g -> ends_line e -> skip_space (g ++ e) = e.
Proof.
  intros G E. rewrite skip_gap by exact G. apply skip_none. destruct (ends_cases _ E) as [-> | (q & ->)]; [apply begins_nil|]. rewrite begins_cons. intros [X|X]; discriminate.
Qed.
Lemma end_begins e P : ends_line e -> ~ P NL -> ~ begins_with P e.
Proof. intros E N. destruct (ends_cases _ E) as [-> | (q & ->)]; [apply begins_nil|]. rewrite begins_cons. exact N. Qed.
Lemma opt_after_skip g ds r n dflt : Forall gap g -> opt_number ds n dflt -> ~ begins_with digit (skip_space r) ->
  exists r', opt_num (skip_space (g ++ ds ++ r)) dflt = (n, r') /\ skip_space r' = skip_space r /\ (r' = r \/ (ds = [] /\ r' = skip_space r)).
Proof.
  intros G O NB. rewrite skip_gap by exact G. destruct O as [[-> ->] | (NE & D & ->)].
  - cbn [app]. exists (skip_space r). unfold opt_num. rewrite (false_iff _ _ (starts_digit_iff _) NB). split; [reflexivity|]. split; [apply skip_twice | right; auto].
  - exists r. split; [|auto]. assert (B : begins_with digit (ds ++ r)) by (destruct ds as [|d ds]; [congruence|]; inversion D; subst; exists d, (ds ++ r); auto).
    rewrite skip_none by (destruct B as (c & q & -> & X); rewrite begins_cons; exact (digit_not_gap c X)).
    apply opt_num_ok; [right; auto | apply skip_digit, NB].
Qed.
Lemma renum_asks s new old inc : renum_request s new old inc -> exists r, get_renum_numbers s = (new, old, inc, r) /\ at_eol (skip_space r) = true.
Proof.
  intros (g1 & d1 & g2 & mid & g & e & -> & G1 & G2 & G & E & O1 & MID).
  assert (EE : skip_space (g ++ e) = e) by (apply skip_end; assumption). assert (AE : at_eol e = true) by (apply ends_line_iff, E).
  assert (DE : ~ begins_with digit e) by (apply end_begins; [exact E | discriminate]). assert (CE : ~ begins_with (eq ","%char) e) by (apply end_begins; [exact E | discriminate]).
  assert (COMMA : forall z, skip_space (","%char :: z) = ","%char :: z) by (intros z; apply skip_none; rewrite begins_cons; intros [X|X]; discriminate X).
  assert (CG : starts_with "," (g ++ e) = false).
  { destruct g as [|c g]; [exact (false_iff _ _ (starts_with_iff _ _) CE)|]. inversion G; subst. cbn [app starts_with]. apply ceq_neq. intros ->. destruct H1; discriminate. }
  unfold get_renum_numbers. destruct MID as [(-> & -> & ->) | (g3 & d2 & mid2 & -> & G3 & O2 & MID2)].
  - pose proof (first_number 10%N g1 d1 g2 (g ++ e) new G1 G2 O1) as FN. cbn zeta in FN. rewrite EE in FN. specialize (FN DE). cbn [app]. cbv zeta. rewrite FN.
    rewrite (false_iff _ _ (starts_with_iff "," e) CE). rewrite (false_iff _ _ (starts_with_iff "," e) CE). exists e. split; [reflexivity|].
    rewrite skip_none; [exact AE|]. apply end_begins; [exact E|]. intros [X|X]; discriminate X.
  - pose proof (first_number 10%N g1 d1 g2 ((","%char :: g3 ++ d2 ++ mid2) ++ g ++ e) new G1 G2 O1) as FN. cbn zeta in FN. cbn [app] in FN. rewrite COMMA in FN.
    specialize (FN ltac:(rewrite begins_cons; discriminate)). cbn [app]. cbv zeta. rewrite FN. cbn [starts_with tl]. change (ceq "," ",") with true. cbn iota.
    destruct MID2 as [(-> & ->) | (g4 & d3 & -> & G4 & O3)].
    + rewrite app_nil_r, <- app_assoc. destruct (opt_after_skip g3 d2 (g ++ e) old 1 G3 O2) as (r' & Q1 & Q2 & Q3); [rewrite EE; exact DE|]. rewrite Q1.
      assert (CR : starts_with "," r' = false). { destruct Q3 as [-> | [_ ->]]; [exact CG|]. rewrite EE. exact (false_iff _ _ (starts_with_iff "," e) CE). }
      rewrite CR. exists r'. split; [reflexivity|]. rewrite Q2, EE. exact AE.
    + rewrite <- !app_assoc. cbn [app]. destruct (opt_after_skip g3 d2 (","%char :: (g4 ++ d3) ++ g ++ e) old 1 G3 O2) as (r' & Q1 & Q2 & Q3); [rewrite COMMA, begins_cons; discriminate|].
      rewrite Q1. assert (R' : r' = ","%char :: (g4 ++ d3) ++ g ++ e) by (destruct Q3 as [-> | [_ ->]]; [reflexivity | apply COMMA]). rewrite R'. cbn [starts_with tl]. change (ceq "," ",") with true. cbn iota.
      rewrite <- app_assoc. destruct (opt_after_skip g4 d3 (g ++ e) inc 10 G4 O3) as (r2 & P1 & P2 & _); [rewrite EE; exact DE|]. rewrite P1. exists r2. split; [reflexivity|]. rewrite P2, EE. exact AE.
Qed.
Lemma renum_typed E fuel line rest s new old inc : means line (MCommand C_RENUM rest) -> renum_request rest new old inc ->
  interpret E fuel line s = xbind (renumber new old inc) (fun _ => xret false) s.
Proof.
  intros M R. rewrite (interpret_means _ _ _ _ _ M). cbn [act command]. destruct (renum_asks _ _ _ _ R) as (r & -> & A).
  unfold xbind at 1, check_eol. rewrite A. reflexivity.
Qed.
Lemma renum_typed_ok E fuel line rest new old inc s src :
  means line (MCommand C_RENUM rest) -> renum_request rest new old inc ->
  stored_source (ss_vm s) = Some src -> increasing src -> (forall l, In l src -> (ln_num l < 4294967296)%N) -> texts_ok src ->
  (new < 4294967296)%N -> (inc < 4294967296)%N -> fits new old inc src ->
  let nums := new_numbers new old inc src in
  let kw := o_anywhere (v_opt (ss_vm s)) in
  exists ls, Forall2 (fun x l => tokens_of kw (ln_text x) l /\ lexer_gives kw (ln_text x) (List.map snd l)) src ls /\
    (Forall (plain_refs (becomes src nums)) ls -> exists ts, Forall2 (retext (becomes src nums)) ls ts /\
       interpret E fuel line s = XOk false (set_vm (set_source (program_of nums ts) (ss_vm s)) s)).
Proof.
  intros M R S I B T LN LI FI nums kw. destruct (renumber_ok new old inc s src S I B T LN LI FI) as (ls & L1 & L2). exists ls. split; [exact L1|].
  intros P. destruct (L2 P) as (ts & R' & Q). exists ts. split; [exact R'|]. rewrite (renum_typed E fuel line rest s new old inc M R). unfold xbind. rewrite Q. reflexivity.
Qed.
