(* The compiler accepts every line and every program of the grammar. *)
From Coq Require Import Lia ZifyBool ZifyNat ZifyN.
From Verif Require Import Base BaseLemmas Num SourceModel BcodeModel SymbolModel SymbolSpec SymbolProofs
  LexModel LexSpec LexProofs ParseModel GrammarSpec ParseProofs StmtProofs CodeProofs DatumProofs CompileProofs CompleteProofs CompleteStmts.
Local Open Scope nat_scope.
Local Open Scope parse_scope.

(* ---------- DATA ---------- *)

Lemma blanks_data b s : Forall data_blank b -> lex_next_data (b ++ s) = lex_next_data s.
Proof.
  induction 1 as [|c b C F IH]; [reflexivity|]. cbn [app lex_next_data]. replace (lex_valid c) with true by (destruct C as [-> | ->]; reflexivity). cbn [negb].
  rewrite (proj2 (is_data_space_iff c) C). exact IH.
Qed.

Lemma not_eof c : allowed c -> is_eof_char c = false.
Proof. intros H. destruct (is_eof_char c) eqn:E; [|reflexivity]. exfalso. exact (eof_not_allowed _ E H). Qed.

Lemma string_exact w r : forall n acc, Forall allowed w -> ~ In DQ w -> ~ In NL w -> n + length w <= 127 -> scan_string (w ++ DQ :: r) n acc = StrOk (rev acc ++ w) r.
Proof.
  induction w as [|c w IH]; intros n acc F N1 N2 L; cbn [app scan_string].
  - change (lex_valid DQ) with true. rewrite ceq_refl. cbn [negb]. rewrite app_nil_r. reflexivity.
  - rewrite (allowed_valid _ (Forall_inv F)). cbn [negb]. cbn [length] in L.
    replace (ceq c DQ) with false by (symmetry; apply not_true_is_false; intros X; apply ceq_eq in X; subst; apply N1; left; reflexivity).
    replace (ceq c NL) with false by (symmetry; apply not_true_is_false; intros X; apply ceq_eq in X; subst; apply N2; left; reflexivity).
    rewrite (not_eof _ (Forall_inv F)). cbn [orb]. replace (Nat.leb MAX_WORD (n + 1)) with false by (symmetry; apply Nat.leb_gt; change MAX_WORD with 128; lia).
    rewrite IH; [| exact (Forall_inv_tail F) | intros X; apply N1; right; exact X | intros X; apply N2; right; exact X | lia]. cbn [rev]. rewrite <- app_assoc. reflexivity.
Qed.

Definition ender (c : ascii) : bool := ceq c DQ || ceq c "," || ceq c ":" || ceq c NL || is_eof_char c.
Lemma ender_no c : allowed c -> ~ ends_datum c -> ender c = false.
Proof.
  intros AL N. unfold ender. rewrite (not_eof _ AL), orb_false_r. unfold ends_datum in N. apply not_true_is_false. intros X. apply N.
  repeat (apply orb_prop in X; destruct X as [X|X]); apply ceq_eq in X; tauto.
Qed.
Lemma ender_yes c : allowed c -> ends_datum c -> ender c = true.
Proof.
  intros AL [-> | [-> | [-> | [-> | E]]]]; try reflexivity. exfalso. unfold allowed in AL. lia.
Qed.
Lemma scan_datum_some v r : forall n acc, Forall allowed (v ++ r) -> Forall (fun x => ~ ends_datum x) v -> n + length v <= 127 ->
  match r with x :: _ => ends_datum x | [] => True end -> scan_datum (v ++ r) n acc <> None.
Proof.
  induction v as [|c v IH]; intros n acc F N L E; cbn [app scan_datum].
  - destruct r as [|c r]; [discriminate|]. cbn [scan_datum]. rewrite (allowed_valid _ (Forall_inv F)). cbn [negb]. fold (ender c). rewrite (ender_yes _ (Forall_inv F) E). discriminate.
  - cbn [app] in F. rewrite (allowed_valid _ (Forall_inv F)). cbn [negb length] in *. fold (ender c). rewrite (ender_no _ (Forall_inv F) (Forall_inv N)).
    replace (Nat.leb MAX_WORD (n + 1)) with false by (symmetry; apply Nat.leb_gt; change MAX_WORD with 128; lia).
    apply IH; [exact (Forall_inv_tail F) | exact (Forall_inv_tail N) | lia | exact E].
Qed.

Lemma data_some s w r : Forall allowed s -> datum_is s w r -> lex_next_data s <> None.
Proof.
  intros F D. destruct D as [b w r FB N1 N2 LE | b w c r r' FB FC NW LE W RE RR].
  - rewrite blanks_data by exact FB. apply Forall_app in F. destruct F as [_ F]. cbn [lex_next_data]. change (lex_valid DQ) with true. change (is_data_space DQ) with false. rewrite ceq_refl. cbn [negb].
    apply Forall_inv_tail in F. apply Forall_app in F. rewrite (string_exact w r 0 [] (proj1 F) N1 N2 LE). discriminate.
  - rewrite blanks_data by exact FB. apply Forall_app in F. destruct F as [_ F].
    assert (NC : Forall (fun x => ~ ends_datum x) (w ++ c)).
    { apply Forall_app. split; [exact NW|]. eapply Forall_impl; [|exact FC]. intros a [-> | ->] [X | [X | [X | [X | X]]]]; discriminate X. }
    assert (SOME : forall x l, w ++ c ++ r = x :: l -> ~ data_blank x -> x <> DQ -> lex_next_data (w ++ c ++ r) <> None).
    { intros x l E NB ND. pose proof F as F'. rewrite E in F'. rewrite E. cbn [lex_next_data]. rewrite (allowed_valid _ (Forall_inv F')). cbn [negb].
      replace (is_data_space x) with false by (symmetry; apply not_true_is_false; intros X; apply is_data_space_iff in X; contradiction).
      replace (ceq x DQ) with false by (symmetry; apply not_true_is_false; intros X; apply ceq_eq in X; contradiction).
      rewrite <- E. rewrite app_assoc in F |- *. pose proof (scan_datum_some (w ++ c) r 0 [] F NC LE RE) as H. destruct (scan_datum ((w ++ c) ++ r) 0 []) as [[acc t]|]; [discriminate | contradiction]. }
    destruct w as [|x w].
    + destruct W as [-> H]. cbn [app] in *. destruct r as [|x r]; [discriminate|]. cbn [hd] in H. apply (SOME x r eq_refl); [|exact H].
      intros B. destruct RE as [X | [X | [X | [X | X]]]]; destruct B as [-> | ->]; try discriminate X; contradiction.
    + destruct W as [W _]. apply (SOME x _ eq_refl W). intros ->. apply (Forall_inv NW). left. reflexivity.
Qed.

Lemma data_exact s w r : Forall allowed s -> datum_is s w r -> exists start, lex_next_data s = Some (w, start, r).
Proof.
  intros F D. pose proof (data_some _ _ _ F D) as N. destruct (lex_next_data s) as [[[w' start] r']|] eqn:E; [|contradiction].
  destruct (datum_unique _ _ _ _ _ (data_is _ _ _ _ E) D) as [-> ->]. exists start. reflexivity.
Qed.

(* the state after DATA items *)
Definition after_data (s : pstate) (L : lexst) (c : list instr) (s' : pstate) : Prop :=
  view s' = L /\ p_kw s' = p_kw s /\ p_code s' = emits (p_code s) c /\ p_ifthen s' = p_ifthen s /\ p_st s' = p_st s.

Lemma advance_next s L : advance (p_kw s) (p_rest s) = Some L -> exists s1, next_token s = POk tt s1 /\ after_data s L [] s1.
Proof.
  intros AD. unfold advance in AD. unfold next_token. destruct (lex_next (p_kw s) (p_rest s)) as [u st r|]; [|discriminate AD]. injection AD as <-.
  eexists. split; [reflexivity|]. repeat split.
Qed.
Lemma after_trans s L c s1 M d s2 : after_data s L c s1 -> after_data s1 M d s2 -> after_data s M (c ++ d) s2.
Proof.
  intros (V1 & K1 & C1 & I1 & T1) (V2 & K2 & C2 & I2 & T2). split; [exact V2|]. split; [congruence|]. split; [rewrite C2, C1; apply emits_app|]. split; congruence.
Qed.
Lemma datum_goes s w r : Forall allowed (p_rest s) -> datum_is (p_rest s) w r -> exists s1, datum s = POk tt s1 /\ after_data s (p_tok s, r) [I_DATA w] s1.
Proof.
  intros F D. destruct (data_exact _ _ _ F D) as (start & E). unfold datum. rewrite E. eexists. split; [reflexivity|]. repeat split.
Qed.
Lemma advance_allowed kw r L : advance kw r = Some L -> Forall allowed r -> Forall allowed (snd L).
Proof. unfold advance. destruct (lex_next kw r) as [t st r'|] eqn:E; [|discriminate]. intros [= <-] F. exact (lex_allowed _ _ _ _ _ E F). Qed.
Lemma datum_allowed s w r : Forall allowed s -> datum_is s w r -> Forall allowed r /\ length r <= length s.
Proof. intros F D. destruct (data_exact _ _ _ F D) as (start & E). split; [exact (data_allowed _ _ _ _ E F) | exact (data_le _ _ _ _ E)]. Qed.

Lemma datum_phi t r w r' : Forall allowed r -> datum_is r w r' -> phi (t, r') <= phi (t, r).
Proof. intros F D. destruct (data_exact _ _ _ F D) as (start & E). exact (phi_data t _ _ _ _ E). Qed.

(* the rest of the items, after the first *)
Lemma data_loop_goes kw r l L : gdata kw r l L -> Forall allowed r -> forall s w0 f, p_kw s = kw -> datum_is r w0 (p_rest s) -> hd w0 l = w0 -> phi (view s) < f ->
  exists s1, data_loop f s = POk tt s1 /\ after_data s L (map I_DATA (tl l)) s1.
Proof.
  induction 1 as [r w r' L D AD N | r w r' r1 l L D AD G IH]; intros F s w0 f K D0 _ LT;
    destruct (datum_unique _ _ _ _ _ D D0) as [-> E0]; subst r'; rewrite <- K in AD; (destruct f as [|f]; [lia|]); cbn [data_loop tl]; unfold pbind at 1;
    destruct (advance_next s _ AD) as (s1 & E1 & A1); rewrite E1.
  - exists s1. split; [|exact A1]. unfold pbind, tok. destruct A1 as (V1 & _). replace (is_char "," (p_tok s1)) with false; [reflexivity|].
    symmetry. apply not_true_is_false. intros X. apply is_char_iff in X. apply N. rewrite <- V1. exact X.
  - assert (V1 : view s1 = (COMMA, r1)) by exact (proj1 A1). assert (R1 : p_rest s1 = r1) by (unfold view in V1; congruence). assert (T1 : p_tok s1 = COMMA) by (unfold view in V1; congruence).
    unfold pbind at 1, tok at 1. rewrite T1. change (is_char "," COMMA) with true. cbv iota. unfold pbind.
    assert (F1 : Forall allowed r1) by exact (advance_allowed _ _ _ AD (proj1 (datum_allowed _ _ _ F D))).
    assert (HD : exists w1 r2, hd w1 l = w1 /\ datum_is r1 w1 r2 /\ l = w1 :: tl l) by (destruct G as [r1 w1 r2 L2 D2 AD2 N2 | r1 w1 r2 r3 l L2 D2 AD2 G2]; exists w1, r2; auto).
    destruct HD as (w1 & r2 & H1 & D1 & E1'). rewrite <- R1 in D1. destruct (datum_goes s1 w1 r2 ltac:(rewrite R1; exact F1) D1) as (s2 & E2 & A2). rewrite E2.
    assert (V2 : view s2 = (COMMA, r2)) by (rewrite <- T1; exact (proj1 A2)). assert (R2 : p_rest s2 = r2) by (unfold view in V2; congruence).
    destruct (IH F1 s2 w1 f) as (s3 & E3 & A3).
    + destruct A1 as (_ & K1 & _), A2 as (_ & K2 & _). congruence.
    + rewrite R2. rewrite R1 in D1. exact D1.
    + exact H1.
    + rewrite V2. rewrite R1 in D1. pose proof (datum_phi COMMA _ _ _ F1 D1). destruct (advance_phi _ (p_tok s) _ _ AD) as [X1 X2]. unfold view in LT.
      assert (Z0 : 0 < phi (COMMA, r1)) by (apply phi_pos; discriminate). specialize (X2 (Nat.lt_le_trans _ _ _ Z0 X1)). exact (Nat.le_lt_trans _ _ _ H (Nat.lt_le_trans _ _ _ X2 (proj1 (Nat.lt_succ_r _ _) LT))).
    + exists s3. split; [exact E3|]. rewrite E1'. cbn [map]. change (I_DATA w1 :: ?c) with ([] ++ [I_DATA w1] ++ c).
      exact (after_trans _ _ _ _ _ _ _ A1 (after_trans _ _ _ _ _ _ _ A2 A3)).
Qed.

Lemma data_goes s l L : gdata (p_kw s) (p_rest s) l L -> Forall allowed (p_rest s) -> exists s1, data_statement s = POk tt s1 /\ after_data s L (map I_DATA l) s1.
Proof.
  intros G F. assert (HD : exists w1 r2, hd w1 l = w1 /\ datum_is (p_rest s) w1 r2 /\ l = w1 :: tl l) by (destruct G as [r1 w1 r2 L2 D2 AD2 N2 | r1 w1 r2 r3 l L2 D2 AD2 G2]; exists w1, r2; auto).
  destruct HD as (w & r & H1 & D1 & E1). destruct (datum_goes s w r F D1) as (s1 & E2 & A1). unfold data_statement, pbind. rewrite E2. unfold with_fuel.
  assert (R1 : p_rest s1 = r) by (destruct A1 as (V1 & _); unfold view in V1; congruence).
  destruct (data_loop_goes _ _ _ _ G F s1 w (S (S (length (p_rest s1))))) as (s2 & E3 & A2); [apply A1 | rewrite R1; exact D1 | exact H1 | apply phi_fuel|].
  exists s2. split; [exact E3|]. rewrite E1. exact (after_trans _ _ _ _ _ _ _ A1 A2).
Qed.

(* ---------- steps through a line ---------- *)

Inductive lpath (kw : bool) : phase -> lexst -> symtab -> list stmt -> phase -> lexst -> symtab -> list stmt -> Prop :=
| LP_end ph L st xs : lpath kw ph L st xs ph L st xs
| LP_step ph L st xs ph1 L1 st1 xs1 ph2 L2 st2 xs2 : lstep kw ph L st xs ph1 L1 st1 xs1 ->
    lpath kw ph1 L1 st1 xs1 ph2 L2 st2 xs2 -> lpath kw ph L st xs ph2 L2 st2 xs2.

Lemma lpath_snoc kw ph L st xs ph1 L1 st1 xs1 ph2 L2 st2 xs2 : lpath kw ph L st xs ph1 L1 st1 xs1 -> lstep kw ph1 L1 st1 xs1 ph2 L2 st2 xs2 ->
  lpath kw ph L st xs ph2 L2 st2 xs2.
Proof.
  induction 1 as [ph L st xs | ph L st xs pha La sta xsa phb Lb stb xsb ST PA IH]; intros K; [exact (LP_step _ _ _ _ _ _ _ _ _ _ _ _ _ K (LP_end _ _ _ _ _))|].
  exact (LP_step _ _ _ _ _ _ _ _ _ _ _ _ _ ST (IH K)).
Qed.
Lemma lsteps_path kw ph L st xs ph1 L1 st1 xs1 : lsteps kw ph L st xs ph1 L1 st1 xs1 -> lpath kw ph L st xs ph1 L1 st1 xs1.
Proof. induction 1 as [|ph L st xs pha La sta xsa phb Lb stb xsb LS IH ST]; [apply LP_end | exact (lpath_snoc _ _ _ _ _ _ _ _ _ _ _ _ _ IH ST)]. Qed.

(* expressions are kept *)
Lemma lstep_bad kw ph L st xs ph1 L1 st1 xs1 : lstep kw ph L st xs ph1 L1 st1 xs1 -> Forall no_bad xs1 -> Forall no_bad xs.
Proof.
  intros H F. destruct H as [ph L ts L' st x st' xs PH R G | ph r l L' st xs PH G | ph r st xs PH | ph t r st xs PH T | ph L ts L' st e st' xs PH R G N | ph L ts t n L' st e st' xs PH R G N
    | ph L L' st xs e ys PH R O | L t n L' st xs m R N O LG | ph L L' st xs PH R]; try (apply Forall_app in F; exact (proj1 F)); try exact F.
  apply Forall_app in F. destruct F as [F1 F2]. apply Forall_app. split; [exact F1|]. pose proof (Forall_inv F2) as B. apply Forall_inv_tail in F2. apply Forall_app in F2.
  constructor; [exact B | exact (proj1 F2)].
Qed.
Lemma lpath_bad kw ph L st xs ph1 L1 st1 xs1 : lpath kw ph L st xs ph1 L1 st1 xs1 -> Forall no_bad xs1 -> Forall no_bad xs.
Proof. induction 1 as [|ph L st xs pha La sta xsa phb Lb stb xsb ST PA IH]; intros F; [exact F | exact (lstep_bad _ _ _ _ _ _ _ _ _ ST (IH F))]. Qed.

Lemma ok_gives {A} (m : P A) s Q a s' : ok m s Q -> m s = POk a s' -> moves s s' /\ Q a s'.
Proof. unfold ok. intros H E. rewrite E in H. exact H. Qed.

Lemma coded_if bc xs e s s' : coded bc xs s -> p_code s' = emits (p_code s) (ecode e ++ [I_IF_THEN]) -> p_ifthen s' = bc_used (emits (p_code s) (ecode e)) ->
  coded bc (xs ++ [SIf e false]) s'.
Proof.
  intros (C1 & C2 & C3) E1 E2. split; [|split].
  - rewrite E1, C1, emits_app, lcode_app. cbn [lcode flat_map scode]. rewrite app_nil_r. reflexivity.
  - rewrite E2. unfold if_pos. rewrite open_then, firstn_all2 by (rewrite app_length; cbn; lia).
    rewrite C1, emits_app. unfold bc_used. rewrite emits_inst, !app_length, lcode_app, app_length. cbn [lcode flat_map scode].
    rewrite app_nil_r, app_length. cbn [length]. lia.
  - intros k K. rewrite open_then in K. injection K as <-. exists e. rewrite nth_error_app2, Nat.sub_diag by lia. reflexivity.
Qed.

Section Line.
Variable kw : bool.
Variable bc : bcode.
Variable phE : phase.
Variable rE : bytes.
Variable stE : symtab.
Variable xsE : list stmt.
Hypothesis LB : line_base bc.
Hypothesis PE : phE = After \/ phE = AfterElse.
Hypothesis NB : Forall no_bad xsE.

Definition path (ph : phase) (s : pstate) (xs : list stmt) : Prop := lpath kw ph (view s) (p_st s) xs phE (T_NL, rE) stE xsE.
Record good (s : pstate) (xs : list stmt) : Prop := mkGood {
  gd_kw : p_kw s = kw;
  gd_fine : fine (p_st s);
  gd_text : Forall allowed (p_rest s);
  gd_code : coded bc xs s
}.

Lemma good_moves s xs s1 xs1 : good s xs -> moves s s1 -> coded bc xs1 s1 -> good s1 xs1.
Proof.
  intros [K F T C] M C1. split; [rewrite (moves_kw _ _ M); exact K | exact (fine_moves _ _ M F) | | exact C1].
  exact (later_allowed _ _ _ (mv_later _ _ M) T).
Qed.

(* what follows a statement *)
Lemma after_tok L st xs : lpath kw After L st xs phE (T_NL, rE) stE xsE -> eos (fst L) = true.
Proof.
  intros H. inversion H as [ph0 L0 st0 xs0 E1 E2 E3 E4 | ph0 L0 st0 xs0 ph1 L1 st1 xs1 ph2 L2 st2 xs2 ST PA]; subst; [reflexivity|].
  inversion ST; subst; try match goal with H : After = Start \/ After = AfterThen |- _ => destruct H as [H|H]; discriminate H end;
    match goal with H : reads kw L (_ :: _) _ |- _ => destruct (reads_cons _ _ _ _ _ H) as (M & E & _); rewrite E; reflexivity end.
Qed.

Definition steps_to (m : P bool) (s : pstate) (xs : list stmt) (b : bool) (ph : phase) (s1 : pstate) (xs1 : list stmt) : Prop :=
  m s = POk b s1 /\ path ph s1 xs1 /\ coded bc xs1 s1.

Lemma body_path ph s xs : good s xs -> free ph -> path ph s xs -> p_tok s <> T_KW K_ELSE ->
  exists b s1 xs1, steps_to statement_body s xs b (if b then AfterThen else After) s1 xs1.
Proof.
  intros [K F T C] FR PA NE. unfold path in PA.
  inversion PA as [ph0 L0 st0 xs0 E1 E2 E3 E4 | ph0 L0 st0 xs0 ph1 L1 st1 xs1 ph2 L2 st2 xs2 ST PA1]; subst.
  { destruct FR as [FR|FR], PE as [Q|Q]; rewrite FR in Q; discriminate Q. }
  pose proof (lpath_bad _ _ _ _ _ _ _ _ _ PA1 NB) as NB1. clear PA. remember (view s) as L eqn:VL. remember (p_st s) as st eqn:SL.
  destruct ST as [ph L ts L' st x st' xs PH R G | ph r l L' st xs PH G | ph r st xs PH | ph t r st xs PH TT | ph L ts L' st e st' xs PH R G N | ph L ts t n L' st e st' xs PH R G N
    | ph L L' st xs e ys PH R O | L t n L' st xs m R N O LG | ph L L' st xs PH R].
  - (* a statement made of tokens *)
    rewrite VL, <- K in R. destruct (body_goes _ _ _ _ G F (Forall_inv (proj2 (proj1 (Forall_app _ _ _) NB1))) s L' (eq_sym SL) R (after_tok _ _ _ PA1)) as (s1 & E1 & D1).
    exists false, s1, (xs ++ [x]). split; [exact E1|]. split; [unfold path; rewrite (ld_view _ _ _ _ _ D1), (ld_st _ _ _ _ _ D1); exact PA1|].
    exact (coded_simple _ _ _ _ _ (gstmt_simple _ _ _ _ G) C (ld_code _ _ _ _ _ D1) (ld_if _ _ _ _ _ D1)).
  - (* DATA *)
    assert (TK : p_tok s = T_KW K_DATA) by (unfold view in VL; congruence). assert (RK : p_rest s = r) by (unfold view in VL; congruence).
    rewrite <- RK, <- K in G. destruct (data_goes s l L' G T) as (s1 & E1 & (V1 & K1 & C1 & I1 & T1)).
    exists false, s1, (xs ++ [SData l]). split; [|split].
    + unfold statement_body, pbind at 1, tok. rewrite TK. unfold no_continue, pbind. rewrite E1. reflexivity.
    + unfold path. rewrite V1, T1, <- SL. exact PA1.
    + exact (coded_simple bc xs (SData l) s s1 Logic.I C C1 I1).
  - (* REM *)
    assert (TK : p_tok s = T_KW K_REM) by (unfold view in VL; congruence).
    exists false, (set_lex T_NL [] [] s), (xs ++ [SRem]). split; [|split].
    + unfold statement_body, pbind at 1, tok. rewrite TK. reflexivity.
    + unfold path. cbn [view set_lex p_tok p_rest p_st]. rewrite <- SL. exact PA1.
    + exact (coded_simple bc xs SRem s (set_lex T_NL [] [] s) Logic.I C eq_refl eq_refl).
  - (* nothing *)
    assert (TK : p_tok s = t) by (unfold view in VL; congruence). exists false, s, xs. split; [|split; [|exact C]].
    + unfold statement_body, pbind, tok. rewrite TK. destruct TT as [-> | ->]; reflexivity.
    + unfold path. rewrite <- VL, <- SL. exact PA1.
  - (* IF *)
    rewrite VL, <- K in R. destruct (if_head _ _ _ _ G F (Forall_inv (Forall_inv (proj2 (proj1 (Forall_app _ _ _) NB1)))) [] s L' (eq_sym SL) R) as (M & RM & GO).
    pose proof (reads_nil _ _ _ RM) as <-. assert (TK : p_tok s = T_KW K_IF) by (destruct (reads_cons _ _ _ _ _ R) as (? & E & _); exact E).
    assert (X : exists s3, (match_kw K_IF ;;; numeric_expression ;;; match_kw K_THEN ;;; pret true) s = POk true s3 /\ lands s L' (ecode e) st' s3).
    { destruct (GO (fun _ => pret true) true L' [] st' (fun s1 D => ret_end _ _ _ _ _ _ D)) as (s3 & E3 & D3). rewrite app_nil_r in D3. exists s3. auto. }
    destruct X as (s3 & X & D3).
    exists true, (mkPs (p_kw s3) (p_start s3) (p_rest s3) (p_tok s3) (emit_instr (p_code s3) I_IF_THEN) (p_st s3) (bc_used (p_code s3))), (xs ++ [SIf e false]). split; [|split].
    + unfold statement_body, pbind at 1, tok. rewrite TK. unfold if_statement. revert X. unfold pbind.
      destruct (match_kw K_IF s) as [? a| | | |]; try discriminate. destruct (numeric_expression a) as [? a2| | | |]; try discriminate. destruct (match_kw K_THEN a2) as [? a3| | | |]; try discriminate.
      unfold pret. intros [= ->]. unfold tok. assert (NT : forall x w, p_tok s3 <> T_NUM x w) by (intros x w Q; apply (N x w); rewrite <- (ld_view _ _ _ _ _ D3); exact Q).
      destruct (p_tok s3) eqn:TT; cbv iota; try (rewrite <- TT; reflexivity). exfalso. exact (NT _ _ eq_refl).
    + unfold path. match goal with |- lpath _ ?ph _ _ ?ys _ _ _ _ => change (lpath kw ph (view s3) (p_st s3) ys phE (T_NL, rE) stE xsE) end. rewrite (ld_view _ _ _ _ _ D3), (ld_st _ _ _ _ _ D3). exact PA1.
    + apply (coded_if bc xs e s _ C); cbn [p_code p_ifthen]; rewrite (ld_code _ _ _ _ _ D3); [|reflexivity]. rewrite <- emits_app. reflexivity.
  - (* IF with a line number *)
    rewrite VL, <- K in R. destruct (if_head _ _ _ _ G F (Forall_inv (Forall_inv (proj2 (proj1 (Forall_app _ _ _) NB1)))) [t] s L' (eq_sym SL) R) as (M & RM & GO).
    assert (TK : p_tok s = T_KW K_IF) by (destruct (reads_cons _ _ _ _ _ R) as (? & E & _); exact E).
    assert (X : exists s3, (match_kw K_IF ;;; numeric_expression ;;; match_kw K_THEN ;;; (let* k := line_number in emit_ (I_GOTRUE k) ;;; pret true)) s = POk true s3 /\ lands s L' (ecode e ++ [I_GOTRUE n]) st' s3 /\
      (forall s1, lands s M (ecode e) st' s1 -> p_tok s1 = t)).
    { destruct (reads_cons _ _ _ _ _ RM) as (? & ET & _).
      destruct (GO (fun _ => let* k := line_number in emit_ (I_GOTRUE k) ;;; pret true) true L' [I_GOTRUE n] st') as (s3 & E3 & D3).
      - intros s1 D1. apply (goes_bind _ _ _ n _ L' [] st' L' [I_GOTRUE n] st').
        + apply (number_goes st' [t]); [exists t; auto | exact (ld_st _ _ _ _ _ D1) | exact (reads_on _ _ _ _ _ _ _ D1 RM)].
        + intros s2 D2. apply (goes_put (fun _ => pret true)). intros s4 D4. apply goes_ret; [rewrite (ld_view _ _ _ _ _ D4); symmetry; exact (ld_view _ _ _ _ _ D2) | reflexivity | rewrite (ld_st _ _ _ _ _ D4); symmetry; exact (ld_st _ _ _ _ _ D2)].
      - exists s3. split; [exact E3|]. split; [exact D3|]. intros s1 D1. rewrite <- ET. exact (lands_tok _ _ _ _ _ D1). }
    destruct X as (s3 & X & D3 & TM).
    exists false, (mkPs (p_kw s3) (p_start s3) (p_rest s3) (p_tok s3) (p_code s3) (p_st s3) 0), (xs ++ [SIfGo e n]). split; [|split].
    + unfold statement_body, pbind at 1, tok. rewrite TK. unfold if_statement.
      destruct (GO (fun _ => pret true) true M [] st' (fun s1 D => ret_end _ _ _ _ _ _ D)) as (sm & Em & Dm). rewrite app_nil_r in Dm. pose proof (TM sm Dm) as TS. clear TM.
      revert X Em. unfold pbind.
      destruct (match_kw K_IF s) as [? a| | | |]; try discriminate. destruct (numeric_expression a) as [? a2| | | |]; try discriminate. destruct (match_kw K_THEN a2) as [? a3| | | |]; try discriminate.
      unfold pret. intros X [= ->]. unfold tok. rewrite TS. destruct t as [| | | | |y v| | | | |]; try discriminate N. destruct (line_number sm) as [k b4| | | |]; try discriminate X. destruct (emit_ (I_GOTRUE k) b4) as [? b5| | | |]; try discriminate X.
      injection X as ->. reflexivity.
    + unfold path. match goal with |- lpath _ ?ph _ _ ?ys _ _ _ _ => change (lpath kw ph (view s3) (p_st s3) ys phE (T_NL, rE) stE xsE) end. rewrite (ld_view _ _ _ _ _ D3), (ld_st _ _ _ _ _ D3). exact PA1.
    + apply (coded_none bc xs (SIfGo e n) s); [apply open_go | exact C | exact (ld_code _ _ _ _ _ D3) | reflexivity].
  - (* ELSE *) exfalso. apply NE. destruct (reads_cons _ _ _ _ _ R) as (? & E & _). rewrite VL in E. exact E.
  - exfalso. destruct FR as [X|X]; discriminate X.
  - exfalso. destruct FR as [X|X]; rewrite X in PH; destruct PH as [PH|PH]; discriminate PH.
Qed.

Lemma else_path ph s xs : good s xs -> ph = After \/ ph = AfterThen -> path ph s xs -> p_tok s = T_KW K_ELSE ->
  exists b s1 xs1, steps_to else_clause s xs b (if b then Start else AfterElse) s1 xs1.
Proof.
  intros [K F T C] FR PA TE. unfold path in PA. pose proof (line_base_used _ LB) as BU.
  inversion PA as [ph0 L0 st0 xs0 E1 E2 E3 E4 | ph0 L0 st0 xs0 ph1 L1 st1 xs1 ph2 L2 st2 xs2 ST PA1]; subst.
  { exfalso. match goal with H : p_tok s = T_NL |- _ => rewrite TE in H; discriminate H end. }
  clear PA. remember (view s) as L eqn:VL. remember (p_st s) as st eqn:SL.
  assert (TL : fst L = T_KW K_ELSE) by (rewrite VL; exact TE).
  destruct ST as [ph L ts L' st x st' xs PH R G | ph r l L' st xs PH G | ph r st xs PH | ph t r st xs PH TT | ph L ts L' st e st' xs PH R G N | ph L ts t n L' st e st' xs PH R G N
    | ph L L' st xs e ys PH R O | L t n L' st xs m R N O LG | ph L L' st xs PH R].
  - exfalso. clear - R G TL. destruct G; try (destruct (reads_cons _ _ _ _ _ R) as (? & E & _); rewrite TL in E; discriminate E).
    destruct (gplace_head _ _ _ _ H) as (w & vs & ->). cbn [app] in R. destruct (reads_cons _ _ _ _ _ R) as (? & E & _); rewrite TL in E; discriminate E.
  - discriminate TL.
  - discriminate TL.
  - cbn [fst] in TL. destruct TT as [-> | ->]; discriminate TL.
  - destruct (reads_cons _ _ _ _ _ R) as (? & E & _); rewrite TL in E; discriminate E.
  - destruct (reads_cons _ _ _ _ _ R) as (? & E & _); rewrite TL in E; discriminate E.
  - destruct C as (C1 & C2 & C3).
    destruct (if_pos_split (bc_used bc) (xs ++ SIf e false :: ys) (length xs) e O ltac:(rewrite nth_error_app2, Nat.sub_diag by lia; reflexivity)) as (a & b & X & LA & IP).
    assert (a = xs /\ b = ys) as [-> ->].
    { assert (FL : forall u v : list stmt, firstn (length u) (u ++ v) = u) by (intros u v; rewrite firstn_app, firstn_all, Nat.sub_diag; apply app_nil_r).
      assert (Q : xs = a) by (apply (f_equal (firstn (length xs))) in X; rewrite FL in X; rewrite <- LA, FL in X; exact X).
      subst a. apply app_inv_head in X. split; [reflexivity | congruence]. }
    clear X LA. rewrite IP in C2. rewrite VL, <- K in R.
    assert (E : else_clause s = (match_kw K_ELSE ;;; patch (p_ifthen s) (fun _ => I_IF_ELSE) ;;; emit_ I_ELSE ;;; set_ifthen 0 ;;; pret true) s).
    { unfold else_clause. destruct (p_ifthen s); [lia | reflexivity]. }
    assert (X : goes (match_kw K_ELSE ;;; pret tt) s tt L' [] (p_st s)) by (apply (goes_match_kw _ _ _ L' _ _ _ _ R); intros s1 D1; exact (ret_end _ _ _ _ _ _ D1)).
    destruct X as (s1 & X & D1).
    assert (CO : p_code s1 = emits bc ((lcode xs ++ ecode e) ++ I_IF_THEN :: lcode ys)).
    { rewrite (ld_code _ _ _ _ _ D1). cbn [emits fold_left]. rewrite C1, lcode_app. cbn [lcode flat_map scode]. rewrite <- !app_assoc. reflexivity. }
    destruct (patch_code bc (lcode xs ++ ecode e) I_IF_THEN (lcode ys) I_IF_ELSE (fun _ => I_IF_ELSE) eq_refl eq_refl) as [N U].
    assert (ON : open_if (xs ++ SIf e true :: ys ++ [SElse]) = None).
    { replace (xs ++ SIf e true :: ys ++ [SElse]) with ((xs ++ SIf e true :: ys) ++ [SElse]) by (rewrite <- app_assoc; reflexivity). apply open_else. }
    eexists true, _, (xs ++ SIf e true :: ys ++ [SElse]). split; [|split].
    + rewrite E. revert X. unfold pbind. destruct (match_kw K_ELSE s) as [? s2| | | |]; try discriminate. intros [= ->]. unfold patch. rewrite C2, CO, N, U. reflexivity.
    + unfold path. match goal with |- lpath _ ?ph _ _ ?ys _ _ _ _ => change (lpath kw ph (view s1) (p_st s1) ys phE (T_NL, rE) stE xsE) end. rewrite (ld_view _ _ _ _ _ D1), (ld_st _ _ _ _ _ D1), <- SL. exact PA1.
    + split; [|split; [cbn [p_ifthen]; unfold if_pos; rewrite ON; reflexivity | rewrite ON; discriminate]].
      cbn [p_code set_pcode]. change (emit_instr ?b I_ELSE) with (emits b [I_ELSE]). rewrite emits_app, lcode_app. cbn [lcode flat_map scode]. rewrite flat_map_app. cbn [flat_map scode]. rewrite <- !app_assoc. reflexivity.
  - rewrite VL, <- K in R. destruct (reads_cons _ _ _ _ _ R) as (M & _ & R1 & R2). pose proof C as (C1 & C2 & C3). unfold if_pos in C2. rewrite O in C2.
    assert (BL : bcode_latest (p_code s) = Some (I_GOTRUE m)).
    { unfold bcode_latest. rewrite C1, emits_inst. rewrite last_opt_app by (intros Q; rewrite Q in LG; discriminate LG). exact LG. }
    assert (X : goes (match_kw K_ELSE ;;; let* k := line_number in emit_ (I_GOTO k) ;;; pret false) s false L' [I_GOTO n] st).
    { apply (goes_match_kw _ _ _ M _ _ _ _ R1). intros s1 D1. apply (goes_bind _ _ _ n _ L' [] st L' [I_GOTO n] st).
      - apply (number_goes st [t]); [exists t; auto | apply (st_on _ _ _ _ _ _ D1); symmetry; exact SL | exact (reads_on _ _ _ _ _ _ _ D1 R2)].
      - intros s2 D2. apply (goes_put (fun _ => pret false)). intros s4 D4. apply goes_ret; [rewrite (ld_view _ _ _ _ _ D4); symmetry; exact (ld_view _ _ _ _ _ D2) | reflexivity | rewrite (ld_st _ _ _ _ _ D4); symmetry; exact (ld_st _ _ _ _ _ D2)]. }
    destruct X as (s1 & X & D1). exists false, s1, (xs ++ [SElseGo n]). split; [|split].
    + unfold else_clause. rewrite C2, BL. exact X.
    + unfold path. rewrite (ld_view _ _ _ _ _ D1), (ld_st _ _ _ _ _ D1). exact PA1.
    + exact (coded_simple bc xs (SElseGo n) s s1 Logic.I C (ld_code _ _ _ _ _ D1) (ld_if _ _ _ _ _ D1)).
  - destruct (reads_cons _ _ _ _ _ R) as (? & E & _); rewrite TL in E; discriminate E.
Qed.

(* no ELSE begins a statement *)
Lemma start_tok L st xs : lpath kw Start L st xs phE (T_NL, rE) stE xsE -> fst L <> T_KW K_ELSE.
Proof.
  intros H TL. inversion H as [ph0 L0 st0 xs0 E1 E2 E3 E4 | ph0 L0 st0 xs0 ph1 L1 st1 xs1 ph2 L2 st2 xs2 ST PA]; subst; [discriminate TL|].
  remember Start as ph eqn:EP. destruct ST as [ph L ts L' st x st' xs PH R G | ph r l L' st xs PH G | ph r st xs PH | ph t r st xs PH TT | ph L ts L' st e st' xs PH R G N | ph L ts t n L' st e st' xs PH R G N
    | ph L L' st xs e ys PH R O | L t n L' st xs m R N O LG | ph L L' st xs PH R]; subst; try discriminate TL; try discriminate EP;
    try (destruct (reads_cons _ _ _ _ _ R) as (? & E & _); rewrite TL in E; discriminate E); try (destruct PH as [PH|PH]; discriminate PH).
  - clear - R G TL. destruct G; try (destruct (reads_cons _ _ _ _ _ R) as (? & E & _); rewrite TL in E; discriminate E).
    destruct (gplace_head _ _ _ _ H) as (w & vs & ->). cbn [app] in R. destruct (reads_cons _ _ _ _ _ R) as (? & E & _); rewrite TL in E; discriminate E.
  - cbn [fst] in TL. destruct TT as [-> | ->]; discriminate TL.
Qed.

(* what a statement leaves *)
Definition ends_stmt (b : bool) (ph : phase) (t : token) : Prop := if b then free ph /\ t <> T_KW K_ELSE else (ph = After /\ t <> T_KW K_ELSE) \/ ph = AfterElse.

Lemma kw_not t : is_kw K_ELSE t = false -> t <> T_KW K_ELSE.
Proof. intros H ->. discriminate H. Qed.

Lemma statement_path ph s xs : good s xs -> free ph -> path ph s xs -> p_tok s <> T_KW K_ELSE ->
  exists b s1 xs1 ph1, statement s = POk b s1 /\ path ph1 s1 xs1 /\ good s1 xs1 /\ ends_stmt b ph1 (p_tok s1) /\ (b = true -> phi (view s1) < phi (view s)).
Proof.
  intros G FR PA NE. pose proof (statement_ok bc ph xs s LB (gd_fine _ _ G) FR (gd_code _ _ G)) as OK.
  assert (X : exists b s1 xs1 ph1, statement s = POk b s1 /\ path ph1 s1 xs1 /\ coded bc xs1 s1 /\ ends_stmt b ph1 (p_tok s1)).
  { destruct (body_path ph s xs G FR PA NE) as (b & s1 & xs1 & E1 & P1 & C1). unfold statement, pbind at 1. rewrite E1. unfold pbind, tok.
    pose proof (ok_gives _ _ _ _ _ (body_ok bc ph xs s (gd_fine _ _ G) FR (gd_code _ _ G) (line_base_used _ LB)) E1) as [M1 _].
    pose proof (good_moves _ _ _ _ G M1 C1) as G1.
    destruct (is_kw K_ELSE (p_tok s1)) eqn:TE.
    - apply is_kw_iff in TE. destruct (else_path (if b then AfterThen else After) s1 xs1 G1 ltac:(destruct b; auto) P1 TE) as (b2 & s2 & xs2 & E2 & P2 & C2).
      exists b2, s2, xs2, (if b2 then Start else AfterElse). split; [exact E2|]. split; [exact P2|]. split; [exact C2|]. destruct b2; cbn [ends_stmt].
      + split; [left; reflexivity | exact (start_tok _ _ _ P2)].
      + right. reflexivity.
    - exists b, s1, xs1, (if b then AfterThen else After). split; [reflexivity|]. split; [exact P1|]. split; [exact C1|]. apply kw_not in TE. destruct b; cbn [ends_stmt].
      + split; [right; reflexivity | exact TE].
      + left. auto. }
  destruct X as (b & s1 & xs1 & ph1 & E1 & P1 & C1 & T1). destruct (ok_gives _ _ _ _ _ OK E1) as [M1 [_ D1]].
  exists b, s1, xs1, ph1. split; [exact E1|]. split; [exact P1|]. split; [exact (good_moves _ _ _ _ G M1 C1)|]. split; [exact T1 | exact D1].
Qed.

Definition ended (ph : phase) (s : pstate) : Prop := ends_stmt false ph (p_tok s).

Lemma complete_path : forall fuel ph s xs, good s xs -> free ph -> path ph s xs -> p_tok s <> T_KW K_ELSE -> phi (view s) < fuel ->
  exists s1 xs1 ph1, complete_statement fuel s = POk tt s1 /\ path ph1 s1 xs1 /\ good s1 xs1 /\ ended ph1 s1.
Proof.
  induction fuel as [|f IH]; intros ph s xs G FR PA NE LT; [lia|]. cbn [complete_statement]. unfold pbind.
  destruct (statement_path ph s xs G FR PA NE) as (b & s1 & xs1 & ph1 & E1 & P1 & G1 & T1 & D1). rewrite E1. destruct b.
  - destruct T1 as [F1 N1]. apply (IH ph1 s1 xs1 G1 F1 P1 N1). specialize (D1 eq_refl). lia.
  - exists s1, xs1, ph1. split; [reflexivity|]. auto.
Qed.

Lemma ended_path ph s xs : path ph s xs -> ended ph s -> (view s = (T_NL, rE) /\ p_st s = stE /\ xs = xsE) \/
  exists L, reads kw (view s) [T_CHAR ":"] L /\ lpath kw Start L (p_st s) xs phE (T_NL, rE) stE xsE.
Proof.
  unfold path, ended, ends_stmt. intros H T. change (p_tok s) with (fst (view s)) in T. revert H T. generalize (view s) as L0, (p_st s) as st0. intros L0 st0 H T.
  inversion H as [ph1 L1 st1 xs1 E1 E2 E3 E4 | ph1 L1 st1 xs1 ph2 L2 st2 xs2 ph3 L3 st3 xs3 ST PA]; subst; [left; auto|].
  destruct ST as [ph L ts L' st x st' xs PH R G | ph r l L' st xs PH G | ph r st xs PH | ph t r st xs PH TT | ph L ts L' st e st' xs PH R G N | ph L ts t n L' st e st' xs PH R G N
    | ph L L' st xs e ys PH R O | L t n L' st xs m R N O LG | ph L L' st xs PH R];
    try (exfalso; destruct PH as [PH|PH], T as [[T _]|T]; rewrite T in PH; discriminate PH).
  - exfalso. destruct T as [[T TE]|T]; [|destruct PH as [PH|PH]; rewrite T in PH; discriminate PH].
    destruct (reads_cons _ _ _ _ _ R) as (? & E & _). exact (TE E).
  - exfalso. destruct T as [[T TE]|T]; [|discriminate T]. destruct (reads_cons _ _ _ _ _ R) as (? & E & _). exact (TE E).
  - right. exists L'. split; [exact R | exact PA].
Qed.

Lemma loop_path : forall fuel ph s xs, good s xs -> path ph s xs -> ended ph s -> phi (view s) < fuel ->
  exists s1, line_loop fuel s = POk tt s1 /\ view s1 = (T_NL, rE) /\ p_st s1 = stE /\ good s1 xsE.
Proof.
  induction fuel as [|f IH]; intros ph s xs G PA T LT; [lia|]. cbn [line_loop]. unfold pbind at 1, tok at 1.
  destruct (ended_path _ _ _ PA T) as [(V & S1 & ->) | (L & R & PA1)].
  - exists s. replace (p_tok s) with T_NL by (change (p_tok s) with (fst (view s)); rewrite V; reflexivity). split; [reflexivity|]. auto.
  - pose proof (gd_kw _ _ G) as K. rewrite <- K in R. assert (TK : p_tok s = T_CHAR ":") by (destruct (reads_cons _ _ _ _ _ R) as (? & E & _); exact E). rewrite TK. change (is_char ":" (T_CHAR ":")) with true. cbv iota.
    destruct (goes_next _ _ _ R) as (s1 & E1 & D1).
    assert (OK : ok next_token s (fun _ s1 => phi (view s1) < phi (view s))).
    { eapply ok_weaken; [apply next_ok; rewrite TK; discriminate|]. intros ? ? ? [_ X]. exact X. }
    destruct (ok_gives _ _ _ _ _ OK E1) as [M1 LT1]. unfold pbind at 1. rewrite E1.
    assert (C1 : coded bc xs s1).
    { destruct (gd_code _ _ G) as (X1 & X2 & X3). split; [rewrite (ld_code _ _ _ _ _ D1); exact X1|]. split; [rewrite (ld_if _ _ _ _ _ D1); exact X2 | exact X3]. }
    pose proof (good_moves _ _ _ _ G M1 C1) as G1.
    assert (P1 : path Start s1 xs) by (unfold path; rewrite (ld_view _ _ _ _ _ D1), (ld_st _ _ _ _ _ D1); exact PA1).
    destruct (complete_path (S (S (length (p_rest s1)))) Start s1 xs G1 (or_introl eq_refl) P1 (start_tok _ _ _ P1) (phi_fuel s1)) as (s2 & xs2 & ph2 & E2 & P2 & G2 & T2).
    unfold pbind, with_fuel at 1. rewrite E2. apply (IH ph2 s2 xs2 G2 P2 T2).
    destruct (ok_gives _ _ _ _ _ (complete_ok bc LB _ Start xs s1 (gd_fine _ _ G1) (or_introl eq_refl) C1 (phi_fuel s1)) E2) as [M2 _]. pose proof (moves_phi _ _ M2). lia.
Qed.
End Line.

Lemma allowed_nl_next kw r : Forall allowed r -> exists L, advance kw r = Some L.
Proof. intros F. unfold advance. destruct (lex_next_ok kw r F) as (t & s & r' & E). rewrite E. eexists. reflexivity. Qed.

Lemma line_goes index text s xs st' : fine (p_st s) -> Forall allowed text -> line_is (p_kw s) text (p_st s) xs st' -> Forall no_bad xs ->
  exists s1, parse_line index text s = POk tt s1 /\ p_kw s1 = p_kw s /\ p_st s1 = st' /\ p_code s1 = emits (p_code s) (I_SOURCE_LINE index :: lcode xs).
Proof.
  intros FI FA (L & ph & r & AD & LS & PH) NB. apply lsteps_path in LS. unfold parse_line.
  set (s0 := set_lex T_NL text text s).
  change (((fun s1 => next_token (set_lex (p_tok s1) text text s1));;; emit_ (I_SOURCE_LINE index);;; set_ifthen 0;;; with_fuel complete_statement;;; with_fuel line_loop;;; match_char NL) s)
    with ((next_token;;; emit_ (I_SOURCE_LINE index);;; set_ifthen 0;;; with_fuel complete_statement;;; with_fuel line_loop;;; match_char NL) s0).
  destruct (advance_next s0 L AD) as (s1 & E1 & (V1 & K1 & C1 & I1 & T1)). unfold pbind at 1. rewrite E1.
  set (s3 := mkPs (p_kw s1) (p_start s1) (p_rest s1) (p_tok s1) (emit_instr (p_code s1) (I_SOURCE_LINE index)) (p_st s1) 0).
  change ((emit_ (I_SOURCE_LINE index);;; set_ifthen 0;;; with_fuel complete_statement;;; with_fuel line_loop;;; match_char NL) s1) with ((with_fuel complete_statement;;; with_fuel line_loop;;; match_char NL) s3).
  set (bc := emit_instr (p_code s) (I_SOURCE_LINE index)). assert (LB : line_base bc) by (exists (p_code s), index; reflexivity).
  assert (C3 : coded bc [] s3).
  { split; [|split; [reflexivity | discriminate]]. unfold s3. cbn. rewrite C1. reflexivity. }
  assert (V3 : view s3 = L) by exact V1. assert (K3 : p_kw s3 = p_kw s) by exact K1. assert (S3 : p_st s3 = p_st s) by exact T1.
  assert (G3 : good (p_kw s) bc s3 []).
  { split; [exact K3 | rewrite S3; exact FI | | exact C3]. change (p_rest s3) with (snd (view s3)). rewrite V3. exact (advance_allowed _ _ _ AD FA). }
  assert (P3 : path (p_kw s) ph r st' xs Start s3 []) by (unfold path; rewrite V3, S3; exact LS).
  destruct (complete_path (p_kw s) bc ph r st' xs LB PH NB (S (S (length (p_rest s3)))) Start s3 [] G3 (or_introl eq_refl) P3 (start_tok _ _ _ _ _ PH _ _ _ P3) (phi_fuel s3)) as (s4 & xs4 & ph4 & E4 & P4 & G4 & T4).
  unfold pbind at 1, with_fuel at 1. rewrite E4.
  destruct (loop_path (p_kw s) bc ph r st' xs LB PH NB (S (S (length (p_rest s4)))) ph4 s4 xs4 G4 P4 T4 (phi_fuel s4)) as (s5 & E5 & V5 & S5 & G5).
  unfold pbind at 1, with_fuel at 1. rewrite E5. unfold match_char, pbind, tok. replace (p_tok s5) with T_NL by (change (p_tok s5) with (fst (view s5)); rewrite V5; reflexivity).
  change (is_char NL T_NL) with true. cbv iota.
  destruct (allowed_nl_next (p_kw s5) (p_rest s5) (gd_text _ _ _ _ G5)) as (L6 & A6). destruct (advance_next s5 _ A6) as (s6 & E6 & (V6 & K6 & C6 & I6 & T6)).
  exists s6. split; [exact E6|]. split; [rewrite K6; exact (gd_kw _ _ _ _ G5)|]. split; [rewrite T6; exact S5|].
  rewrite C6. cbn [emits fold_left]. destruct (gd_code _ _ _ _ G5) as (X & _). rewrite X. reflexivity.
Qed.

Lemma lines_go : forall src index s xss st', fine (p_st s) -> Forall (fun l => Forall allowed (ln_text l)) src -> program_is (p_kw s) (p_st s) (map ln_text src) xss st' -> Forall (Forall no_bad) xss ->
  exists s1, parse_lines index src s = POk tt s1 /\ p_st s1 = st' /\ p_code s1 = emits (p_code s) (pcode index xss).
Proof.
  induction src as [|l src IH]; intros index s xss st' FI FA H NB; cbn [map] in H.
  - inversion H; subst. exists s. split; [reflexivity|]. split; reflexivity.
  - inversion H as [|st0 text xs st1 src0 xss1 st2 H1 H2]; subst. destruct (line_goes index (ln_text l) s xs st1 FI (Forall_inv FA) H1 (Forall_inv NB)) as (s1 & E1 & K1 & T1 & C1).
    assert (FI1 : fine (p_st s1)).
    { pose proof (parse_line_ok index (ln_text l) s FI) as X. rewrite E1 in X. exact (names_fine _ _ (proj1 X) FI). }
    rewrite <- K1, <- T1 in H2. destruct (IH (S index) s1 xss1 st' FI1 (Forall_inv_tail FA) H2 (Forall_inv_tail NB)) as (s2 & E2 & T2 & C2).
    exists s2. split; [cbn [parse_lines]; unfold pbind; rewrite E1; exact E2|]. split; [exact T2|]. rewrite C2, C1, emits_app. reflexivity.
Qed.

Lemma source_goes src st kw xss st1 : fine st -> Forall (fun l => Forall allowed (ln_text l)) src -> program_is kw st (map ln_text src) xss st1 -> Forall (Forall no_bad) xss ->
  exists bc, parse_source src st kw = PoOk (Some bc) None (sym_make_unknown_array st1) /\ bc_inst bc = pcode 0 xss /\ bc_has_data bc = existsb is_data (pcode 0 xss).
Proof.
  intros FI FA H NB. destruct (lines_go src 0 (mkPs kw [] [] T_NONE new_bcode st 0) xss st1 FI FA H NB) as (s1 & E & T & C).
  exists (p_code s1). unfold parse_source. rewrite E, T. split; [reflexivity|]. rewrite C, emits_inst, emits_data. cbn. rewrite orb_false_r. auto.
Qed.

Lemma source_rejected src st kw e st' : fine st -> Forall (fun l => Forall allowed (ln_text l)) src ->
  parse_source src st kw = PoOk None e st' -> forall xss st1, program_is kw st (map ln_text src) xss st1 -> ~ Forall (Forall no_bad) xss.
Proof. intros FI FA E xss st1 H NB. destruct (source_goes src st kw xss st1 FI FA H NB) as (bc & X & _). rewrite E in X. discriminate X. Qed.

Lemma source_unique src st kw xss1 st1 xss2 st2 : fine st -> Forall (fun l => Forall allowed (ln_text l)) src ->
  program_is kw st (map ln_text src) xss1 st1 -> program_is kw st (map ln_text src) xss2 st2 -> Forall (Forall no_bad) xss1 -> Forall (Forall no_bad) xss2 ->
  pcode 0 xss1 = pcode 0 xss2 /\ sym_make_unknown_array st1 = sym_make_unknown_array st2.
Proof.
  intros FI FA H1 H2 N1 N2. destruct (source_goes src st kw xss1 st1 FI FA H1 N1) as (b1 & X1 & C1 & _). destruct (source_goes src st kw xss2 st2 FI FA H2 N2) as (b2 & X2 & C2 & _).
  rewrite X1 in X2. revert X2. generalize (sym_make_unknown_array st1) as u1, (sym_make_unknown_array st2) as u2. intros u1 u2 [= -> ->].
  split; [congruence | reflexivity].
Qed.
