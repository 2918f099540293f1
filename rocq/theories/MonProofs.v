(* Proofs about the prompt and LIST. *)
From Coq Require Import Lia ZifyBool ZifyNat ZifyN.
From Verif Require Import Base BaseLemmas Num SourceModel SourceSpec SourceProofs LineMapModel BcodeModel SymbolModel SymbolSpec LexModel LexSpec VmModel
  ParseModel SessionModel MonitorModel MonSpec.
Local Open Scope nat_scope.

(* ---------- pieces of text ---------- *)

Lemma gap_iff c : gap c <-> is_blank c = true.
Proof. unfold gap, is_blank. rewrite Bool.orb_true_iff, !ceq_eq. tauto. Qed.
Lemma not_begins (f : ascii -> bool) s : ~ begins_with (fun c => f c = true) s <-> match s with c :: _ => f c = false | [] => True end.
Proof.
  destruct s as [|c r]; split; auto.
  - intros _ (c & r & E & _). discriminate.
  - intros H. destruct (f c) eqn:E; [|reflexivity]. exfalso. apply H. exists c, r. auto.
  - intros H (d & q & E & F). injection E as <- _. congruence.
Qed.
Lemma begins_ext (P Q : ascii -> Prop) s : (forall c, P c <-> Q c) -> begins_with P s <-> begins_with Q s.
Proof. intros H. split; intros (c & r & E & X); exists c, r; split; auto; apply H; exact X. Qed.
Lemma begins_cons P c r : begins_with P (c :: r) <-> P c.
Proof. split; [intros (d & q & E & H); injection E as -> ->; exact H | intros H; exists c, r; auto]. Qed.
Lemma begins_nil P : ~ begins_with P [].
Proof. intros (c & r & E & _). discriminate. Qed.

Lemma skip_split s : exists g, s = g ++ skip_space s /\ Forall gap g /\ ~ begins_with gap (skip_space s).
Proof.
  induction s as [|c s IH]; [exists []; repeat split; [constructor | apply begins_nil]|]. unfold skip_space in *. cbn [drop_while].
  destruct (is_blank c) eqn:E.
  - destruct IH as (g & H & G & N). exists (c :: g). cbn [app]. split; [f_equal; exact H|]. split; [constructor; [apply gap_iff, E | exact G] | exact N].
  - exists []. split; [reflexivity|]. split; [constructor|]. rewrite begins_cons, gap_iff. congruence.
Qed.
Lemma skip_gap g s : Forall gap g -> skip_space (g ++ s) = skip_space s.
Proof. induction 1 as [|c g H _ IH]; [reflexivity|]. unfold skip_space in *. cbn [app drop_while]. apply gap_iff in H. rewrite H. exact IH. Qed.
Lemma skip_none s : ~ begins_with gap s -> skip_space s = s.
Proof.
  intros H. destruct s as [|c s]; [reflexivity|]. unfold skip_space. cbn [drop_while]. rewrite begins_cons, gap_iff in H. destruct (is_blank c); [contradiction|reflexivity].
Qed.
Lemma ends_line_iff s : ends_line s <-> at_eol s = true.
Proof.
  unfold ends_line, at_eol. destruct s as [|c s]; [split; auto|]. rewrite begins_cons, ceq_eq. split; [intros [H|H]; [discriminate | auto] | auto].
Qed.
Lemma starts_digit_iff s : starts_digit s = true <-> begins_with digit s.
Proof. destruct s as [|c s]; [split; [discriminate | intros H; destruct (begins_nil _ H)]|]. rewrite begins_cons. reflexivity. Qed.
Lemma starts_with_iff c s : starts_with c s = true <-> begins_with (eq c) s.
Proof. destruct s as [|d s]; [split; [discriminate | intros H; destruct (begins_nil _ H)]|]. rewrite begins_cons. cbn [starts_with]. rewrite ceq_eq. split; congruence. Qed.

Lemma digits_at s : exists ds r, s = ds ++ r /\ Forall digit ds /\ ~ begins_with digit r /\ read_u32 s = (u32 (dec_value ds), r) /\
  (ds <> [] <-> begins_with digit s).
Proof.
  destruct (digits_split s) as (ds & r & E & D & R). exists ds, r. split; [exact E|]. split; [exact D|]. split; [apply not_begins, R|].
  split; [rewrite E; apply read_u32_spec; assumption|]. subst s. destruct ds as [|d ds].
  - split; [congruence|]. intros B. exfalso. apply (not_begins is_digit r) in R. exact (R B).
  - split; [intros _|discriminate]. inversion D; subst. exists d, (ds ++ r). auto.
Qed.
Lemma read_digits ds r : Forall digit ds -> ~ begins_with digit r -> read_u32 (ds ++ r) = (u32 (dec_value ds), r).
Proof. intros D R. apply read_u32_spec; [exact D | apply (not_begins is_digit r), R]. Qed.

Lemma gap_not_digit c : gap c -> ~ digit c.
Proof. intros [-> | ->]; discriminate. Qed.
Lemma gap_not_nl c : gap c -> c <> NL.
Proof. intros [-> | ->]; discriminate. Qed.
Lemma digit_not_gap c : digit c -> ~ gap c.
Proof. intros D G. exact (gap_not_digit c G D). Qed.

(* ---------- the prompt ---------- *)

Lemma lower_upper c d : to_lower c = to_lower d <-> to_upper c = to_upper d.
Proof.
  assert (X : forall a b, (Bool.eqb (ceq (to_lower a) (to_lower b)) (ceq (to_upper a) (to_upper b))) = true).
  { intros a b. revert b. apply forall_ascii. revert a. 
    assert (Y : forall a, forallb (fun b => Bool.eqb (ceq (to_lower a) (to_lower b)) (ceq (to_upper a) (to_upper b))) all_ascii = true).
    { apply (forall_ascii (fun a => forallb (fun b => Bool.eqb (ceq (to_lower a) (to_lower b)) (ceq (to_upper a) (to_upper b))) all_ascii)). vm_compute. reflexivity. }
    exact Y. }
  specialize (X c d). apply Bool.eqb_prop in X. rewrite <- !ceq_eq. rewrite X. tauto.
Qed.
Lemma striprefix_same a b : length a = length b -> striprefix a b = true <-> same_name a b.
Proof.
  unfold same_name. revert b. induction a as [|c a IH]; intros [|d b] L; cbn [length] in L; try discriminate; [split; reflexivity|].
  cbn [striprefix map]. injection L as L. rewrite Bool.andb_true_iff, (IH b L), N.eqb_eq. split.
  - intros [H1 H2]. apply code_inj in H1. apply lower_upper in H1. congruence.
  - intros H. injection H as H1 H2. split; [|exact H2]. apply lower_upper in H1. congruence.
Qed.
Lemma same_length a b : same_name a b -> length a = length b.
Proof. intros H. apply (f_equal (@length _)) in H. rewrite !map_length in H. exact H. Qed.

Lemma find_command_word w c : find_command w = Some c <-> command_word w c.
Proof.
  unfold find_command, command_word. split.
  - intros H. match type of H with context [find ?f _] => destruct (find f commands) as [[name c']|] eqn:F end; [|discriminate]. cbn in H. injection H as ->. apply find_some in F. destruct F as [I F].
    cbn [fst] in F. apply Bool.andb_true_iff in F. destruct F as [L P]. apply Nat.eqb_eq in L. exists name. split; [exact I|]. apply striprefix_same; assumption.
  - intros (name & I & S). match goal with |- context [find ?f _] => destruct (find f commands) as [[name' c']|] eqn:F end.
    + cbn. apply find_some in F. destruct F as [I' F]. cbn [fst] in F. apply Bool.andb_true_iff in F. destruct F as [L P]. apply Nat.eqb_eq in L.
      apply striprefix_same in P; [|exact L]. assert (SN : same_name name name') by (unfold same_name in *; congruence).
      assert (U : forallb (fun p => forallb (fun q => implb (bytes_eqb (map to_upper (fst p)) (map to_upper (fst q)))
        (match snd p, snd q with C_BYE, C_BYE | C_COMPILE, C_COMPILE | C_CONT, C_CONT | C_HELP, C_HELP | C_LIST, C_LIST | C_LOAD, C_LOAD | C_NEW, C_NEW
         | C_RENUM, C_RENUM | C_RUN, C_RUN | C_SAVE, C_SAVE => true | _, _ => false end)) commands) commands = true) by reflexivity.
      rewrite forallb_forall in U. specialize (U _ I). rewrite forallb_forall in U. specialize (U _ I'). cbn [fst snd] in U.
      assert (B : bytes_eqb (map to_upper name) (map to_upper name') = true).
      { unfold same_name in SN. rewrite SN. clear. induction (map to_upper name') as [|c l IH]; [reflexivity|]. cbn. rewrite ceq_refl. exact IH. }
      rewrite B in U. destruct c, c'; try discriminate U; reflexivity.
    + exfalso. apply find_none with (x := (name, c)) in F; [|exact I]. cbn [fst] in F. rewrite (same_length _ _ S), Nat.eqb_refl in F.
      cbn in F. apply (striprefix_same name w (same_length _ _ S)) in S. congruence.
Qed.
Lemma command_not_empty c : ~ command_word [] c.
Proof.
  intros (name & I & S). apply same_length in S. destruct name; [|discriminate].
  assert (U : forallb (fun p => match fst p with [] => false | _ => true end) commands = true) by reflexivity.
  rewrite forallb_forall in U. specialize (U _ I). discriminate U.
Qed.

Definition classify (line : bytes) : meaning :=
  let p := skip_space line in
  if starts_digit p then
    let (n, r) := read_u32 p in MEdit n (if at_eol r then None else Some (if starts_with SP r then tl r else r))
  else if starts_with "*" p then (if at_eol (skip_space (tl p)) then MNothing else MSystem (skip_space (tl p)))
  else if at_eol p then MNothing
  else let (w, r) := span is_alpha p in
    match find_command w with Some c => MCommand c r | None => MStatements p end.

Lemma false_iff (b : bool) (P : Prop) : (b = true <-> P) -> ~ P -> b = false.
Proof. intros [H _] N. destruct b; [destruct (N (H eq_refl)) | reflexivity]. Qed.

Lemma edit_text_is r t : edit_text r t -> (if at_eol r then None else Some (if starts_with SP r then tl r else r)) = t.
Proof.
  intros H. destruct H as [r E | r | r E S].
  - apply ends_line_iff in E. rewrite E. reflexivity.
  - reflexivity.
  - rewrite (false_iff _ _ (iff_sym (ends_line_iff r)) E), (false_iff _ _ (starts_with_iff SP r) S). reflexivity.
Qed.

Lemma letters_span w r : Forall letter w -> ~ begins_with letter r -> span is_alpha (w ++ r) = (w, r).
Proof.
  induction 1 as [|c w L _ IH]; intros R; cbn [app].
  - apply (not_begins is_alpha) in R. destruct r as [|c r]; [reflexivity|]. cbn [span]. rewrite R. reflexivity.
  - cbn [span]. unfold letter in L. rewrite L, (IH R). reflexivity.
Qed.
Lemma letter_other c : letter c -> ~ gap c /\ ~ digit c /\ c <> "*"%char /\ c <> NL.
Proof.
  intros L. assert (X : implb (is_alpha c) (negb (is_blank c || is_digit c || ceq c "*" || ceq c NL)) = true).
  { apply (forall_ascii (fun c => implb (is_alpha c) (negb (is_blank c || is_digit c || ceq c "*" || ceq c NL)))). vm_compute. reflexivity. }
  unfold letter in L. rewrite L in X. cbn in X. apply Bool.negb_true_iff in X. do 3 (apply Bool.orb_false_iff in X; destruct X as [X ?]).
  rewrite gap_iff. unfold digit. rewrite <- !ceq_neq. rewrite X. repeat split; try assumption; congruence.
Qed.
Lemma digit_other c : digit c -> ~ gap c /\ c <> "*"%char /\ c <> NL.
Proof. intros D. split; [exact (digit_not_gap c D)|]. split; intros ->; discriminate D. Qed.
Lemma ends_cases r : ends_line r -> r = [] \/ exists q, r = NL :: q.
Proof. intros [-> | (c & q & -> & <-)]; eauto. Qed.

Lemma means_classify line m : means line m -> classify line = m.
Proof.
  intros H. unfold classify. destruct H as [b ds r t B NE D R T | b g r B G N E | b g r B G E | b r B E | b w r c B L R C | b w r B L R C N E].
  - rewrite skip_gap by exact B. destruct ds as [|d ds]; [congruence|]. inversion D; subst. destruct (digit_other d H1) as (X1 & _).
    rewrite skip_none by (cbn [app]; rewrite begins_cons; exact X1). cbn [app starts_digit]. unfold digit in H1. rewrite H1.
    change (d :: ds ++ r) with ((d :: ds) ++ r). rewrite read_digits by assumption. cbv iota beta. f_equal. exact (edit_text_is _ _ T).
  - rewrite skip_gap by exact B. rewrite skip_none by (rewrite begins_cons; intros [X|X]; discriminate). cbn [starts_digit starts_with tl].
    change (is_digit "*") with false. change (ceq "*" "*") with true. cbn [andb]. rewrite skip_gap, skip_none by assumption.
    rewrite (false_iff _ _ (iff_sym (ends_line_iff r)) E). reflexivity.
  - rewrite skip_gap by exact B. rewrite skip_none by (rewrite begins_cons; intros [X|X]; discriminate). cbn [starts_digit starts_with tl].
    change (is_digit "*") with false. change (ceq "*" "*") with true. rewrite skip_gap by assumption.
    rewrite skip_none; [apply ends_line_iff in E; rewrite E; reflexivity|]. destruct (ends_cases _ E) as [-> | (q & ->)]; [apply begins_nil|]. rewrite begins_cons. intros [X|X]; discriminate.
  - rewrite skip_gap by exact B. destruct (ends_cases _ E) as [-> | (q & ->)]; reflexivity.
  - rewrite skip_gap by exact B. destruct w as [|a w]; [destruct (command_not_empty _ C)|]. inversion L; subst. destruct (letter_other a H1) as (X1 & X2 & X3 & X4).
    rewrite skip_none by (cbn [app]; rewrite begins_cons; exact X1). cbn [app starts_digit starts_with at_eol].
    assert (Y : is_digit a = false) by (unfold digit in X2; destruct (is_digit a); congruence). rewrite Y.
    apply ceq_neq in X3, X4. rewrite X3, X4. change (a :: w ++ r) with ((a :: w) ++ r). rewrite letters_span by assumption.
    apply find_command_word in C. rewrite C. reflexivity.
  - rewrite skip_gap by exact B. rewrite skip_none by (intros (c & q & Q & X); apply N; exists c, q; auto).
    rewrite (false_iff _ _ (starts_digit_iff _)) by (intros (c & q & Q & X); apply N; exists c, q; auto).
    rewrite (false_iff _ _ (starts_with_iff _ _)) by (intros (c & q & Q & X); apply N; exists c, q; auto).
    rewrite (false_iff _ _ (iff_sym (ends_line_iff _)) E). rewrite letters_span by assumption.
    destruct (find_command w) as [c|] eqn:F; [apply find_command_word in F; destruct (C c F) | reflexivity].
Qed.

Lemma means_exists line : exists m, means line m.
Proof.
  destruct (skip_split line) as (b & E & B & N). set (p := skip_space line) in *. clearbody p. subst line.
  destruct (starts_digit p) eqn:SD.
  - apply starts_digit_iff in SD. destruct (digits_at p) as (ds & r & -> & D & R & _ & NE).
    assert (T : exists t, edit_text r t).
    { destruct (at_eol r) eqn:Q; [exists None; apply Et_none, ends_line_iff, Q|]. destruct (starts_with SP r) eqn:Q2.
      - apply starts_with_iff in Q2. destruct Q2 as (c & q & -> & <-). exists (Some q). constructor.
      - exists (Some r). apply Et_text; [intros X; apply ends_line_iff in X; congruence | intros X; apply starts_with_iff in X; congruence]. }
    destruct T as (t & T). eexists. eapply Me_edit; eauto. apply NE, SD.
  - assert (ND : ~ begins_with digit p) by (intros X; apply starts_digit_iff in X; congruence). destruct (starts_with "*" p) eqn:ST.
    + apply starts_with_iff in ST. destruct ST as (c & q & -> & <-). destruct (skip_split q) as (g & Q & G & NG). rewrite Q.
      destruct (at_eol (skip_space q)) eqn:AE; [exists MNothing; apply Me_no_system; auto; apply ends_line_iff, AE|].
      exists (MSystem (skip_space q)). apply Me_system; auto. intros X. apply ends_line_iff in X. congruence.
    + assert (NS : ~ begins_with (eq "*"%char) p) by (intros X; apply starts_with_iff in X; congruence). destruct (at_eol p) eqn:AE.
      * exists MNothing. apply Me_nothing; [exact B | apply ends_line_iff, AE].
      * destruct (span is_alpha p) as [w r] eqn:S. apply span_spec in S. destruct S as (-> & L & R). apply (not_begins is_alpha) in R.
        destruct (find_command w) as [c|] eqn:F.
        -- exists (MCommand c r). apply Me_command; auto. apply find_command_word, F.
        -- exists (MStatements (w ++ r)). apply Me_statements; auto.
           ++ intros c X. apply find_command_word in X. congruence.
           ++ intros (c & q & Q & [X|[X| ->]]); [apply N; exists c, q; auto | apply ND; exists c, q; auto | apply NS; exists "*"%char, q; auto].
           ++ intros X. apply ends_line_iff in X. congruence.
Qed.

Lemma interpret_classify E fuel line s : interpret E fuel line s = act E fuel (classify line) s.
Proof.
  unfold interpret, classify. destruct (starts_digit (skip_space line)).
  - unfold program_line. destruct (read_u32 (skip_space line)) as [n r]. destruct (at_eol r); reflexivity.
  - destruct (starts_with "*" (skip_space line)).
    + unfold oscli, xbind. destruct (at_eol (skip_space (tl (skip_space line)))); reflexivity.
    + destruct (at_eol (skip_space line)); [reflexivity|]. unfold immediate. destruct (span is_alpha (skip_space line)) as [w r].
      destruct w as [|a w]; [cbn [find_command option_map find commands]; reflexivity|]. destruct (find_command (a :: w)); reflexivity.
Qed.

Lemma prompt_line line : exists m, means line m /\ (forall m', means line m' -> m' = m) /\ forall E fuel s, interpret E fuel line s = act E fuel m s.
Proof.
  destruct (means_exists line) as (m & M). exists m. split; [exact M|]. apply means_classify in M. split.
  - intros m' M'. apply means_classify in M'. congruence.
  - intros. rewrite interpret_classify, M. reflexivity.
Qed.

(* ---------- LIST ---------- *)

Lemma prints_app a b s : prints b (prints a s) = prints (a ++ b) s.
Proof. unfold prints, set_vm, set_out. cbn. rewrite map_app, app_assoc. reflexivity. Qed.
Lemma prints_nil s : prints [] s = s.
Proof. destruct s as [v fs d bk os]. unfold prints, set_vm. cbn [ss_vm ss_fs ss_diag ss_brk ss_os map]. rewrite app_nil_r. destruct v; reflexivity. Qed.
Lemma out_prints t s : out t s = XOk tt (prints t s).
Proof. reflexivity. Qed.

Lemma above_none src a b : Forall (fun l => (b < ln_num l)%N) src -> filter (in_range a b) src = [].
Proof.
  induction 1 as [|l src H _ IH]; [reflexivity|]. cbn [filter]. unfold in_range at 1. replace (ln_num l <=? b)%N with false by lia. rewrite Bool.andb_false_r. exact IH.
Qed.
Lemma increasing_above l src b : increasing (l :: src) -> (b < ln_num l)%N -> Forall (fun l => (b < ln_num l)%N) (l :: src).
Proof.
  intros I H. unfold increasing in I. cbn [map] in I. inversion I; subst. constructor; [exact H|]. rewrite Forall_map in H3. apply Forall_impl with (2 := H3). intros; lia.
Qed.
Lemma increasing_tail l src : increasing (l :: src) -> increasing src.
Proof. intros I. inversion I; assumption. Qed.

Lemma ranged_fst a b src : map fst (ranged a b src) = filter (in_range a b) src.
Proof. unfold ranged. induction src as [|l src IH]; [reflexivity|]. cbn [with_more filter fst]. destruct (in_range a b l); cbn [map fst]; rewrite IH; reflexivity. Qed.
Lemma above_none' src a b : Forall (fun l => (b < ln_num l)%N) src -> ranged a b src = [].
Proof. intros H. pose proof (ranged_fst a b src) as X. rewrite above_none in X by exact H. destruct (ranged a b src); [reflexivity | discriminate]. Qed.

Lemma list_loop_all a b src : forall count s, increasing src ->
  list_loop src a b false count s = XOk tt (prints (shown_all (filter (in_range a b) src)) s).
Proof.
  induction src as [|l src IH]; intros count s I; [cbn; rewrite prints_nil; reflexivity|]. cbn [list_loop].
  destruct (b <? ln_num l)%N eqn:Q.
  - rewrite above_none by (apply increasing_above; [exact I | lia]). cbn. rewrite prints_nil. reflexivity.
  - cbn [filter]. unfold in_range at 1. replace (ln_num l <=? b)%N with true by lia. rewrite Bool.andb_true_r. destruct (a <=? ln_num l)%N.
    + cbn [andb]. unfold xbind. rewrite out_prints. rewrite out_prints. rewrite (IH _ _ (increasing_tail _ _ I)). rewrite !prints_app. unfold shown_all. cbn [flat_map]. rewrite <- app_assoc. reflexivity.
    + apply IH, (increasing_tail _ _ I).
Qed.

Lemma list_loop_paged a b src : forall j s, increasing src -> (N.of_nat (j + length src) < 4294967296)%N ->
  list_loop src a b true (N.of_nat j) s = XOk tt (paged j (ranged a b src) s).
Proof.
  induction src as [|l src IH]; intros j s I L; [reflexivity|]. cbn [list_loop].
  destruct (b <? ln_num l)%N eqn:Q.
  - rewrite above_none' by (apply increasing_above; [exact I | lia]). reflexivity.
  - unfold ranged. cbn [with_more filter fst]. unfold in_range at 1. replace (ln_num l <=? b)%N with true by lia. rewrite Bool.andb_true_r. destruct (a <=? ln_num l)%N.
    + cbn [length] in L. assert (U : u32 (N.of_nat j + 1) = N.of_nat (S j)) by (rewrite u32_small by lia; lia). rewrite U.
      cbn [andb paged]. unfold xbind. rewrite out_prints. unfold pause_after.
      replace (N.of_nat (S j) mod PAGE =? PAGE - 1)%N with (Nat.eqb (S j mod 24) 23) by (unfold PAGE; lia).
      destruct (Nat.eqb (S j mod 24) 23 && match src with [] => false | _ :: _ => true end); apply (IH (S j)); try exact (increasing_tail _ _ I); lia.
    + apply IH; [exact (increasing_tail _ _ I) | cbn [length] in L; lia].
Qed.

Lemma list_program_all a b s src : stored_source (ss_vm s) = Some src -> increasing src ->
  list_program a b false s = XOk tt (prints (shown_all (filter (in_range a b) src)) s).
Proof. intros S I. unfold list_program, xbind, get_vm. rewrite S. apply list_loop_all, I. Qed.
Lemma list_program_paged a b s src : stored_source (ss_vm s) = Some src -> increasing src -> (N.of_nat (length src) < 4294967296)%N ->
  list_program a b true s = XOk tt (paged 0 (ranged a b src) s).
Proof. intros S I L. unfold list_program, xbind, get_vm. rewrite S. apply (list_loop_paged a b src 0); [exact I | exact L]. Qed.

(* every line is printed, in order, and is followed by a newline or a pause *)
Lemma paged_prints ls : forall j s, exists seps, length seps = length ls /\ Forall (fun x => x = [NL] \/ x = []) seps /\
  v_out (ss_vm (paged j ls s)) = v_out (ss_vm s) ++ map OB (concat (map (fun p => shown (fst (fst p)) ++ snd p) (combine ls seps))).
Proof.
  induction ls as [|[l more] ls IH]; intros j s; [exists []; cbn; rewrite app_nil_r; auto|]. cbn [paged].
  match goal with |- context [paged _ ls ?t] => destruct (IH (S j) t) as (seps & L & F & H) end.
  exists ((if pause_after (S j) more then [] else [NL]) :: seps). split; [cbn; congruence|]. split; [constructor; [destruct (pause_after _ _); auto | exact F]|].
  rewrite H. cbn [combine map concat fst snd].
  match goal with |- v_out (ss_vm ?t) ++ _ = _ => assert (X : v_out (ss_vm t) = v_out (ss_vm s) ++ map OB (shown l ++ if pause_after (S j) more then [] else [NL])) end.
  { destruct (pause_after (S j) more); [rewrite app_nil_r; reflexivity|]. rewrite prints_app. reflexivity. }
  rewrite X, !map_app, <- !app_assoc. reflexivity.
Qed.

(* the request *)
Lemma opt_num_ok ds r n dflt : opt_number ds n dflt -> ~ begins_with digit r -> opt_num (ds ++ r) dflt = (n, r).
Proof.
  intros H R. unfold opt_num. destruct H as [[-> ->] | (NE & D & ->)].
  - cbn [app]. rewrite (false_iff _ _ (starts_digit_iff r) R). reflexivity.
  - assert (B : starts_digit (ds ++ r) = true) by (apply starts_digit_iff; destruct ds as [|d ds]; [congruence|]; inversion D; subst; exists d, (ds ++ r); auto).
    rewrite B. apply read_digits; assumption.
Qed.
Lemma opt_num_split s dflt : exists ds n r, s = ds ++ r /\ opt_number ds n dflt /\ ~ begins_with digit r /\ opt_num s dflt = (n, r).
Proof.
  unfold opt_num. destruct (starts_digit s) eqn:Q.
  - destruct (digits_at s) as (ds & r & E & D & R & X & NE). exists ds, (u32 (dec_value ds)), r. split; [exact E|]. split; [|auto]. right. split; [|auto]. apply NE, starts_digit_iff, Q.
  - exists [], dflt, s. split; [reflexivity|]. split; [left; auto|]. split; [|reflexivity]. intros X. apply starts_digit_iff in X. congruence.
Qed.

(* gaps, then something that is not a digit *)
Lemma gaps_digit g r : Forall gap g -> ~ begins_with digit r -> ~ begins_with digit (g ++ r).
Proof. intros G R. destruct g as [|c g]; [exact R|]. cbn [app]. rewrite begins_cons. inversion G; subst. apply gap_not_digit. assumption. Qed.

Lemma skip_digit t : ~ begins_with digit (skip_space t) -> ~ begins_with digit t.
Proof. intros H X. apply H. rewrite skip_none; [exact X|]. destruct X as (c & r & -> & D). rewrite begins_cons. exact (digit_not_gap c D). Qed.
Lemma skip_twice s : skip_space (skip_space s) = skip_space s.
Proof. destruct (skip_split s) as (_ & _ & _ & N). exact (skip_none _ N). Qed.
Lemma page_skip r : get_page_flag (skip_space r) = get_page_flag r.
Proof. unfold get_page_flag. rewrite skip_twice. reflexivity. Qed.

Lemma first_number dflt g1 d1 g2 t a : Forall gap g1 -> Forall gap g2 -> opt_number d1 a dflt -> ~ begins_with digit (skip_space t) ->
  let p := skip_space (g1 ++ d1 ++ g2 ++ t) in
  (if starts_digit p then let (n, r) := read_u32 p in (n, skip_space r) else (dflt, p)) = (a, skip_space t).
Proof.
  intros G1 G2 O D. cbn zeta. rewrite skip_gap by exact G1. destruct O as [[-> ->] | (NE & D1 & ->)].
  - cbn [app]. rewrite skip_gap by exact G2. rewrite (false_iff _ _ (starts_digit_iff _) D). reflexivity.
  - assert (B : begins_with digit (d1 ++ g2 ++ t)) by (destruct d1 as [|d ds]; [congruence|]; inversion D1; subst; exists d, (ds ++ g2 ++ t); auto).
    rewrite skip_none by (destruct B as (c & r & -> & X); rewrite begins_cons; exact (digit_not_gap c X)).
    apply starts_digit_iff in B. rewrite B. rewrite read_digits; [|exact D1 | apply gaps_digit; [exact G2 | apply skip_digit, D]]. rewrite skip_gap by exact G2. reflexivity.
Qed.

Lemma request_numbers s a b p : list_request s a b p -> exists r, get_list_numbers s = (a, b, r) /\ exists r1, get_page_flag r = (p, r1) /\ at_eol (skip_space r1) = true.
Proof.
  intros (g1 & d1 & g2 & mid & g4 & pg & g5 & e & -> & G1 & G2 & G4 & G5 & E & O1 & MID & PG).
  set (z := g4 ++ pg ++ g5 ++ e).
  assert (Z : ~ begins_with digit (skip_space z) /\ starts_with "-" (skip_space z) = false /\ exists r1, get_page_flag z = (p, r1) /\ at_eol (skip_space r1) = true).
  { rewrite <- page_skip. unfold z. rewrite (skip_gap g4) by exact G4.
    assert (TG : skip_space (g5 ++ e) = e).
    { rewrite skip_gap, skip_none; auto. destruct (ends_cases _ E) as [-> | (q & ->)]; [apply begins_nil|]. rewrite begins_cons. intros [X|X]; discriminate. }
    destruct PG as [[-> ->] | [[-> | ->] ->]].
    - cbn [app]. rewrite TG. destruct (ends_cases _ E) as [-> | (q & ->)]; (split; [first [apply begins_nil | rewrite begins_cons; discriminate]|]); (split; [reflexivity|]); eexists; split; reflexivity.
    - change (lit "P" ++ g5 ++ e) with ("P"%char :: g5 ++ e). rewrite skip_none by (rewrite begins_cons; intros [X|X]; discriminate).
      split; [rewrite begins_cons; discriminate|]. split; [reflexivity|]. exists (g5 ++ e). split; [reflexivity|]. rewrite TG. apply ends_line_iff, E.
    - change (lit "p" ++ g5 ++ e) with ("p"%char :: g5 ++ e). rewrite skip_none by (rewrite begins_cons; intros [X|X]; discriminate).
      split; [rewrite begins_cons; discriminate|]. split; [reflexivity|]. exists (g5 ++ e). split; [reflexivity|]. rewrite TG. apply ends_line_iff, E. }
  clearbody z. destruct Z as (ZD & ZM & r1 & ZP & ZE). unfold get_list_numbers. destruct MID as [[-> ->] | (g3 & d2 & -> & G3 & O2)].
  - change (g1 ++ d1 ++ g2 ++ [] ++ z) with (g1 ++ d1 ++ g2 ++ z). pose proof (first_number 0%N g1 d1 g2 z a G1 G2 O1 ZD) as F. cbn zeta in F. rewrite F.
    rewrite ZM. exists (skip_space z). split; [reflexivity|]. exists r1. rewrite page_skip. auto.
  - set (t := ("-"%char :: g3 ++ d2) ++ z). assert (T : skip_space t = "-"%char :: g3 ++ d2 ++ z).
    { unfold t. cbn [app]. rewrite <- app_assoc. apply skip_none. rewrite begins_cons. intros [X|X]; discriminate. }
    assert (TD : ~ begins_with digit (skip_space t)) by (rewrite T, begins_cons; discriminate).
    pose proof (first_number 0%N g1 d1 g2 t a G1 G2 O1 TD) as F. cbn zeta in F. rewrite F. rewrite T. cbn [starts_with tl]. change (ceq "-" "-") with true. cbv iota.
    rewrite skip_gap by exact G3.
    assert (SZ : exists z', skip_space (d2 ++ z) = d2 ++ z' /\ skip_space z' = skip_space z /\ ~ begins_with digit z').
    { destruct d2 as [|d ds].
      - exists (skip_space z). split; [reflexivity|]. split; [apply skip_twice | exact ZD].
      - exists z. split; [|split; [reflexivity | apply skip_digit, ZD]]. destruct O2 as [[X _] | (_ & D & _)]; [discriminate|]. inversion D; subst.
        apply skip_none. cbn [app]. rewrite begins_cons. apply digit_not_gap. assumption. }
    destruct SZ as (z' & -> & S1 & S2). rewrite (opt_num_ok d2 z' b UINT_MAX O2 S2). exists z'. split; [reflexivity|]. exists r1. rewrite <- page_skip, S1, page_skip. auto.
Qed.

Lemma numbers_request s : let '(a, b, r) := get_list_numbers s in let (p, r1) := get_page_flag r in
  at_eol (skip_space r1) = true -> list_request s a b p.
Proof.
  destruct (get_list_numbers s) as [[a b] r] eqn:H. destruct (get_page_flag r) as [p r1] eqn:PF. intros E. apply ends_line_iff in E.
  destruct (skip_split r) as (g4 & R & G4 & N4). destruct (skip_split r1) as (g5 & R1 & G5 & _).
  assert (PG : exists pg, skip_space r = pg ++ r1 /\ ((pg = [] /\ p = false) \/ ((pg = lit "P" \/ pg = lit "p") /\ p = true))).
  { unfold get_page_flag in PF. destruct (skip_space r) as [|c q]; [injection PF as <- <-; exists []; auto|].
    destruct (ceq (to_lower c) "p") eqn:Q; injection PF as <- <-; [|exists []; auto]. exists [c]. split; [reflexivity|]. right. split; [|reflexivity].
    assert (X : implb (ceq (to_lower c) "p") (ceq c "P" || ceq c "p") = true).
    { apply (forall_ascii (fun c => implb (ceq (to_lower c) "p") (ceq c "P" || ceq c "p"))). vm_compute. reflexivity. }
    rewrite Q in X. cbn in X. apply Bool.orb_true_iff in X. rewrite !ceq_eq in X. destruct X as [-> | ->]; auto. }
  destruct PG as (pg & SR & PG). unfold get_list_numbers in H. destruct (skip_split s) as (g1 & S & G1 & N1).
  destruct (opt_num_split (skip_space s) 0) as (d1 & n & q & Q & O & ND & X). unfold opt_num in X.
  destruct (skip_split q) as (g2 & Q2 & G2 & N2).
  assert (F : exists g2', Forall gap g2' /\ d1 ++ q = d1 ++ g2' ++ (if starts_digit (skip_space s) then skip_space q else q) /\
    (if starts_digit (skip_space s) then let (n, r) := read_u32 (skip_space s) in (n, skip_space r) else (0%N, skip_space s)) = (n, if starts_digit (skip_space s) then skip_space q else q)).
  { destruct (starts_digit (skip_space s)); [rewrite X; exists g2; split; [exact G2|]; split; [rewrite <- Q2; reflexivity | reflexivity]|].
    exists []. split; [constructor|]. split; [reflexivity|]. exact X. }
  destruct F as (g2' & G2' & FQ & F). rewrite F in H. set (t := if starts_digit (skip_space s) then skip_space q else q) in *. assert (FQ' : d1 ++ q = d1 ++ g2' ++ t) by exact FQ. clear FQ. rename FQ' into FQ. clearbody t.
  destruct (starts_with "-" t) eqn:SW.
  - apply starts_with_iff in SW. destruct SW as (c & t1 & T & <-). rewrite T in H. cbn [tl] in H. destruct (skip_split t1) as (g3 & T1 & G3 & _).
    destruct (opt_num_split (skip_space t1) UINT_MAX) as (d2 & n2 & q2 & QQ & O2 & _ & X2). rewrite X2 in H. injection H as <- <- <-.
    exists g1, d1, g2', ("-"%char :: g3 ++ d2), g4, pg, g5, (skip_space r1). split; [|repeat split; auto; right; eauto].
    rewrite S at 1. rewrite Q, FQ, T, T1, QQ. cbn [app]. rewrite <- !app_assoc. do 6 f_equal. rewrite R at 1. rewrite SR. rewrite R1 at 1. reflexivity.
  - injection H as <- <- <-. exists g1, d1, g2', [], g4, pg, g5, (skip_space r1). split; [|repeat split; auto].
    rewrite S at 1. rewrite Q, FQ. cbn [app]. rewrite R at 1. rewrite SR. rewrite R1 at 1. reflexivity.
Qed.

Lemma list_command E fuel s : 
  (exists a b p, list_request s a b p /\ forall x, command E fuel C_LIST s x = xbind (list_program a b p) (fun _ => xret false) x) \/
  ((forall a b p, ~ list_request s a b p) /\ forall x, command E fuel C_LIST s x = xbind (say DSyntax) (fun _ => xret false) x).
Proof.
  pose proof (numbers_request s) as NR. pose proof (request_numbers s) as RN. cbn [command].
  destruct (get_list_numbers s) as [[a b] r]. destruct (get_page_flag r) as [p r1] eqn:PF.
  destruct (at_eol (skip_space r1)) eqn:Q.
  - left. exists a, b, p. split; [apply NR; reflexivity|]. intros x. unfold check_eol. rewrite Q. reflexivity.
  - right. split; [|intros x; unfold check_eol; rewrite Q; reflexivity]. intros a' b' p' H. destruct (RN _ _ _ H) as (r' & X & r1' & Y & Z). injection X as <- <- <-. rewrite PF in Y. injection Y as <- <-. congruence.
Qed.

(* ---------- LIST as typed ---------- *)

Lemma interpret_means E fuel line m s : means line m -> interpret E fuel line s = act E fuel m s.
Proof. intros H. rewrite interpret_classify, (means_classify _ _ H). reflexivity. Qed.
Lemma request_unique s a b p a' b' p' : list_request s a b p -> list_request s a' b' p' -> a = a' /\ b = b' /\ p = p'.
Proof.
  intros H H'. destruct (request_numbers _ _ _ _ H) as (r & G & r1 & P & _). destruct (request_numbers _ _ _ _ H') as (r' & G' & r1' & P' & _).
  rewrite G in G'. injection G' as <- <- <-. rewrite P in P'. injection P' as <- _. auto.
Qed.
Lemma list_typed E fuel line rest s a b p : means line (MCommand C_LIST rest) -> list_request rest a b p ->
  interpret E fuel line s = xbind (list_program a b p) (fun _ => xret false) s.
Proof.
  intros M Q. rewrite (interpret_means _ _ _ _ _ M). cbn [act]. destruct (list_command E fuel rest) as [(a' & b' & p' & Q' & H) | [N _]]; [|destruct (N _ _ _ Q)].
  destruct (request_unique _ _ _ _ _ _ _ Q Q') as (-> & -> & ->). apply H.
Qed.
Lemma list_typed_all E fuel line rest s a b src : means line (MCommand C_LIST rest) -> list_request rest a b false ->
  stored_source (ss_vm s) = Some src -> increasing src ->
  interpret E fuel line s = XOk false (prints (shown_all (filter (in_range a b) src)) s).
Proof. intros M Q S I. rewrite (list_typed _ _ _ _ _ _ _ _ M Q). unfold xbind. rewrite (list_program_all _ _ _ _ S I). reflexivity. Qed.
Lemma list_typed_paged E fuel line rest s a b src : means line (MCommand C_LIST rest) -> list_request rest a b true ->
  stored_source (ss_vm s) = Some src -> increasing src -> (N.of_nat (length src) < 4294967296)%N ->
  interpret E fuel line s = XOk false (paged 0 (ranged a b src) s).
Proof. intros M Q S I L. rewrite (list_typed _ _ _ _ _ _ _ _ M Q). unfold xbind. rewrite (list_program_paged _ _ _ _ S I L). reflexivity. Qed.
Lemma list_refused E fuel line rest s : means line (MCommand C_LIST rest) -> (forall a b p, ~ list_request rest a b p) ->
  interpret E fuel line s = xbind (say DSyntax) (fun _ => xret false) s.
Proof.
  intros M Q. rewrite (interpret_means _ _ _ _ _ M). cbn [act]. destruct (list_command E fuel rest) as [(a' & b' & p' & Q' & H) | [_ H]]; [destruct (Q _ _ _ Q') | apply H].
Qed.
