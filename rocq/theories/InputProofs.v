(* INPUT against what is typed (C24). *)
From Coq Require Import Lia ZifyBool ZifyNat ZifyN SpecFloat.
From Verif Require Import Base BaseLemmas Num NumSpec NumLemmas DoubleProofs SourceModel LineMapModel ArrayModel ArraySpec BcodeModel SymbolModel SymbolSpec SymbolProofs
  LexModel ParseModel GrammarSpec ParseProofs StmtProofs CompileProofs VmModel VmLemmas VmSpec ControlProofs OpSpec VmTyping ValueSpec ValueProofs ForSpec ForProofs PrintSpec StoreSpec StoreFrames
  DataSpec FnSpec KindProofs TypeSpec CodeProofs LineSpec LineProofs EvalSpec EvalOps EvalProofs StepSpec StepProofs ErrProofs
  SessionModel MonitorModel MonSpec MonProofs SessionSpec PromptProofs RunProofs TypedProofs RunSpec BeginProofs ContProofs ShortProofs ExecProofs SafeSpec SafeTop InputSpec.
Local Open Scope nat_scope.
Local Open Scope list_scope.
Local Notation num := Num.num.

(* ---------- numbers end where a field ends ---------- *)

Definition stops (t : bytes) : Prop := match t with [] => True | c :: _ => c = NL \/ c = ","%char end.
Lemma span_stop {X} (p : X -> bool) (f t : list X) a b : (match t with [] => True | c :: _ => p c = false end) -> span p f = (a, b) -> span p (f ++ t) = (a, b ++ t).
Proof.
  intros T. revert a b. induction f as [|c f IH]; intros a b; cbn [span app].
  - intros H. injection H as <- <-. destruct t as [|c t]; [reflexivity|]. cbn [span]. rewrite T. reflexivity.
  - destruct (p c); [|intros H; injection H as <- <-; reflexivity]. destruct (span p f) as [x y]. intros H. injection H as <- <-. rewrite (IH _ _ eq_refl). reflexivity.
Qed.
Lemma drop_stop {X} (p : X -> bool) (f t : list X) : (match t with [] => True | c :: _ => p c = false end) -> drop_while p (f ++ t) = drop_while p f ++ t.
Proof.
  intros T. induction f as [|c f IH]; cbn [drop_while app].
  - destruct t as [|c t]; [reflexivity|]. cbn [drop_while]. rewrite T. reflexivity.
  - destruct (p c); [exact IH|reflexivity].
Qed.
Lemma stop_no (p : ascii -> bool) t : p NL = false -> p ","%char = false -> stops t -> match t with [] => True | c :: _ => p c = false end.
Proof. destruct t as [|c t]; [auto|]. intros A B [-> | ->]; assumption. Qed.
Lemma strip_stop w f t : (forall c, In c w -> (code (to_lower c) =? code (to_lower NL))%N = false /\ (code (to_lower c) =? code (to_lower ","%char))%N = false) -> stops t ->
  striprefix w (f ++ t) = striprefix w f.
Proof.
  intros W T. revert f. induction w as [|c w IH]; intros f; [reflexivity|]. destruct f as [|d f]; cbn [app striprefix].
  - destruct t as [|d t]; [reflexivity|]. destruct (W c (or_introl eq_refl)) as [W1 W2]. destruct T as [-> | ->]; [rewrite W1|rewrite W2]; reflexivity.
  - rewrite IH by (intros x X; apply W; right; exact X). reflexivity.
Qed.
Lemma strip_length w f : striprefix w f = true -> length w <= length f.
Proof. revert f. induction w as [|c w IH]; intros [|d f] H; cbn [striprefix length] in *; try lia; try discriminate. apply andb_true_iff in H as [_ H]. specialize (IH f H). lia. Qed.
Lemma mantissa_stop p (f t : bytes) : p NL = false -> p ","%char = false -> stops t -> scan_mantissa p (f ++ t) = let '(a, b, r) := scan_mantissa p f in (a, b, r ++ t).
Proof.
  intros A B T. pose proof (stop_no p t A B T) as T'. unfold scan_mantissa. destruct (span p f) as [ip r] eqn:S. rewrite (span_stop p f t ip r T' S). destruct r as [|c r]; cbn [app].
  - destruct t as [|c t]; [reflexivity|]. destruct T as [-> | ->]; reflexivity.
  - destruct (ceq c "."%char); [|reflexivity]. destruct (span p r) as [fp r2] eqn:S2. rewrite (span_stop p r t fp r2 T' S2). destruct ip, fp; reflexivity.
Qed.
Lemma exponent_stop m f t : ceq (to_lower NL) m = false -> ceq (to_lower ","%char) m = false -> stops t -> Num.scan_exponent m (f ++ t) = let '(e, r) := Num.scan_exponent m f in (e, r ++ t).
Proof.
  intros A B T. assert (T' : match t with [] => True | c :: _ => is_digit c = false end) by (apply (stop_no is_digit); [reflexivity|reflexivity|exact T]).
  unfold Num.scan_exponent. destruct f as [|c f]; cbn [app].
  - destruct t as [|c t]; [reflexivity|]. destruct T as [-> | ->]; [rewrite A|rewrite B]; reflexivity.
  - destruct (ceq (to_lower c) m); [|reflexivity].
    assert (Q : forall (n : bool) g, (match span is_digit (g ++ t) with ([], _) => (0%Z, c :: f ++ t) | (ds, r2) => let v := Z.of_N (digits_value 10 digit_val ds) in ((if n then - v else v)%Z, r2) end)
      = let '(e, r) := match span is_digit g with ([], _) => (0%Z, c :: f) | (ds, r2) => let v := Z.of_N (digits_value 10 digit_val ds) in ((if n then - v else v)%Z, r2) end in (e, r ++ t)).
    { intros n g. destruct (span is_digit g) as [a b] eqn:S. rewrite (span_stop is_digit g t a b T' S). destruct a; reflexivity. }
    destruct f as [|d f]; cbn [app].
    + destruct t as [|d t]; [exact (Q false [])|]. destruct T as [-> | ->]; cbn [ceq]; exact (Q false []).
    + destruct (ceq d "-"%char); [exact (Q true f)|]. destruct (ceq d "+"%char); [exact (Q false f)|exact (Q false (d :: f))].
Qed.
Lemma unsigned_stop n f t : stops t -> scan_unsigned n (f ++ t) = match scan_unsigned n f with Some (x, r) => Some (x, r ++ t) | None => None end.
Proof.
  intros T. unfold scan_unsigned.
  assert (W : forall w, forallb (fun c => negb (code (to_lower c) =? code (to_lower NL))%N && negb (code (to_lower c) =? code (to_lower ","%char))%N) w = true -> striprefix w (f ++ t) = striprefix w f).
  { intros w W. apply strip_stop; [|exact T]. intros c C. rewrite forallb_forall in W. specialize (W c C). apply andb_true_iff in W as [W1 W2]. split; apply negb_true_iff; assumption. }
  rewrite !W by reflexivity. clear W.
  assert (K : forall w, striprefix w f = true -> skipn (length w) (f ++ t) = skipn (length w) f ++ t).
  { intros w H. apply strip_length in H. rewrite skipn_app. replace (length w - length f) with 0 by lia. reflexivity. }
  destruct (striprefix (lit "infinity") f) eqn:S1; [apply K in S1; change (length (lit "infinity")) with 8 in S1; rewrite S1; reflexivity|].
  destruct (striprefix (lit "inf") f) eqn:S2; [apply K in S2; change (length (lit "inf")) with 3 in S2; rewrite S2; reflexivity|].
  destruct (striprefix (lit "nan") f) eqn:S3.
  { apply K in S3. change (length (lit "nan")) with 3 in S3. rewrite S3. destruct (skipn 3 f) as [|c r1]; cbn [app].
    - destruct t as [|c t]; [reflexivity|]. destruct T as [-> | ->]; reflexivity.
    - destruct (ceq c "("%char); [|reflexivity]. set (p := fun d => is_alnum d || ceq d "_"). destruct (span p r1) as [a b] eqn:S. rewrite (span_stop p r1 t a b (stop_no p t eq_refl eq_refl T) S). destruct b as [|d b]; cbn [app].
      + destruct t as [|d t]; [reflexivity|]. destruct T as [-> | ->]; reflexivity.
      + destruct (ceq d ")"%char); reflexivity. }
  clear K S1 S2 S3. cbv zeta.
  assert (D : match scan_mantissa is_digit (f ++ t) with
        | ([], [], _) => None
        | (ip, fp, r1) => let (e, r2) := Num.scan_exponent "e" r1 in Some (scale10 n (digits_value 10 digit_val (ip ++ fp)) (Z.of_nat (length (ip ++ fp))) (e - Z.of_nat (length fp)), r2)
        end = match (match scan_mantissa is_digit f with
        | ([], [], _) => None
        | (ip, fp, r1) => let (e, r2) := Num.scan_exponent "e" r1 in Some (scale10 n (digits_value 10 digit_val (ip ++ fp)) (Z.of_nat (length (ip ++ fp))) (e - Z.of_nat (length fp)), r2)
        end) with Some (x, r) => Some (x, r ++ t) | None => None end).
  { rewrite (mantissa_stop is_digit f t eq_refl eq_refl T). destruct (scan_mantissa is_digit f) as [[ip fp] r1]. rewrite (exponent_stop "e" r1 t eq_refl eq_refl T). destruct (Num.scan_exponent "e" r1) as [e r2]. destruct ip, fp; reflexivity. }
  rewrite D. clear D. generalize (match scan_mantissa is_digit f with ([], [], _) => None | (ip, fp, r1) => let (e, r2) := Num.scan_exponent "e" r1 in Some (scale10 n (digits_value 10 digit_val (ip ++ fp)) (Z.of_nat (length (ip ++ fp))) (e - Z.of_nat (length fp)), r2) end).
  intros dec. destruct f as [|z [|x r]]; cbn [app].
  - destruct t as [|c [|d t]]; try reflexivity. destruct T as [-> | ->]; reflexivity.
  - destruct t as [|d t]; [reflexivity|]. destruct T as [-> | ->]; destruct (ceq z "0"%char); reflexivity.
  - destruct (ceq z "0"%char && ceq (to_lower x) "x"%char); [|reflexivity].
    rewrite (mantissa_stop is_hexdigit r t eq_refl eq_refl T). destruct (scan_mantissa is_hexdigit r) as [[ip fp] r1]. rewrite (exponent_stop "p" r1 t eq_refl eq_refl T). destruct (Num.scan_exponent "p" r1) as [e r2]. destruct ip, fp; reflexivity.
Qed.
Lemma strtod_stop c f t : is_space c = false -> stops t -> strtod (c :: f ++ t) = let '(x, r) := strtod (c :: f) in (x, r ++ t).
Proof.
  intros C T. unfold strtod. cbn [drop_while]. rewrite C. 
  assert (Q : forall n g, match scan_unsigned n (g ++ t) with Some (v, r) => (v, r) | None => (fzero, c :: f ++ t) end = let '(x, r) := match scan_unsigned n g with Some (v, r) => (v, r) | None => (fzero, c :: f) end in (x, r ++ t)).
  { intros n g. rewrite (unsigned_stop n g t T). destruct (scan_unsigned n g) as [[x r]|]; reflexivity. }
  destruct (ceq c "-"%char); [exact (Q true f)|]. destruct (ceq c "+"%char); [exact (Q false f)|exact (Q false (c :: f))].
Qed.
Lemma convert_stop f t : stops t -> convert (f ++ t) = match convert f with Some (x, r) => Some (x, r ++ t) | None => None end.
Proof.
  intros T. unfold convert. rewrite (drop_stop is_blank f t (stop_no is_blank t eq_refl eq_refl T)). destruct (drop_while is_blank f) as [|c r]; cbn [app].
  - destruct t as [|c t]; [reflexivity|]. destruct T as [-> | ->]; reflexivity.
  - destruct (is_digit c || ceq c "." || ceq c "-" || ceq c "+") eqn:C; [|reflexivity].
    assert (SC : is_space c = false). { clear - C. destruct c as [[] [] [] [] [] [] [] []]; vm_compute in C; first [discriminate C | vm_compute; reflexivity]. }
    rewrite (strtod_stop c r t SC T). destruct (strtod (c :: r)) as [x e]. cbv iota. rewrite (drop_stop is_blank e t (stop_no is_blank t eq_refl eq_refl T)). reflexivity.
Qed.

(* ---------- fields ---------- *)

Definition commas (fs : list bytes) : bytes := flat_map (fun g => ","%char :: g) fs.
Definition plain (f : bytes) : Prop := Forall (fun c => is_field_char c = true) f.
Lemma fields_join e : Forall (fun c => c <> NL /\ c <> NUL) e -> exists f r, fields e = f :: r /\ e = f ++ commas r /\ plain f /\ Forall plain r.
Proof.
  induction 1 as [|c e [C _] H IH]; cbn [fields].
  - exists [], []. repeat split; constructor.
  - destruct IH as (f & r & F & X & P1 & P2). rewrite F. destruct (ceq c ","%char) eqn:CC.
    + exists [], (f :: r). apply ceq_eq in CC. subst c. split; [reflexivity|]. split; [rewrite X; reflexivity|]. split; constructor; assumption.
    + exists (c :: f), r. split; [reflexivity|]. split; [rewrite X; reflexivity|]. split; [|exact P2]. constructor; [|exact P1]. unfold is_field_char. rewrite CC. destruct (ceq c NL) eqn:CN; [apply ceq_eq in CN; contradiction|reflexivity].
Qed.
Lemma stops_commas r : stops (commas r ++ [NL]).
Proof. destruct r; [left|right]; reflexivity. Qed.
Lemma span_plain f t : plain f -> stops t -> span is_field_char (f ++ t) = (f, t).
Proof.
  intros P T. assert (S : span is_field_char f = (f, [])). { induction P as [|c f C P IH]; [reflexivity|]. cbn [span]. rewrite C, IH. reflexivity. }
  exact (span_stop is_field_char f t f [] (stop_no is_field_char t eq_refl eq_refl T) S).
Qed.

(* ---------- one line ---------- *)

Section Line.
Variables (E : env) (P : program).
Local Notation tail r := (commas r ++ [NL]).
(* what take_fields comes to *)
Definition attempt (v : verdict) (left : bytes) (m : memory) (s : state) : done (option bytes) :=
  match v with
  | Accepted _ _ => Done (Some left) (with_memory m s)
  | _ => Done None (with_output (x_output s ++ map OB (remark v)) (x_column s) (with_memory m s))
  end.
Lemma with_same s : with_memory (x_memory s) s = s.
Proof. destruct s. reflexivity. Qed.
Definition values_of (v : verdict) : list datum := match v with Accepted ds _ | TooFew ds | BadField ds _ => ds end.
Definition fair (v : verdict) : Prop := match v with BadField _ p => pl_subs p = [] | _ => True end.
Lemma assign_one p l d ds m m' : assign E (p :: l) (d :: ds) m = Value tt m' -> exists m1, assign E [p] [d] m = Value tt m1 /\ assign E l ds m1 = Value tt m'.
Proof.
  cbn [assign]. destruct (evals E (call_function E) (pl_subs p) m) as [idx m0|e m0|]; cbn [and_then]; try discriminate. destruct (store_value p idx d m0) as [[] m2|e m2|]; cbn [and_then]; try discriminate.
  intros H. exists m2. split; [reflexivity|exact H].
Qed.
Lemma values_preceded d v : values_of (preceded d v) = d :: values_of v.
Proof. destruct v; reflexivity. Qed.
Lemma fair_preceded d v : fair (preceded d v) -> fair v.
Proof. destruct v; exact (fun H => H). Qed.
Lemma attempt_memory v t m m1 s : attempt v t m (with_memory m1 s) = attempt v t m s.
Proof. destruct v; reflexivity. Qed.
Lemma fields_judged l : forall r s m', Forall plain r -> fair (judge l r) -> assign E l (values_of (judge l r)) (x_memory s) = Value tt m' ->
  take_fields E false l (tail r) s = attempt (judge l r) (tail (skipn (length l) r)) m' s.
Proof.
  induction l as [|p l IH]; intros r s m' PR FA AS.
  - cbn [take_fields judge length skipn] in *. assert (M : m' = x_memory s) by (destruct r; cbn in AS; injection AS as ->; reflexivity). rewrite M. destruct r; cbn [attempt]; rewrite with_same; reflexivity.
  - destruct r as [|f r].
    + cbn [judge take_fields] in *. cbn in AS. injection AS as <-. destruct s; reflexivity.
    + inversion PR as [|? ? PF PR']; subst. cbn [judge] in FA, AS |- *. cbn [take_fields length skipn].
      change (after_comma (tail (f :: r))) with (Some ((f ++ commas r) ++ [NL])). rewrite <- app_assoc. cbv iota.
      destruct (field_value p f) as [d|] eqn:FV.
      * rewrite values_preceded in AS. destruct (assign_one _ _ _ _ _ _ AS) as (m1 & A1 & A2).
        assert (PRE : attempt (preceded d (judge l r)) (tail (skipn (length l) r)) m' s = attempt (judge l r) (tail (skipn (length l) r)) m' s) by (destruct (judge l r); reflexivity). rewrite PRE.
        assert (TF : forall m2, m2 = m1 -> take_fields E false l (tail r) (with_memory m2 s) = attempt (judge l r) (tail (skipn (length l) r)) m' s).
        { intros m2 ->. rewrite (IH r (with_memory m1 s) m' PR' (fair_preceded d _ FA) A2). apply attempt_memory. }
        unfold following_by, values, with_answer, StepSpec.store. cbn [assign] in A1.
        destruct (evals E (call_function E) (pl_subs p) (x_memory s)) as [idx m0|e m0|]; cbn [and_then] in A1; try discriminate A1.
        destruct (store_value p idx d m0) as [[] m2|e m2|] eqn:SV; cbn [and_then] in A1; try discriminate A1. injection A1 as M2.
        assert (GO : (match with_answer (store_value p idx d) (with_memory m0 s) with Done _ s' => take_fields E false l (tail r) s' | Failed e s' => Failed e s' | Meaningless => Meaningless end) = attempt (judge l r) (tail (skipn (length l) r)) m' s).
        { unfold with_answer. cbn [x_memory with_memory]. rewrite SV. exact (TF m2 M2). }
        pose proof (stops_commas r) as ST. unfold field_value in FV. destruct (pl_type p).
        -- injection FV as <-. rewrite (span_plain f _ PF ST). exact GO.
        -- destruct (convert f) as [[x [|c t]]|] eqn:CV; try discriminate FV. injection FV as <-. rewrite (convert_stop f _ ST), CV. cbn [app]. assert (FE : field_end (tail r) = true) by (destruct r; reflexivity). rewrite FE. exact GO.
        -- injection FV as <-. rewrite (span_plain f _ PF ST). exact GO.
      * cbn [fair] in FA. cbn [values_of assign] in AS. injection AS as <-.
        unfold following_by, values. rewrite FA. cbn [evals]. unfold with_answer. pose proof (stops_commas r) as ST. unfold field_value in FV. destruct (pl_type p); try discriminate FV.
        assert (FE : match convert (f ++ commas r ++ [NL]) with Some (_, t) => field_end t = false | None => True end).
        { rewrite (convert_stop f _ ST). destruct (convert f) as [[x [|c t]]|] eqn:CV; [discriminate FV| |exact Logic.I]. destruct (ends_convert _ _ _ CV) as (q & Q). unfold plain in PF. rewrite Q in PF. apply Forall_app in PF as [_ PF]. inversion PF as [|? ? C _]; subst. cbn [app field_end]. unfold is_field_char in C. apply negb_true_iff in C. exact C. }
        destruct (convert (f ++ commas r ++ [NL])) as [[x t]|]; [rewrite FE|]; destruct s; reflexivity.
Qed.

Lemma cstr_plain e t : Forall (fun c => c <> NL /\ c <> NUL) e -> cstr (e ++ t) = e ++ cstr t.
Proof. induction 1 as [|c e [_ C] H IH]; [reflexivity|]. cbn [app cstr]. destruct (ceq c NUL) eqn:X; [apply ceq_eq in X; contradiction|]. rewrite IH. reflexivity. Qed.
Lemma fgets_entry e : Forall (fun c => c <> NL /\ c <> NUL) e -> forall n rest, length e < n -> fgets_loop n (e ++ NL :: rest) = (e ++ [NL], rest).
Proof.
  induction 1 as [|c e [C _] H IH]; intros n rest L; destruct n as [|n]; cbn [length app fgets_loop] in *; try lia; [reflexivity|].
  destruct (ceq c NL) eqn:X; [apply ceq_eq in X; contradiction|]. rewrite (IH n rest) by lia. reflexivity.
Qed.
Lemma read_entry e rest s : entry e -> x_input s = e ++ NL :: rest -> read_line s = with_input rest (e ++ [NL]) s.
Proof.
  intros [L F] I. unfold read_line. rewrite I. unfold fgets. change (128 - 1) with 127. rewrite (fgets_entry e F 127 rest) by lia. destruct (e ++ NL :: rest) as [|c r] eqn:X; [destruct e; discriminate X|].
  rewrite (cstr_plain e [NL] F). reflexivity.
Qed.
Lemma entry_judged e l s m' : entry e -> l <> [] -> fair (judge l (fields e)) -> assign E l (values_of (judge l (fields e))) (x_memory s) = Value tt m' ->
  take_fields E true l (e ++ [NL]) s = attempt (judge l (fields e)) (commas (skipn (length l) (fields e)) ++ [NL]) m' s.
Proof.
  intros [_ F] NE FA AS. destruct (fields_join e F) as (f & r & FS & X & P1 & P2). rewrite FS in *. rewrite X.
  assert (PR : Forall plain (f :: r)) by (constructor; assumption). pose proof (fields_judged l (f :: r) s m' PR FA AS) as H. destruct l as [|p l]; [contradiction NE; reflexivity|]. rewrite <- H. reflexivity.
Qed.
Lemma judge_accepted l : forall fs ds x, judge l fs = Accepted ds x -> (x = true <-> skipn (length l) fs <> []).
Proof.
  induction l as [|p l IH]; intros fs ds x H.
  - cbn [length skipn]. destruct fs; cbn [judge] in H; injection H as <- <-; split; congruence.
  - destruct fs as [|f fs]; cbn [judge] in H; [discriminate H|]. cbn [length skipn]. destruct (field_value p f); [|discriminate H]. destruct (judge l fs) eqn:J; try discriminate H. injection H as <- <-. exact (IH fs _ _ J).
Qed.
(* the state after a line *)
Definition after_entry (v : verdict) (prompt : option bytes) (line rest : bytes) (m : memory) (s : state) : state :=
  mkState m (x_spot s) (x_loops s) (x_returns s) (x_data s) (x_output s ++ map OB (prompt_text prompt ++ remark v)) (x_column s) rest line.
Lemma input_once here prompt l e rest s m' : entry e -> l <> [] -> x_input s = e ++ NL :: rest -> fair (judge l (fields e)) ->
  assign E l (values_of (judge l (fields e))) (x_memory s) = Value tt m' ->
  input_statement E here prompt l s =
    Done (match judge l (fields e) with Accepted _ _ => Onward | _ => Elsewhere here end) (after_entry (judge l (fields e)) prompt (e ++ [NL]) rest m' s).
Proof.
  intros EN NE I FA AS. unfold input_statement, following_by at 1, show at 1, update at 1. set (s1 := with_output (x_output s ++ map OB (prompt_text prompt)) (x_column s) s).
  unfold following_by at 1, update at 1. rewrite (read_entry e rest s1 EN I). set (s2 := with_input rest (e ++ [NL]) s1). unfold following_by at 1, look. change (x_line s2) with (e ++ [NL]).
  unfold following_by at 1. assert (AS2 : assign E l (values_of (judge l (fields e))) (x_memory s2) = Value tt m') by exact AS. rewrite (entry_judged e l s2 m' EN NE FA AS2).
  destruct (judge l (fields e)) as [ds x|ds|ds p] eqn:J; cbn [attempt].
  - pose proof (judge_accepted l (fields e) ds x J) as X. destruct (skipn (length l) (fields e)) as [|g fs].
    + destruct x; [exfalso; apply (proj1 X eq_refl); reflexivity|]. cbn [commas flat_map app drop_while]. change (is_input_space NL) with true. cbv iota. unfold StepSpec.give, after_entry. cbn [remark]. rewrite app_nil_r. reflexivity.
    + assert (XT : x = true) by (apply X; discriminate). subst x. cbn [commas flat_map app drop_while]. change (is_input_space ","%char) with false. cbv iota. unfold following_by, show, update, StepSpec.give, after_entry. cbn [remark]. rewrite (map_app OB (prompt_text prompt)), app_assoc. reflexivity.
  - unfold StepSpec.give, after_entry. rewrite (map_app OB (prompt_text prompt)), app_assoc. reflexivity.
  - unfold StepSpec.give, after_entry. rewrite (map_app OB (prompt_text prompt)), app_assoc. reflexivity.
Qed.

(* ---------- any number of lines ---------- *)

Lemma input_steps k i n xs prompt l : nth_error P k = Some (n, xs) -> nth_error xs i = Some (SInput prompt l) -> l <> [] ->
  forall es m m', enters E l es m m' -> Forall entry es -> forall s rest, x_spot s = (k, i) -> x_memory s = m -> x_input s = typed_lines es ++ rest ->
  exists s', steps E P (length es) s = Next s' /\ x_spot s' = (k, i + 1) /\ x_memory s' = m' /\ x_input s' = rest /\ x_output s' = x_output s ++ map OB (dialogue prompt l es).
Proof.
  intros PK XI NE. induction 1 as [e ds x m m' J A | e es ds m m1 m' J A EN IH | e es ds p m m1 m' J SU A EN IH]; intros FE s rest SP MM IN; inversion FE as [|? ? E1 E2]; subst.
  - exists (with_spot (k, i + 1) (after_entry (Accepted ds x) prompt (e ++ [NL]) rest m' s)). cbn [typed_lines flat_map] in IN. rewrite app_nil_r, <- app_assoc in IN.
    split; [|split; [reflexivity|split; [reflexivity|split; [reflexivity|]]]].
    + cbn [length steps]. unfold step. rewrite SP, PK, XI. cbn [perform]. rewrite (input_once (k, i) prompt l e rest s m' E1 NE IN); rewrite J; [reflexivity|exact Logic.I|exact A].
    + cbn [with_spot after_entry x_output dialogue flat_map]. rewrite J, app_nil_r. reflexivity.
  - set (s1 := with_spot (k, i) (after_entry (TooFew ds) prompt (e ++ [NL]) (typed_lines es ++ rest) m1 s)). cbn [typed_lines flat_map] in IN. fold (typed_lines es) in IN. rewrite <- !app_assoc in IN. cbn [app] in IN.
    destruct (IH E2 s1 rest eq_refl eq_refl eq_refl) as (s' & S1 & S2 & S3 & S4 & S5). exists s'. split; [|split; [exact S2|split; [exact S3|split; [exact S4|]]]].
    + cbn [length steps]. unfold step. rewrite SP, PK, XI. cbn [perform]. rewrite (input_once (k, i) prompt l e (typed_lines es ++ rest) s m1 E1 NE IN); rewrite J; [exact S1|exact Logic.I|exact A].
    + rewrite S5. unfold s1. cbn [with_spot after_entry x_output dialogue flat_map]. rewrite J, (map_app OB (_ ++ _)), app_assoc. reflexivity.
  - set (s1 := with_spot (k, i) (after_entry (BadField ds p) prompt (e ++ [NL]) (typed_lines es ++ rest) m1 s)). cbn [typed_lines flat_map] in IN. fold (typed_lines es) in IN. rewrite <- !app_assoc in IN. cbn [app] in IN.
    destruct (IH E2 s1 rest eq_refl eq_refl eq_refl) as (s' & S1 & S2 & S3 & S4 & S5). exists s'. split; [|split; [exact S2|split; [exact S3|split; [exact S4|]]]].
    + cbn [length steps]. unfold step. rewrite SP, PK, XI. cbn [perform]. rewrite (input_once (k, i) prompt l e (typed_lines es ++ rest) s m1 E1 NE IN); rewrite J; [exact S1|exact SU|exact A].
    + rewrite S5. unfold s1. cbn [with_spot after_entry x_output dialogue flat_map]. rewrite J, (map_app OB (_ ++ _)), app_assoc. reflexivity.
Qed.
End Line.

(* ---------- simple variables ---------- *)

Definition simple (p : place) : Prop := pl_subs p = [] /\ pl_kind p <> KBuiltin.
Lemma assign_simple E l : Forall simple l -> forall ds m, exists m', assign E l ds m = Value tt m' /\ forall id, m_var m' id = given l ds id (m_var m id).
Proof.
  induction 1 as [|p l [S K] F IH]; intros ds m; [exists m; auto|]. destruct ds as [|d ds]; [exists m; auto|]. cbn [assign given]. rewrite S. cbn [evals and_then].
  assert (SV : store_value p [] d m = Value tt (with_var m (pl_id p) d)) by (unfold store_value; destruct (pl_kind p); try reflexivity; contradiction K; reflexivity).
  rewrite SV. cbn [and_then]. destruct (IH ds (with_var m (pl_id p) d)) as (m' & A & G). exists m'. split; [exact A|]. intros id. rewrite G. cbn [with_var m_var]. rewrite N.eqb_sym. reflexivity.
Qed.
Lemma given_twice l : forall ds ds' id d, length ds = length l -> given l ds id (given l ds' id d) = given l ds id d.
Proof.
  induction l as [|p l IH]; intros ds ds' id d L; [destruct ds'; reflexivity|]. destruct ds as [|x ds]; [discriminate L|]. destruct ds' as [|y ds']; [reflexivity|]. cbn [given length] in *.
  destruct (pl_id p =? id)%N; [reflexivity|]. apply IH. lia.
Qed.
Lemma judge_length l : forall fs ds x, judge l fs = Accepted ds x -> length ds = length l.
Proof.
  induction l as [|p l IH]; intros fs ds x H.
  - destruct fs; cbn [judge] in H; injection H as <- <-; reflexivity.
  - destruct fs as [|f fs]; cbn [judge] in H; [discriminate H|]. destruct (field_value p f); [|discriminate H]. destruct (judge l fs) eqn:J; try discriminate H. injection H as <- <-. cbn [length]. rewrite (IH fs _ _ J). reflexivity.
Qed.
Lemma judge_bad l : forall fs ds p, judge l fs = BadField ds p -> In p l.
Proof.
  induction l as [|q l IH]; intros fs ds p H; [destruct fs; discriminate H|]. destruct fs as [|f fs]; cbn [judge] in H; [discriminate H|].
  destruct (field_value q f); [|injection H as <- <-; left; reflexivity]. destruct (judge l fs) eqn:J; try discriminate H. injection H as <- <-. right. exact (IH fs _ _ J).
Qed.
Lemma enters_simple E l tries e ds x : Forall simple l -> Forall (fun t => is_accepted (judge l (fields t)) = false) tries -> judge l (fields e) = Accepted ds x ->
  forall m, exists m', enters E l (tries ++ [e]) m m' /\ forall id, m_var m' id = given l ds id (m_var m id).
Proof.
  intros S F J. pose proof (judge_length _ _ _ _ J) as L. induction F as [|t tries T F IH]; intros m; cbn [app].
  - destruct (assign_simple E l S ds m) as (m' & A & G). exists m'. split; [exact (En_last _ _ _ _ _ _ _ J A)|exact G].
  - destruct (judge l (fields t)) as [ds' x'|ds'|ds' p] eqn:JT; [discriminate T|..]; destruct (assign_simple E l S ds' m) as (m1 & A1 & G1); destruct (IH m1) as (m' & EN & G); exists m'; (split; [|intros id; rewrite G, G1; apply given_twice, L]).
    + exact (En_few _ _ _ _ _ _ _ _ JT A1 EN).
    + refine (En_bad _ _ _ _ _ _ _ _ _ JT _ A1 EN). rewrite Forall_forall in S. exact (proj1 (S p (judge_bad _ _ _ _ JT))).
Qed.

(* ---------- the program of the session ---------- *)

Section Top.
Variables (o : options) (E : env) (line rest : bytes) (s : sess) (src : source) (xss : list (list stmt)) (st : symtab).
Hypothesis IS : in_step o s.
Hypothesis ML : means line (MCommand C_RUN rest).
Hypothesis SS : c_source (v_stored (ss_vm s)) = Some src.
Hypothesis SO : statements_of o src xss st.
Hypothesis AP : acceptable_program xss st.
Hypothesis QO : o_trace_basic o = false /\ o_trace_for o = false.
Hypothesis EO : env_ok E.
Hypothesis DL : distinct_lines src.
Hypothesis RR : rand_range E.
Local Notation P := (numbered src xss).

Lemma at_stands v s' : related (sigs st) src xss v s' -> at_statement xss (x_spot s') v /\ v_stack v = [] /\ v_sstack v = [].
Proof.
  intros (RD & ST & SK). unfold EvalOps.stacks in SK. injection SK as SK1 SK2. split; [|split; [exact SK1|exact SK2]].
  split; [exact (r_code _ _ _ _ _ RD)|]. destruct ST as [ST|(S1 & _ & S2)]; [left; rewrite ST; reflexivity|right; split; [exact S1|exact S2]].
Qed.
Lemma run_related : exists u, starts src (new_machine src (ss_vm s)) u /\
  forall n s', steps E P n (run_state st P (ss_vm s)) = Next s' -> overflows E u \/ exists l w, runs E u l w /\ related (sigs st) src xss w s'.
Proof.
  destruct (begins_too o E line rest s src xss st IS ML SS SO) as (bc & idx & CO & IX & IN). set (u := first_vm src st (ss_vm s) bc idx) in *. exists u. split; [exact (at_starts o s src st IS bc idx CO IX)|]. intros n s' H.
  pose proof (pr_opt _ _ _ _ (in_step_good o s IS)) as VO. pose proof (session_short o any_line s (in_step_any o s IS)) as IO.
  pose proof (first_related o src xss st SO AP QO (ss_vm s) bc idx VO CO IX IO) as R. fold u in R.
  pose proof (steps_simulated E (sigs st) EO RR src xss DL (program_wstmt o src xss st SO AP) n u (run_state st P (ss_vm s)) R) as X. fold P in X. rewrite H in X. exact X.
Qed.
Lemma line_of v s' k xs : related (sigs st) src xss v s' -> nth_error xss k = Some xs -> exists n, nth_error P k = Some (n, xs).
Proof.
  intros (RD & _) X. pose proof (StepProofs.program_line (sigs st) src xss v s' k RD) as PL. fold P in PL. destruct (nth_error P k) as [[n ys]|].
  - destruct PL as [_ ->]. exists n. unfold line_stmts. rewrite (nth_error_nth xss k [] X). reflexivity.
  - apply nth_error_None in PL. congruence.
Qed.

Lemma run_input : exists u, starts src (new_machine src (ss_vm s)) u /\
  forall n s1 k i xs prompt l, steps E P n (run_state st P (ss_vm s)) = Next s1 -> x_spot s1 = (k, i) -> nth_error xss k = Some xs -> nth_error xs i = Some (SInput prompt l) -> l <> [] ->
  overflows E u \/ exists l0 v m, runs E u l0 v /\ at_statement xss (k, i) v /\ v_stack v = [] /\ v_sstack v = [] /\ holds v m /\
    forall es left m', enters E l es m m' -> Forall entry es -> v_in v = typed_lines es ++ left ->
      overflows E v \/ exists l1 w, runs E v l1 w /\ at_statement xss (k, i + 1) w /\ v_stack w = [] /\ v_sstack w = [] /\ holds w m' /\
        v_in w = left /\ v_out w = v_out v ++ map OB (dialogue prompt l es).
Proof.
  destruct run_related as (u & ST & H). exists u. split; [exact ST|]. intros n s1 k i xs prompt l NX SP XK XI NE. destruct (H n s1 NX) as [X|(l0 & v & RU & RV)]; [left; exact X|right].
  exists l0, v, (x_memory s1). split; [exact RU|]. destruct (at_stands v s1 RV) as (A1 & A2 & A3). rewrite SP in A1. split; [exact A1|]. split; [exact A2|]. split; [exact A3|]. pose proof (r_shows _ _ _ _ _ (proj1 RV)) as SH. split; [exact (w_memory _ _ _ SH)|].
  intros es left m' EN FE IN. rewrite (w_input _ _ _ SH) in IN. destruct (line_of v s1 k xs RV XK) as (num & PK).
  destruct (input_steps E P k i num xs prompt l PK XI NE es _ m' EN FE s1 left SP eq_refl IN) as (s2 & S1 & S2 & S3 & S4 & S5).
  pose proof (steps_simulated E (sigs st) EO RR src xss DL (program_wstmt o src xss st SO AP) (length es) v s1 RV) as X. fold P in X. rewrite S1 in X. destruct X as [X|(l1 & w & RW & RX)]; [left; exact X|right].
  exists l1, w. split; [exact RW|]. destruct (at_stands w s2 RX) as (B1 & B2 & B3). rewrite S2 in B1. split; [exact B1|]. split; [exact B2|]. split; [exact B3|]. pose proof (r_shows _ _ _ _ _ (proj1 RX)) as SH2.
  rewrite (w_input _ _ _ SH2), (w_output _ _ _ SH2), (w_output _ _ _ SH). split; [rewrite <- S3; exact (w_memory _ _ _ SH2)|]. split; [exact S4|exact S5].
Qed.

Lemma run_variables : exists u, starts src (new_machine src (ss_vm s)) u /\
  forall n s1 k i xs prompt l, steps E P n (run_state st P (ss_vm s)) = Next s1 -> x_spot s1 = (k, i) -> nth_error xss k = Some xs -> nth_error xs i = Some (SInput prompt l) -> l <> [] ->
  Forall (fun p => pl_subs p = []) l ->
  overflows E u \/ exists l0 v, runs E u l0 v /\ at_statement xss (k, i) v /\
    forall tries e ds x left, Forall entry (tries ++ [e]) -> v_in v = typed_lines (tries ++ [e]) ++ left ->
      Forall (fun t => is_accepted (judge l (fields t)) = false) tries -> judge l (fields e) = Accepted ds x ->
      overflows E v \/ exists l1 w, runs E v l1 w /\ at_statement xss (k, i + 1) w /\ v_stack w = [] /\ v_sstack w = [] /\
        (forall id t, StoreSpec.named v id KVariable t -> variable w t id = given l ds id (variable v t id)) /\
        v_in w = left /\ v_out w = v_out v ++ map OB (dialogue prompt l (tries ++ [e])).
Proof.
  destruct run_related as (u & ST & H). exists u. split; [exact ST|]. intros n s1 k i xs prompt l NX SP XK XI NE SI. destruct (H n s1 NX) as [X|(l0 & v & RU & RV)]; [left; exact X|right].
  exists l0, v. split; [exact RU|]. destruct (at_stands v s1 RV) as (A1 & A2 & A3). rewrite SP in A1. split; [exact A1|]. pose proof (r_shows _ _ _ _ _ (proj1 RV)) as SH.
  intros tries e ds x left FE IN TR J. rewrite (w_input _ _ _ SH) in IN. destruct (line_of v s1 k xs RV XK) as (num & PK).
  assert (SL : Forall simple l).
  { destruct AP as (_ & _ & PT). rewrite Forall_forall in PT. specialize (PT xs (nth_error_In _ _ XK)). rewrite Forall_forall in PT. specialize (PT _ (nth_error_In _ _ XI)). unfold proper_targets in PT. cbn [targets] in PT.
    clear - SI PT. rewrite Forall_forall in *. intros p I. split; [exact (SI p I)|exact (PT p I)]. }
  destruct (enters_simple E l tries e ds x SL TR J (x_memory s1)) as (m' & EN & G).
  destruct (input_steps E P k i num xs prompt l PK XI NE _ _ m' EN FE s1 left SP eq_refl IN) as (s2 & S1 & S2 & S3 & S4 & S5).
  pose proof (steps_simulated E (sigs st) EO RR src xss DL (program_wstmt o src xss st SO AP) (length (tries ++ [e])) v s1 RV) as X. fold P in X. rewrite S1 in X. destruct X as [X|(l1 & w & RW & RX)]; [left; exact X|right].
  exists l1, w. split; [exact RW|]. destruct (at_stands w s2 RX) as (B1 & B2 & B3). rewrite S2 in B1. split; [exact B1|]. split; [exact B2|]. split; [exact B3|]. pose proof (r_shows _ _ _ _ _ (proj1 RX)) as SH2.
  rewrite (w_input _ _ _ SH2), (w_output _ _ _ SH2), (w_output _ _ _ SH). split; [|split; [exact S4|exact S5]].
  intros id t NM. assert (NW : StoreSpec.named w id KVariable t) by (apply (named_same (sigs st) w v); [apply (proj1 RX)|apply (proj1 RV)|exact NM]).
  rewrite (h_var _ _ (w_memory _ _ _ SH2) id t NW), (h_var _ _ (w_memory _ _ _ SH) id t NM), S3. apply G.
Qed.
End Top.
