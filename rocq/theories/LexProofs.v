(* Proofs about the tokenizer (C29). *)
From Coq Require Import Lia ZifyBool ZifyNat ZifyN.
From Verif Require Import Base BaseLemmas Num SymbolModel SymbolSpec SymbolProofs LexModel LexSpec.
Local Open Scope nat_scope.

Lemma pushback_same c r : same_text (c :: r) (pushback c r).
Proof.
  unfold pushback, same_text. destruct r; [|left; reflexivity].
  destruct (ceq c NL) eqn:E; [|left; reflexivity]. apply ceq_eq in E. subst. right. split; reflexivity.
Qed.

Lemma pushback_rest_same s : same_text s (pushback_rest s).
Proof. destruct s; [left; reflexivity | apply pushback_same]. Qed.

Lemma same_refl s : same_text s s.
Proof. left. reflexivity. Qed.

Lemma same_le s s' : same_text s s' -> length s' <= length s.
Proof. intros [-> | [-> ->]]; cbn; lia. Qed.

Lemma alnum_iff c : is_alnum c = true <-> letter_or_digit c.
Proof. unfold is_alnum, letter_or_digit, letter, digit. rewrite orb_true_iff. tauto. Qed.

Lemma not_begins P s : match s with [] => True | c :: _ => ~ P c end -> ~ begins_with P s.
Proof. intros H (c & r & -> & K). exact (H K). Qed.

Lemma keyword_in k w : keyword_word k w <-> exists p, In p keywords /\ snd p = k /\ strieq (fst p) w = true.
Proof.
  split.
  - intros (n & I & E). exists (n, k). repeat split; auto. apply strieq_same. exact E.
  - intros ([n k'] & I & K & E). cbn in *. subst. exists n. split; [exact I|]. apply strieq_same. exact E.
Qed.

(* ---------- keywords by hash ---------- *)

Definition kw_slot (h : nat) : list (bytes * keyword) := nth h keyword_hash [].

Lemma kw_bucket_same a b : same_name a b -> kw_bucket a = kw_bucket b.
Proof. intros H. unfold kw_bucket. rewrite (hash_same _ _ H). reflexivity. Qed.

Definition kw_dec (a b : bytes * keyword) : {a = b} + {a <> b}.
Proof. repeat decide equality. Defined.

Definition kw_in (p : bytes * keyword) (l : list (bytes * keyword)) : bool := if in_dec kw_dec p l then true else false.

Lemma kw_in_iff p l : kw_in p l = true <-> In p l.
Proof. unfold kw_in. destruct (in_dec kw_dec p l); split; intros H; congruence || contradiction || assumption || reflexivity. Qed.

Local Opaque keywords keyword_hash.

Lemma kw_slots p : In p keywords -> In p (kw_slot (kw_bucket (fst p))).
Proof.
  assert (H : forallb (fun p => kw_in p (kw_slot (kw_bucket (fst p)))) keywords = true) by (vm_compute; reflexivity).
  rewrite forallb_forall in H. intros I. apply (proj1 (kw_in_iff _ _)). exact (H p I).
Qed.

Lemma kw_slots_in p h : In p (kw_slot h) -> In p keywords.
Proof.
  assert (H : forallb (forallb (fun p => kw_in p keywords)) keyword_hash = true) by (vm_compute; reflexivity).
  rewrite forallb_forall in H. unfold kw_slot. intros I. apply (proj1 (kw_in_iff _ _)).
  destruct (Nat.lt_ge_cases h (length keyword_hash)) as [L|L].
  - specialize (H _ (nth_In keyword_hash [] L)). rewrite forallb_forall in H. exact (H p I).
  - rewrite (nth_overflow _ _ L) in I. destruct I.
Qed.

Lemma kw_distinct p q : In p keywords -> In q keywords -> same_name (fst p) (fst q) -> p = q.
Proof.
  assert (H : forallb (fun p => forallb (fun q => negb (strieq (fst p) (fst q)) || kw_in p [q]) keywords) keywords = true)
    by (vm_compute; reflexivity).
  rewrite forallb_forall in H. intros I J E. specialize (H p I). rewrite forallb_forall in H. specialize (H q J).
  apply strieq_same in E. rewrite E in H. cbn [negb orb] in H. apply (proj1 (kw_in_iff _ _)) in H. destruct H as [H | []]. exact (eq_sym H).
Qed.

Lemma identifier_spec s :
  (exists k, identifier_token s = T_KW k /\ keyword_word k s) \/
  (identifier_token s = T_ID s /\ forall k, ~ keyword_word k s).
Proof.
  unfold identifier_token. fold (kw_slot (kw_bucket s)).
  destruct (find _ (kw_slot (kw_bucket s))) as [p|] eqn:F.
  - left. apply find_some in F. destruct F as [I E]. exists (snd p). split; [reflexivity|].
    apply keyword_in. exists p. split; [exact (kw_slots_in _ _ I)|]. split; [reflexivity | exact E].
  - right. split; [reflexivity|]. intros k K. apply keyword_in in K. destruct K as (p & I & _ & E).
    pose proof (kw_slots _ I) as J. apply strieq_same in E. rewrite (kw_bucket_same _ _ E) in J.
    pose proof (find_none _ _ F _ J) as X. cbv beta in X. apply strieq_same in E. rewrite E in X. discriminate X.
Qed.

Lemma keyword_token k w : keyword_word k w -> identifier_token w = T_KW k.
Proof.
  intros K. destruct (identifier_spec w) as [(k' & E & K') | (_ & N)]; [|destruct (N k K)].
  rewrite E. clear E. destruct K as (n & I & E1), K' as (n' & I' & E2).
  assert (P : (n, k) = (n', k')).
  { apply kw_distinct; auto. cbn. exact (same_name_trans _ _ _ E1 (same_name_sym _ _ E2)). }
  injection P as _ ->. reflexivity.
Qed.

Lemma kw_letters p : In p keywords -> fst p <> [] /\ Forall letter (fst p).
Proof.
  assert (H : forallb (fun p => forallb is_alpha (fst p) && negb (Nat.eqb (length (fst p)) 0)) keywords = true)
    by (vm_compute; reflexivity).
  rewrite forallb_forall in H. intros I. specialize (H p I). cbv beta in H. destruct p as [n k]. cbn [fst] in *. apply andb_prop in H. destruct H as [A B]. split.
  - intros E. rewrite E in B. discriminate B.
  - rewrite forallb_forall in A. apply Forall_forall. exact A.
Qed.

Lemma upper_alpha c d : to_upper c = to_upper d -> is_alpha c = is_alpha d.
Proof.
  assert (H : forall c, Bool.eqb (is_alpha c) (is_alpha (to_upper c)) = true)
    by (apply forall_ascii; vm_compute; reflexivity).
  intros E. pose proof (H c) as A. pose proof (H d) as B. apply Bool.eqb_prop in A, B. rewrite A, B, E. reflexivity.
Qed.

Lemma keyword_letters k w : keyword_word k w -> w <> [] /\ Forall letter w.
Proof.
  intros (n & I & E). destruct (kw_letters _ I) as [N L]. cbn in *. unfold same_name in E. split.
  - intros ->. destruct n; [contradiction | discriminate E].
  - clear I N. revert w E. induction L as [|c n C L IH]; intros [|d w] E; try discriminate E; [constructor|].
    cbn in E. injection E as E1 E2. constructor; [|exact (IH _ E2)]. unfold letter in *. rewrite <- (upper_alpha _ _ E1). exact C.
Qed.

Lemma prefix_iff kw s : striprefix kw s = true <-> exists w r, s = w ++ r /\ same_name kw w.
Proof.
  revert s. induction kw as [|c kw IH]; intros s.
  - split; [|reflexivity]. intros _. exists [], s. split; reflexivity.
  - destruct s as [|d s]; cbn [striprefix].
    + split; [discriminate|]. intros ([|? ?] & r & E & K); [discriminate K | discriminate E].
    + rewrite andb_true_iff, IH. split.
      * intros (E & w & r & -> & K). exists (d :: w), r. split; [reflexivity|]. unfold same_name in *. cbn. apply N.eqb_eq, code_inj in E.
        rewrite K. f_equal. apply upper_lower. exact E.
      * intros ([|e w] & r & E & K); [discriminate K|]. injection E as -> ->. unfold same_name in K. cbn in K. injection K as K1 K2.
        split; [apply N.eqb_eq; f_equal; apply upper_lower; exact K1|]. exists w, r. split; [reflexivity | exact K2].
Qed.

Lemma keyword_prefix_some s n k : keyword_prefix s = Some (n, k) ->
  keyword_word k (firstn (length n) s) /\ s = firstn (length n) s ++ skipn (length n) s /\ n <> [].
Proof.
  unfold keyword_prefix. intros F. apply find_some in F. destruct F as [I E]. cbn in E. apply prefix_iff in E.
  destruct E as (w & r & -> & K). pose proof (same_name_length _ _ K) as L. split.
  - exists n. split; [exact I|]. rewrite L, firstn_app, firstn_all, Nat.sub_diag. cbn. rewrite app_nil_r. exact K.
  - split; [symmetry; apply firstn_skipn|]. exact (proj1 (kw_letters _ I)).
Qed.

Lemma keyword_prefix_none s : keyword_prefix s = None <-> ~ starts_keyword s.
Proof.
  unfold keyword_prefix. split.
  - intros F (k & w & r & (n & I & E) & ->). pose proof (find_none _ _ F _ I) as X. cbn [fst] in X.
    assert (T : striprefix n (w ++ r) = true) by (apply prefix_iff; exists w, r; auto). rewrite T in X. discriminate X.
  - intros N. destruct (find _ keywords) as [[n k]|] eqn:F; [|reflexivity]. destruct N.
    destruct (keyword_prefix_some _ _ _ F) as (K & E & _). exists k, (firstn (length n) s), (skipn (length n) s). auto.
Qed.

(* no keyword begins another *)
Lemma kw_prefix_free p q s : In p keywords -> In q keywords ->
  striprefix (fst p) s = true -> striprefix (fst q) s = true -> p = q.
Proof.
  assert (H : forallb (fun p => forallb (fun q => negb (striprefix (fst p) (fst q)) || kw_in p [q]) keywords) keywords = true)
    by (vm_compute; reflexivity).
  rewrite forallb_forall in H.
  assert (W : forall p q s, In p keywords -> In q keywords -> length (fst p) <= length (fst q) ->
    striprefix (fst p) s = true -> striprefix (fst q) s = true -> p = q).
  { clear p q s. intros p q s I J L P Q. specialize (H p I). rewrite forallb_forall in H. specialize (H q J).
    assert (T : striprefix (fst p) (fst q) = true).
    { apply prefix_iff in P, Q. destruct P as (w & r & -> & E1), Q as (w' & r' & E & E2). apply prefix_iff.
      pose proof (same_name_length _ _ E1) as L1. pose proof (same_name_length _ _ E2) as L2.
      exists (firstn (length (fst p)) (fst q)), (skipn (length (fst p)) (fst q)). split; [symmetry; apply firstn_skipn|].
      unfold same_name in *. rewrite <- firstn_map, E2, firstn_map, E1.
      replace (firstn (length (fst p)) w') with (firstn (length (fst p)) (w' ++ r')).
      - rewrite <- E, L1, firstn_app, firstn_all, Nat.sub_diag, firstn_O, app_nil_r. reflexivity.
      - rewrite firstn_app. replace (length (fst p) - length w') with 0 by lia. rewrite firstn_O, app_nil_r. reflexivity. }
    rewrite T in H. cbn [negb orb] in H. apply (proj1 (kw_in_iff _ _)) in H. destruct H as [H | []]. exact (eq_sym H). }
  intros I J P Q. destruct (Nat.le_ge_cases (length (fst p)) (length (fst q))) as [L|L]; [exact (W _ _ s I J L P Q)|].
  symmetry. exact (W _ _ s J I L Q P).
Qed.

(* ---------- names ---------- *)

Definition no_more (s : bytes) : Prop := ~ begins_with (fun c => letter_or_digit c \/ c = "$"%char) s.

Lemma last_opt_snoc {A} (l : list A) x : last_opt (l ++ [x]) = Some x.
Proof. apply last_opt_app. Qed.

Lemma some_pair {A B} (a c : A) (b d : B) : Some (a, b) = Some (c, d) -> a = c /\ b = d.
Proof. intros H. injection H as -> ->. split; reflexivity. Qed.

Local Opaque identifier_token keyword_prefix.

Lemma scan_name_spec : forall s n acc t rest, scan_name s n acc = Some (t, rest) -> Forall letter_or_digit acc -> length acc = n ->
  (exists w tail, rev acc ++ s = w ++ tail /\ same_text tail rest /\
     t = identifier_token w /\ length w <= Nat.max n 126 + 1 /\
     exists r, w = rev acc ++ r /\ ((last_opt w = Some "$"%char /\ exists r', r = r' ++ lit "$" /\ Forall letter_or_digit r') \/
       (Forall letter_or_digit r /\ length w <= Nat.max n 126 /\ no_more tail))) \/
  (t = T_ERROR /\ exists r, s = r ++ rest /\ Forall letter_or_digit r /\ 127 <= n + length r /\ r <> []).
Proof.
  induction s as [|c s IH]; intros n acc t rest H A L; cbn [scan_name] in H.
  - apply some_pair in H. destruct H as [<- <-]. left. exists (rev acc), []. rewrite rev_length.
    split; [reflexivity|]. split; [apply same_refl|]. split; [reflexivity|]. split; [lia|]. exists []. rewrite app_nil_r. split; [reflexivity|].
    right. split; [constructor|]. split; [lia|]. apply not_begins. exact I.
  - destruct (negb (lex_valid c)); [discriminate H|]. destruct (is_alnum c) eqn:C.
    + destruct (Nat.leb MAX_WORD (n + 2)) eqn:M.
      * apply some_pair in H. destruct H as [<- <-]. right. split; [reflexivity|]. exists [c]. split; [reflexivity|].
        split; [constructor; [apply alnum_iff; exact C | constructor]|]. apply Nat.leb_le in M. unfold MAX_WORD in M. cbn. split; [lia | discriminate].
      * apply Nat.leb_gt in M. unfold MAX_WORD in M. destruct (IH (S n) (c :: acc) t rest H) as [(w & tail & E & T & K & LW & r & Er & R) | (-> & r & -> & R & B & NE)].
        -- constructor; [apply alnum_iff; exact C | exact A].
        -- cbn. rewrite L. reflexivity.
        -- left. exists w, tail. cbn [rev] in E. rewrite <- app_assoc in E. cbn in E. split; [exact E|]. split; [exact T|]. split; [exact K|].
           split; [lia|]. exists (c :: r). cbn [rev] in Er. rewrite <- app_assoc in Er. cbn in Er. split; [exact Er|].
           destruct R as [(D & r' & -> & R) | (R & LW' & N)].
           ++ left. split; [exact D|]. exists (c :: r'). split; [reflexivity|]. constructor; [apply alnum_iff; exact C | exact R].
           ++ right. split; [constructor; [apply alnum_iff; exact C | exact R]|]. split; [lia | exact N].
        -- right. split; [reflexivity|]. exists (c :: r). split; [reflexivity|]. split; [constructor; [apply alnum_iff; exact C | exact R]|].
           cbn [length]. split; [lia | discriminate].
    + destruct (ceq c "$") eqn:D.
      * apply ceq_eq in D. subst c. apply some_pair in H. destruct H as [<- <-]. left. cbn [rev]. exists (rev acc ++ lit "$"), s. rewrite <- app_assoc. cbn [lit list_ascii_of_string app].
        split; [reflexivity|]. split; [apply same_refl|]. split; [reflexivity|]. rewrite app_length, rev_length. cbn [length]. split; [lia|].
        exists (lit "$"). split; [reflexivity|]. left. split; [apply last_opt_snoc|]. exists []. split; [reflexivity | constructor].
      * apply some_pair in H. destruct H as [<- <-]. left. exists (rev acc), (c :: s). rewrite rev_length. split; [reflexivity|]. split; [apply pushback_same|].
        split; [reflexivity|]. split; [lia|]. exists []. rewrite app_nil_r. split; [reflexivity|]. right. split; [constructor|]. split; [lia|].
        apply not_begins. intros [K | K]; [apply alnum_iff in K; congruence|]. apply ceq_neq in D. congruence.
Qed.

Lemma scan_name_kw_spec : forall s n acc t rest, scan_name_kw s n acc = Some (t, rest) -> length acc = n -> n <= 126 ->
  (exists r d, s = r ++ d ++ rest /\ t = T_ID (rev acc ++ r ++ d) /\ Forall letter_or_digit r /\ n + length r <= 126 /\
     (forall a b, r = a ++ b -> b <> [] -> ~ starts_keyword (b ++ d ++ rest)) /\
     (d = lit "$" \/ (d = [] /\ (starts_keyword rest \/ no_more rest)))) \/
  (t = T_ERROR /\ exists r, s = r ++ rest /\ Forall letter_or_digit r /\ n + length r = 126 /\ begins_with letter_or_digit rest).
Proof.
  induction s as [|c s IH]; intros n acc t rest H L N; cbn [scan_name_kw] in H.
  - apply some_pair in H. destruct H as [<- <-]. left. exists [], []. cbn [app]. rewrite app_nil_r.
    split; [reflexivity|]. split; [reflexivity|]. split; [constructor|]. split; [cbn; lia|]. split.
    + intros [|? ?] b E B; [|discriminate E]. cbn in E. congruence.
    + right. split; [reflexivity|]. right. apply not_begins. exact I.
  - destruct (negb (lex_valid c)); [discriminate H|]. destruct (is_alnum c) eqn:C.
    + destruct (is_alpha c && _) eqn:K.
      * apply some_pair in H. destruct H as [<- <-]. left. exists [], []. cbn [app]. rewrite app_nil_r.
        split; [reflexivity|]. split; [reflexivity|]. split; [constructor|]. split; [cbn; lia|]. split.
        -- intros [|? ?] b E B; [|discriminate E]. cbn in E. congruence.
        -- right. split; [reflexivity|]. left. apply andb_prop in K. destruct K as [_ K].
           destruct (keyword_prefix (c :: s)) as [[nm k]|] eqn:P; [|discriminate K].
           destruct (keyword_prefix_some _ _ _ P) as (W & E & _). exists k, (firstn (length nm) (c :: s)), (skipn (length nm) (c :: s)). auto.
      * assert (NK : ~ starts_keyword (c :: s)).
        { apply andb_false_iff in K. destruct K as [K | K].
          - intros (k & w & r & W & E). destruct (keyword_letters _ _ W) as [NE A]. destruct w as [|x w]; [contradiction|].
            cbn in E. injection E as <- _. apply Forall_inv in A. unfold letter in A. congruence.
          - apply keyword_prefix_none. destruct (keyword_prefix (c :: s)); [discriminate K | reflexivity]. }
        destruct (Nat.leb MAX_WORD (n + 2)) eqn:M.
        -- apply some_pair in H. destruct H as [<- <-]. right. apply Nat.leb_le in M. unfold MAX_WORD in M. split; [reflexivity|].
           exists []. split; [reflexivity|]. split; [constructor|]. split; [cbn; lia|]. exists c, s. split; [reflexivity|]. apply alnum_iff. exact C.
        -- apply Nat.leb_gt in M. unfold MAX_WORD in M.
           destruct (IH (S n) (c :: acc) t rest H) as [(r & d & E & -> & R & B & NS & D) | (-> & r & -> & R & B & NE)]; [cbn; lia | lia | |].
           ++ left. exists (c :: r), d. subst s. split; [reflexivity|]. split; [cbn [rev]; rewrite <- app_assoc; reflexivity|].
              split; [constructor; [apply alnum_iff; exact C | exact R]|]. split; [cbn [length]; lia|]. split; [|exact D].
              intros [|x a] b E BN; cbn [app] in E.
              ** subst b. exact NK.
              ** injection E as -> ->. exact (NS a b eq_refl BN).
           ++ right. split; [reflexivity|]. exists (c :: r). split; [reflexivity|]. split; [constructor; [apply alnum_iff; exact C | exact R]|].
              split; [cbn [length]; lia | exact NE].
    + destruct (ceq c "$") eqn:D.
      * apply ceq_eq in D. subst c. apply some_pair in H. destruct H as [<- <-]. left. exists [], (lit "$"). cbn [rev app].
        split; [reflexivity|]. split; [reflexivity|]. split; [constructor|]. split; [cbn; lia|]. split; [|left; reflexivity].
        intros [|? ?] b E B; [|discriminate E]. cbn in E. congruence.
      * apply some_pair in H. destruct H as [<- <-]. left. exists [], []. cbn [app]. rewrite app_nil_r.
        split; [reflexivity|]. split; [reflexivity|]. split; [constructor|]. split; [cbn; lia|]. split.
        -- intros [|? ?] b E B; [|discriminate E]. cbn in E. congruence.
        -- right. split; [reflexivity|]. right. apply not_begins. intros [K | K]; [apply alnum_iff in K; congruence|]. apply ceq_neq in D. congruence.
Qed.

(* ---------- numbers ---------- *)

Definition numch (c : ascii) : Prop := digit c \/ In c (lit ".eE-").

Lemma digit_numch l : Forall digit l -> Forall numch l.
Proof. apply Forall_impl. intros c H. left. exact H. Qed.

Lemma scan_digits_spec : forall s n, n <= 127 ->
  match scan_digits s n with
  | DgOk ds m t => s = ds ++ t /\ Forall digit ds /\ m = n + length ds /\ m <= 127 /\ ~ begins_with digit t
  | DgErr r => exists ds, s = ds ++ r /\ Forall digit ds /\ n + length ds = 128
  | DgExit => True
  end.
Proof.
  induction s as [|c s IH]; intros n L; cbn [scan_digits].
  - split; [reflexivity|]. split; [constructor|]. split; [cbn; lia|]. split; [lia|]. apply not_begins. exact I.
  - destruct (negb (lex_valid c)); [exact I|]. destruct (is_digit c) eqn:D.
    + destruct (Nat.leb MAX_WORD (n + 1)) eqn:M; unfold MAX_WORD in M.
      * apply Nat.leb_le in M. exists [c]. split; [reflexivity|]. split; [constructor; [exact D | constructor] | cbn; lia].
      * apply Nat.leb_gt in M. specialize (IH (S n) ltac:(lia)). destruct (scan_digits s (S n)) as [ds m t | r |]; [| |exact I].
        -- destruct IH as (-> & F & -> & B & NB). split; [reflexivity|]. split; [constructor; assumption|]. cbn [length]. split; [lia|]. split; [lia | exact NB].
        -- destruct IH as (ds & -> & F & B). exists (c :: ds). split; [reflexivity|]. split; [constructor; assumption | cbn [length]; lia].
    + split; [reflexivity|]. split; [constructor|]. split; [cbn; lia|]. split; [lia|]. apply not_begins. unfold digit. congruence.
Qed.

Lemma scan_exp_spec s n : n <= 127 ->
  match scan_exponent s n with
  | DgOk ds m t => s = ds ++ t /\ (Forall digit ds \/ exists f, ds = "-"%char :: f /\ Forall digit f) /\
      m = n + length ds /\ m <= 127 /\ ~ begins_with digit t
  | DgErr r => exists ds, s = ds ++ r /\ Forall numch ds /\ n + length ds = 128
  | DgExit => True
  end.
Proof.
  intros L. destruct s as [|c r]; cbn [scan_exponent].
  - split; [reflexivity|]. split; [left; constructor|]. split; [cbn; lia|]. split; [lia|]. apply not_begins. exact I.
  - destruct (ceq c "-") eqn:C.
    + apply ceq_eq in C. subst c. destruct (Nat.leb MAX_WORD (n + 1)) eqn:M; unfold MAX_WORD in M.
      * apply Nat.leb_le in M. exists (lit "-"). split; [reflexivity|]. split; [|cbn; lia].
        constructor; [|constructor]. right. cbn. tauto.
      * apply Nat.leb_gt in M. pose proof (scan_digits_spec r (S n) ltac:(lia)) as H. destruct (scan_digits r (S n)) as [ds m t | r' |]; [| |exact I].
        -- destruct H as (-> & F & -> & B & NB). split; [reflexivity|]. split; [right; exists ds; auto|]. cbn [length]. split; [lia|]. split; [lia | exact NB].
        -- destruct H as (ds & -> & F & B). exists ("-"%char :: ds). split; [reflexivity|]. split; [|cbn [length]; lia].
           constructor; [right; cbn; tauto | exact (digit_numch _ F)].
    + pose proof (scan_digits_spec (c :: r) n L) as H. destruct (scan_digits (c :: r) n) as [ds m t | r' |]; [| |exact I].
      * destruct H as (E & F & Em & B & NB). split; [exact E|]. split; [left; exact F|]. split; [exact Em|]. split; [exact B | exact NB].
      * destruct H as (ds & E & F & B). exists ds. split; [exact E|]. split; [exact (digit_numch _ F) | exact B].
Qed.

Lemma scan_number_spec c r t rest : digit c \/ c = "."%char -> scan_number (c :: r) = Some (t, rest) ->
  exists w tail, c :: r = w ++ tail /\ same_text tail rest /\ w <> [] /\ forall anywhere, spells anywhere w tail t.
Proof.
  intros HC H. unfold scan_number in H. pose proof (scan_digits_spec (c :: r) 0 ltac:(lia)) as S1.
  destruct (scan_digits (c :: r) 0) as [d1 n1 s1 | r1 |]; [| |discriminate H].
  2: { apply some_pair in H. destruct H as [<- <-]. destruct S1 as (ds & E & F & B). exists ds, r1. split; [exact E|]. split; [apply same_refl|].
       destruct ds as [|x ds]; [cbn in B; lia|]. split; [discriminate|]. intros an. cbn in E. injection E as <- _.
       apply (Sp_long_number an _ _ c ds); [reflexivity | exact HC | exact B | exact (digit_numch _ (Forall_inv_tail F))]. }
  destruct S1 as (E1 & F1 & -> & B1 & NB1). cbn [plus] in *.
  assert (X2 : match scan_part s1 (length d1) (fun c => ceq c ".") scan_digits with
    | DgOk d2 n2 s2 => s1 = d2 ++ s2 /\ (d2 = [] \/ exists e, d2 = "."%char :: e /\ Forall digit e) /\ n2 = length d1 + length d2 /\ n2 <= 127 /\
        ~ begins_with digit s2 /\ (d2 = [] -> ~ begins_with (eq "."%char) s2)
    | DgErr r2 => exists d2, s1 = d2 ++ r2 /\ Forall numch d2 /\ length d1 + length d2 = 128
    | DgExit => True end).
  { destruct s1 as [|x s1]; cbn [scan_part].
    - split; [reflexivity|]. split; [left; reflexivity|]. split; [cbn; lia|]. split; [lia|]. split; [exact NB1|]. intros _. apply not_begins. exact I.
    - destruct (ceq x ".") eqn:X.
      + apply ceq_eq in X. subst x. destruct (Nat.leb MAX_WORD (length d1 + 1)) eqn:M; unfold MAX_WORD in M.
        * apply Nat.leb_le in M. exists (lit "."). split; [reflexivity|]. split; [|cbn; lia]. constructor; [right; cbn; tauto | constructor].
        * apply Nat.leb_gt in M. pose proof (scan_digits_spec s1 (S (length d1)) ltac:(lia)) as H2.
          destruct (scan_digits s1 (S (length d1))) as [ds m t2 | r' |]; [| |exact I].
          -- destruct H2 as (-> & F & -> & B & NB). split; [reflexivity|]. split; [right; exists ds; auto|]. cbn [length]. split; [lia|]. split; [lia|].
             split; [exact NB | discriminate].
          -- destruct H2 as (ds & -> & F & B). exists ("."%char :: ds). split; [reflexivity|]. split; [|cbn [length]; lia].
             constructor; [right; cbn; tauto | exact (digit_numch _ F)].
      + split; [reflexivity|]. split; [left; reflexivity|]. split; [cbn; lia|]. split; [lia|]. split; [exact NB1|]. intros _. apply not_begins.
        apply ceq_neq in X. congruence. }
  destruct (scan_part s1 (length d1) _ scan_digits) as [d2 n2 s2 | r2 |]; [| |discriminate H].
  2: { apply some_pair in H. destruct H as [<- <-]. destruct X2 as (ds & E & F & B). exists (d1 ++ ds), r2. split; [rewrite <- app_assoc, <- E; exact E1|]. split; [apply same_refl|].
       assert (NE : d1 ++ ds <> []) by (intros Z0; apply (f_equal (@length _)) in Z0; rewrite app_length in Z0; cbn in Z0; lia).
       split; [exact NE|]. intros an. assert (FA : Forall numch (d1 ++ ds)) by (apply Forall_app; split; [exact (digit_numch _ F1) | exact F]).
       assert (LA : length (d1 ++ ds) = 128) by (rewrite app_length; exact B). subst s1. rewrite app_assoc in E1.
       destruct (d1 ++ ds) as [|x v]; [contradiction|]. cbn in E1. injection E1 as <- _.
       apply (Sp_long_number an _ _ c v); [reflexivity | exact HC | exact LA | exact (Forall_inv_tail FA)]. }
  destruct X2 as (E2 & F2 & -> & B2 & NB2 & ND2).
  assert (X3 : match scan_part s2 (length d1 + length d2) is_exp_char scan_exponent with
    | DgOk d3 n3 s3 => s2 = d3 ++ s3 /\ (d3 = [] \/ exists x e, d3 = x :: e /\ (x = "e"%char \/ x = "E"%char) /\
                  (Forall digit e \/ exists f, e = "-"%char :: f /\ Forall digit f)) /\ length d1 + length d2 + length d3 <= 127 /\
        ~ begins_with digit s3 /\ (d3 = [] -> ~ begins_with (fun c => c = "e"%char \/ c = "E"%char) s3)
    | DgErr r2 => exists d3, s2 = d3 ++ r2 /\ Forall numch d3 /\ length d1 + length d2 + length d3 = 128
    | DgExit => True end).
  { destruct s2 as [|x s2]; cbn [scan_part].
    - split; [reflexivity|]. split; [left; reflexivity|]. split; [cbn; lia|]. split; [exact NB2|]. intros _. apply not_begins. exact I.
    - assert (XE : is_exp_char x = true <-> x = "e"%char \/ x = "E"%char) by (unfold is_exp_char; rewrite orb_true_iff, !ceq_eq; tauto).
      destruct (is_exp_char x) eqn:X.
      + destruct (Nat.leb MAX_WORD (length d1 + length d2 + 1)) eqn:M; unfold MAX_WORD in M.
        * apply Nat.leb_le in M. exists [x]. split; [reflexivity|]. split; [|cbn; lia]. constructor; [|constructor]. right.
          destruct (proj1 XE eq_refl) as [-> | ->]; cbn; tauto.
        * apply Nat.leb_gt in M. pose proof (scan_exp_spec s2 (S (length d1 + length d2)) ltac:(lia)) as H2.
          destruct (scan_exponent s2 _) as [ds m t2 | r' |]; [| |exact I].
          -- destruct H2 as (-> & F & -> & B & NB). split; [reflexivity|]. split; [right; exists x, ds; split; [reflexivity|]; split; [exact (proj1 XE eq_refl) | exact F]|].
             cbn [length]. split; [lia|]. split; [exact NB | discriminate].
          -- destruct H2 as (ds & -> & F & B). exists (x :: ds). split; [reflexivity|]. split; [|cbn [length]; lia].
             constructor; [|exact F]. right. destruct (proj1 XE eq_refl) as [-> | ->]; cbn; tauto.
      + split; [reflexivity|]. split; [left; reflexivity|]. split; [cbn; lia|]. split; [exact NB2|]. intros _. apply not_begins.
        intros K. apply XE in K. discriminate K. }
  destruct (scan_part s2 _ is_exp_char scan_exponent) as [d3 n3 s3 | r3 |]; [| |discriminate H].
  2: { apply some_pair in H. destruct H as [<- <-]. destruct X3 as (ds & E & F & B). exists (d1 ++ d2 ++ ds), r3.
       split; [rewrite <- !app_assoc, <- E, <- E2; exact E1|]. split; [apply same_refl|].
       assert (LA : length (d1 ++ d2 ++ ds) = 128) by (rewrite !app_length; lia).
       assert (FA : Forall numch (d1 ++ d2 ++ ds)).
       { apply Forall_app. split; [exact (digit_numch _ F1)|]. apply Forall_app. split; [|exact F].
         destruct F2 as [-> | (e & -> & F2)]; [constructor|]. constructor; [right; cbn; tauto | exact (digit_numch _ F2)]. }
       subst s2 s1. rewrite !app_assoc in E1. rewrite app_assoc in LA, FA |- *.
       destruct ((d1 ++ d2) ++ ds) as [|x v]; [discriminate LA|]. split; [discriminate|]. cbn in E1. injection E1 as <- _.
       intros an. apply (Sp_long_number an _ _ c v); [reflexivity | exact HC | exact LA | exact (Forall_inv_tail FA)]. }
  destruct X3 as (E3 & F3 & B3 & NB3 & ND3).
  assert (NW : number_word (d1 ++ d2 ++ d3) s3).
  { exists d1, d2, d3. split; [reflexivity|]. split; [exact F1|]. split; [exact F2|]. split.
    - destruct d1 as [|x d1]; [|left; discriminate]. right. intros ->. cbn in E1. subst s1 s2. cbn [app] in E2. rewrite <- E2 in *.
      destruct HC as [HC | HC].
      + apply NB1. exists c, r. auto.
      + apply (ND2 eq_refl). exists c, r. auto.
    - split; [exact F3|]. split; [exact NB3|]. split; [|exact ND3]. rewrite <- E3. exact ND2. }
  assert (NE : d1 ++ d2 ++ d3 <> []).
  { destruct NW as (a & b & e & E & _ & _ & N & _). rewrite E. destruct a; [|discriminate]. destruct b; [|discriminate]. destruct N; congruence. }
  exists (d1 ++ d2 ++ d3), s3.
  assert (EQ : c :: r = (d1 ++ d2 ++ d3) ++ s3) by (rewrite <- !app_assoc, <- E3, <- E2; exact E1).
  assert (LW : length (d1 ++ d2 ++ d3) <= 127) by (rewrite !app_length; lia).
  destruct (strtod (d1 ++ d2 ++ d3)) as [x l] eqn:ST. destruct l as [|y l]; apply some_pair in H; destruct H as [<- <-].
  - split; [exact EQ|]. split; [apply pushback_rest_same|]. split; [exact NE|]. intros an. apply Sp_number; assumption.
  - split; [exact EQ|]. split; [apply pushback_rest_same|]. split; [exact NE|]. intros an. apply Sp_bad_number; [exact NW|]. rewrite ST. discriminate.
Qed.

(* ---------- strings ---------- *)

Lemma scan_string_spec : forall s n acc, length acc = n -> n <= 127 ->
  match scan_string s n acc with
  | StrOk w t => exists v, w = rev acc ++ v /\ s = v ++ DQ :: t /\ ~ In DQ v /\ ~ In NL v /\ length w <= 127
  | StrErr t => exists v, s = v ++ t /\ ~ In DQ v /\
      (t = [] \/ In NL v \/ Exists (fun c => is_eof_char c = true) v \/ n + length v = 128)
  | StrExit => True
  end.
Proof.
  induction s as [|c s IH]; intros n acc L B; cbn [scan_string].
  - exists []. split; [reflexivity|]. split; [intros []|]. left. reflexivity.
  - destruct (negb (lex_valid c)); [exact I|]. destruct (ceq c DQ) eqn:Q.
    + apply ceq_eq in Q. subst c. exists []. rewrite app_nil_r. split; [reflexivity|]. split; [reflexivity|]. split; [intros []|]. split; [intros []|].
      rewrite rev_length. lia.
    + apply ceq_neq in Q. destruct (ceq c NL) eqn:NLE; cbn [orb].
      * apply ceq_eq in NLE. exists [c]. split; [reflexivity|]. split; [intros [K | []]; congruence|]. right. left. left. exact NLE.
      * apply ceq_neq in NLE. destruct (is_eof_char c) eqn:EC.
        -- exists [c]. split; [reflexivity|]. split; [intros [K | []]; congruence|]. right. right. left. constructor. exact EC.
        -- destruct (Nat.leb MAX_WORD (n + 1)) eqn:M; unfold MAX_WORD in M.
           ++ apply Nat.leb_le in M. exists [c]. split; [reflexivity|]. split; [intros [K | []]; congruence|]. right. right. right. cbn. lia.
           ++ apply Nat.leb_gt in M. specialize (IH (S n) (c :: acc) ltac:(cbn; lia) ltac:(lia)).
              destruct (scan_string s (S n) (c :: acc)) as [w t | t |]; [| |exact I].
              ** destruct IH as (v & -> & -> & N1 & N2 & LW). exists (c :: v). cbn [rev] in LW |- *. rewrite <- app_assoc in LW |- *. cbn [app] in LW |- *.
                 split; [reflexivity|]. split; [reflexivity|]. split; [intros [K | K]; [congruence | contradiction]|].
                 split; [intros [K | K]; [congruence | contradiction] | exact LW].
              ** destruct IH as (v & -> & N1 & K). exists (c :: v). split; [reflexivity|]. split; [intros [J | J]; [congruence | contradiction]|].
                 destruct K as [K | [K | [K | K]]]; [left; exact K | right; left; right; exact K | right; right; left; constructor 2; exact K
                   | right; right; right; cbn [length]; lia].
Qed.

(* ---------- lex_next ---------- *)

Lemma blank_iff c : is_lex_space c = true <-> blank c.
Proof. unfold is_lex_space, blank. rewrite !orb_true_iff, !ceq_eq. tauto. Qed.

Lemma scan_token_spec kw c r t rest : is_lex_space c = false -> lex_valid c = true -> scan_token kw c r = Some (t, rest) ->
  exists w tail, c :: r = w ++ tail /\ same_text tail rest /\ spells kw w tail t /\ w <> [].
Proof.
  intros SPC V H. unfold scan_token in H. destruct (is_alpha c) eqn:A.
  - destruct kw.
    + destruct (keyword_prefix (c :: r)) as [[n k]|] eqn:P.
      * apply some_pair in H. destruct H as [<- <-]. destruct (keyword_prefix_some _ _ _ P) as (W & E & _).
        exists (firstn (length n) (c :: r)), (skipn (length n) (c :: r)). split; [exact E|]. split; [apply same_refl|].
        split; [apply Sp_keyword; [exact W | discriminate]|]. exact (proj1 (keyword_letters _ _ W)).
      * apply keyword_prefix_none in P.
        destruct (scan_name_kw_spec r 1 [c] t rest H eq_refl ltac:(lia)) as [(v & d & E & -> & R & B & NS & D) | (-> & v & E & R & B & NE)].
        -- cbn [rev app]. exists (c :: v ++ d), rest. subst r. cbn [app]. rewrite <- app_assoc. split; [reflexivity|]. split; [apply same_refl|]. split; [|discriminate].
           apply Sp_name; [| |discriminate|].
           ++ exists c, v, d. split; [reflexivity|]. split; [exact A|]. split; [exact R|]. destruct D as [-> | [-> _]]; auto.
           ++ cbn [length]. rewrite app_length. destruct D as [-> | [-> _]]; cbn [length lit list_ascii_of_string]; lia.
           ++ intros _. cbn [app]. rewrite <- app_assoc. split; [exact P|]. split.
              ** intros [|x a] b EB BN; cbn [app] in EB.
                 { subst b. cbn [app]. rewrite <- app_assoc. exact P. }
                 injection EB as _ EB. destruct (Nat.le_gt_cases (length b) (length d)) as [LB|LB].
                 { (* inside the dollar sign *)
                   intros (k & w & r' & W & E'). destruct (keyword_letters _ _ W) as [WN WL]. destruct w as [|y w]; [contradiction|]. apply Forall_inv in WL.
                   destruct D as [-> | [-> _]]; cbn in LB; [|destruct b; [congruence | cbn in LB; lia]].
                   destruct b as [|z b]; [congruence|]. destruct b; [|cbn in LB; lia].
                   assert (Z1 : z = "$"%char).
                   { apply (f_equal (@last_opt _)) in EB. change (lit "$") with ["$"%char] in EB. rewrite !last_opt_app in EB. congruence. }
                   subst z. cbn in E'. injection E' as <- _. discriminate WL. }
                 { assert (SB : exists b', b = b' ++ d /\ v = a ++ b').
                   { apply app_eq_app in EB. destruct EB as (l & [(-> & ->) | (-> & ->)]); [|rewrite app_length in LB; lia].
                     exists l. split; reflexivity. }
                   destruct SB as (b' & -> & ->). rewrite <- app_assoc. apply (NS a b' eq_refl). rewrite app_length in LB. destruct b'; [cbn in LB; lia | discriminate]. }
              ** destruct D as [-> | [-> [D | D]]]; [left | right; left; exact D | right; right; exact D].
                 change (c :: v ++ lit "$") with ((c :: v) ++ ["$"%char]). apply last_opt_app.
        -- exists (c :: v), rest. subst r. split; [reflexivity|]. split; [apply same_refl|]. split; [|discriminate].
           apply (Sp_long_name _ _ _ c v); [reflexivity | exact A | exact R | cbn [length]; lia|].
           replace 126 with (length (c :: v)) by (cbn [length]; lia). rewrite skipn_app, skipn_all, Nat.sub_diag. exact NE.
    + destruct (scan_name_spec r 1 [c] t rest H) as [(w & tail & E & T & -> & LW & v & EW & D) | (-> & v & E & R & B & NE)]; [constructor; [left; exact A | constructor] | reflexivity | |].
      * cbn [rev app] in E, EW. exists w, tail. split; [exact E|]. split; [exact T|]. split; [|rewrite EW; discriminate].
        assert (NM : last_opt w = Some "$"%char \/ no_more tail) by (destruct D as [[D _] | (_ & _ & D)]; auto).
        destruct (identifier_spec w) as [(k & -> & K) | (-> & K)].
        -- apply Sp_keyword; [exact K|]. intros _. destruct NM as [NM | NM].
           ++ destruct (keyword_letters _ _ K) as [_ KL]. apply last_opt_Some in NM. destruct NM as (p & ->). apply Forall_app in KL. destruct KL as [_ KL].
              apply Forall_inv in KL. discriminate KL.
           ++ intros (x & s' & -> & X). apply NM. exists x, s'. auto.
        -- apply Sp_name; [|lia| |discriminate].
           ++ destruct D as [(_ & v' & -> & R) | (R & _ & _)].
              ** exists c, v', (lit "$"). auto.
              ** exists c, v, []. rewrite app_nil_r. auto.
           ++ intros _. split; [exact K | exact NM].
      * exists (c :: v), rest. subst r. split; [reflexivity|]. split; [apply same_refl|]. split; [|discriminate].
        apply (Sp_long_name _ _ _ c v); [reflexivity | exact A | exact R | cbn [length]; lia|].
        assert (X : begins_with letter_or_digit (skipn 126 (c :: v))).
        { assert (F : Forall letter_or_digit (skipn 126 (c :: v))).
          { apply Forall_forall. intros x IX. assert (IX' : In x (c :: v)) by (rewrite <- (firstn_skipn 126 (c :: v)); apply in_or_app; right; exact IX).
            destruct IX' as [<- | IX']; [left; exact A|]. rewrite Forall_forall in R. exact (R x IX'). }
          assert (L : length (skipn 126 (c :: v)) > 0) by (rewrite skipn_length; cbn [length]; lia).
          destruct (skipn 126 (c :: v)) as [|y s']; [cbn in L; lia|]. exists y, s'. split; [reflexivity | exact (Forall_inv F)]. }
        destruct X as (y & s' & X & Y). exists y, (s' ++ rest). split; [|exact Y].
        change (c :: v ++ rest) with ((c :: v) ++ rest). rewrite skipn_app, X.
        assert (LV : 126 - length (c :: v) = 0) by (cbn [length]; lia). rewrite LV. reflexivity.
  - destruct (is_digit c || ceq c ".") eqn:D.
    + destruct (scan_number_spec c r t rest) as (w & tail & E & T & NE & SP').
      * apply orb_true_iff in D. rewrite ceq_eq in D. exact D.
      * exact H.
      * exists w, tail. auto.
    + apply orb_false_iff in D. destruct D as [D1 D2]. apply ceq_neq in D2. destruct (ceq c DQ) eqn:Q.
      * apply ceq_eq in Q. subst c. pose proof (scan_string_spec r 0 [] eq_refl ltac:(lia)) as S1.
        destruct (scan_string r 0 []) as [w t' | t' |]; [| |discriminate H]; apply some_pair in H; destruct H as [<- <-].
        -- destruct S1 as (v & -> & -> & N1 & N2 & LW). cbn [rev app] in *. exists (DQ :: v ++ [DQ]), t'. cbn [app]. rewrite <- app_assoc. split; [reflexivity|].
           split; [apply same_refl|]. split; [|discriminate]. apply Sp_string; auto.
        -- destruct S1 as (v & -> & N1 & K). exists (DQ :: v), t'. split; [reflexivity|]. split; [apply same_refl|]. split; [|discriminate].
           apply (Sp_open_string _ _ _ v); [reflexivity | exact N1 | exact K].
      * apply ceq_neq in Q.
        assert (SG : is_eof_char c = false -> single c).
        { intros NE. split; [intros K; apply blank_iff in K; congruence|]. split; [intros [K | K]; unfold letter, digit in K; congruence|]. auto. }
        destruct (ceq c "<") eqn:C1; [|destruct (ceq c ">") eqn:C2].
        -- apply ceq_eq in C1. subst c. specialize (SG eq_refl). destruct r as [|d r].
           ++ apply some_pair in H. destruct H as [<- <-]. exists (lit "<"), []. split; [reflexivity|]. split; [apply same_refl|]. split; [|discriminate].
              apply Sp_char; [reflexivity | exact SG | intros _; apply not_begins; exact I | discriminate].
           ++ destruct (negb (lex_valid d)); [discriminate H|]. destruct (ceq d ">") eqn:D3; [|destruct (ceq d "=") eqn:D4]; apply some_pair in H; destruct H as [<- <-].
              ** apply ceq_eq in D3. subst d. exists (lit "<>"), r. split; [reflexivity|]. split; [apply same_refl|]. split; [apply Sp_ne; reflexivity | discriminate].
              ** apply ceq_eq in D4. subst d. exists (lit "<="), r. split; [reflexivity|]. split; [apply same_refl|]. split; [apply Sp_le; reflexivity | discriminate].
              ** exists (lit "<"), (d :: r). split; [reflexivity|]. split; [apply pushback_same|]. split; [|discriminate].
                 apply Sp_char; [reflexivity | exact SG | intros _; apply not_begins; apply ceq_neq in D3, D4; intros [K|K]; congruence | discriminate].
        -- apply ceq_eq in C2. subst c. specialize (SG eq_refl). destruct r as [|d r].
           ++ apply some_pair in H. destruct H as [<- <-]. exists (lit ">"), []. split; [reflexivity|]. split; [apply same_refl|]. split; [|discriminate].
              apply Sp_char; [reflexivity | exact SG | discriminate | intros _; apply not_begins; exact I].
           ++ destruct (negb (lex_valid d)); [discriminate H|]. destruct (ceq d "=") eqn:D4; apply some_pair in H; destruct H as [<- <-].
              ** apply ceq_eq in D4. subst d. exists (lit ">="), r. split; [reflexivity|]. split; [apply same_refl|]. split; [apply Sp_ge; reflexivity | discriminate].
              ** exists (lit ">"), (d :: r). split; [reflexivity|]. split; [apply pushback_same|]. split; [|discriminate].
                 apply Sp_char; [reflexivity | exact SG | discriminate | intros _; apply not_begins; apply ceq_neq in D4; congruence].
        -- apply ceq_neq in C1, C2. destruct (is_eof_char c) eqn:EC; apply some_pair in H; destruct H as [<- <-].
           ++ exists [c], r. split; [reflexivity|]. split; [apply same_refl|]. split; [|discriminate]. apply (Sp_eof _ _ _ c); [reflexivity | exact EC].
           ++ exists [c], r. split; [reflexivity|]. split; [apply same_refl|]. split; [|discriminate].
              apply Sp_char; [reflexivity | exact (SG eq_refl) | congruence | congruence].
Qed.

Lemma lex_next_spec kw : forall s t start rest, lex_next kw s = LxTok t start rest ->
  exists b w tail, s = b ++ w ++ tail /\ Forall blank b /\ start = w ++ tail /\ same_text tail rest /\
    ((w <> [] /\ spells kw w tail t) \/ (w = [] /\ tail = [] /\ t = T_NL)).
Proof.
  induction s as [|c s IH]; intros t start rest H; cbn [lex_next] in H.
  - injection H as <- <- <-. exists [], [], []. split; [reflexivity|]. split; [constructor|]. split; [reflexivity|]. split; [apply same_refl|]. right. auto.
  - destruct (lex_valid c) eqn:V; cbn [negb] in H; [|discriminate H]. destruct (is_lex_space c) eqn:SPC.
    + destruct (IH _ _ _ H) as (b & w & tail & -> & B & E & T & K). exists (c :: b), w, tail. split; [reflexivity|].
      split; [constructor; [apply blank_iff; exact SPC | exact B]|]. auto.
    + destruct (scan_token kw c s) as [[t' rest']|] eqn:ST; [|discriminate H]. injection H as <- <- <-.
      destruct (scan_token_spec kw c s t' rest' SPC V ST) as (w & tail & E & T & SP' & NE). exists [], w, tail. split; [exact E|].
      split; [constructor|]. split; [exact E|]. split; [exact T|]. left. auto.
Qed.

Lemma lex_next_less kw s t start rest : lex_next kw s = LxTok t start rest -> s <> [] -> length rest < length s.
Proof.
  intros H NE. destruct (lex_next_spec kw s t start rest H) as (b & w & tail & -> & _ & _ & T & K). apply same_le in T. rewrite !app_length.
  destruct K as [[W _] | (-> & -> & _)].
  - destruct w; [contradiction|]. cbn [length]. lia.
  - cbn in *. rewrite app_nil_r in NE. destruct b; [contradiction|]. cbn [length]. lia.
Qed.

Lemma lex_next_nil kw : lex_next kw [] = LxTok T_NL [] [].
Proof. reflexivity. Qed.

(* ---------- whole lines ---------- *)

Lemma identifier_not_nl w : identifier_token w <> T_NL.
Proof. destruct (identifier_spec w) as [(k & -> & _) | (-> & _)]; discriminate. Qed.

Lemma scan_name_not_nl s n acc rest : scan_name s n acc <> Some (T_NL, rest).
Proof.
  revert n acc. induction s as [|c s IH]; intros n acc H; cbn [scan_name] in H.
  - apply some_pair in H. destruct H as [H _]. exact (identifier_not_nl _ H).
  - destruct (negb (lex_valid c)); [discriminate H|]. destruct (is_alnum c); [destruct (Nat.leb MAX_WORD (n + 2)); [discriminate H | exact (IH _ _ H)]|].
    destruct (ceq c "$"); apply some_pair in H; destruct H as [H _]; exact (identifier_not_nl _ H).
Qed.

Lemma scan_name_kw_not_nl s n acc rest : scan_name_kw s n acc <> Some (T_NL, rest).
Proof.
  revert n acc. induction s as [|c s IH]; intros n acc H; cbn [scan_name_kw] in H; [discriminate H|].
  destruct (negb (lex_valid c)); [discriminate H|]. destruct (is_alnum c).
  - destruct (_ && _); [discriminate H|]. destruct (Nat.leb MAX_WORD (n + 2)); [discriminate H | exact (IH _ _ H)].
  - destruct (ceq c "$"); discriminate H.
Qed.

Lemma scan_number_not_nl s rest : scan_number s <> Some (T_NL, rest).
Proof.
  unfold scan_number. intros H. destruct (scan_digits s 0); [|discriminate H..]. destruct (scan_part _ _ _ _); [|discriminate H..].
  destruct (scan_part _ _ _ _); [|discriminate H..]. destruct (strtod _) as [x [|? ?]]; discriminate H.
Qed.

Lemma scan_token_nl kw c r rest : scan_token kw c r = Some (T_NL, rest) -> c = NL /\ rest = r.
Proof.
  unfold scan_token. intros H. destruct (is_alpha c).
  - destruct kw; [|destruct (scan_name_not_nl _ _ _ _ H)]. destruct (keyword_prefix (c :: r)) as [[n k]|]; [discriminate H|].
    destruct (scan_name_kw_not_nl _ _ _ _ H).
  - destruct (_ || _); [destruct (scan_number_not_nl _ _ H)|]. destruct (ceq c DQ); [destruct (scan_string r 0 []); discriminate H|].
    destruct (ceq c "<") eqn:C1; [|destruct (ceq c ">") eqn:C2].
    + apply ceq_eq in C1. subst c. destruct r as [|d r]; [discriminate H|]. destruct (negb _); [discriminate H|].
      destruct (ceq d ">"); [discriminate H|]. destruct (ceq d "="); discriminate H.
    + apply ceq_eq in C2. subst c. destruct r as [|d r]; [discriminate H|]. destruct (negb _); [discriminate H|].
      destruct (ceq d "="); discriminate H.
    + destruct (is_eof_char c); [discriminate H|]. apply some_pair in H. destruct H as [H <-]. injection H as ->. auto.
Qed.

Lemma lex_next_nl kw : forall s start rest, lex_next kw s = LxTok T_NL start rest ->
  exists b, Forall blank b /\ ((s = b /\ rest = []) \/ s = b ++ NL :: rest).
Proof.
  induction s as [|c s IH]; intros start rest H; cbn [lex_next] in H.
  - injection H as <- <-. exists []. split; [constructor|]. left. auto.
  - destruct (negb (lex_valid c)); [discriminate H|]. destruct (is_lex_space c) eqn:SPC.
    + destruct (IH _ _ H) as (b & B & K). exists (c :: b). split; [constructor; [apply blank_iff; exact SPC | exact B]|].
      destruct K as [[-> ->] | ->]; [left; auto | right; reflexivity].
    + destruct (scan_token kw c s) as [[t' rest']|] eqn:ST; [|discriminate H]. injection H as -> <- <-.
      apply scan_token_nl in ST. destruct ST as [-> ->]. exists []. split; [constructor|]. right. reflexivity.
Qed.

Lemma allowed_valid c : allowed c -> lex_valid c = true.
Proof. unfold allowed, lex_valid. intros H. apply orb_true_iff. left. apply N.ltb_lt. exact H. Qed.

Lemma Forall_app_r {A} (P : A -> Prop) l l' : Forall P (l ++ l') -> Forall P l'.
Proof. intros H. apply Forall_app in H. tauto. Qed.

Lemma scan_name_ok s n acc : Forall allowed s -> scan_name s n acc <> None.
Proof.
  intros F. revert n acc. induction F as [|c s C F IH]; intros n acc; cbn [scan_name]; [discriminate|]. rewrite (allowed_valid _ C). cbn [negb].
  destruct (is_alnum c); [destruct (Nat.leb MAX_WORD (n + 2)); [discriminate | apply IH]|]. destruct (ceq c "$"); discriminate.
Qed.
Lemma scan_name_kw_ok s n acc : Forall allowed s -> scan_name_kw s n acc <> None.
Proof.
  intros F. revert n acc. induction F as [|c s C F IH]; intros n acc; cbn [scan_name_kw]; [discriminate|]. rewrite (allowed_valid _ C). cbn [negb].
  destruct (is_alnum c); [destruct (_ && _); [discriminate|]; destruct (Nat.leb MAX_WORD (n + 2)); [discriminate | apply IH]|]. destruct (ceq c "$"); discriminate.
Qed.
Lemma scan_digits_ok s n : Forall allowed s -> match scan_digits s n with DgExit => False | DgOk _ _ t => Forall allowed t | DgErr _ => True end.
Proof.
  intros F. revert n. induction F as [|c s C F IH]; intros n; cbn [scan_digits]; [constructor|]. rewrite (allowed_valid _ C). cbn [negb].
  destruct (is_digit c); [|constructor; assumption]. destruct (Nat.leb MAX_WORD (n + 1)); [exact I|]. specialize (IH (S n)).
  destruct (scan_digits s (S n)); auto.
Qed.
Lemma scan_exponent_ok s n : Forall allowed s -> match scan_exponent s n with DgExit => False | DgOk _ _ t => Forall allowed t | DgErr _ => True end.
Proof.
  intros F. destruct s as [|c s]; cbn [scan_exponent]; [constructor|]. destruct (ceq c "-"); [|exact (scan_digits_ok _ _ F)].
  destruct (Nat.leb MAX_WORD (n + 1)); [exact I|]. pose proof (scan_digits_ok s (S n) (Forall_inv_tail F)) as H. destruct (scan_digits s (S n)); auto.
Qed.
Lemma scan_part_ok s n p k : Forall allowed s ->
  (forall s n, Forall allowed s -> match k s n with DgExit => False | DgOk _ _ t => Forall allowed t | DgErr _ => True end) ->
  match scan_part s n p k with DgExit => False | DgOk _ _ t => Forall allowed t | DgErr _ => True end.
Proof.
  intros F K. destruct s as [|c s]; cbn [scan_part]; [constructor|]. destruct (p c); [|exact F]. destruct (Nat.leb MAX_WORD (n + 1)); [exact I|].
  specialize (K s (S n) (Forall_inv_tail F)). destruct (k s (S n)); auto.
Qed.
Lemma scan_number_ok s : Forall allowed s -> scan_number s <> None.
Proof.
  intros F. unfold scan_number. pose proof (scan_digits_ok s 0 F) as H. destruct (scan_digits s 0) as [d1 n1 s1 | |]; [|discriminate | contradiction].
  pose proof (scan_part_ok s1 n1 (fun c => ceq c ".") scan_digits H scan_digits_ok) as H2. destruct (scan_part s1 _ _ _) as [d2 n2 s2 | |]; [|discriminate | contradiction].
  pose proof (scan_part_ok s2 n2 is_exp_char scan_exponent H2 scan_exponent_ok) as H3. destruct (scan_part s2 _ _ _) as [d3 n3 s3 | |]; [|discriminate | contradiction].
  destruct (strtod _) as [x [|? ?]]; discriminate.
Qed.
Lemma scan_string_ok s n acc : Forall allowed s -> scan_string s n acc <> StrExit.
Proof.
  intros F. revert n acc. induction F as [|c s C F IH]; intros n acc; cbn [scan_string]; [discriminate|]. rewrite (allowed_valid _ C). cbn [negb].
  destruct (ceq c DQ); [discriminate|]. destruct (_ || _); [discriminate|]. destruct (Nat.leb MAX_WORD (n + 1)); [discriminate | apply IH].
Qed.

Lemma scan_token_ok kw c r : Forall allowed (c :: r) -> scan_token kw c r <> None.
Proof.
  intros F. pose proof (Forall_inv_tail F) as FR. unfold scan_token. destruct (is_alpha c).
  - destruct kw; [|exact (scan_name_ok _ _ _ FR)]. destruct (keyword_prefix (c :: r)) as [[n k]|]; [discriminate | exact (scan_name_kw_ok _ _ _ FR)].
  - destruct (_ || _); [exact (scan_number_ok _ F)|]. destruct (ceq c DQ).
    + pose proof (scan_string_ok r 0 [] FR). destruct (scan_string r 0 []); [discriminate | discriminate | contradiction].
    + destruct (ceq c "<"); [|destruct (ceq c ">")].
      * destruct r as [|d r]; [discriminate|]. rewrite (allowed_valid _ (Forall_inv FR)). cbn [negb]. destruct (ceq d ">"); [discriminate|].
        destruct (ceq d "="); discriminate.
      * destruct r as [|d r]; [discriminate|]. rewrite (allowed_valid _ (Forall_inv FR)). cbn [negb]. destruct (ceq d "="); discriminate.
      * destruct (is_eof_char c); discriminate.
Qed.

Lemma lex_next_ok kw s : Forall allowed s -> exists t start rest, lex_next kw s = LxTok t start rest.
Proof.
  induction 1 as [|c s C F IH]; [exists T_NL, [], []; reflexivity|]. cbn [lex_next]. rewrite (allowed_valid _ C). cbn [negb].
  destruct (is_lex_space c); [exact IH|]. pose proof (scan_token_ok kw c s (Forall_cons _ C F)) as H.
  destruct (scan_token kw c s) as [[t rest]|]; [|contradiction]. exists t, (c :: s), rest. reflexivity.
Qed.

Lemma same_allowed s s' : same_text s s' -> Forall allowed s -> Forall allowed s'.
Proof. intros [-> | [_ ->]] F; [exact F | constructor]. Qed.

Lemma lex_line kw s : Forall allowed s -> exists l, tokens_of kw s l /\ lexer_gives kw s (map snd l).
Proof.
  remember (length s) as n eqn:L. revert s L. induction n as [n IH] using lt_wf_ind. intros s L F.
  destruct (lex_next_ok kw s F) as (t & start & rest & H).
  assert (D : (t = T_NL /\ rest = []) \/ ~ (t = T_NL /\ rest = [])).
  { destruct rest; [|right; intros [_ K]; discriminate K]. destruct t as [c| | | | | | | | | |]; try (right; intros [K _]; discriminate K).
    destruct (ceq c NL) eqn:E; [apply ceq_eq in E; subst; left; auto|]. apply ceq_neq in E. right. intros [K _]. injection K as K. exact (E K). }
  destruct D as [[-> ->] | D].
  - destruct (lex_next_nl _ _ _ _ H) as (b & B & [[-> _] | ->]).
    + exists [(b, [], T_NL)]. split; [|exact (Lg_end _ _ _ H)]. pose proof (To_end kw b [] B (or_introl eq_refl)) as T. rewrite app_nil_r in T. exact T.
    + exists [(b, [NL], T_NL)]. split; [|exact (Lg_end _ _ _ H)]. exact (To_end kw b [NL] B (or_intror eq_refl)).
  - destruct (lex_next_spec kw s t start rest H) as (b & w & tail & E & B & _ & T & K). destruct K as [[W K] | (-> & -> & ->)].
    2: { destruct D. split; [reflexivity|]. destruct T as [-> | [_ ->]]; reflexivity. }
    assert (NE : s <> []) by (subst s; intros Z0; apply app_eq_nil in Z0; destruct Z0 as [_ Z0]; apply app_eq_nil in Z0; tauto).
    pose proof (lex_next_less _ _ _ _ _ H NE) as LT.
    assert (FR : Forall allowed rest) by (apply (same_allowed _ _ T); subst s; apply Forall_app_r in F; exact (Forall_app_r _ _ _ F)).
    destruct (IH (length rest) ltac:(lia) rest eq_refl FR) as (l & L1 & L2). exists ((b, w, t) :: l). split; [|exact (Lg_next _ _ _ _ _ _ H D L2)].
    subst s. apply (To_next _ b w tail t rest l B W K T); [|exact L1].
    intros -> ->. apply D. assert (Rn : rest = []) by (destruct T as [-> | [_ ->]]; reflexivity). split; [|exact Rn].
    (* a newline is only itself *)
    clear - K. unfold T_NL. inversion K; try discriminate; try congruence.
    all: try (match goal with
      | X : keyword_word _ _ |- _ => apply keyword_letters in X; destruct X as [_ X]; apply Forall_inv in X; discriminate X
      | X : name_word _ |- _ => destruct X as (c0 & r0 & d0 & E0 & L0 & _); injection E0 as <- _; discriminate L0
      | X : is_eof_char ?c = true, Y : [NL] = [?c] |- _ => injection Y as <-; discriminate X
      | X : [NL] = ?c :: ?r, Y : letter ?c |- _ => injection X as <- _; discriminate Y
      | X : [NL] = ?c :: ?r, Y : length [NL] = 128 |- _ => discriminate Y
      end).
    all: match goal with X : number_word [NL] _ |- _ => destruct X as (d1 & d2 & d3 & E0 & F1 & F2 & F3 & _) end.
    all: destruct d1 as [|c0 d1]; [|cbn in E0; injection E0 as <- _; apply Forall_inv in F1; discriminate F1].
    all: destruct F2 as [-> | (e & -> & _)]; [destruct F3; congruence|]; discriminate E0.
Qed.

Lemma tokens_cover kw s l : tokens_of kw s l -> s = concat (map piece l) \/ s = concat (map piece l) ++ [NL].
Proof.
  induction 1 as [b w B W | b w tail t s' l B W K T NL1 H IH]; cbn [map concat].
  - left. unfold piece. cbn [fst snd]. rewrite app_nil_r. reflexivity.
  - change (piece (b, w, t)) with (b ++ w).
    destruct T as [-> | [-> ->]].
    + destruct IH as [IH | IH]; [left | right]; rewrite IH at 1; rewrite <- !app_assoc; reflexivity.
    + right. remember (@nil ascii) as z eqn:Z0 in H. destruct H as [b0 w0 B0 W0 | b0 w0 tail0 t0 s0 l0 B0 W0 K0 T0 NL0 H0].
      * apply app_eq_nil in Z0. destruct Z0 as [-> ->]. cbn. rewrite app_nil_r, <- !app_assoc. reflexivity.
      * apply app_eq_nil in Z0. destruct Z0 as [_ Z0]. apply app_eq_nil in Z0. destruct Z0 as [Z0 _]. contradiction.
Qed.

(* ---------- names, keywords and strings, the other way round ---------- *)

Lemma lex_blanks kw b s : Forall blank b -> lex_next kw (b ++ s) = lex_next kw s.
Proof.
  intros B. induction B as [|c b C B IH]; cbn [app]; [reflexivity|].
  cbn [lex_next]. replace (lex_valid c) with true; [|destruct C as [-> | [-> | ->]]; reflexivity]. cbn [negb].
  rewrite (proj2 (blank_iff c) C). exact IH.
Qed.

Lemma scan_name_run : forall r n acc tail, Forall letter_or_digit r -> n + length r <= 126 -> ~ begins_with letter_or_digit tail ->
  begins_with allowed tail \/ tail = [] ->
  scan_name (r ++ tail) n acc =
    match tail with
    | c :: t => if ceq c "$" then Some (identifier_token (rev acc ++ r ++ [c]), t)
                else Some (identifier_token (rev acc ++ r), pushback c t)
    | [] => Some (identifier_token (rev acc ++ r), [])
    end.
Proof.
  induction r as [|c r IH]; intros n acc tail F L NB AL; cbn [app].
  - rewrite app_nil_r. destruct tail as [|c t]; [reflexivity|]. cbn [scan_name]. destruct AL as [(x & y & E & X) | AL]; [|discriminate AL]. injection E as <- <-.
    rewrite (allowed_valid _ X). cbn [negb]. destruct (is_alnum c) eqn:A; [destruct NB; exists c, t; split; [reflexivity|]; apply alnum_iff; exact A|].
    reflexivity.
  - pose proof (Forall_inv F) as C. pose proof (Forall_inv_tail F) as FR. cbn [scan_name length] in *.
    assert (V : lex_valid c = true).
    { assert (X : forall c, implb (is_alnum c) (lex_valid c) = true) by (apply forall_ascii; vm_compute; reflexivity).
      specialize (X c). rewrite (proj2 (alnum_iff c) C) in X. exact X. }
    rewrite V. cbn [negb]. rewrite (proj2 (alnum_iff c) C). replace (Nat.leb MAX_WORD (n + 2)) with false by (symmetry; apply Nat.leb_gt; unfold MAX_WORD; lia).
    rewrite (IH (S n) (c :: acc) tail FR ltac:(lia) NB AL). cbn [rev]. destruct tail; rewrite <- !app_assoc; reflexivity.
Qed.

Lemma lex_word b c r d tail : Forall blank b -> letter c -> Forall letter_or_digit r -> length r <= 125 -> d = [] \/ d = lit "$" ->
  (d = [] -> ~ begins_with (fun c => letter_or_digit c \/ c = "$"%char) tail) -> begins_with allowed tail \/ tail = [] ->
  exists rest, lex_next false (b ++ c :: r ++ d ++ tail) = LxTok (identifier_token (c :: r ++ d)) (c :: r ++ d ++ tail) rest /\ same_text tail rest.
Proof.
  intros B C R L D NT AL.
  rewrite (lex_blanks false b _ B).
  cbn [lex_next].
  assert (V : forall c, implb (is_alpha c) (lex_valid c && negb (is_lex_space c)) = true) by (apply forall_ascii; vm_compute; reflexivity).
  specialize (V c). unfold letter in C. rewrite C in V. cbn [implb] in V. apply andb_prop in V. destruct V as [V1 V2]. apply negb_true_iff in V2.
  rewrite V1, V2. cbn [negb]. unfold scan_token. rewrite C. destruct D as [-> | ->].
  - specialize (NT eq_refl). cbn [app]. rewrite (scan_name_run r 1 [c] tail R ltac:(lia)); [| |exact AL].
    2: { intros (x & t & -> & X). apply NT. exists x, t. auto. }
    rewrite app_nil_r. cbn [rev app]. destruct tail as [|x t].
    + exists []. split; [reflexivity | apply same_refl].
    + replace (ceq x "$") with false; [exists (pushback x t); split; [reflexivity | apply pushback_same]|].
      symmetry. apply ceq_neq. intros ->. apply NT. exists "$"%char, t. auto.
  - cbn [lit list_ascii_of_string app]. rewrite (scan_name_run r 1 [c] ("$"%char :: tail) R ltac:(lia)).
    + cbn [rev app]. exists tail. split; [reflexivity | apply same_refl].
    + apply not_begins. intros K. apply alnum_iff in K. discriminate K.
    + left. exists "$"%char, tail. split; [reflexivity|]. unfold allowed. vm_compute. reflexivity.
Qed.

Lemma scan_string_run : forall v n acc tail, Forall allowed v -> ~ In DQ v -> ~ In NL v -> n + length v <= 127 ->
  scan_string (v ++ DQ :: tail) n acc = StrOk (rev acc ++ v) tail.
Proof.
  induction v as [|c v IH]; intros n acc tail F N1 N2 L; cbn [app scan_string].
  - cbn. rewrite app_nil_r. reflexivity.
  - pose proof (Forall_inv F) as C. rewrite (allowed_valid _ C). cbn [negb].
    replace (ceq c DQ) with false by (symmetry; apply ceq_neq; intros ->; apply N1; left; reflexivity).
    replace (ceq c NL) with false by (symmetry; apply ceq_neq; intros ->; apply N2; left; reflexivity). cbn [orb].
    replace (is_eof_char c) with false by (symmetry; unfold is_eof_char, allowed in *; apply N.eqb_neq; lia). cbn [length] in L.
    replace (Nat.leb MAX_WORD (n + 1)) with false by (symmetry; apply Nat.leb_gt; unfold MAX_WORD; lia).
    rewrite (IH (S n) (c :: acc) tail (Forall_inv_tail F)); [cbn [rev]; rewrite <- app_assoc; reflexivity | | | lia].
    + intros K. apply N1. right. exact K.
    + intros K. apply N2. right. exact K.
Qed.

Lemma lex_string kw b v tail : Forall blank b -> Forall allowed v -> ~ In DQ v -> ~ In NL v -> length v <= 127 ->
  lex_next kw (b ++ DQ :: v ++ DQ :: tail) = LxTok (T_STR v) (DQ :: v ++ DQ :: tail) tail.
Proof.
  intros B F N1 N2 L. rewrite (lex_blanks kw b _ B).
  cbn [lex_next]. change (negb (lex_valid DQ)) with false. change (is_lex_space DQ) with false. cbn iota.
  unfold scan_token. change (is_alpha DQ) with false. change (is_digit DQ || ceq DQ ".") with false. change (ceq DQ DQ) with true. cbn iota.
  rewrite (scan_string_run v 0 [] tail F N1 N2 L). reflexivity.
Qed.

Lemma name_token w : (forall k, ~ keyword_word k w) -> identifier_token w = T_ID w.
Proof. intros N. destruct (identifier_spec w) as [(k & _ & K) | (E & _)]; [destruct (N k K) | exact E]. Qed.
