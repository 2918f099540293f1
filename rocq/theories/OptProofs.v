(* Proofs about the command line and the listing of names. *)
From Coq Require Import Lia ZifyBool ZifyNat ZifyN Sorted Permutation.
From Verif Require Import Base BaseLemmas SourceModel SymbolModel SymbolSpec SymbolProofs LexModel LexSpec LexProofs ParseModel MonitorModel MonSpec MonProofs SystemModel OptSpec.
Local Open Scope nat_scope.

(* ---------- the command line ---------- *)

Definition word_of (a : bytes) : aword :=
  match find (fun p => bytes_eqb a (fst p)) option_words with
  | Some p => snd p
  | None => if starts_with "-" a then WUnknown else WFile
  end.
Lemma bytes_eqb_eq x y : bytes_eqb x y = true <-> x = y.
Proof.
  revert y. induction x as [|c x IH]; intros [|d y]; cbn; try (split; [discriminate | discriminate]); [split; reflexivity|].
  rewrite Bool.andb_true_iff, ceq_eq, IH. split; [intros [-> ->]; reflexivity | intros H; injection H; auto].
Qed.
Definition aword_eqb (a b : aword) : bool :=
  match a, b with
  | WHelp x, WHelp y => Bool.eqb x y
  | WMode NO_MODE, WMode NO_MODE | WMode LIST_MODE, WMode LIST_MODE | WMode LIST_NAMES_MODE, WMode LIST_NAMES_MODE | WMode PARSE_MODE, WMode PARSE_MODE
  | WMode CODE_MODE, WMode CODE_MODE | WMode RUN_MODE, WMode RUN_MODE => true
  | WFlag FAnywhere, WFlag FAnywhere | WFlag FVersion, WFlag FVersion | WFlag FQuiet, WFlag FQuiet | WFlag FMemory, WFlag FMemory
  | WFlag FTraceBasic, WFlag FTraceBasic | WFlag FTraceFor, WFlag FTraceFor | WFlag FTraceLog, WFlag FTraceLog | WFlag FRandomize, WFlag FRandomize => true
  | WUnknown, WUnknown | WFile, WFile => true
  | _, _ => false
  end.
Lemma aword_eqb_eq a b : aword_eqb a b = true -> a = b.
Proof. destruct a as [[]|[]|[]| |], b as [[]|[]|[]| |]; try discriminate; reflexivity. Qed.
Lemma words_unique a w w' : In (a, w) option_words -> In (a, w') option_words -> w = w'.
Proof.
  intros I I'. assert (U : forallb (fun p => forallb (fun q => implb (bytes_eqb (fst p) (fst q)) (aword_eqb (snd p) (snd q))) option_words) option_words = true) by (vm_compute; reflexivity).
  rewrite forallb_forall in U. specialize (U _ I). rewrite forallb_forall in U. specialize (U _ I'). cbn [fst snd] in U.
  rewrite (proj2 (bytes_eqb_eq a a) eq_refl) in U. apply aword_eqb_eq. exact U.
Qed.
Lemma arg_word a w : arg_is a w <-> word_of a = w.
Proof.
  unfold word_of. destruct (find (fun p => bytes_eqb a (fst p)) option_words) as [[k w0]|] eqn:F.
  - apply find_some in F. destruct F as [I E]. cbn [fst] in E. apply bytes_eqb_eq in E. subst k. cbn [snd]. split.
    + intros [w' I' | N _ | N _]; [exact (words_unique _ _ _ I I') | destruct (N _ I) | destruct (N _ I)].
    + intros <-. apply Ai_word, I.
  - assert (N : forall w, ~ In (a, w) option_words).
    { intros w' I. apply (find_none _ _ F) in I. cbn [fst] in I. rewrite (proj2 (bytes_eqb_eq a a) eq_refl) in I. discriminate. }
    split.
    + intros [w' I' | _ B | _ B]; [destruct (N _ I') | apply starts_with_iff in B; rewrite B; reflexivity|].
      rewrite (false_iff _ _ (starts_with_iff _ _) B). reflexivity.
    + destruct (starts_with "-" a) eqn:Q; intros <-.
      * apply Ai_unknown; [exact N | apply starts_with_iff, Q].
      * apply Ai_file; [exact N|]. intros B. apply starts_with_iff in B. congruence.
Qed.
Definition set_flag (f : flag) (o : opts) : opts :=
  match f with
  | FAnywhere => op_set_flags true false false false false false false false o
  | FQuiet => op_set_flags false false true false false false false false o
  | FRandomize => op_set_flags false false false false false false false true o
  | FMemory => op_set_flags false false false true false false false false o
  | FTraceBasic => op_set_flags false false false false true false false false o
  | FTraceFor => op_set_flags false false false false false true false false o
  | FTraceLog => op_set_flags false false false false false false true false o
  | FVersion => op_set_flags false true false false false false false false o
  end.
Lemma parse_step o a r : parse_options o (a :: r) =
  match word_of a with
  | WHelp full => OpHelp full
  | WMode m => parse_options (op_set_mode m o) r
  | WFlag f => parse_options (set_flag f o) r
  | WUnknown => OpUnrecognised a
  | WFile => match op_file o with None => parse_options (op_set_file a o) r | Some _ => OpUnexpected a end
  end.
Proof.
  cbn [parse_options]. unfold word_of, option_words, is_arg. cbn [existsb find fst].
  repeat match goal with |- context [bytes_eqb a (lit ?x)] => destruct (bytes_eqb a (lit x)); cbn [orb snd set_flag]; try reflexivity end.
  destruct a as [|c a]; [reflexivity|]. cbn [starts_with]. destruct (ceq c "-"); reflexivity.
Qed.

Definition upd (o : opts) (a : bytes) : opts :=
  match word_of a with
  | WMode m => op_set_mode m o
  | WFlag f => set_flag f o
  | WFile => op_set_file a o
  | _ => o
  end.
Definition file_fits (o : opts) (argv : list bytes) : Prop := op_file o = None \/ Forall (fun a => ~ is_file a) argv.

Lemma file_word a : is_file a <-> word_of a = WFile.
Proof. apply arg_word. Qed.
Lemma upd_file o a : op_file (upd o a) = match word_of a with WFile => Some a | _ => op_file o end.
Proof. unfold upd. destruct (word_of a) as [|m|f| |]; try reflexivity. destruct f; reflexivity. Qed.

Lemma good_cons a argv : good_args (a :: argv) -> good_args argv /\ (is_file a -> Forall (fun b => ~ is_file b) argv).
Proof.
  intros [F T]. inversion F; subst. split; [split; [assumption|]|].
  - intros p q r x y E. apply (T (a :: p) q r x y). rewrite E. reflexivity.
  - intros I. apply Forall_forall. intros b B FB. apply in_split in B. destruct B as (q & r & ->). exact (T [] q r a b eq_refl I FB).
Qed.
Lemma parse_good argv : forall o, good_args argv -> file_fits o argv -> parse_options o argv = OpOk (fold_left upd argv o).
Proof.
  induction argv as [|a argv IH]; intros o G FF; [reflexivity|]. destruct (good_cons _ _ G) as [G' FA]. destruct G as [F _]. inversion F; subst. destruct H1 as [NU NH].
  rewrite parse_step. cbn [fold_left]. assert (FF' : file_fits (upd o a) argv).
  { unfold file_fits. rewrite upd_file. destruct (word_of a) eqn:W; try (destruct FF as [FF|FF]; [left; exact FF | right; inversion FF; assumption]).
    right. apply FA, file_word, W. }
  specialize (IH (upd o a) G' FF'). unfold upd in IH at 1 3. unfold upd at 2. destruct (word_of a) eqn:W; try exact IH.
  - destruct (NH full). apply arg_word, W.
  - destruct NU. apply arg_word, W.
  - destruct FF as [FF|FF]; [rewrite FF; exact IH|]. inversion FF; subst. destruct H1. apply file_word, W.
Qed.

Lemma flag_upd o a f : flag_of (upd o a) f = true <-> flag_of o f = true \/ word_of a = WFlag f.
Proof.
  unfold upd. destruct (word_of a) as [|m|g| |]; try (split; [auto | intros [H|H]; [exact H | discriminate H]]).
  destruct f, g; cbn [flag_of set_flag op_set_flags op_anywhere op_version op_quiet op_memory op_trace_basic op_trace_for op_trace_log op_srand];
    rewrite ?Bool.orb_true_r, ?Bool.orb_false_r; split; auto; intros [H|H]; auto; discriminate H.
Qed.
Lemma word_mode_real a m : word_of a = WMode m -> m <> NO_MODE.
Proof.
  unfold word_of. destruct (find _ option_words) as [p|] eqn:F; [|destruct (starts_with "-" a); discriminate]. apply find_some in F. destruct F as [I _].
  intros E ->. assert (U : forallb (fun p => match snd p with WMode NO_MODE => false | _ => true end) option_words = true) by reflexivity.
  rewrite forallb_forall in U. specialize (U _ I). rewrite E in U. discriminate U.
Qed.
Lemma upd_mode o a : op_mode (upd o a) = match word_of a with WMode m => m | _ => op_mode o end.
Proof. unfold upd. destruct (word_of a) as [|m|f| |]; try reflexivity. destruct f; reflexivity. Qed.

Lemma says_fold argv : good_args argv -> says argv (fold_left upd argv init_options).
Proof.
  induction argv as [|a argv IH] using rev_ind; intros G.
  - cbn [fold_left]. split.
    + intros f. destruct f; (split; [discriminate | intros (a & I & _); destruct I]).
    + intros a. split; [discriminate | intros [[] _]].
    + intros m NM. split; [intros H; destruct (NM (eq_sym H)) | intros (a & _ & p & q & E & _); destruct p; discriminate].
    + split; [constructor | reflexivity].
  - assert (G0 : good_args argv).
    { destruct G as [F T]. apply Forall_app in F. destruct F as [F _]. split; [exact F|]. intros p q r x y E. apply (T p q (r ++ [a])). rewrite E, <- app_assoc. cbn [app]. rewrite <- app_assoc. reflexivity. }
    specialize (IH G0). rewrite fold_left_app. cbn [fold_left]. set (o := fold_left upd argv init_options) in *. clearbody o. destruct IH as [SF SI SM SN]. split.
    + intros f. rewrite flag_upd, SF. split.
      * intros [(b & I & W) | W]; [exists b | exists a]; rewrite in_app_iff; [auto | split; [right; left; reflexivity | apply arg_word, W]].
      * intros (b & I & W). apply in_app_iff in I. destruct I as [I | [-> | []]]; [left; eauto | right; apply arg_word, W].
    + intros b. rewrite upd_file. rewrite in_app_iff. destruct (word_of a) eqn:W; try (rewrite SI; split; [intros [I F]; auto | intros [[I | [-> | []]] F]; [auto | apply file_word in F; congruence]]).
      split; [intros E; injection E as <-; split; [right; left; reflexivity | apply file_word, W]|]. intros [[I | [-> | []]] F]; [|reflexivity]. exfalso.
      destruct G as [_ T]. apply in_split in I. destruct I as (p & q & ->). apply (T p q [] b a); [rewrite <- app_assoc; reflexivity | exact F | apply file_word, W].
    + intros m NM. rewrite upd_mode. destruct (word_of a) eqn:W.
      all: try (rewrite (SM m NM); split; intros (b & B & p & q & E & L1 & L2);
        [exists b; split; [exact B|]; exists p, (q ++ [a]); split; [rewrite E, <- app_assoc; reflexivity|]; split; [exact L1|]; apply Forall_app; split; [exact L2|];
         constructor; [intros (m' & M'); apply arg_word in M'; congruence | constructor]
        |exists b; split; [exact B|]; destruct (exists_last (l := b :: q) ltac:(discriminate)) as (q' & z & Q); rewrite Q, app_assoc in E; apply app_inj_tail in E; destruct E as [E <-];
         destruct q' as [|y q']; [injection Q as -> _; apply arg_word in B; congruence|]; injection Q as <- Q; exists p, q'; split; [exact E|]; split; [exact L1|]; rewrite Q in L2; apply Forall_app in L2; tauto]).
      split.
      * intros <-. exists a. split; [apply arg_word, W|]. exists argv, []. split; [reflexivity|]. split; [exists m0; apply arg_word, W | constructor].
      * intros (b & B & p & q & E & L1 & L2). destruct q as [|y q].
        -- apply app_inj_tail in E. destruct E as [_ <-]. apply arg_word in B. congruence.
        -- exfalso. assert (I : In a (y :: q)).
           { destruct (exists_last (l := y :: q) ltac:(discriminate)) as (q' & z & Q). rewrite Q in E. change (p ++ b :: q' ++ [z]) with (p ++ (b :: q') ++ [z]) in E. rewrite app_assoc in E.
             apply app_inj_tail in E. destruct E as [_ <-]. rewrite Q. apply in_app_iff. right. left. reflexivity. }
           rewrite Forall_forall in L2. apply (L2 a I). exists m0. apply arg_word, W.
    + rewrite upd_mode. destruct (word_of a) eqn:W.
      all: try (rewrite SN; split; [intros F; apply Forall_app; split; [exact F|]; constructor; [intros m M; apply arg_word in M; congruence | constructor] | intros F; apply Forall_app in F; tauto]).
      split; [intros ->; destruct (word_mode_real _ _ W eq_refl)|]. intros F. apply Forall_app in F. destruct F as [_ F]. inversion F; subst. destruct (H1 m). apply arg_word, W.
Qed.

Lemma options_good argv : good_args argv -> exists o, parse_options init_options argv = OpOk o /\ says argv o.
Proof. intros G. eexists. split; [apply parse_good; [exact G | left; reflexivity] | apply says_fold, G]. Qed.

Lemma good_nil : good_args [].
Proof. split; [constructor|]. intros [|]; discriminate. Qed.

(* the first argument that does not fit decides *)
Lemma good_snoc p a : good_args p -> ~ arg_is a WUnknown -> (forall full, ~ arg_is a (WHelp full)) -> (is_file a -> Forall (fun b => ~ is_file b) p) -> good_args (p ++ [a]).
Proof.
  intros [F T] NU NH NF. split; [apply Forall_app; split; [exact F | constructor; [auto | constructor]]|].
  intros q r s x y E FX FY. destruct s as [|z s] using rev_ind.
  - rewrite app_comm_cons, app_assoc in E. apply app_inj_tail in E. destruct E as [-> ->]. specialize (NF FY). apply Forall_app in NF. destruct NF as [_ NF]. inversion NF; auto.
  - clear IHs. change (q ++ x :: r ++ y :: s ++ [z]) with (q ++ x :: r ++ (y :: s) ++ [z]) in E. rewrite app_assoc in E. rewrite app_comm_cons, app_assoc in E. apply app_inj_tail in E. destruct E as [E _].
    exact (T q r s x y E FX FY).
Qed.
Lemma parse_prefix p : forall o a r, good_args p -> file_fits o p -> parse_options o (p ++ a :: r) = parse_options (fold_left upd p o) (a :: r).
Proof.
  induction p as [|b p IH]; intros o a r G FF; [reflexivity|]. destruct (good_cons _ _ G) as [G' FA]. destruct G as [F _]. inversion F; subst. destruct H1 as [NU NH].
  cbn [app]. rewrite parse_step. cbn [fold_left]. assert (FF' : file_fits (upd o b) p).
  { unfold file_fits. rewrite upd_file. destruct (word_of b) eqn:W; try (destruct FF as [FF|FF]; [left; exact FF | right; inversion FF; assumption]).
    right. apply FA, file_word, W. }
  specialize (IH (upd o b) a r G' FF'). unfold upd in IH at 1 3. unfold upd at 2. destruct (word_of b) eqn:W; try exact IH.
  - destruct (NH full). apply arg_word, W.
  - destruct NU. apply arg_word, W.
  - destruct FF as [FF|FF]; [rewrite FF; exact IH|]. inversion FF; subst. destruct H1. apply file_word, W.
Qed.
Lemma options_bad p a r : good_args p -> ~ good_args (p ++ [a]) ->
  match parse_options init_options (p ++ a :: r) with
  | OpOk _ => False
  | OpHelp full => arg_is a (WHelp full)
  | OpUnrecognised b => b = a /\ arg_is a WUnknown
  | OpUnexpected b => b = a /\ is_file a /\ Exists is_file p
  end.
Proof.
  intros G B. rewrite parse_prefix by (auto; left; reflexivity). rewrite parse_step. pose proof (says_fold p G) as [_ SI _ _].
  set (o := fold_left upd p init_options) in *. clearbody o. destruct (word_of a) eqn:W.
  - apply arg_word, W.
  - exfalso. apply B. apply good_snoc; [exact G | | |]; intros; rewrite ?file_word, ?arg_word in *; try congruence.
  - exfalso. apply B. apply good_snoc; [exact G | | |]; intros; rewrite ?file_word, ?arg_word in *; try congruence.
  - split; [reflexivity | apply arg_word, W].
  - destruct (op_file o) as [b|] eqn:Q.
    + split; [reflexivity|]. split; [apply file_word, W|]. apply Exists_exists. exists b. apply SI. reflexivity.
    + exfalso. apply B. apply good_snoc; [exact G | | |]; try (intros; rewrite ?arg_word in *; congruence). intros _. apply Forall_forall. intros b I FB.
      assert (X : None = Some b) by (apply SI; auto). discriminate X.
Qed.
Lemma good_or_not argv : good_args argv \/ exists p a r, argv = p ++ a :: r /\ good_args p /\ ~ good_args (p ++ [a]).
Proof.
  induction argv as [|a argv IH] using rev_ind; [left; exact good_nil|]. destruct IH as [G | (p & b & r & -> & G & B)].
  - destruct (word_of a) eqn:W.
    + right. exists argv, a, []. split; [reflexivity|]. split; [exact G|]. intros [F _]. apply Forall_app in F. destruct F as [_ F]. inversion F; subst. destruct H1 as [_ H1]. apply (H1 full), arg_word, W.
    + left. apply good_snoc; [exact G | | |]; intros; rewrite ?file_word, ?arg_word in *; congruence.
    + left. apply good_snoc; [exact G | | |]; intros; rewrite ?file_word, ?arg_word in *; congruence.
    + right. exists argv, a, []. split; [reflexivity|]. split; [exact G|]. intros [F _]. apply Forall_app in F. destruct F as [_ F]. inversion F; subst. destruct H1 as [H1 _]. apply H1, arg_word, W.
    + destruct (existsb (fun b => match word_of b with WFile => true | _ => false end) argv) eqn:X.
      * right. exists argv, a, []. split; [reflexivity|]. split; [exact G|]. apply existsb_exists in X. destruct X as (b & I & WB). destruct (word_of b) eqn:WB'; try discriminate.
        intros [_ T]. apply in_split in I. destruct I as (q & s & ->). apply (T q s [] b a); [rewrite <- app_assoc; reflexivity | apply file_word; assumption | apply file_word, W].
      * left. apply good_snoc; [exact G | | |]; try (intros; rewrite ?arg_word in *; congruence). intros _. apply Forall_forall. intros b I FB. apply file_word in FB.
        assert (Y : existsb (fun b => match word_of b with WFile => true | _ => false end) argv = true) by (apply existsb_exists; exists b; rewrite FB; auto). congruence.
  - right. exists p, b, (r ++ [a]). rewrite <- app_assoc. auto.
Qed.

Lemma options_rejected argv : ~ good_args argv -> exists p a r, argv = p ++ a :: r /\ good_args p /\
  match parse_options init_options argv with
  | OpOk _ => False
  | OpHelp full => arg_is a (WHelp full)
  | OpUnrecognised b => b = a /\ arg_is a WUnknown
  | OpUnexpected b => b = a /\ is_file a /\ Exists is_file p
  end.
Proof.
  intros B. destruct (good_or_not argv) as [G | (p & a & r & -> & G & N)]; [contradiction|]. exists p, a, r. split; [reflexivity|]. split; [exact G|]. exact (options_bad p a r G N).
Qed.
Lemma ok_good argv o : parse_options init_options argv = OpOk o -> good_args argv.
Proof.
  intros H. destruct (good_or_not argv) as [G | (p & a & r & -> & G & N)]; [exact G|]. pose proof (options_bad p a r G N) as K. rewrite H in K. destruct K.
Qed.
Definition fileb (a : bytes) : bool := match word_of a with WFile => true | _ => false end.
Lemma fileb_iff a : fileb a = true <-> is_file a.
Proof. rewrite file_word. unfold fileb. destruct (word_of a); split; congruence. Qed.
Lemma good_count argv : good_args argv <->
  Forall (fun a => ~ arg_is a WUnknown /\ forall full, ~ arg_is a (WHelp full)) argv /\ length (filter fileb argv) <= 1.
Proof.
  unfold good_args. split; intros [F T]; (split; [exact F|]).
  - clear F. induction argv as [|a l IH]; [cbn; lia|]. cbn [filter]. destruct (fileb a) eqn:Q.
    + cbn [length]. destruct (filter fileb l) as [|b k] eqn:FL; [cbn; lia|]. exfalso.
      assert (I : In b (filter fileb l)) by (rewrite FL; left; reflexivity). apply filter_In in I. destruct I as [I FB]. apply in_split in I. destruct I as (q & r & ->).
      exact (T [] q r a b eq_refl (proj1 (fileb_iff _) Q) (proj1 (fileb_iff _) FB)).
    + apply IH. intros p q r x y E. apply (T (a :: p) q r x y). rewrite E. reflexivity.
  - intros p q r a b -> FA FB. apply fileb_iff in FA. apply fileb_iff in FB. rewrite filter_app in T. cbn [filter] in T. rewrite FA in T. rewrite app_length in T. cbn [length] in T.
    rewrite filter_app in T. cbn [filter] in T. rewrite FB, app_length in T. cbn [length] in T. lia.
Qed.
Lemma filter_perm {A} (f : A -> bool) l l' : Permutation l l' -> Permutation (filter f l) (filter f l').
Proof.
  induction 1 as [|x l l' _ IH | x y l | l1 l2 l3 _ IH1 _ IH2]; cbn [filter].
  - constructor.
  - destruct (f x); [constructor|]; exact IH.
  - destruct (f x), (f y); try reflexivity. apply perm_swap.
  - exact (perm_trans IH1 IH2).
Qed.
Lemma good_perm l l' : Permutation l l' -> good_args l -> good_args l'.
Proof.
  intros P G. apply good_count in G. destruct G as [F C]. apply good_count. split.
  - rewrite Forall_forall in *. intros a I. apply F. exact (Permutation_in _ (Permutation_sym P) I).
  - rewrite <- (Permutation_length (filter_perm fileb _ _ P)). exact C.
Qed.
Lemma bool_ext (a b : bool) : (a = true <-> b = true) -> a = b.
Proof. destruct a, b; intros [H1 H2]; auto. symmetry. auto. Qed.
Lemma says_same l l' o o' : (forall a, In a l <-> In a l') -> same_last_mode l l' -> says l o -> says l' o' -> o = o'.
Proof.
  intros I LM [F1 N1 M1 Z1] [F2 N2 M2 Z2].
  assert (FL : forall f, flag_of o f = flag_of o' f).
  { intros f. apply bool_ext. rewrite F1, F2. split; intros (a & J & W); exists a; (split; [apply I, J | exact W]). }
  assert (FI : op_file o = op_file o').
  { destruct (op_file o) as [a|] eqn:Q1.
    - symmetry. apply N2. destruct (proj1 (N1 a) eq_refl) as [J W]. split; [apply I, J | exact W].
    - destruct (op_file o') as [a|] eqn:Q2; [|reflexivity]. apply N1. destruct (proj1 (N2 a) eq_refl) as [J W]. split; [apply I, J | exact W]. }
  assert (MO : op_mode o = op_mode o').
  { assert (D : op_mode o = NO_MODE \/ op_mode o <> NO_MODE) by (destruct (op_mode o); [left; reflexivity | right; discriminate ..]). destruct D as [D|D].
    - rewrite D. symmetry. apply Z2. apply Z1 in D. rewrite Forall_forall in *. intros a J. apply D, I, J.
    - symmetry. apply (M2 _ D). destruct (proj1 (M1 _ D) eq_refl) as (a & W & L). exists a. split; [exact W|]. apply LM, L. }
  pose proof (FL FAnywhere) as E1. pose proof (FL FVersion) as E2. pose proof (FL FQuiet) as E3. pose proof (FL FMemory) as E4.
  pose proof (FL FTraceBasic) as E5. pose proof (FL FTraceFor) as E6. pose proof (FL FTraceLog) as E7. pose proof (FL FRandomize) as E8.
  destruct o, o'; cbn in *; congruence.
Qed.
Lemma options_order argv argv' o : Permutation argv argv' -> same_last_mode argv argv' ->
  parse_options init_options argv = OpOk o -> parse_options init_options argv' = OpOk o.
Proof.
  intros P LM H. pose proof (ok_good _ _ H) as G. destruct (options_good _ G) as (o1 & H1 & S1). rewrite H in H1. injection H1 as <-.
  destruct (options_good _ (good_perm _ _ P G)) as (o2 & H2 & S2). rewrite H2. f_equal. symmetry. refine (says_same _ _ _ _ _ LM S1 S2).
  intros a. split; [exact (Permutation_in _ P) | exact (Permutation_in _ (Permutation_sym P))].
Qed.

(* ---------- the names of a program ---------- *)

Definition less (a b : bytes) : Prop := stricmp a b = Lt.
Lemma less_trans a b c : less a b -> less b c -> less a c.
Proof. apply cmp_by_trans. Qed.
Lemma stricmp_gt a b : stricmp a b = Gt -> less b a.
Proof. intros H. unfold less, stricmp in *. rewrite cmp_by_antisym, H. reflexivity. Qed.
Lemma stricmp_same a b : stricmp a b = Eq <-> same_name a b.
Proof. rewrite <- strieq_same. unfold strieq. destruct (stricmp a b); split; congruence. Qed.
Lemma less_ne a b : less a b -> ~ same_name a b.
Proof. intros L E. apply stricmp_same in E. unfold less in L. congruence. Qed.
Lemma less_ne' a b : less a b -> ~ same_name b a.
Proof. intros L E. apply (less_ne _ _ L). symmetry. exact E. Qed.

Lemma ss_app l x r : StronglySorted less (l ++ x :: r) <->
  StronglySorted less l /\ StronglySorted less r /\ Forall (fun y => less y x) l /\ Forall (less x) r.
Proof.
  induction l as [|a l IH]; cbn [app].
  - split; [intros H; inversion H; subst; repeat split; [constructor | assumption | constructor | assumption]|].
    intros (_ & S & _ & F). constructor; assumption.
  - split.
    + intros H. inversion H; subst. apply IH in H2. destruct H2 as (A1 & A2 & A3 & A4). apply Forall_app in H3. destruct H3 as [F1 F2]. inversion F2; subst.
      repeat split; [constructor; assumption | assumption | constructor; assumption | assumption].
    + intros (A1 & A2 & A3 & A4). inversion A1; subst. inversion A3; subst. constructor; [apply IH; auto|]. apply Forall_app. split; [assumption|]. constructor; [assumption|].
      eapply Forall_impl; [|exact A4]. intros y. apply less_trans. assumption.
Qed.
Definition fresh_in (s : bytes) (l : list bytes) : Prop := Forall (fun y => ~ same_name y s) l.

Lemma insert_spec t s : StronglySorted less (traverse_tree t) ->
  StronglySorted less (traverse_tree (insert_node t s)) /\
  (forall x, In x (traverse_tree (insert_node t s)) <-> In x (traverse_tree t) \/ (x = s /\ fresh_in s (traverse_tree t))).
Proof.
  induction t as [|y l IHl r IHr]; intros H.
  - cbn. split; [constructor; constructor|]. intros x. split; [intros [<- | []]; right; split; [reflexivity | constructor] | intros [[] | [-> _]]; left; reflexivity].
  - cbn [traverse_tree] in H. pose proof H as H0. apply ss_app in H. destruct H as (A1 & A2 & A3 & A4). cbn [insert_node]. destruct (stricmp s y) eqn:C.
    + cbn [traverse_tree]. split; [exact H0|]. intros x. split; [auto|]. intros [I | [-> F]]; [exact I|]. exfalso. unfold fresh_in in F. rewrite Forall_forall in F.
      apply (F y); [apply in_app_iff; right; left; reflexivity|]. apply stricmp_same in C. symmetry. exact C.
    + destruct (IHl A1) as [B1 B2]. cbn [traverse_tree]. split.
      * apply ss_app. split; [exact B1|]. split; [exact A2|]. split; [|exact A4]. apply Forall_forall. intros x I. apply B2 in I. destruct I as [I | [-> _]]; [|exact C].
        rewrite Forall_forall in A3. apply A3, I.
      * intros x. rewrite !in_app_iff, B2. unfold fresh_in. rewrite Forall_app. split.
        -- intros [[I | [-> F]] | I]; [auto | | auto]. right. split; [reflexivity|]. split; [exact F|]. constructor; [apply less_ne', C|].
           eapply Forall_impl; [|exact A4]. intros z Z. apply less_ne'. exact (less_trans _ _ _ C Z).
        -- intros [[I | I] | [-> [F _]]]; auto.
    + destruct (IHr A2) as [B1 B2]. apply stricmp_gt in C. cbn [traverse_tree]. split.
      * apply ss_app. split; [exact A1|]. split; [exact B1|]. split; [exact A3|]. apply Forall_forall. intros x I. apply B2 in I. destruct I as [I | [-> _]]; [|exact C].
        rewrite Forall_forall in A4. apply A4, I.
      * intros x. rewrite !in_app_iff. cbn [In]. rewrite B2. unfold fresh_in. rewrite Forall_app. split.
        -- intros [I | [I | [I | [-> F]]]]; auto. right. split; [reflexivity|]. split.
           ++ eapply Forall_impl; [|exact A3]. intros z Z. apply less_ne. exact (less_trans _ _ _ Z C).
           ++ constructor; [apply less_ne, C | exact F].
        -- intros [[I | [I | I]] | [-> [_ F]]]; auto. inversion F; subst. auto.
Qed.
Lemma insert_all ws : StronglySorted less (traverse_tree (fold_left insert_node ws Leaf)) /\
  forall x, In x (traverse_tree (fold_left insert_node ws Leaf)) <-> first_spelling ws x.
Proof.
  induction ws as [|w ws [IH1 IH2]] using rev_ind.
  - split; [constructor|]. intros x. split; [intros [] | intros (p & q & E & _); destruct p; discriminate].
  - rewrite fold_left_app. cbn [fold_left]. destruct (insert_spec _ w IH1) as [B1 B2]. split; [exact B1|]. intros x. rewrite B2, IH2. split.
    + intros [(p & q & -> & F) | [-> F]].
      * exists p, (q ++ [w]). split; [rewrite <- app_assoc; reflexivity | exact F].
      * exists ws, []. split; [reflexivity|].
        apply Forall_forall. intros y I E. unfold fresh_in in F. rewrite Forall_forall in F.
        (* the first element of ws with the same name as w *)
        assert (X : exists z, first_spelling ws z /\ same_name z w).
        { clear - I E. revert I. induction ws as [|a ws IHw]; intros I; [destruct I|]. destruct (strieq a w) eqn:Q.
          - apply strieq_same in Q. exists a. split; [|exact Q]. exists [], ws. split; [reflexivity | constructor].
          - destruct I as [-> | I]; [apply strieq_same in E; congruence|]. destruct (IHw I) as (z & (p & q & -> & F) & Z). exists z. split; [|exact Z]. exists (a :: p), q. split; [reflexivity|].
            constructor; [|exact F]. intros Y. assert (Y' : same_name a w) by (unfold same_name in *; congruence). apply strieq_same in Y'. congruence. }
        destruct X as (z & Z1 & Z2). apply (F z); [apply IH2, Z1 | exact Z2].
    + intros (p & q & E & F). destruct (exists_last (l := x :: q) ltac:(discriminate)) as (q' & z & Q). rewrite Q, app_assoc in E. apply app_inj_tail in E. destruct E as [E <-].
      destruct q' as [|y q'].
      * injection Q as <- _. rewrite app_nil_r in E. subst p. right. split; [reflexivity|]. unfold fresh_in. apply Forall_forall. intros y I. apply IH2 in I. destruct I as (p' & q' & -> & _).
        rewrite Forall_forall in F. apply F. apply in_app_iff. right. left. reflexivity.
      * injection Q as <- _. left. exists p, q'. split; [exact E | exact F].
Qed.

Lemma names_of_fun kw s l l' : names_of kw s l -> names_of kw s l' -> l = l'.
Proof.
  intros H. revert l'. induction H as [s t st r L D | s w st r l L H IH | s t st r l L N1 N2 N3 H IH]; intros l' H'; inversion H' as [s0 t0 st0 r0 L0 D0 | s0 w0 st0 r0 l0 L0 H0 | s0 t0 st0 r0 l0 L0 N10 N20 N30 H0]; subst;
    rewrite L in L0; injection L0; intros; subst; try reflexivity.
  - destruct D; discriminate.
  - destruct D; contradiction.
  - destruct D0; discriminate.
  - f_equal. apply IH. assumption.
  - destruct (N30 w eq_refl).
  - destruct D0; contradiction.
  - destruct (N3 w0 eq_refl).
  - apply IH. assumption.
Qed.
Lemma ends_dec t : is_char NL t || is_kw K_REM t = true <-> t = T_NL \/ t = T_KW K_REM.
Proof.
  split; [|intros [-> | ->]; reflexivity]. intros D. apply Bool.orb_true_iff in D. destruct D as [D|D].
  - left. unfold is_char in D. destruct t; try discriminate D. apply ceq_eq in D. subst. reflexivity.
  - right. unfold is_kw in D. destruct t as [| | | | | | | | | |k]; try discriminate D. destruct k; try discriminate D. reflexivity.
Qed.
Lemma line_names_spec kw : forall n s, length s < n -> forall names,
  (exists l, names_of kw s l /\ line_names n kw names s = NmOk (fold_left insert_node l names)) \/
  ((forall l, ~ names_of kw s l) /\ line_names n kw names s = NmExit).
Proof.
  induction n as [|n IH]; intros s L names; [lia|]. cbn [line_names]. destruct (lex_next kw s) as [t st r|] eqn:X.
  - destruct (is_char NL t || is_kw K_REM t) eqn:D.
    + left. exists []. split; [|reflexivity]. eapply Nm_end; [exact X|]. apply ends_dec, D.
    + assert (N1 : t <> T_NL) by (intros ->; discriminate D). assert (N2 : t <> T_KW K_REM) by (intros ->; discriminate D).
      assert (LT : length r < n). { destruct s as [|c s]; [rewrite lex_next_nil in X; congruence|]. pose proof (lex_next_less _ _ _ _ _ X ltac:(discriminate)). lia. }
      assert (OT : (forall w, t <> T_ID w) ->
        (exists l, names_of kw s l /\ line_names n kw names r = NmOk (fold_left insert_node l names)) \/ ((forall l, ~ names_of kw s l) /\ line_names n kw names r = NmExit)).
      { intros N3. destruct (IH r LT names) as [(l & H1 & H2) | (H1 & H2)].
        - left. exists l. split; [|exact H2]. eapply Nm_other; eassumption.
        - right. split; [|exact H2]. intros l H. inversion H as [s0 t0 st0 r0 L0 D0 | s0 w0 st0 r0 l0 L0 H0 | s0 t0 st0 r0 l0 L0 N10 N20 N30 H0]; subst; rewrite X in L0; injection L0; intros; subst;
            [destruct D0; contradiction | destruct (N3 w0 eq_refl) | exact (H1 _ H0)]. }
      destruct t as [ | | | |w| | | | | |]; try (apply OT; discriminate).
      destruct (IH r LT (insert_node names w)) as [(l & H1 & H2) | (H1 & H2)].
      * left. exists (w :: l). split; [eapply Nm_name; eassumption | exact H2].
      * right. split; [|exact H2]. intros l H. inversion H as [s0 t0 st0 r0 L0 D0 | s0 w0 st0 r0 l0 L0 H0 | s0 t0 st0 r0 l0 L0 N10 N20 N30 H0]; subst; rewrite X in L0; injection L0; intros; subst;
          [destruct D0; contradiction | exact (H1 _ H0) | destruct (N30 w eq_refl)].
  - right. split; [|reflexivity]. intros l H. inversion H; subst; congruence.
Qed.
Lemma source_names_spec kw src : forall names,
  (exists l, names_all kw (map ln_text src) l /\ source_names kw names src = NmOk (fold_left insert_node l names)) \/
  ((forall l, ~ names_all kw (map ln_text src) l) /\ source_names kw names src = NmExit).
Proof.
  induction src as [|x src IH]; intros names.
  - left. exists []. split; [constructor | reflexivity].
  - cbn [source_names map]. destruct (line_names_spec kw (S (length (ln_text x))) (ln_text x) ltac:(lia) names) as [(l & H1 & ->) | (H1 & ->)].
    + destruct (IH (fold_left insert_node l names)) as [(l' & H2 & ->) | (H2 & ->)].
      * left. exists (l ++ l'). split; [constructor; assumption | rewrite fold_left_app; reflexivity].
      * right. split; [|reflexivity]. intros k H. inversion H; subst. eapply H2; eassumption.
    + right. split; [|reflexivity]. intros k H. inversion H; subst. eapply H1; eassumption.
Qed.
Lemma print_name_line x : name_line x (print_name x).
Proof.
  unfold name_line, print_name, name_is_print_builtin. unfold find_builtin.
  assert (B : match find (fun b => strieq (bi_name b) x) builtins with Some _ => builtin_name x | None => ~ builtin_name x end).
  { destruct (find (fun b => strieq (bi_name b) x) builtins) as [b|] eqn:F.
    - apply find_some in F. destruct F as [I F]. exists b. split; [exact I | apply strieq_same, F].
    - intros (b & I & F1). apply (find_none _ _ F) in I. apply strieq_same in F1. congruence. }
  match goal with |- context [find ?f ?l] => destruct (find f l) as [b|] end; [left; split; [reflexivity | exact B]|]. right.
  destruct (strieq x (lit "SPC")) eqn:S1; [left; split; [reflexivity|]; split; [exact B | left; apply strieq_same, S1]|].
  destruct (strieq x (lit "TAB")) eqn:S2; [left; split; [reflexivity|]; split; [exact B | right; apply strieq_same, S2]|].
  right. split; [reflexivity|]. split; [exact B|]. split; intros Q; apply strieq_same in Q; congruence.
Qed.

Lemma list_names_spec kw src :
  (exists names l lines, names_all kw (map ln_text src) names /\ alphabetical l /\ (forall x, In x l <-> first_spelling names x) /\
     Forall2 name_line l lines /\ list_names_text kw src = Some (concat lines)) \/
  ((forall names, ~ names_all kw (map ln_text src) names) /\ list_names_text kw src = None).
Proof.
  unfold list_names_text. destruct (source_names_spec kw src Leaf) as [(l & H1 & ->) | (H1 & ->)]; [left | right; auto].
  destruct (insert_all l) as [A B]. exists l, (traverse_tree (fold_left insert_node l Leaf)), (map print_name (traverse_tree (fold_left insert_node l Leaf))).
  split; [exact H1|]. split; [exact A|]. split; [exact B|]. split; [|reflexivity].
  generalize (traverse_tree (fold_left insert_node l Leaf)). induction l0 as [|x m IH]; cbn [map]; constructor; [apply print_name_line | exact IH].
Qed.
Lemma names_of_exists kw s : Forall allowed s -> exists l, names_of kw s l.
Proof.
  remember (length s) as n eqn:E. revert s E. induction n as [n IH] using lt_wf_ind. intros s -> F. destruct (lex_next_ok kw s F) as (t & st & r & L).
  destruct (is_char NL t || is_kw K_REM t) eqn:D; [exists []; eapply Nm_end; [exact L | apply ends_dec, D]|].
  assert (ND : ~ (t = T_NL \/ t = T_KW K_REM)) by (intros Q; apply ends_dec in Q; congruence).
  assert (LT : length r < length s). { destruct s as [|c s]; [rewrite lex_next_nil in L; injection L; intros; subst; tauto|]. apply (lex_next_less _ _ _ _ _ L). discriminate. }
  assert (FR : Forall allowed r).
  { destruct (lex_next_spec _ _ _ _ _ L) as (b & w & tail & E & _ & _ & T & _). apply (same_allowed _ _ T). subst s. apply Forall_app_r in F. exact (Forall_app_r _ _ _ F). }
  destruct (IH _ LT r eq_refl FR) as (l & H).
  assert (X : (exists w, t = T_ID w) \/ forall w, t <> T_ID w) by (destruct t; eauto; right; discriminate).
  destruct X as [(w & ->) | X]; [exists (w :: l); eapply Nm_name; eassumption|]. exists l. eapply Nm_other; [exact L | tauto | tauto | exact X | exact H].
Qed.
Lemma names_all_exists kw ts : Forall (Forall allowed) ts -> exists l, names_all kw ts l.
Proof.
  induction 1 as [|t ts F _ (l & IH)]; [exists []; constructor|]. destruct (names_of_exists kw t F) as (k & K). exists (k ++ l). constructor; assumption.
Qed.

Lemma names_exist kw src : Forall (fun l => Forall allowed (ln_text l)) src -> exists names, names_all kw (map ln_text src) names.
Proof. intros F. apply names_all_exists. apply Forall_forall. intros t I. apply in_map_iff in I. destruct I as (l & <- & I). rewrite Forall_forall in F. exact (F l I). Qed.
Lemma names_all_fun kw ts l l' : names_all kw ts l -> names_all kw ts l' -> l = l'.
Proof.
  intros H. revert l'. induction H as [|t l ts ls A H IH]; intros l' H'; inversion H'; subst; [reflexivity|]. rewrite (names_of_fun _ _ _ _ A H2). f_equal. apply IH. assumption.
Qed.
Lemma list_names_ok kw src names : names_all kw (map ln_text src) names ->
  exists l lines, alphabetical l /\ (forall x, In x l <-> first_spelling names x) /\ Forall2 name_line l lines /\
    list_names_text kw src = Some (concat lines).
Proof.
  intros H. destruct (list_names_spec kw src) as [(names' & l & lines & H' & R) | [N _]]; [|destruct (N _ H)]. rewrite (names_all_fun _ _ _ _ H H'). exists l, lines. exact R.
Qed.
Lemma list_names_none kw src : (forall names, ~ names_all kw (map ln_text src) names) -> list_names_text kw src = None.
Proof. intros N. destruct (list_names_spec kw src) as [(names' & l & lines & H' & R) | [_ H]]; [destruct (N _ H') | exact H]. Qed.
