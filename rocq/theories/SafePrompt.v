(* What holds whenever the monitor waits for a line, and statements typed then
   (C31). *)
From Coq Require Import Lia ZifyBool ZifyNat ZifyN.
From Verif Require Import Base BaseLemmas Num NumSpec NumLemmas SourceModel LineMapModel LineMapSpec LineMapProofs ArrayModel ArraySpec BcodeModel SymbolModel SymbolSpec
  VmModel VmLemmas VmSpec ControlProofs ValueSpec ValueProofs VmTyping KindProofs AlikeProofs StoreSpec StoreFrames GrammarSpec TypeSpec StepSpec DataSpec DataProofs
  SymbolProofs LexModel ParseModel ParseProofs StmtProofs CodeProofs CompileProofs LineSpec LineProofs RunSpec SessionModel MonitorModel MonSpec MonProofs SessionSpec PlaceProofs PromptProofs RunProofs ContProofs SafeProofs SafeCode SafeRun SafeSpec SafeTop SafeInv.
Local Open Scope nat_scope.
Local Notation typed := VmTyping.typed.
Local Notation num := Num.num.
Local Open Scope sess_scope.
Local Opaque init_builtins new_symbol_table parse_source.

(* ---------- machines that differ in code that is not used ---------- *)

Lemma twin_runs st0 E o1 o2 e1 e2 v2 l w2 : runs E v2 l w2 -> forall v1, kinded st0 v2 -> twin o1 o2 e1 e2 v1 v2 ->
  exists l1 w1, runs E v1 l1 w1 /\ twin o1 o2 e1 e2 w1 w2.
Proof.
  induction 1 as [v2|v2 x l w2 X R IH]; intros v1 K T; [exists [], v1; split; [constructor|exact T]|].
  pose proof (twin_execute o1 o2 e1 e2 st0 E v1 v2 K T) as H. pose proof (kd_execute st0 E v2 K) as KK. rewrite X in *.
  destruct (execute E v1) as [r1 x1] eqn:X1. destruct H as [H|[H1 H2]]; cbn [fst snd] in *; [discriminate H|]. subst r1.
  destruct (IH x1 KK H2) as (l1 & w1 & R1 & T1). exists (v1 :: l1), w1. split; [econstructor; eassumption|exact T1].
Qed.
Lemma twin_wraps o1 o2 e1 e2 v1 v2 : twin o1 o2 e1 e2 v1 v2 -> wraps v2 -> wraps v1.
Proof.
  intros T. unfold wraps, subscript_numbers. rewrite (twin_current _ _ _ _ _ _ T), (al_stack _ _ _ _ _ _ _ _ (twin_weak _ _ _ _ _ _ T)). auto.
Qed.

(* u without the code that nothing refers to *)
Definition trim (b : bool) (u : vm) : vm := set_def no_code (if b then set_imm no_code u else u).
Lemma tab_refl t : tab_alike t t.
Proof. intros id s H. exists s. split; [exact H|]. split; [reflexivity|]. split; [reflexivity|]. left. reflexivity. Qed.
Lemma trim_alike b u : nowhere CDef u -> (b = true -> nowhere CImmediate u) ->
  alike False (fun _ => True) (v_out u) (v_out u) (v_err u) (v_err u) u (trim b u) /\ alike False (fun _ => True) (v_out u) (v_out u) (v_err u) (v_err u) (trim b u) u.
Proof.
  intros D I.
  assert (F : forall f, fn_alike False f f) by (intros f; split; [reflexivity|]; intros _; split; [reflexivity|]; split; [reflexivity|]; left; reflexivity).
  assert (L : forall t fs, loops_alike (fun _ => True) t t fs) by (intros t fs f s1 s2 _ _ A B; congruence).
  split; destruct b; constructor; try reflexivity; try apply tab_refl; try apply L; try apply F; try (exists []; rewrite !app_nil_r; split; reflexivity);
    try (right; first [exact D | exact (I eq_refl)]); left; reflexivity.
Qed.
Lemma trim_kinded st b u : kinded st u -> kinded st (trim b u).
Proof.
  intros [A B C D F G]. constructor; try (destruct b; assumption). intros r bc X. destruct b, r; cbn in X; try discriminate X; first [exact (G CStored bc X)|exact (G CImmediate bc X)].
Qed.
Lemma forall_syms (P : symbol -> Prop) st : (forall id s, symbol_at st id = Some s -> P s) -> Forall P (st_syms st).
Proof.
  intros H. apply Forall_forall. intros s X. apply In_nth_error in X as (n & X). apply (H (N.of_nat n)). unfold symbol_at. rewrite Nat2N.id. exact X.
Qed.
Lemma trim_values b u : values_ok u -> values_ok (trim b u).
Proof.
  intros [A1 A2 A3 A4 A5 A6 A7]. constructor; try (destruct b; assumption). intros r bc X. destruct b, r; cbn in X; try discriminate X; first [exact (A6 CStored bc X)|exact (A6 CImmediate bc X)].
Qed.
Lemma clean_alike g L P o1 o2 e1 e2 w1 w2 : alike L P o1 o2 e1 e2 w1 w2 -> sigs (v_st w2) = g -> clean g w1 -> values_ok w2 -> clean g (trim true w2).
Proof.
  intros AL SG [T V A F H] V2. pose proof (al_st _ _ _ _ _ _ _ _ AL) as TA. pose proof (al_stored _ _ _ _ _ _ _ _ AL) as ST.
  assert (SY : forall (Q : symbol -> Prop) t, (forall s1 s2, sym_alike s1 s2 -> Q s1 -> Q s2) -> Forall Q (st_syms (v_st w1)) -> t = v_st w2 -> Forall Q (st_syms t)).
  { intros Q t HQ FQ ->. apply forall_syms. intros id s2 X. destruct (TA id s2 X) as (s1 & X1 & S1). apply (HQ s1 s2 S1). exact (VmTyping.Forall_nth _ _ _ _ FQ X1). }
  constructor.
  - destruct T as [T1 T2 T3 T4 T5]. constructor; try change (v_for (trim true w2)) with (v_for w2); try change (v_fn (trim true w2)) with (v_fn w2).
    + exact SG.
    + apply (SY (fits g) _); [|exact T2|reflexivity]. intros s1 s2 (S1 & S2 & S3) X. unfold sig_of in S1. injection S1 as S11 S12 S13 S14.
      unfold fits in *. rewrite S13, S14, S2 in X. destruct S3 as [S3|(D & K & TY & _ & (y & S3))]; [rewrite S3 in X; exact X|].
      rewrite K, TY. destruct (s_val s2); try discriminate S3; exact Logic.I.
    + rewrite <- (al_for _ _ _ _ _ _ _ _ AL). exact T3.
    + intros X. destruct (al_fn _ _ _ _ _ _ _ _ AL) as [FC FP]. destruct (FP X) as (FP1 & _). rewrite <- FP1. apply T4. rewrite FC. exact X.
    + intros [| |] bc X; cbn in X; try discriminate X. apply (T5 CStored). cbn [code_of]. rewrite ST. exact X.
  - apply trim_values, V2.
  - unfold arrays_ok in *. refine (SY _ _ _ A eq_refl). cbv beta. intros s1 s2 (_ & _ & S3) X. destruct S3 as [S3|(_ & _ & _ & _ & (y & S3))]; [rewrite S3 in X; exact X|].
    destruct (s_val s2); try discriminate S3; exact Logic.I.
  - split; [|intros bc X; discriminate X]. refine (SY _ _ _ (proj1 F) eq_refl). intros s1 s2 (S1 & _ & S3) X. unfold sound_fn in *. unfold sig_of in S1. injection S1 as S11 S12 S13 S14.
    destruct S3 as [S3|(_ & _ & _ & _ & (y & S3))]; [rewrite S3, S14 in X; exact X|]. destruct (s_val s2); try discriminate S3; exact Logic.I.
  - intros [| |] bc N X; cbn in X; try discriminate X. apply (H CStored bc N). cbn [code_of]. rewrite ST. exact X.
Qed.

(* a run, seen from the prompt *)
Lemma prompt_clean g b E fuel brk u r w : env_ok E -> kinded (v_st u) u -> nowhere CDef u -> (b = true -> nowhere CImmediate u) -> sigs (v_st u) = g -> values_ok u -> clean g (trim b u) ->
  (forall l x, runs E (set_stopped false u) l x -> ~ wraps x) -> run E fuel brk u = (r, w) -> r <> Crash -> values_ok w /\ clean g (trim true w).
Proof.
  intros EO K D I SG V C NW R NC. destruct (trim_alike b u D I) as [A1 A2].
  pose proof (vo_run E fuel brk EO u V) as VW. rewrite R in VW. cbn [snd] in VW. split; [exact VW|].
  assert (NB : forall l x, runs E (set_stopped false (trim b u)) l x -> ~ wraps x).
  { intros l x RX WX. assert (T : twin (v_out u) (v_out u) (v_err u) (v_err u) (set_stopped false u) (set_stopped false (trim b u))) by (left; apply al_stop0, A1).
    assert (KT : kinded (v_st u) (set_stopped false (trim b u))) by (apply kd_keeps_set; [repeat keeps_more|apply trim_kinded, K]).
    destruct (twin_runs _ _ _ _ _ _ _ _ _ RX _ KT T) as (l1 & x1 & R1 & T1). exact (NW l1 x1 R1 (twin_wraps _ _ _ _ _ _ T1 WX)). }
  pose proof (clean_run g E fuel brk (trim b u) EO NB C) as CW.
  pose proof (twin_run (v_st u) E fuel brk _ _ _ _ (trim b u) u K (or_introl A2)) as T. rewrite R in T. destruct (run E fuel brk (trim b u)) as [r1 w1].
  destruct T as [T|[-> T]]; [destruct (NC T)|]. cbn [snd] in CW. apply (clean_alike g _ _ _ _ _ _ _ _ T); [|exact CW|exact VW].
  pose proof (kd_run (v_st u) E fuel brk u K) as KW. rewrite R in KW. unfold after in KW. cbn [fst snd] in KW. rewrite <- SG. apply (kn_sigs (v_st u)). destruct r; try exact KW. destruct (NC eq_refl).
Qed.

(* ---------- more names ---------- *)

Definition grows (g g' : list sig) : Prop := forall id k t, k <> KUnknown -> sg_kind g id k t -> sg_kind g' id k t.
Lemma changes_grows st st' : changes st st' -> grows (sigs st) (sigs st').
Proof.
  intros C id k t NU (nm & i & E). unfold sigs in E. rewrite nth_error_map in E. destruct (nth_error (st_syms st) (N.to_nat id)) as [s|] eqn:Q; [|discriminate E].
  cbn [option_map] in E. unfold sig_of in E. injection E as E1 E2 E3 E4. destruct (changes_evolves _ _ C _ _ Q) as (s' & Q' & (A1 & A2 & A3 & A4 & _)).
  exists nm, i. unfold sigs. rewrite nth_error_map, Q'. cbn [option_map]. unfold sig_of. destruct A4 as [A4|A4]; [congruence|]. rewrite A1, A2, A3, A4, E1, E2, E3, E4. reflexivity.
Qed.
Section Grow.
Variables (g g' : list sig).
Hypothesis GR : grows g g'.
Lemma grow_instr i : instr_ok g i -> instr_ok g' i.
Proof.
  assert (V : forall id n t, var_ok g id n t -> var_ok g' id n t).
  { intros id n t [[A B]|[A B]]; [left|right]; (split; [exact A|]); apply GR; try discriminate; exact B. }
  destruct i; cbn [instr_ok]; try exact (fun x => x); try (intros H; apply GR; [discriminate|exact H]); try apply V.
  all: try (intros [H1 H2]; split; [exact H1|apply GR; [discriminate|exact H2]]).
  all: try (intros [[H1 H2]|H]; [left; split; [exact H1|]|right]; (apply GR; [discriminate|assumption])).
  intros (t & H). exists t. apply GR; [discriminate|exact H].
Qed.
Lemma grow_code l : code_ok g l -> code_ok g' l.
Proof. intros [A B]. split; [|exact B]. eapply Forall_impl; [|exact A]. apply grow_instr. Qed.
Lemma grow_tail l n s a : tail g l n s a -> tail g' l n s a.
Proof.
  induction 1; [constructor|eapply T_plain; eassumption|eapply T_leap; eassumption|constructor; assumption|constructor; assumption|constructor; assumption|apply T_on; assumption|].
  eapply T_def; [eassumption| |assumption]. apply GR; [discriminate|assumption].
Qed.
Lemma grow_body t l : body_of g t l -> body_of g' t l.
Proof. intros (id & p & b & E & F & S). exists id, p, b. split; [exact E|]. split; [exact F|]. apply GR; [discriminate|exact S]. Qed.
Lemma grow_fn s : sound_fn g s -> sound_fn g' s.
Proof. unfold sound_fn. destruct (s_val s); auto. apply grow_body. Qed.
End Grow.

Section All.
Variable Q : vtype -> sval -> Prop.
Hypothesis Q0 : forall t, Q t VZero.
Definition all_q (st : symtab) : Prop := Forall (fun s => Q (s_type s) (s_val s)) (st_syms st).
Lemma name_step_all st st' : name_step st st' -> all_q st -> all_q st'.
Proof.
  unfold all_q. intros [st0 name paren k C B | st0 p s k E U K] F.
  - unfold use_name. destruct (sym_lookup st0 name paren); [exact F|]. cbn [fst sym_insert st_syms]. apply Forall_app. split; [exact F|].
    constructor; [|constructor]. apply Q0.
  - cbn [sym_update st_syms]. apply Forall_list_upd; [exact F|]. exact (VmTyping.Forall_nth _ _ _ _ F E).
Qed.
Lemma parsed_all src st kw bc e st' : fine st -> parse_source src st kw = PoOk bc e st' -> all_q st -> all_q st'.
Proof.
  intros F P A. pose proof (parse_source_ok src st kw F) as H. rewrite P in H.
  assert (X : exists st1, names st st1 /\ st' = sym_make_unknown_array st1).
  { destruct bc as [bc|]; [destruct H as (_ & xss & st1 & _ & N & -> & _) | destruct H as (_ & st1 & N & ->)]; eauto. }
  destruct X as (st1 & N & ->). assert (A1 : all_q st1) by (clear - N A Q0; induction N; [exact A|]; eapply name_step_all; [eassumption|auto]).
  unfold all_q in *. cbn [sym_make_unknown_array st_syms]. apply Forall_map. eapply Forall_impl; [|exact A1]. cbv beta. intros s X. destruct (skind_eqb (s_kind s) KUnknown); exact X.
Qed.
End All.

Lemma fits_split g s : fits g s -> match s_val s with VDef d => code_ok g (bc_inst (def_bcode d)) | _ => True end.
Proof. unfold fits. destruct (s_kind s), (s_type s), (s_val s); try exact (fun _ => Logic.I); try tauto; try (intros [H _]; discriminate H). Qed.
Lemma fits_join g s : wfits s -> match s_val s with VDef d => code_ok g (bc_inst (def_bcode d)) | _ => True end -> fits g s.
Proof.
  unfold fits, wfits. destruct (s_kind s), (s_type s); auto; destruct (s_val s) as [| | | | |d|]; auto; intros (D & pid & id & n & b & E & _) C; (split; [exact D|split; [exact C|]]); exists pid; rewrite E; reflexivity.
Qed.
Lemma clean_grow src kw bc e st' v : fine (v_st v) -> parse_source src (v_st v) kw = PoOk bc e st' -> Forall wfits (st_syms (v_st v)) ->
  clean (sigs (v_st v)) v -> clean (sigs st') (set_st st' v).
Proof.
  intros F P W [T V A FN H]. destruct (parsed_table _ _ _ _ _ _ F P) as (F' & C & W'). specialize (W' W). pose proof (changes_grows _ _ C) as GR.
  assert (AL : forall Q : vtype -> sval -> Prop, (forall t, Q t VZero) -> all_q Q (v_st v) -> all_q Q st') by (intros Q Q0; exact (parsed_all Q Q0 _ _ _ _ _ _ F P)).
  constructor.
  - destruct T as [T1 T2 T3 T4 T5]. constructor.
    + reflexivity.
    + change (v_st (set_st st' v)) with st'.
      pose proof (AL (fun _ x => match x with VDef d => code_ok (sigs st') (bc_inst (def_bcode d)) | _ => True end) (fun _ => Logic.I)) as X.
      assert (Y : all_q (fun _ x => match x with VDef d => code_ok (sigs st') (bc_inst (def_bcode d)) | _ => True end) (v_st v)).
      { unfold all_q. eapply Forall_impl; [|exact T2]. cbv beta. intros s Z. apply fits_split in Z. destruct (s_val s); auto. exact (grow_code _ _ GR _ Z). }
      specialize (X Y). unfold all_q in X. rewrite Forall_forall in X, W' |- *. intros s I. apply fits_join; [exact (W' s I)|exact (X s I)].
    + eapply Forall_impl; [|exact T3]. cbv beta. intros f. apply GR. discriminate.
    + intros X. apply GR; [discriminate|exact (T4 X)].
    + intros r b X. apply (grow_code _ _ GR). apply (T5 r b). destruct r; exact X.
  - destruct V as [V1 V2 V3 V4 V5 V6 V7]. constructor; try assumption.
    exact (AL (fun _ x => value_ok x) (fun _ => Logic.I) V1).
  - exact (AL (fun _ x => match x with VNumArr a => sound_array a | VStrArr a => sound_array a | _ => True end) (fun _ => Logic.I) A).
  - destruct FN as [FN1 FN2]. split.
    + assert (Y : all_q (fun t x => match x with VDef d => body_of (sigs st') t (bc_inst (def_bcode d)) | _ => True end) (v_st v)).
      { unfold all_q. eapply Forall_impl; [|exact FN1]. unfold sound_fn. cbv beta. intros s Z. destruct (s_val s); auto. exact (grow_body _ _ GR _ _ Z). }
      exact (AL _ (fun _ => Logic.I) Y).
    + intros b X. destruct (FN2 b X) as (t & Z). exists t. exact (grow_body _ _ GR _ _ Z).
  - intros r b N X. apply (grow_tail _ _ GR). apply (H r b N). destruct r; exact X.
Qed.

(* ---------- places to go on ---------- *)

Lemma tail_on g l n s a : tail g l n s a -> forall p b k, nth_error l p = Some (on_instr b k) -> tail g (skipn (S p + k) l) 0 0 false.
Proof.
  assert (ND : forall b k, leap (on_instr b k) = None /\ effect (on_instr b k) = None) by (intros [] k; split; reflexivity).
  induction 1 as [n s a|i l n s a p q c d H P WL Q R T IH|i l n s a k H K T IH|t l n s a T IH|l n s T IH|id k l n s K T IH|b lines l n s a N LL T IH|id p b l n s a t F G T IH];
    intros m b0 k0 E.
  - destruct m; discriminate E.
  - destruct m as [|m]; cbn in E; [injection E as ->; destruct (ND b0 k0); congruence|]. exact (IH m b0 k0 E).
  - destruct m as [|m]; cbn in E; [injection E as ->; destruct (ND b0 k0); congruence|]. exact (IH m b0 k0 E).
  - destruct m as [|m]; cbn in E; [destruct b0; discriminate E|]. exact (IH m b0 k0 E).
  - destruct m as [|m]; cbn in E; [destruct b0; discriminate E|]. exact (IH m b0 k0 E).
  - destruct m as [|m]; cbn in E; [destruct b0; discriminate E|]. exact (IH m b0 k0 E).
  - destruct m as [|m]; cbn [nth_error] in E.
    + assert (k0 = length lines) as -> by (destruct b, b0; injection E as E; congruence). cbn [Nat.add skipn].
      rewrite skipn_app, skipn_all2 by (rewrite map_length; lia). rewrite map_length, Nat.sub_diag. exact T.
    + destruct (Nat.lt_ge_cases m (length lines)) as [LT|GE].
      * rewrite nth_error_app1 in E by (rewrite map_length; exact LT). rewrite nth_error_map in E. destruct (nth_error lines m), b0; discriminate E.
      * rewrite nth_error_app2 in E by (rewrite map_length; exact GE). rewrite map_length in E. match goal with |- tail _ (skipn _ (_ :: ?L)) _ _ _ => change (tail g (skipn (S m + k0) L) 0 0 false) end.
        rewrite skipn_app, skipn_all2 by (rewrite map_length; lia). rewrite map_length. cbn [app].
        replace (S m + k0 - length lines) with (S (m - length lines) + k0) by lia. exact (IH _ b0 k0 E).
  - destruct m as [|[|m]]; cbn [nth_error] in E; [destruct b0; discriminate E|destruct b0; discriminate E|]. match goal with |- tail _ (skipn _ (_ :: _ :: ?L)) _ _ _ => change (tail g (skipn (S m + k0) L) 0 0 false) end.
    destruct (Nat.lt_ge_cases m (length b)) as [LT|GE].
    + exfalso. rewrite nth_error_app1 in E by exact LT. clear - F E ND. revert m E. induction F as [|i l n s n' s' p q c d H WL P Q F IH]; intros m E; [destruct m; discriminate E|].
      destruct m as [|m]; cbn in E; [injection E as ->; destruct (ND b0 k0); congruence|exact (IH m E)].
    + rewrite nth_error_app2 in E by exact GE. rewrite skipn_app, skipn_all2 by lia. cbn [app].
      destruct (m - length b) as [|q] eqn:Q; cbn [nth_error] in E; [destruct b0; discriminate E|].
      replace (S m + k0 - length b) with (S (S q + k0)) by lia. exact (IH q b0 k0 E).
Qed.
Lemma after_gosub_begins g l pc : tail g l 0 0 false -> after_gosub l pc -> tail g (skipn pc l) 0 0 false.
Proof.
  intros T (q & [[(n & E) ->]|(k & E & ->)]).
  - replace (q + 1) with (S q) by lia. eapply tail_leap; [exact T|exact E|reflexivity].
  - replace (q + k + 1) with (S q + k) by lia. exact (tail_on _ _ _ _ _ T q true k E).
Qed.
Lemma at_for_begins g l pc id : tail g l 0 0 false -> nth_error l pc = Some (I_FOR id) -> tail g (skipn (S pc) l) 0 0 false.
Proof. intros T E. eapply tail_leap; [exact T|exact E|reflexivity]. Qed.

(* the index leads to the beginnings of lines *)
Lemma latest_in kvs k v : latest_entry kvs k = Some v -> In (k, v) kvs.
Proof.
  induction kvs as [|[a b] kvs IH]; cbn [latest_entry]; [discriminate|]. destruct (latest_entry kvs k) as [w|].
  - intros H. injection H as ->. right. apply IH. reflexivity.
  - destruct (k =? a)%N eqn:E; [|discriminate]. intros H. injection H as ->. left. f_equal. symmetry. apply N.eqb_eq, E.
Qed.
Lemma index_begins g kw st src xss st1 bc idx : program_is kw st (map ln_text src) xss st1 -> bc_inst bc = pcode 0 xss -> bcode_index bc src = Some idx ->
  tail g (pcode 0 xss) 0 0 false -> forall n i, lookup_line_mapping idx n = Some i -> tail g (skipn (N.to_nat i) (bc_inst bc)) 0 0 false.
Proof.
  intros P E I T n p. pose proof (program_plain _ _ _ _ _ P) as PL. pose proof (program_length _ _ _ _ _ P) as LE. rewrite map_length in LE.
  unfold bcode_index in I. rewrite E in I. unfold line_count in I. rewrite (pcode_markers _ PL), map_length, seq_length in I.
  rewrite (index_loop src xss 0 0) in I by (auto; lia). cbn [plus] in I. injection I as <-.
  match goal with |- lookup_line_mapping (fold_left insert_try ?kvs (new_line_map ?c)) n = _ -> _ => change (fold_left insert_try kvs (new_line_map c)) with (insert_all c kvs); set (K := kvs) end.
  rewrite line_map_latest, Nat2N.id. rewrite firstn_all2 by (unfold K; rewrite map_length, seq_length; lia).
  intros H. apply latest_in in H. unfold K in H. apply in_map_iff in H as (k & H & S). injection H as _ <-. rewrite Nat2N.id. apply in_seq in S.
  rewrite E. apply (tail_marker g (pcode 0 xss) 0 0 false (line_start xss k) k T). pose proof (line_start_code xss k ltac:(lia)) as X. rewrite <- (Nat.add_0_r (line_start xss k)), <- nth_error_skipn, X. reflexivity.
Qed.

(* ---------- compiled code ---------- *)

Lemma code_from kw st0 src xss st1 : fine st0 -> program_is kw st0 src xss st1 -> fit xss (sym_make_unknown_array st1) ->
  code_ok (sigs (sym_make_unknown_array st1)) (pcode 0 xss) /\ tail (sigs (sym_make_unknown_array st1)) (pcode 0 xss) 0 0 false.
Proof.
  intros F P ((FN & FS & PT) & ON).
  assert (FN1 : few_names st1) by (unfold few_names in *; cbn [sym_make_unknown_array st_syms] in FN; rewrite map_length in FN; exact FN).
  split; [exact (compiled_code _ _ _ _ _ F P FN1 FS PT)|].
  pose proof (program_good st1 FN1 _ _ _ _ _ P F (Nm_refl _)) as W. apply pcode_tail; [exact W|].
  apply Forall_forall. intros xs I. rewrite Forall_forall in W, PT, ON. specialize (W xs I). specialize (PT xs I). specialize (ON xs I). rewrite Forall_forall in W, PT, ON.
  apply Forall_forall. intros x J. exact (solid_stmt _ _ (W x J) (PT x J) (ON x J)).
Qed.
Definition indexed (v : vm) : Prop := forall x n i, c_index (v_stored v) = Some x -> lookup_line_mapping x n = Some i ->
  exists bc, c_bcode (v_stored v) = Some bc /\ tail (sigs (v_st v)) (skipn (N.to_nat i) (bc_inst bc)) 0 0 false.
Lemma indexed_grow st' v : changes (v_st v) st' -> indexed v -> indexed (set_st st' v).
Proof. intros C H x n i X L. destruct (H x n i X L) as (bc & B & T). exists bc. split; [exact B|]. exact (grow_tail _ _ (changes_grows _ _ C) _ _ _ _ T). Qed.

(* ---------- at the prompt ---------- *)

Section Tidy.
Variable o : options.
Local Notation good := (good o False False).

Definition tidy (v : vm) : Prop := values_ok v /\ (ready v -> clean (sigs (v_st v)) (trim true v) /\ indexed v).
Definition neat (s : sess) : Prop := good s /\ tidy (ss_vm s).

(* what matters of a machine *)
Definition core (v : vm) := (v_st v, v_for v, v_fn v, (v_stored v, v_imm v, v_def v), (v_stack v, v_sstack v, v_input v)).
Lemma core_cs c v : core (set_cs c v) = core v.
Proof. reflexivity. Qed.
Lemma core_stopped b v : core (set_stopped b v) = core v.
Proof. reflexivity. Qed.
Lemma values_core v w : core w = core v -> values_ok v -> values_ok w.
Proof.
  unfold core. intros K [V1 V2 V3 V4 V5 V6 V7]. injection K as K1 K2 K3 K4 K5 K6 K7 K8 K9.
  constructor; rewrite ?K1, ?K2, ?K3, ?K7, ?K8, ?K9; try assumption. intros r bc X. apply (V6 r bc). destruct r; cbn [code_of] in *; congruence.
Qed.
Lemma clean_core g v w : core w = core v -> clean g v -> clean g w.
Proof. intros K C. apply (clean_set g (fun x => x) v) in C; [|reflexivity]. unfold core in K. injection K as K1 K2 K3 K4 K5 K6 K7 K8 K9. destruct C as [TY VO AO FN SH]. constructor.
  - destruct TY as [T1 T2 T3 T4 T5]. constructor; rewrite ?K1, ?K2, ?K3; try assumption. intros r bc X. apply (T5 r bc). destruct r; cbn [code_of] in *; congruence.
  - apply (values_core v); [unfold core; congruence|exact VO].
  - unfold arrays_ok. rewrite K1. exact AO.
  - unfold sound_fns. rewrite K1, K6. exact FN.
  - exact (shaped_same g v w K4 K5 SH).
Qed.
Lemma trim_core b v w : core w = core v -> core (trim b w) = core (trim b v).
Proof. unfold core. intros K. injection K as K1 K2 K3 K4 K5 K6 K7 K8 K9. destruct b; cbn; congruence. Qed.
Lemma tidy_core v w : core w = core v -> tidy v -> tidy w.
Proof.
  intros K [V C]. split; [exact (values_core v w K V)|]. pose proof K as K'. unfold core in K'. injection K' as K1 K2 K3 K4 K5 K6 K7 K8 K9. intros R.
  assert (RV : ready v) by (unfold ready in *; rewrite <- K4; exact R). destruct (C RV) as [C1 C2]. split.
  - rewrite K1. apply (clean_core _ (trim true v)); [apply trim_core, K|exact C1].
  - unfold indexed. rewrite K1, K4. exact C2.
Qed.
Lemma tidy_stale v src : values_ok v -> tidy (stored_program_changed (set_source src v)).
Proof.
  intros [V1 V2 V3 V4 V5 V6 V7]. split.
  - constructor; try assumption. intros [| |] bc X; cbn in X; [discriminate X|exact (V6 CImmediate bc X)|exact (V6 CDef bc X)].
  - intros [R|R]; [discriminate R|]. destruct R. reflexivity.
Qed.

(* ---------- a machine in which nothing has a value ---------- *)

Lemma values_idle v st c : values_ok v -> Forall (fun s => value_ok (s_val s)) (st_syms st) -> (forall bc, c_bcode c = Some bc -> consts_ok bc) ->
  values_ok (set_stored c (set_st st v)).
Proof.
  intros [V1 V2 V3 V4 V5 V6 V7] S C. constructor; try assumption. intros [| |] bc X; cbn in X; [exact (C bc X)|exact (V6 CImmediate bc X)|exact (V6 CDef bc X)].
Qed.
Lemma unset_values st : Forall RunProofs.unset (st_syms st) -> Forall wfits (st_syms st) ->
  Forall (fun s => value_ok (s_val s)) (st_syms st) /\ Forall (fun s => match s_val s with VNumArr a => sound_array a | VStrArr a => sound_array a | _ => True end) (st_syms st) /\
  Forall (fits (sigs st)) (st_syms st) /\ Forall (sound_fn (sigs st)) (st_syms st).
Proof.
  intros U W. rewrite Forall_forall in U, W. rewrite !Forall_forall.
  assert (K : forall s, In s (st_syms st) -> match s_val s with VZero | VBuiltin _ _ => True | _ => False end).
  { intros s I. specialize (U s I). specialize (W s I). unfold wfits in W. destruct U as [B|[V _]]; [rewrite B in W; destruct (s_val s); try contradiction; exact Logic.I|rewrite V; exact Logic.I]. }
  split; [|split; [|split]]; intros s I; specialize (K s I).
  - destruct (s_val s); try contradiction; exact Logic.I.
  - destruct (s_val s); try contradiction; exact Logic.I.
  - apply fits_join; [exact (W s I)|]. destruct (s_val s); try contradiction; exact Logic.I.
  - unfold sound_fn. destruct (s_val s); try contradiction; exact Logic.I.
Qed.
Lemma clean_unset v : Forall RunProofs.unset (st_syms (v_st v)) -> Forall wfits (st_syms (v_st v)) -> v_for v = [] -> cs_code (fn_cs (v_fn v)) = None -> values_ok v ->
  (forall bc, c_bcode (v_stored v) = Some bc -> code_ok (sigs (v_st v)) (bc_inst bc) /\ tail (sigs (v_st v)) (bc_inst bc) 0 0 false) -> clean (sigs (v_st v)) (trim true v).
Proof.
  intros U W F N V C. destruct (unset_values _ U W) as (_ & A & T & S). constructor.
  - constructor.
    + reflexivity.
    + exact T.
    + change (v_for (trim true v)) with (v_for v). rewrite F. constructor.
    + intros X. destruct (X N).
    + intros [| |] bc X; cbn in X; try discriminate X. exact (proj1 (C bc X)).
  - apply trim_values, V.
  - exact A.
  - split; [exact S|]. intros bc X. discriminate X.
  - intros [| |] bc D X; cbn in X; try discriminate X. exact (proj2 (C bc X)).
Qed.

(* ---------- compiling ---------- *)

Lemma values_reset v : values_ok v -> values_ok (reset_control_state v).
Proof.
  intros [V1 V2 V3 V4 V5 V6 V7]. constructor; try assumption; constructor.
Qed.
Lemma clean_reset g v : values_ok v -> clean g (trim true v) -> clean g (trim true (reset_control_state v)).
Proof.
  intros V1 [[T1 T2 T3 T4 T5] CV CA CF CS]. constructor.
  - constructor; try assumption; [constructor|]. intros X. destruct (X eq_refl).
  - apply trim_values, values_reset, V1.
  - exact CA.
  - exact CF.
  - exact CS.
Qed.
Lemma tidy_reset v : tidy v -> tidy (reset_control_state v).
Proof. intros [V C]. split; [apply values_reset, V|]. intros R. destruct (C R) as [C1 C2]. split; [exact (clean_reset _ _ V C1)|exact C2]. Qed.
Lemma table_values src e bc st kw : parse_source src (init_builtins new_symbol_table) kw = PoOk bc e st ->
  Forall RunProofs.unset (st_syms st) /\ Forall wfits (st_syms st) /\ Forall (fun s => value_ok (s_val s)) (st_syms st).
Proof.
  intros P. destruct (parsed_table _ _ _ _ _ _ fine_init P) as (_ & _ & W). specialize (W init_wfits).
  pose proof (parsed_unset_from _ _ _ _ _ _ fine_init init_unset P) as U. split; [exact U|]. split; [exact W|]. exact (proj1 (unset_values _ U W)).
Qed.
Lemma fresh_tidy src bc idx st v : values_ok v -> parse_source src (init_builtins new_symbol_table) (o_anywhere o) = PoOk (Some bc) None st -> bcode_index bc src = Some idx ->
  (forall xss st, statements_of o src xss st -> exists yss, statements_of o src yss st /\ fit yss st) -> tidy (fresh_code src bc idx st v).
Proof.
  intros V P I FI. destruct (table_values _ _ _ _ _ P) as (U & W & VS). pose proof (compile_outcome src _ (o_anywhere o) fine_init) as CO. rewrite P in CO. destruct CO as [_ CO].
  assert (VO : values_ok (fresh_code src bc idx st v)).
  { unfold fresh_code. apply values_reset, values_idle; [exact V|exact VS|]. intros b X. cbn in X. injection X as <-. exact (compiled_consts _ _ _ _ _ CO). }
  destruct CO as [_ (xss0 & st0 & PI0 & ST0 & B0 & _)].
  destruct (FI xss0 st) as (xss & (bc' & st1 & P' & PI & ST & B) & FT); [exists bc, st0; split; [exact P|]; auto|]. unfold compiling in P'. rewrite P in P'. injection P' as <-.
  rewrite ST in FT. destruct (code_from _ _ _ _ _ fine_init PI FT) as [CK TL]. rewrite <- ST, <- B in *.
  split; [exact VO|]. intros _. split.
  - apply clean_unset; try assumption; try reflexivity. intros b X. cbn in X. injection X as <-. auto.
  - intros x n i X L. cbn in X. injection X as <-. exists bc. split; [reflexivity|]. rewrite B in TL. exact (index_begins _ _ _ _ _ _ _ _ PI B I TL n i L).
Qed.
Lemma ensure_neat s : neat s -> program_fit o s -> match ensure_program_compiled s with XOk b s' => neat s' /\ (b = true -> ready (ss_vm s')) | _ => True end.
Proof.
  intros [G T] PF. pose proof (ensure_good o False False s G) as EG.
  assert (H : match ensure_program_compiled s with XOk b s' => tidy (ss_vm s') | _ => True end).
  { destruct (ensure_cases o False False s G) as [[R ->]|(src & S & H)]; [exact T|].
    destruct (parse_source _ _ _) as [[bc|] e st | | |] eqn:PS.
    - destruct H as (-> & idx & I & ->). cbn [ss_vm set_vm]. apply fresh_tidy; [exact (proj1 T)|exact PS|exact I|]. intros xss st0. apply PF. rewrite S. reflexivity.
    - destruct H as (x & -> & ->). cbn [ss_vm]. destruct (table_values _ _ _ _ _ PS) as (_ & _ & VS). destruct T as [[V1 V2 V3 V4 V5 V6 V7] _]. split.
      + constructor; assumption.
      + intros [R|R]; cbn [set_st v_stored] in R; rewrite S in R; [discriminate R|destruct R; reflexivity].
    - destruct H as (s' & -> & _). exact Logic.I.
    - destruct H as (s' & -> & _). exact Logic.I.
    - destruct H. }
  destruct (ensure_program_compiled s); try exact Logic.I. destruct EG as [E1 E2]. split; [split; assumption|exact E2].
Qed.

(* ---------- running ---------- *)

Lemma pending_nowhere allowed r u : pending_in allowed u -> ~ allowed r -> cs_code (v_cs u) <> Some r -> nowhere r u.
Proof.
  intros [R F N P] NA C. assert (X : forall h c, place_in u allowed h c -> elsewhere r c) by (intros h c (q & Q1 & Q2 & _) Z; apply NA; congruence).
  split; [exact C|]. split; [eapply Forall_impl; [|exact R]; intros c; apply X|]. split; [eapply Forall_impl; [|exact F]; intros f; apply X|].
  destruct (cs_code (fn_cs (v_fn u))) eqn:Q; [|unfold elsewhere; congruence]. eapply X. apply N. congruence.
Qed.
Lemma run_tidy b E fuel brk u r w : env_ok E -> live u -> nowhere CDef u -> (b = true -> nowhere CImmediate u) -> values_ok u -> clean (sigs (v_st u)) (trim b u) -> indexed u ->
  (forall l x, runs E (set_stopped false u) l x -> ~ wraps x) -> run E fuel brk u = (r, w) -> r <> Crash -> tidy w.
Proof.
  intros EO [_ K] ND NI V C IX NW R NC. destruct (prompt_clean _ b E fuel brk u r w EO K ND NI eq_refl V C NW R NC) as [V' C'].
  pose proof (kd_run (v_st u) E fuel brk u K) as KW. pose proof (run_stays E fuel brk u) as S. rewrite R in KW, S. unfold after in KW. cbn [fst snd] in KW, S.
  assert (SG : sigs (v_st w) = sigs (v_st u)) by (apply (kn_sigs (v_st u)); destruct r; try exact KW; destruct (NC eq_refl)).
  split; [exact V'|]. intros _. rewrite SG. split; [exact C'|]. unfold indexed. apply stays_split in S. destruct S as (S1 & _). rewrite SG, S1. exact IX.
Qed.
Lemma run_program_neat E fuel s : env_ok E -> neat s -> program_fit o s ->
  (forall t l x, stored_source (ss_vm s) <> None -> ensure_program_compiled s = XOk true t -> runs E (set_stopped false (about_to_run (ss_vm t))) l x -> ~ wraps x) ->
  match (run_program E fuel ;;; xret false) s with XOk _ s' => neat s' | _ => True end.
Proof.
  intros EO NE PF NW. assert (GG : match (run_program E fuel ;;; xret false) s with XOk _ s' => good s' | _ => True end).
  { pose proof (xsafe_bind o False False _ (fun _ => xret false) (xsafe_run_program o False False E fuel) (fun _ => xsafe_ret o False False false) s (proj1 NE)) as X. exact X. }
  assert (H : match (run_program E fuel ;;; xret false) s with XOk _ s' => tidy (ss_vm s') | _ => True end).
  { rewrite run_program_eq. destruct (stored_source (ss_vm s)) as [src|] eqn:SS; [|exact (proj2 NE)].
    pose proof (ensure_neat s NE PF) as EN. destruct (ensure_program_compiled s) as [[|] t| | |] eqn:EC; try exact Logic.I; [|exact (proj2 (proj1 EN))].
    destruct EN as [[G1 [V1 C1]] R1]. specialize (R1 eq_refl). destruct (C1 R1) as [CL IX]. rewrite with_run_ran. destruct (ready_live _ _ _ _ G1 R1) as [L J].
    destruct (run E fuel (next_break t) (about_to_run (ss_vm t))) as [r w] eqn:R.
    assert (PC : pending_in (eq CStored) (about_to_run (ss_vm t))) by (apply pending_idle_cs, idle_pending, idle_reset).
    assert (Y : r <> Crash -> tidy w).
    { intros NC. refine (run_tidy true E fuel _ (about_to_run (ss_vm t)) r w EO _ _ _ _ _ _ _ R NC).
      - apply live_cs, live_reset, L.
      - apply (pending_nowhere _ _ _ PC); discriminate.
      - intros _. apply (pending_nowhere _ _ _ PC); discriminate.
      - apply (values_core (reset_control_state (ss_vm t))); [apply core_cs|]. apply values_reset, V1.
      - apply (clean_core _ (trim true (reset_control_state (ss_vm t)))); [apply trim_core, core_cs|]. apply clean_reset; assumption.
      - exact IX.
      - intros l x. apply (NW t); [discriminate|reflexivity]. }
    unfold ran. destruct r; cbn; try exact Logic.I; apply Y; discriminate. }
  destruct ((run_program E fuel ;;; xret false) s); try exact Logic.I. split; assumption.
Qed.

Lemma continue_neat E fuel rest s : env_ok E -> neat s -> (forall u l x, called s (MCommand C_CONT rest) u -> runs E u l x -> ~ wraps x) ->
  match continue_program E fuel s with XOk _ s' => neat s' | _ => True end.
Proof.
  intros EO [G [V C]] NW. pose proof (xsafe_continue o False False E fuel s G) as GG.
  assert (H : match continue_program E fuel s with XOk _ s' => tidy (ss_vm s') | _ => True end).
  { unfold continue_program, with_run. rewrite vm_continue_eq. destruct (cs_code (v_stopcs (ss_vm s))) as [r0|] eqn:S; [|split; assumption].
    assert (R0 : r0 = CStored) by (destruct (proj2 (proj2 (proj2 (pr_refs _ _ _ _ G)))) as [X|X]; congruence). subst r0.
    cbn [code_of]. destruct (c_bcode (v_stored (ss_vm s))) as [bc|] eqn:B; [|split; assumption].
    assert (R : ready (ss_vm s)) by (right; congruence). destruct (ready_live _ _ _ _ G R) as [L J]. destruct (C R) as [CL IX].
    destruct (nth_error (bc_inst bc) (cs_pc (v_stopcs (ss_vm s)))) as [i|] eqn:NE; [|exact Logic.I].
    match goal with |- context [run E fuel ?b ?x] => destruct (run E fuel b x) as [r w] eqn:X; set (u := x) in X end.
    assert (PC : pending_in (eq CStored) u) by (apply pending_idle_cs, J).
    assert (Y : r <> Crash -> tidy w).
    { intros NC. refine (run_tidy true E fuel _ u r w EO _ _ _ _ _ _ _ X NC).
      - apply live_cs, L.
      - apply (pending_nowhere _ _ _ PC); discriminate.
      - intros _. apply (pending_nowhere _ _ _ PC); discriminate.
      - apply (values_core (ss_vm s)); [apply core_cs|exact V].
      - apply (clean_core _ (trim true (ss_vm s))); [apply trim_core, core_cs|exact CL].
      - exact IX.
      - intros l x. apply (NW (set_stopped false u)). unfold u. eapply Cl_cont; [exact S|exact B|exact NE]. }
    destruct r; cbn; try exact Logic.I; apply Y; discriminate. }
  destruct (continue_program E fuel s); try exact Logic.I. split; assumption.
Qed.

(* statements *)
Lemma clean_line g so b ix v : clean g (trim true v) -> values_ok v -> code_ok g (bc_inst b) -> tail g (bc_inst b) 0 0 false -> consts_ok b -> clean g (trim false (set_imm (mkCode so (Some b) ix) v)).
Proof.
  intros [[T1 T2 T3 T4 T5] CV CA CF CS] [V1 V2 V3 V4 V5 V6 V7] CK TL CO. constructor.
  - constructor; try assumption. intros [| |] bc X; cbn in X; [exact (T5 CStored bc X)|injection X as <-; exact CK|discriminate X].
  - apply trim_values. constructor; try assumption. intros [| |] bc X; cbn in X; [exact (V6 CStored bc X)|injection X as <-; exact CO|exact (V6 CDef bc X)].
  - exact CA.
  - exact CF.
  - intros [| |] bc D X; cbn in X; [exact (CS CStored bc D X)|injection X as <-; exact TL|discriminate X].
Qed.
Lemma core_data a b v : core (set_data a b v) = core v.
Proof. reflexivity. Qed.
(* the machine in which the statements begin *)
Definition line_machine (text : bytes) (b : bcode) (idx : linemap) (st : symtab) (v : vm) : vm :=
  set_cs (mkCs (Some CImmediate) 0 0) (set_data (v_pdata v) 0 (set_imm (mkCode (Some (wrap_source_text text)) (Some b) (Some idx)) (set_st st v))).
Lemma line_core text b idx st v : core (line_machine text b idx st v) = core (set_imm (mkCode (Some (wrap_source_text text)) (Some b) (Some idx)) (set_st st v)).
Proof. unfold line_machine. rewrite core_cs, core_data. reflexivity. Qed.
Lemma pending_stopped allowed b v : pending_in allowed v -> pending_in allowed (set_stopped b v).
Proof. intros [A B C D]. constructor; assumption. Qed.
Lemma line_neat t text b idx st xss st1 : neat t -> ready (ss_vm t) ->
  parse_source (wrap_source_text text) (v_st (ss_vm t)) false = PoOk (Some b) None st ->
  program_is false (v_st (ss_vm t)) (map ln_text (wrap_source_text text)) xss st1 -> st = sym_make_unknown_array st1 -> bc_inst b = pcode 0 xss -> consts_ok b -> fit xss st ->
  let u := line_machine text b idx st (ss_vm t) in
  live u /\ pending_in either u /\ nowhere CDef u /\ values_ok u /\ clean (sigs (v_st u)) (trim false u) /\ indexed u.
Proof.
  intros [G [V C]] R PS PI ST B CO FT u. destruct (ready_live _ _ _ _ G R) as [L J]. destruct (C R) as [CL IX]. pose proof L as [F K].
  destruct (parsed_ok _ _ _ _ _ _ F PS) as (_ & D & _). destruct (parsed_table _ _ _ _ _ _ F PS) as (F' & CH & W').
  pose proof (clean_grow _ _ _ _ st (trim true (ss_vm t)) F PS (kn_fits _ _ K) CL) as CG. change (set_st st (trim true (ss_vm t))) with (trim true (set_st st (ss_vm t))) in CG.
  assert (VG : values_ok (set_st st (ss_vm t))).
  { destruct V as [V1 V2 V3 V4 V5 V6 V7]. constructor; try assumption. exact (parsed_all (fun _ x => value_ok x) (fun _ => Logic.I) _ _ _ _ _ _ F PS V1). }
  pose proof FT as FT'. rewrite ST in FT'. destruct (code_from _ _ _ _ _ F PI FT') as [CK TL]. rewrite <- ST, <- B in CK, TL.
  assert (P : pending_in either u) by (unfold u, line_machine; apply pending_idle_cs, pending_data, pending_imm, pending_st, J).
  assert (CC : clean (sigs st) (trim false u)).
  { apply (clean_core _ (trim false (set_imm (mkCode (Some (wrap_source_text text)) (Some b) (Some idx)) (set_st st (ss_vm t))))); [apply trim_core, line_core|]. apply clean_line; assumption. }
  split; [|split; [exact P|split; [|split; [|split; [exact CC|]]]]].
  - unfold u, line_machine. assert (LG : live (set_st st (ss_vm t))) by (split; [exact F'|apply kinded_grow; [exact K|exact CH|apply W', K]]).
    apply live_cs, live_data, live_imm; [exact LG|]. intros bc X. cbn in X. injection X as <-. exact D.
  - apply (pending_nowhere _ _ _ P); [intros [X|X]; discriminate X|discriminate].
  - apply (values_core (set_imm (mkCode (Some (wrap_source_text text)) (Some b) (Some idx)) (set_st st (ss_vm t)))); [apply line_core|].
    destruct VG as [V1 V2 V3 V4 V5 V6 V7]. constructor; try assumption. intros [| |] bc X; cbn in X; [exact (V6 CStored bc X)|injection X as <-; exact CO|exact (V6 CDef bc X)].
  - exact (indexed_grow st (ss_vm t) CH IX).
Qed.

Lemma imm_neat s : neat s -> neat (set_vm (set_imm no_code (ss_vm s)) s).
Proof.
  intros [G [V C]]. split; [apply prompt_imm, G|]. cbn [ss_vm set_vm]. destruct V as [V1 V2 V3 V4 V5 V6 V7]. split.
  - constructor; try assumption. intros [| |] bc X; cbn in X; [exact (V6 CStored bc X)|discriminate X|exact (V6 CDef bc X)].
  - intros R. exact (C R).
Qed.
Lemma refused_neat t src bc e st : neat t -> ready (ss_vm t) -> parse_source src (v_st (ss_vm t)) false = PoOk bc e st -> tidy (set_st st (ss_vm t)).
Proof.
  intros [G [V C]] R PS. destruct (ready_live _ _ _ _ G R) as [[F K] J]. destruct (C R) as [CL IX].
  destruct (parsed_table _ _ _ _ _ _ F PS) as (F' & CH & W'). split.
  - destruct V as [V1 V2 V3 V4 V5 V6 V7]. constructor; try assumption. exact (parsed_all (fun _ x => value_ok x) (fun _ => Logic.I) _ _ _ _ _ _ F PS V1).
  - intros _. split; [|exact (indexed_grow st (ss_vm t) CH IX)].
    pose proof (clean_grow _ _ _ _ st (trim true (ss_vm t)) F PS (kn_fits _ _ K) CL) as CG. exact CG.
Qed.
Lemma immediate_neat E fuel text s : env_ok E -> neat s -> program_fit o s ->
  (forall xss u, line_starts s text xss u -> exists yss, line_starts s text yss u /\ fit yss (v_st u)) -> (forall u l x, called s (MStatements text) u -> runs E u l x -> ~ wraps x) ->
  match (run_immediate E fuel text ;;; xret false) s with XOk _ s' => neat s' | _ => True end.
Proof.
  intros EO NE PF LF NW.
  assert (GG : match (run_immediate E fuel text ;;; xret false) s with XOk _ s' => good s' | _ => True end).
  { pose proof (xsafe_bind o False False _ (fun _ => xret false) (xsafe_immediate o False False E fuel text) (fun _ => xsafe_ret o False False false) s (proj1 NE)) as X. exact X. }
  assert (H : match (run_immediate E fuel text ;;; xret false) s with XOk _ s' => tidy (ss_vm s') | _ => True end).
  { rewrite run_immediate_eq. pose proof (ensure_neat _ (imm_neat s NE) PF) as EN.
    destruct (ensure_program_compiled _) as [[|] t| | |] eqn:EC; try exact Logic.I; [|exact (proj2 (proj1 EN))].
    destruct EN as [NT R1]. specialize (R1 eq_refl). rewrite compile_eq. destruct (ready_live _ _ _ _ (proj1 NT) R1) as [[F K] J].
    destruct (parse_source _ _ _) as [bc e st| | |] eqn:PS; try exact Logic.I.
    pose proof (compile_outcome (wrap_source_text text) _ false F) as CO. rewrite PS in CO.
    destruct e as [x|].
    - destruct bc as [b|]; [destruct CO as [CO _]; congruence|]. exact (refused_neat _ _ _ _ _ NT R1 PS).
    - destruct bc as [b|]; [|exact (refused_neat _ _ _ _ _ NT R1 PS)].
      destruct CO as [_ CO]. destruct (bcode_index b (wrap_source_text text)) as [idx|] eqn:BI; [|exact Logic.I].
      pose proof (compiled_consts _ _ _ _ _ CO) as CN. destruct CO as [_ (xss & st1 & PI & ST & B & _)].
      assert (LS : line_starts s text xss (set_stopped false (line_machine text b idx st (ss_vm t)))) by (exists t, b, idx, st, st1; auto 10).
      destruct (LF _ _ LS) as (yss & LY & FY). pose proof LY as (t' & b' & idx' & st' & st1' & EC' & PS' & PI' & ST' & B' & _). rewrite EC in EC'. injection EC' as <-. rewrite PS in PS'. injection PS' as <- <-.
      destruct (line_neat t text b idx st yss st1' NT R1 PS PI' ST' B' CN FY) as (L & P & ND & VO & CL & IX).
      change (line_code text b idx (ss_vm (set_vm (set_st st (ss_vm t)) t))) with (line_machine text b idx st (ss_vm t)).
      match goal with |- context [run E fuel ?bk ?x] => destruct (run E fuel bk x) as [r w] eqn:X end.
      assert (Y : r <> Crash -> tidy w).
      { intros NC. refine (run_tidy false E fuel _ _ r w EO L ND _ VO CL IX _ X NC); [discriminate|]. intros l x. apply NW. exact (Cl_line _ _ _ _ LS). }
      unfold ran_statements. destruct r; cbn [fst snd]; try exact Logic.I.
      + specialize (Y ltac:(discriminate)). destruct (immediate_state w) as [[|]|]; [apply tidy_reset, Y|exact Y|exact Logic.I].
      + specialize (Y ltac:(discriminate)). destruct (immediate_state w) as [[|]|]; [apply tidy_reset, Y|exact Y|exact Logic.I]. }
  destruct ((run_immediate E fuel text ;;; xret false) s); try exact Logic.I. split; assumption.
Qed.

(* ---------- the other commands ---------- *)

Definition ysafe {X} (m : SessionModel.X X) : Prop := forall s, neat s -> match m s with XOk _ s' => neat s' | _ => True end.
Lemma y_ret {X} (a : X) : ysafe (xret a).
Proof. intros s H. exact H. Qed.
Lemma y_bind {X Y} (m : SessionModel.X X) (k : X -> SessionModel.X Y) : ysafe m -> (forall a, ysafe (k a)) -> ysafe (xbind m k).
Proof. intros M K s H. unfold xbind. specialize (M s H). destruct (m s); try exact Logic.I. apply K, M. Qed.
Lemma y_get {Y} (k : vm -> SessionModel.X Y) : (forall v, ysafe (k v)) -> ysafe (xbind get_vm k).
Proof. intros K s H. apply K, H. Qed.
Lemma y_core (f : vm -> vm) : xsafe o False False (mod_vm f) -> (forall v, core (f v) = core v) -> ysafe (mod_vm f).
Proof. intros S C s [G T]. split; [exact (S s G)|]. cbn [mod_vm ss_vm set_vm]. exact (tidy_core _ _ (C _) T). Qed.
Lemma y_say d : ysafe (say d).
Proof. intros s H. exact H. Qed.
Lemma y_out b : ysafe (out b).
Proof. apply y_core; [apply xsafe_out|reflexivity]. Qed.
Lemma y_check_eol t : ysafe (check_eol t).
Proof. unfold check_eol. destruct (at_eol _); [apply y_ret|]. apply y_bind; [apply y_say|intros _; apply y_ret]. Qed.
Lemma y_list src a b p : forall n, ysafe (list_loop src a b p n).
Proof.
  induction src as [|l src IH]; intros n; cbn [list_loop]; [apply y_ret|]. destruct (b <? _)%N; [apply y_ret|]. destruct (a <=? _)%N; [|apply IH].
  apply y_bind; [apply y_out|]. intros _. apply y_bind; [|intros _; apply IH].
  destruct (_ && _); [|apply y_out]. unfold await_newline. apply y_core; [|reflexivity]. apply xsafe_seen. intros v. unfold PromptProofs.seen_alike. repeat (split; [reflexivity|]). reflexivity.
Qed.
Lemma y_delete n : ysafe (vm_delete_source_line n).
Proof.
  intros s H. pose proof (xsafe_delete o False False n s (proj1 H)) as G. destruct H as [_ T]. split; [exact G|]. clear G. cbn [mod_vm vm_delete_source_line ss_vm set_vm].
  destruct (stored_source (ss_vm s)) as [src|]; [|exact T]. destruct (find_source_linenum src n); [|exact T]. apply tidy_stale, T.
Qed.
Lemma y_enter n t : ysafe (vm_enter_source_line n t).
Proof.
  intros s H. pose proof (xsafe_enter o False False n t s (proj1 H)) as G. destruct H as [_ T]. revert G. unfold vm_enter_source_line. unfold xbind, get_vm. cbv zeta.
  destruct (enter_source_line _ n t) as [src'|e|]; try (intros; exact Logic.I). intros G. split; [exact G|]. cbn [mod_vm ss_vm set_vm]. apply tidy_stale, T.
Qed.
Lemma y_load name : ysafe (vm_load_source name).
Proof.
  intros s H. pose proof (xsafe_load o False False name s (proj1 H)) as G. revert G. unfold vm_load_source. destruct (ss_fs s name) as [content|]; [|intros _; exact H].
  destruct (load_source content) as [src|e|]; try (intros; exact Logic.I). intros G. split; [exact G|]. apply tidy_stale, H.
Qed.
Lemma table_tidy v : values_ok v -> Forall RunProofs.unset (st_syms (v_st v)) -> Forall wfits (st_syms (v_st v)) -> v_stored v = no_code -> v_for v = [] -> cs_code (fn_cs (v_fn v)) = None -> tidy v.
Proof.
  intros V U W S F N. split; [exact V|]. intros _. split.
  - apply clean_unset; try assumption. intros bc X. rewrite S in X. discriminate X.
  - intros x n i X. rewrite S in X. discriminate X.
Qed.
Lemma y_new : ysafe (vm_new_program ;;; vm_clear_names).
Proof.
  intros s H. pose proof (xsafe_new o False False s (proj1 H)) as G. destruct H as [G0 T]. split; [exact G|]. clear G.
  unfold vm_new_program, vm_clear_names, xbind, mod_vm. cbn [ss_vm set_vm]. unfold clear_symbol_table_names.
  destruct (unset_values _ init_unset init_wfits) as (VS & _). destruct T as [[V1 V2 V3 V4 V5 V6 V7] _].
  unfold stored_source. destruct (c_source (v_stored (ss_vm s))) as [src|] eqn:Q.
  - split.
    + constructor; try assumption. intros [| |] bc X; cbn in X; [discriminate X|exact (V6 CImmediate bc X)|exact (V6 CDef bc X)].
    + intros [R|R]; [discriminate R|]. destruct R. reflexivity.
  - pose proof (pr_stored _ _ _ _ G0) as P5. unfold stored_state in P5. rewrite Q in P5. destruct P5 as (E & L & J). destruct (no_pending _ E J) as (R & F & N).
    apply table_tidy; try assumption; [|exact init_unset|exact init_wfits|cbn; rewrite E; reflexivity].
    constructor; try assumption. intros [| |] bc X; cbn in X; [discriminate X|exact (V6 CImmediate bc X)|exact (V6 CDef bc X)].
Qed.
Lemma y_source src s : neat s -> stored_source (ss_vm s) <> None -> neat (set_vm (set_source src (ss_vm s)) s).
Proof.
  intros [G [V C]] NS. split; [apply (xsafe_source o False False); auto|]. cbn [ss_vm set_vm]. destruct V as [V1 V2 V3 V4 V5 V6 V7]. split.
  - constructor; try assumption. intros [| |] bc X; cbn in X; [exact (V6 CStored bc X)|exact (V6 CImmediate bc X)|exact (V6 CDef bc X)].
  - intros R. assert (R' : ready (ss_vm s)) by (destruct R as [R|R]; [discriminate R|right; exact R]). destruct (C R') as [[[T1 T2 T3 T4 T5] [W1 W2 W3 W4 W5 W6 W7] CA CF CS] IX]. split; [|exact IX].
    constructor; try assumption.
    + constructor; try assumption. intros [| |] bc X; cbn in X; [exact (T5 CStored bc X)|discriminate X|discriminate X].
    + constructor; try assumption. intros [| |] bc X; cbn in X; [exact (W6 CStored bc X)|discriminate X|discriminate X].
    + intros [| |] bc D X; cbn in X; [exact (CS CStored bc D X)|discriminate X|discriminate X].
Qed.
Lemma y_renumber a b d : ysafe (renumber a b d).
Proof.
  intros s G. unfold renumber. unfold xbind at 1, get_vm at 1. destruct (stored_source (ss_vm s)) as [src|] eqn:S; [|exact G].
  assert (X : forall src', neat (set_vm (set_source src' (ss_vm s)) s)) by (intros src'; apply y_source; [exact G|congruence]).
  destruct (renum_lines _ _ _ _ _ _) as [[src1 m] [x|]]; [exact (X src1)|].
  destruct (renum_texts _ _ _) as [s2|s2| |]; [exact (X s2) | exact (X s2) | exact Logic.I | exact Logic.I].
Qed.
Lemma y_clear : ysafe vm_clear_values.
Proof.
  intros s H. pose proof (xsafe_clear_values o False False s (proj1 H)) as G. destruct H as [G0 [V C]]. split; [exact G|]. cbn [vm_clear_values mod_vm ss_vm set_vm]. clear G.
  split; [exact (vo_clear _ V)|]. intros R. destruct (C R) as [[CT CV CA CF CS] IX].
  set (g := sigs (v_st (ss_vm s))) in *.
  assert (SG : sigs (clear_symbol_table_values (v_st (ss_vm s))) = g) by (destruct (ready_live _ _ _ _ G0 R) as [[F K] _]; exact (kn_sigs _ _ (kn_clear _ _ K))).
  cbn [set_st v_st]. unfold indexed. cbn [set_st v_st v_stored]. rewrite SG. split; [|exact IX].
  change (trim true (set_st (clear_symbol_table_values (v_st (ss_vm s))) (ss_vm s))) with (set_st (clear_symbol_table_values (v_st (trim true (ss_vm s)))) (trim true (ss_vm s))).
  constructor.
  - exact (ty_clear g _ CT).
  - exact (vo_clear _ CV).
  - exact (ao_clear _ CA).
  - exact (fns_clear g _ CF).
  - intros [| |] bc D X; cbn in X; [exact (CS CStored bc D X)|discriminate X|discriminate X].
Qed.
Lemma act_neat E fuel m s : env_ok E -> neat s -> (compiles m -> program_fit o s) ->
  (forall text xss u, m = MStatements text -> line_starts s text xss u -> exists yss, line_starts s text yss u /\ fit yss (v_st u)) -> (forall u l w, called s m u -> runs E u l w -> ~ wraps w) ->
  match act E fuel m s with XOk _ s' => neat s' | _ => True end.
Proof.
  intros EO NE PF LF NW.
  assert (CK : forall p (m : X unit), ysafe m -> ysafe (let* ok := check_eol p in (if ok then m else xret tt) ;;; xret false)%sess).
  { intros p k H. apply y_bind; [apply y_check_eol|]. intros ok. apply y_bind; [destruct ok; [exact H|apply y_ret]|intros _; apply y_ret]. }
  assert (NM : forall t (m : bytes -> X bool), (forall n, ysafe (m n)) -> ysafe (match demarcate_string t with
      | Some (name, p) => let* ok := check_eol p in (if ok then m name ;;; xret tt else say DFileName) ;;; xret false
      | None => say DFileName ;;; xret false end)%sess).
  { intros t k H. destruct (demarcate_string t) as [[name p]|].
    - apply y_bind; [apply y_check_eol|]. intros ok. apply y_bind; [|intros _; apply y_ret].
      destruct ok; [|apply y_say]. apply y_bind; [apply H|intros _; apply y_ret].
    - apply y_bind; [apply y_say|intros _; apply y_ret]. }
  destruct m as [n [t|]|t| |c t|t]; cbn [act].
  - revert s NE PF LF NW. intros s NE _ _ _. revert s NE. apply (y_bind _ (fun _ => xret false)); [apply y_enter|intros _; apply y_ret].
  - revert s NE PF LF NW. intros s NE _ _ _. revert s NE. apply (y_bind _ (fun _ => xret false)); [apply y_delete|intros _; apply y_ret].
  - exact NE.
  - exact NE.
  - destruct c; cbn [command].
    + exact (y_check_eol t s NE).
    + pose proof (ensure_neat s NE (PF Logic.I)) as H. unfold vm_compile, xbind, xret. destruct (ensure_program_compiled s); try exact Logic.I. apply H.
    + pose proof (continue_neat E fuel t s EO NE NW) as H. unfold xbind. destruct (continue_program E fuel s) as [[|] s'| | |]; try exact Logic.I; exact H.
    + revert s NE PF LF NW. intros s NE _ _ _. revert s NE. apply (y_bind _ (fun _ => xret false)); [apply y_out|intros _; apply y_ret].
    + revert s NE PF LF NW. intros s NE _ _ _. revert s NE. destruct (get_list_numbers t) as [[a b] p]. destruct (get_page_flag p) as [pg p1]. apply CK.
      unfold list_program. apply y_get. intros v. destruct (stored_source v); [apply y_list|apply y_ret].
    + exact (NM t vm_load_source y_load s NE).
    + exact (CK t _ y_new s NE).
    + destruct (get_renum_numbers t) as [[[a b] d] p]. exact (CK p _ (y_renumber a b d) s NE).
    + pose proof (y_clear s NE) as H. unfold xbind at 1. cbn [vm_clear_values mod_vm] in *.
      apply run_program_neat; [exact EO|exact H|exact (PF Logic.I)|]. intros u l x SS EC. apply NW. apply Cl_run; [exact SS|exact EC].
    + refine (NM t vm_save_source _ s NE). intros n x G. unfold vm_save_source. destruct (stored_source (ss_vm x)); exact G.
  - apply immediate_neat; [exact EO|exact NE|exact (PF Logic.I)| |exact NW]. intros xss u. apply LF. reflexivity.
Qed.
Lemma start_neat stdin fs brk : neat (new_session o stdin fs brk).
Proof.
  split; [apply start_good|]. destruct (unset_values _ init_unset init_wfits) as (VS & _). apply table_tidy; [|exact init_unset|exact init_wfits|reflexivity|reflexivity|reflexivity].
  constructor; [exact VS|constructor|constructor|constructor|reflexivity|intros [| |] bc X; discriminate X|]. apply Nat.le_0_l.
Qed.
Lemma orderly_neat s : orderly o s -> neat s.
Proof.
  intros H. induction H as [stdin fs brk|seed stdin fs brk|E fuel line m s s' H IH EO M PF LF NW I|s s' H IH W].
  - apply start_neat.
  - split; [apply randomized_good|]. apply (tidy_core (ss_vm (new_session o stdin fs brk))); [reflexivity|apply start_neat].
  - rewrite (interpret_means E fuel line m s M) in I. pose proof (act_neat E fuel m s EO IH PF LF NW) as X. rewrite I in X. exact X.
  - destruct W. destruct IH as [G T]. split.
    + eapply prompt_seen; [|exact G]. unfold PromptProofs.seen_alike. repeat (split; [reflexivity|]). reflexivity.
    + apply (tidy_core (ss_vm s)); [reflexivity|exact T].
Qed.
Lemma orderly_session s : orderly o s -> session o any_line s.
Proof.
  intros H. induction H as [stdin fs brk|seed stdin fs brk|E fuel line m s s' H IH EO M PF LF NW I|s s' H IH W].
  - apply Ses_start.
  - apply Ses_randomized.
  - exact (Ses_line _ _ E fuel line s s' IH Logic.I I).
  - exact (Ses_world _ _ s s' IH W).
Qed.

(* ---------- statements typed at the prompt ---------- *)

Lemma not_in_nil {r v} (P : list instr -> nat -> Prop) pc : (forall p, ~ P [] p) -> P (SessionSpec.code_at v r) pc -> exists bc, c_bcode (code_of v r) = Some bc /\ P (bc_inst bc) pc.
Proof. intros N H. unfold SessionSpec.code_at in H. destruct (c_bcode (code_of v r)) as [bc|]; [eauto|destruct (N _ H)]. Qed.
Lemma any_some l : Forall (fun c => cs_code c <> None) l -> any_not_stored l <> None.
Proof. induction 1 as [|c l C _ IH]; cbn [any_not_stored]; [discriminate|]. destruct (cs_code c) as [[| |]|]; [exact IH|discriminate|discriminate|destruct (C eq_refl)]. Qed.
Lemma imm_decided w : pending_in either w -> immediate_state w <> None.
Proof.
  intros [R F _ _]. unfold immediate_state.
  assert (X1 : any_not_stored (rev (v_ret w)) <> None).
  { apply any_some, Forall_rev. eapply Forall_impl; [|exact R]. intros c (r & X & _). congruence. }
  assert (X2 : any_not_stored (map f_cs (v_for w)) <> None).
  { apply any_some, Forall_map. eapply Forall_impl; [|exact F]. intros c (r & X & _). congruence. }
  destruct (any_not_stored (rev (v_ret w))) as [[|]|]; [discriminate| |destruct (X1 eq_refl)].
  destruct (any_not_stored (map f_cs (v_for w))) as [[|]|]; [discriminate| |destruct (X2 eq_refl)].
  destruct (cs_code (fn_cs (v_fn w))) as [[| |]|]; discriminate.
Qed.
Section Line.
Variables (E : env) (u : vm).
Hypothesis EO : env_ok E.
Hypothesis LU : live u.
Hypothesis PU : pending_in either u.
Hypothesis ND : nowhere CDef u.
Hypothesis VU : values_ok u.
Hypothesis CU : clean (sigs (v_st u)) (trim false u).
Hypothesis IU : indexed u.
Hypothesis TU : SafeRun.safe (sigs (v_st u)) (fun r => c_bcode (code_of (trim false u) r)) (c_index (v_stored u)) (set_stopped false (trim false u)) ->
  (forall x n i, c_index (v_stored u) = Some x -> lookup_line_mapping x n = Some i -> SafeRun.begins (sigs (v_st u)) (fun r => c_bcode (code_of (trim false u) r)) CStored (N.to_nat i)) ->
  forall l x, runs E (set_stopped false (trim false u)) l x -> telling x.
Hypothesis CS : exists b, c_bcode (v_imm u) = Some b /\ v_cs u = mkCs (Some CImmediate) 0 0 /\ tail (sigs (v_st u)) (bc_inst b) 0 0 false.
Local Notation g := (sigs (v_st u)).
Local Notation code := (fun r => c_bcode (code_of (trim false u) r)).
Local Notation idx := (c_index (v_stored u)).
Lemma line_begins r bc pc : r <> CDef -> c_bcode (code_of u r) = Some bc -> tail g (skipn pc (bc_inst bc)) 0 0 false -> SafeRun.begins g code r pc.
Proof. intros D X T. exists bc. split; [|exact T]. split; [exact D|]. destruct r; [exact X|exact X|destruct (D eq_refl)]. Qed.
Lemma line_shaped r bc : r <> CDef -> c_bcode (code_of u r) = Some bc -> tail g (bc_inst bc) 0 0 false.
Proof. intros D X. apply (cl_shaped _ _ CU r bc D). destruct r; [exact X|exact X|destruct (D eq_refl)]. Qed.
Lemma line_lines x n i : idx = Some x -> lookup_line_mapping x n = Some i -> SafeRun.begins g code CStored (N.to_nat i).
Proof. intros X L. destruct (IU x n i X L) as (bc & B & T). exact (line_begins CStored bc _ ltac:(discriminate) B T). Qed.
Lemma line_safe : SafeRun.safe g code idx (trim false u).
Proof.
  assert (AD : forall r, either r -> r <> CDef) by (intros r [-> | ->]; discriminate). constructor.
  - apply CU.
  - apply CU.
  - intros r b [_ X]. exact X.
  - reflexivity.
  - exact (sound_defs g _ (cl_fns _ _ CU)).
  - change (v_ret (trim false u)) with (v_ret u). eapply Forall_impl; [|exact (pd_ret _ _ PU)]. intros c (r & R & A & H). exists r. split; [exact R|].
    apply (not_in_nil after_gosub) in H; [|intros p (q & [[(n & X) _]|(k & X & _)]); destruct q; discriminate X]. destruct H as (bc & B & H).
    apply (line_begins r bc); [exact (AD r A)|exact B|]. exact (after_gosub_begins _ _ _ (line_shaped r bc (AD r A) B) H).
  - change (v_for (trim false u)) with (v_for u). eapply Forall_impl; [|exact (pd_for _ _ PU)]. intros f (r & R & A & H). exists r. split; [exact R|].
    apply (not_in_nil (fun l pc => nth_error l pc = Some (I_FOR (f_sym f)))) in H; [|intros p X; destruct p; discriminate X]. destruct H as (bc & B & H).
    apply (line_begins r bc); [exact (AD r A)|exact B|]. exact (at_for_begins _ _ _ _ (line_shaped r bc (AD r A) B) H).
  - left. destruct CS as (b & B & C & T). change (v_cs (trim false u)) with (v_cs u). rewrite C. exists CImmediate. split; [reflexivity|]. exists 0, 0. split; [apply deep_zero|].
    apply in_line_begins. exact (line_begins CImmediate b 0 ltac:(discriminate) B T).
Qed.
Lemma line_crash fuel brk : (exists l x, runs E (set_stopped false u) l x /\ wraps x) \/ fst (run E fuel brk (trim false u)) <> Crash.
Proof.
  pose proof (safe_stopped g code idx false _ line_safe) as SF. pose proof (cl_arrays _ _ CU) as AO.
  assert (CC : cs_code (v_cs (trim false u)) = Some CImmediate) by (destruct CS as (b & _ & C & _); change (v_cs (trim false u)) with (v_cs u); rewrite C; reflexivity).
  unfold run. rewrite CC. pose proof (safe_loop g code idx E EO line_lines fuel brk _ SF) as SL.
  destruct (run_loop E fuel brk (set_stopped false (trim false u))) as [[[[]|e| |] b] w] eqn:RL.
  - right. unfold run_report, put, modify. destruct (interrupted b); [discriminate|]. destruct (v_stopped w); [|discriminate]. destruct (cs_code (v_cs w)) eqn:CW; [discriminate|]. destruct (sf_here _ _ _ _ SL) as [(r & X & _)|(X & _)]; congruence.
  - right. pose proof (loop_fail_stopped E fuel brk (set_stopped false (trim false u))) as LF. rewrite RL in LF. unfold run_report, put, modify. rewrite LF. destruct (interrupted b); discriminate.
  - left. destruct (loop_crash g code idx E EO line_lines fuel brk _ SF AO (TU SF line_lines) b w RL) as (l & x & R & W).
    destruct (trim_alike false (set_stopped false u)) as [A1 _]; [exact ND|discriminate|].
    assert (KT : kinded (v_st u) (set_stopped false (trim false u))).
    { pose proof (trim_kinded _ false _ (proj2 LU)) as [K1 K2 K3 K4 K5 K6]. constructor; assumption. }
    destruct (twin_runs (v_st u) E _ _ _ _ _ _ _ R (set_stopped false u) KT (or_introl A1)) as (l1 & x1 & R1 & T1). exists l1, x1. split; [exact R1|]. exact (twin_wraps _ _ _ _ _ _ T1 W).
  - right. discriminate.
Qed.
Lemma line_run fuel brk : (exists l x, runs E (set_stopped false u) l x /\ wraps x) \/
  match run E fuel brk u with (Crash, _) => False | (Fail e, w) => proper e /\ immediate_state w <> None | (Ok _, w) => immediate_state w <> None | _ => True end.
Proof.
  destruct (line_crash fuel brk) as [X|NC]; [left; exact X|right]. destruct (trim_alike false u ND ltac:(discriminate)) as [A1 _].
  pose proof (twin_run (v_st u) E fuel brk _ _ _ _ u (trim false u) (trim_kinded _ false _ (proj2 LU)) (or_introl A1)) as T.
  pose proof (safe_run g code idx E EO line_lines fuel brk _ line_safe) as SR.
  destruct (run E fuel brk (trim false u)) as [r2 w2]. destruct (run E fuel brk u) as [r w] eqn:R. destruct T as [T|[T1 T2]]; [destruct (NC T)|]. cbn [fst] in *. subst r2.
  assert (Y : r <> Crash -> immediate_state w <> None).
  { intros N. assert (P : placed either u).
    { apply placed_start; [exact PU|]. exists CImmediate. destruct CS as (b & _ & C & _). rewrite C. split; [reflexivity|right; reflexivity]. }
    assert (AD : ~ either CDef) by (intros [Z|Z]; discriminate Z).
    destruct (run_ok either E fuel brk u r w (or_introl eq_refl) AD LU P R N) as (_ & PW & _). exact (imm_decided w (pl_pending _ _ PW)). }
  destruct r; try exact Logic.I; [apply Y; discriminate|split; [exact SR|apply Y; discriminate]|destruct (NC eq_refl)].
Qed.
End Line.
(* the lines that are traced exist *)
Definition traceable (E : env) (u : vm) : Prop :=
  SafeRun.safe (sigs (v_st u)) (fun r => c_bcode (code_of (trim false u) r)) (c_index (v_stored u)) (trim false u) ->
  (forall x n i, c_index (v_stored u) = Some x -> lookup_line_mapping x n = Some i -> SafeRun.begins (sigs (v_st u)) (fun r => c_bcode (code_of (trim false u) r)) CStored (N.to_nat i)) ->
  forall l x, runs E (trim false u) l x -> telling x.
Lemma line_well E line text xss s u : orderly o s -> traceable E u -> env_ok E -> means line (MStatements text) -> program_fit o s ->
  line_starts s text xss u -> fit xss (v_st u) -> forall fuel, (exists l w, runs E u l w /\ wraps w) \/ run_went_well s (interpret E fuel line s).
Proof.
  intros OR TR EO ML PF LS FT fuel. pose proof (orderly_neat s OR) as NE. destruct LS as (t & b & idx & st & st1 & EC & PS & PI & ST & B & BI & UU).
  pose proof (ensure_neat _ (imm_neat s NE) PF) as EN. pose proof (ensure_cases o False False _ (proj1 (imm_neat s NE))) as EQ. rewrite EC in EN, EQ. destruct EN as [NT R1]. specialize (R1 eq_refl).
  assert (EV : v_err (ss_vm t) = v_err (ss_vm s)).
  { destruct EQ as [[_ EQ]|(src & _ & EQ)]; [injection EQ as ->; reflexivity|]. destruct (parse_source src (init_builtins new_symbol_table) (o_anywhere o)) as [[bc|] e st'| | |].
    - destruct EQ as (_ & idx' & _ & EQ). injection EQ as ->. reflexivity.
    - destruct EQ as (x & _ & EQ). discriminate EQ.
    - destruct EQ as (x & EQ & _). discriminate EQ.
    - destruct EQ as (x & EQ & _). discriminate EQ.
    - destruct EQ. }
  destruct (ready_live _ _ _ _ (proj1 NT) R1) as [[F K] J]. pose proof (compile_outcome (wrap_source_text text) _ false F) as CO. rewrite PS in CO. destruct CO as [_ CO].
  set (m := line_machine text b idx st (ss_vm t)). assert (UM : u = set_stopped false m) by exact UU. clear UU.
  assert (FM : fit xss st) by (rewrite UM in FT; exact FT).
  destruct (line_neat t text b idx st xss st1 NT R1 PS PI ST B (compiled_consts _ _ _ _ _ CO) FM) as (L & P & ND & VO & CL & IX). fold m in L, P, ND, VO, CL, IX.
  rewrite UM in TR.
  assert (CM : exists b, c_bcode (v_imm m) = Some b /\ v_cs m = mkCs (Some CImmediate) 0 0 /\ tail (sigs (v_st m)) (bc_inst b) 0 0 false).
  { exists b. split; [reflexivity|]. split; [reflexivity|]. exact (cl_shaped _ _ CL CImmediate b ltac:(discriminate) eq_refl). }
  rewrite (interpret_means E fuel line _ s ML). cbn [act]. rewrite run_immediate_eq, EC, compile_eq, PS. rewrite BI.
  set (t' := set_vm (set_st st (ss_vm t)) t). change (line_code text b idx (ss_vm t')) with m.
  destruct (line_run E m EO L P ND CL IX TR CM fuel (next_break t')) as [(l & x & R & W)|H]; [left; exists l, x; rewrite UM; split; [exact R|exact W]|right].
  pose proof (run_err E fuel (next_break t') m) as RE. assert (EM : v_err m = v_err (ss_vm s)) by (rewrite <- EV; reflexivity). rewrite EM in RE. unfold ran_statements.
  destruct (run E fuel (next_break t') m) as [[[]|e| |] w]; cbn [fst snd]; [| |destruct H|exact Logic.I].
  - destruct (immediate_state w) as [[|]|]; [| |destruct (H eq_refl)]; exists []; (split; [rewrite app_nil_r; exact RE|]); (split; [cbn; lia|constructor]).
  - destruct H as [PE H]. destruct RE as (r & RE1 & RE2).
    destruct (immediate_state w) as [[|]|]; [| |destruct (H eq_refl)]; exists [r]; (split; [exact RE1|]); (split; [cbn; lia|]); constructor; try constructor; rewrite RE2; exact (proper_internal e PE).
Qed.
Lemma line_went_well E line text xss s u : orderly o s -> o_trace_basic o = false /\ o_trace_for o = false -> env_ok E -> means line (MStatements text) -> program_fit o s ->
  line_starts s text xss u -> fit xss (v_st u) -> forall fuel, (exists l w, runs E u l w /\ wraps w) \/ run_went_well s (interpret E fuel line s).
Proof.
  intros OR QO EO ML PF LS FT fuel. apply (line_well E line text xss s u); try assumption. intros _ _ l x R.
  destruct LS as (t & b & idx & st & st1 & EC & _ & _ & _ & _ & _ & UU). pose proof (ensure_neat _ (imm_neat s (orderly_neat s OR)) PF) as EN. rewrite EC in EN. destruct EN as [NT _].
  apply (quiet_runs E (trim false u) l x); [|exact R]. unfold PrintSpec.quiet. change (v_opt (trim false u)) with (v_opt u). rewrite UU. change (v_opt (set_stopped false _)) with (v_opt (ss_vm t)). rewrite (pr_opt _ _ _ _ (proj1 NT)). exact QO.
Qed.
End Tidy.
