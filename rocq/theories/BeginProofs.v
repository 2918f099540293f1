(* RUN runs the program as its statements say (C38). *)
From Coq Require Import Lia ZifyBool ZifyNat ZifyN SpecFloat.
From Verif Require Import Base BaseLemmas Num NumSpec DoubleProofs SourceModel LineMapModel ArraySpec BcodeModel SymbolModel SymbolSpec SymbolProofs
  LexModel ParseModel GrammarSpec ParseProofs StmtProofs CompileProofs VmModel VmLemmas VmSpec ControlProofs OpSpec VmTyping ValueSpec ForSpec ForProofs PrintSpec StoreSpec
  DataSpec FnSpec KindProofs TypeSpec CodeProofs LineSpec LineProofs EvalSpec EvalOps BlameProofs EvalProofs StepSpec StepProofs
  SessionModel MonitorModel SessionSpec PromptProofs RunProofs TypedProofs RunSpec.
Local Open Scope nat_scope.
Local Notation num := Num.num.
Local Notation typed := VmTyping.typed.
Local Opaque init_builtins new_symbol_table parse_source.

(* ---------- the machine when RUN begins ---------- *)

Lemma wfits_fits g s : wfits s -> RunProofs.unset s -> fits g s.
Proof.
  unfold wfits, fits. intros W [B|[V D]].
  - rewrite B in *. exact W.
  - rewrite V in *. destruct (s_kind s), (s_type s); auto.
Qed.
Lemma unset_variable (v : vm) t id s : symbol_at (v_st v) id = Some s -> RunProofs.unset s -> s_kind s <> KBuiltin -> variable v t id = StoreSpec.unset t.
Proof. intros H [B|[V D]] K; [contradiction|]. unfold variable. rewrite H, D. reflexivity. Qed.

Section Begin.
Variables (o : options) (src : source) (xss : list (list stmt)) (st : symtab).
Hypothesis SO : statements_of o src xss st.
Hypothesis AP : acceptable_program xss st.
Hypothesis QO : o_trace_basic o = false /\ o_trace_for o = false.
Local Notation g := (sigs st).
Local Notation P := (numbered src xss).

Lemma program_wstmt : Forall (Forall (wstmt g)) xss.
Proof.
  destruct SO as (bc & st1 & C & PI & ST & B). destruct AP as (FN & _). rewrite ST. apply (program_good st1) with (2 := PI) (3 := fine_init).
  - rewrite ST in FN. unfold few_names in *. cbn [sym_make_unknown_array st_syms] in FN. rewrite map_length in FN. exact FN.
  - apply Nm_refl.
Qed.
Lemma program_ok : code_ok g (pcode 0 xss).
Proof.
  destruct SO as (bc & st1 & C & PI & ST & B). destruct AP as (FN & FS & PT). rewrite ST. apply (compiled_code _ _ _ _ _ fine_init PI); try assumption.
  rewrite ST in FN. unfold few_names in *. cbn [sym_make_unknown_array st_syms] in FN. rewrite map_length in FN. exact FN.
Qed.

(* the machine in which run is called *)
Variables (v : vm) (bc : bcode) (idx : linemap).
Hypothesis VO : v_opt v = o.
Hypothesis CO : compiling o src = PoOk (Some bc) None st.
Hypothesis IX : bcode_index bc src = Some idx.
Hypothesis IO : string_ok (v_input v).
Definition first_vm : vm := about_to_run (fresh_code src bc idx st (new_machine src v)).

Lemma first_bcode : bc_inst bc = pcode 0 xss.
Proof. destruct SO as (bc' & st1 & C & PI & ST & B). assert (bc' = bc) by congruence. subst bc'. exact B. Qed.
Lemma first_compiled : compiled (o_anywhere o) src (init_builtins new_symbol_table) bc st.
Proof. pose proof (compile_outcome src _ (o_anywhere o) fine_init) as H. unfold compiling in CO. rewrite CO in H. exact (proj2 H). Qed.
Lemma first_syms : Forall (fun s => RunProofs.unset s /\ wfits s /\ s_kind s <> KUnknown) (st_syms st).
Proof.
  pose proof (parsed_unset _ _ _ _ _ CO) as U. destruct (parsed_table _ _ _ _ _ _ fine_init CO) as (_ & _ & W). specialize (W init_wfits).
  apply Forall_forall. intros s H. rewrite Forall_forall in U, W. destruct (U s H) as [U1 U2]. auto.
Qed.
Lemma first_st : v_st first_vm = st.
Proof. reflexivity. Qed.
Lemma first_stored : v_stored first_vm = mkCode (Some src) (Some bc) (Some idx).
Proof. reflexivity. Qed.
Lemma first_typed : typed g first_vm.
Proof.
  constructor.
  - reflexivity.
  - rewrite first_st. eapply Forall_impl; [|exact first_syms]. intros s (U & W & _). exact (wfits_fits _ s W U).
  - constructor.
  - intros H. destruct (H eq_refl).
  - intros [| |] b H; try discriminate H. cbn [code_of] in H. rewrite first_stored in H. cbn in H. injection H as <-. rewrite first_bcode. exact program_ok.
Qed.
Lemma first_values : values_ok first_vm.
Proof.
  constructor.
  - rewrite first_st. eapply Forall_impl; [|exact first_syms]. intros s (U & W & _). unfold wfits in W. destruct U as [B|[V _]]; [rewrite B in W; destruct (s_val s); try contradiction; exact Logic.I|rewrite V; exact Logic.I].
  - constructor.
  - constructor.
  - constructor.
  - reflexivity.
  - intros [| |] b H; try discriminate H. cbn [code_of] in H. rewrite first_stored in H. cbn in H. injection H as <-. exact (compiled_consts _ _ _ _ _ first_compiled).
  - exact IO.
Qed.
Lemma first_marked : marked (v_stored first_vm).
Proof.
  intros b H. rewrite first_stored in H. cbn in H. injection H as <-. destruct first_compiled as [_ (xss' & st1 & _ & _ & _ & D)]. rewrite D. clear D.
  induction (bc_inst bc) as [|i l IH]; [cbn; split; [discriminate|congruence]|]. cbn [existsb data_items]. destruct i; cbn [is_data orb data_items]; try exact IH. split; [intros _; discriminate|reflexivity].
Qed.
Lemma first_holds : holds first_vm (fresh_memory st (v_seed v) (v_randk v) (v_clock v)).
Proof.
  assert (S : forall id s, symbol_at (v_st first_vm) id = Some s -> RunProofs.unset s).
  { intros id s H. rewrite first_st in H. exact (proj1 (VmTyping.Forall_nth _ _ _ _ first_syms H)). }
  constructor.
  - intros id t (s & H & K & Y). rewrite (unset_variable _ t id s H (S id s H)) by congruence. cbn [fresh_memory m_var]. rewrite first_st in H. rewrite H, Y. destruct t; reflexivity.
  - intros id t (s & H & K & Y). destruct (S id s H) as [B|[V D]]; [congruence|]. cbn [fresh_memory m_obj]. unfold bounds. rewrite H, V. rewrite first_st in H. rewrite H, K. reflexivity.
  - intros id t (s & H & K & Y). destruct (S id s H) as [B|[V D]]; [congruence|]. cbn [fresh_memory m_obj]. unfold function. rewrite H, D. rewrite first_st in H. rewrite H, K. reflexivity.
  - intros id s H. cbn [fresh_memory m_name]. rewrite first_st in H. rewrite H. reflexivity.
  - reflexivity.
  - reflexivity.
  - reflexivity.
Qed.
Lemma first_ready : StepProofs.ready g src xss first_vm (run_state st P v).
Proof.
  destruct SO as (bc' & st1 & C & PI & ST & B).
  constructor.
  - constructor.
    + exact first_typed.
    + exact first_values.
    + exists (o_anywhere o), bc, idx, st1. split; [reflexivity|]. split; [exact PI|]. split; [exact first_bcode|exact IX].
    + unfold PrintSpec.quiet. assert (X : v_opt first_vm = o) by exact VO. rewrite X. exact QO.
    + exact first_marked.
    + intros b H. discriminate H.
    + constructor.
    + unfold within_limits. cbn. lia.
  - constructor; try reflexivity; [exact first_holds|]. rewrite first_stored. unfold items_from. cbn [c_bcode]. change (v_pdata first_vm) with 0. cbn [skipn]. rewrite first_bcode.
    cbn [run_state x_data]. unfold all_data.
    assert (L : length src = length xss) by (pose proof (program_length _ _ _ _ _ PI) as L; rewrite map_length in L; congruence).
    replace (map snd P) with xss; [exact (program_data g xss program_wstmt 0)|]. unfold numbered. clear - L. revert src L. induction xss as [|xs r IH]; intros [|l q] L; try discriminate L; [reflexivity|]. cbn. f_equal. apply IH. cbn in L. lia.
  - unfold arrays_ok. rewrite first_st. eapply Forall_impl; [|exact first_syms]. intros s (U & W & _). unfold wfits in W. destruct U as [K|[V _]]; [rewrite K in W; destruct (s_val s); try contradiction; exact Logic.I|rewrite V; exact Logic.I].
  - intros id p e H. cbn [run_state x_memory fresh_memory m_obj] in H. destruct (symbol_at st id) as [s|]; [destruct (skind_eqb _ _)|]; discriminate H.
  - intros H. destruct (H eq_refl).
  - reflexivity.
  - reflexivity.
  - constructor.
  - unfold fine_defs. rewrite first_st. eapply Forall_impl; [|exact first_syms]. intros s (U & W & _).
    unfold wfits in W. destruct U as [K|[V D]]; [rewrite K in W; destruct (s_val s); try contradiction; exact Logic.I|rewrite V; exact Logic.I].
  - reflexivity.
Qed.
Lemma first_related : related g src xss first_vm (run_state st P v).
Proof.
  split; [exact first_ready|]. split; [|reflexivity]. right. split; [reflexivity|]. split; [reflexivity|]. destruct xss; reflexivity.
Qed.
End Begin.
