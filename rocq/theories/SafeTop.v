(* What cannot go wrong when a program runs (C31). *)
From Coq Require Import Lia ZifyBool ZifyNat ZifyN SpecFloat.
From Verif Require Import Base BaseLemmas Num NumSpec NumLemmas DoubleProofs SourceModel LineMapModel ArrayModel ArraySpec BcodeModel SymbolModel SymbolSpec SymbolProofs
  LexModel ParseModel GrammarSpec ParseProofs StmtProofs CompileProofs VmModel VmLemmas VmSpec ControlProofs OpSpec VmTyping ValueSpec ValueProofs ForSpec ForProofs PrintSpec StoreSpec StoreFrames
  DataSpec FnSpec KindProofs TypeSpec CodeProofs LineSpec LineProofs EvalSpec EvalOps EvalProofs StepSpec StepProofs ErrProofs
  SessionModel MonitorModel MonSpec MonProofs SessionSpec PromptProofs RunProofs TypedProofs RunSpec BeginProofs ContProofs ShortProofs ExecProofs SafeProofs SafeCode SafeRun SafeCrash SafeSpec BlameProofs WhereProofs.
Local Open Scope nat_scope.
Local Notation num := Num.num.
Local Notation typed := VmTyping.typed.
Local Opaque init_builtins new_symbol_table parse_source.

Lemma proper_internal e : proper e -> internal e = false.
Proof. intros [H|[-> | ->]]; [|reflexivity|reflexivity]. destruct e; try reflexivity; destruct H. Qed.

(* ---------- no undefined behaviour ---------- *)

Lemma tail_first g i l n s a : tail g (i :: l) n s a -> (reads_line i = true -> a = true) /\ SafeCrash.short_on i.
Proof.
  intros T. inversion T; subst.
  - split; [|destruct i; try exact Logic.I; discriminate]. intros R. destruct i; try discriminate R; try (match goal with H : wants_line _ = true -> _ |- _ => exact (H eq_refl) end); discriminate.
  - split; [destruct i; try discriminate; discriminate|destruct i; try exact Logic.I; discriminate].
  - split; [discriminate|exact Logic.I].
  - split; [reflexivity|exact Logic.I].
  - split; [reflexivity|exact Logic.I].
  - split; [destruct b; discriminate|]. destruct b; assumption.
  - split; [discriminate|exact Logic.I].
Qed.
Lemma flow_first i l n s n' s' : flow (i :: l) n s n' s' -> reads_line i = false /\ SafeCrash.short_on i.
Proof. intros F. inversion F; subst. split; destruct i; try reflexivity; try exact Logic.I; discriminate. Qed.

Section NoCrash.
Variables (g : list sig) (code : coderef -> option bcode) (idx : option linemap) (E : env).
Hypothesis EO : env_ok E.
Hypothesis IX : forall x n i, idx = Some x -> lookup_line_mapping x n = Some i -> SafeRun.begins g code CStored (N.to_nat i).
Local Notation safe := (SafeRun.safe g code idx).
Lemma wp_crash {A} (m : M A) v : wp m v done -> fst (m v) <> Crash.
Proof. unfold wp. destruct (m v) as [[]]; [discriminate|discriminate|intros []|discriminate]. Qed.
Lemma safe_no_crash v i : safe v -> arrays_ok v -> no_wrap v -> tells v i -> current v = Some i -> fst (execute E v) <> Crash.
Proof.
  intros S A W Q C. assert (X : (reads_line i = true -> v_inp v <> None) /\ SafeCrash.short_on i).
  { unfold current, cur_bcode in C. destruct (sf_here _ _ _ _ S) as [(r & CS & n & s & _ & b & a & AC & T & AS)|(CS & r & _ & bc' & b & t & n0 & s0 & n & s & DB & SK & F & _)]; rewrite CS in C.
    - rewrite (sf_code _ _ _ _ S _ _ AC) in C. rewrite (skipn_at _ _ _ C) in T. destruct (tail_first _ _ _ _ _ _ T) as [T1 T2]. split; [|exact T2]. intros R. exact (proj2 (AS (T1 R))).
    - cbn [code_of] in C. rewrite DB in C. rewrite (skipn_at _ _ _ C) in SK. destruct b as [|j b]; cbn [app] in SK; injection SK as -> _.
      + split; [discriminate|exact Logic.I].
      + destruct (flow_first _ _ _ _ _ _ F) as [F1 F2]. split; [congruence|exact F2]. }
  destruct X as (X1 & X2). pose proof (wp_exec E g v i (sf_typed _ _ _ _ S) (sf_values _ _ _ _ S) A W Q C X1 X2) as H.
  rewrite (execute_eq E v i C). apply wp_crash in H. destruct (exec_instr E i v) as [[[]|e| |] w]; try discriminate. destruct (H eq_refl).
Qed.
Definition telling (v : vm) : Prop := forall i, current v = Some i -> tells v i.
Lemma quiet_telling v : PrintSpec.quiet v -> telling v.
Proof. intros [Q1 Q2] i _. destruct i; cbn [tells]; congruence || exact Logic.I. Qed.
Lemma quiet_step v w u : PrintSpec.quiet v -> execute E v = (Ok u, w) -> PrintSpec.quiet w.
Proof.
  intros Q X. destruct (current v) as [i|] eqn:C; [|rewrite (execute_none E v C) in X; discriminate X].
  pose proof (execute_keeps v_opt E v i C (fun _ _ => eq_refl) (exec_keeps_opt E i)) as K. rewrite X in K. unfold PrintSpec.quiet in *. cbn [snd] in K. rewrite K. exact Q.
Qed.
Lemma wrap_dec v : no_wrap v \/ wraps v.
Proof.
  assert (D : Forall (fun x => ~ is_integer x 4294967295) (subscript_numbers v) \/ wraps v).
  { unfold wraps. induction (subscript_numbers v) as [|x l [IH|(y & IH1 & IH2)]].
    - left. constructor.
    - assert (X : is_integer x 4294967295 \/ ~ is_integer x 4294967295) by (unfold is_integer; destruct (units x) as [z|]; [destruct (Z.eq_dec z (4294967295 * UNIT)%Z); [left; congruence|right; congruence]|right; discriminate]).
      destruct X as [X|X]; [right; exists x; split; [left; reflexivity|exact X]|left; constructor; assumption].
    - right. exists y. split; [right; exact IH1|exact IH2]. }
  destruct D as [D|D]; [left|right; exact D]. intros i id t _ _ _. exact D.
Qed.
Lemma loop_crash fuel : forall brk v, safe v -> arrays_ok v -> (forall l x, runs E v l x -> telling x) -> forall b w, run_loop E fuel brk v = (Crash, b, w) -> exists l x, runs E v l x /\ wraps x.
Proof.
  induction fuel as [|f IH]; intros brk v S A Q b w; cbn [run_loop];
    (destruct (cur_bcode v) as [c|] eqn:B; [|intros _; exfalso; unfold cur_bcode in B; destruct (sf_here _ _ _ _ S) as [(r & CS & _ & _ & _ & b0 & _ & AC & _)|(CS & r & _ & bc' & _ & _ & _ & _ & _ & _ & DB & _)]; rewrite CS in B; [rewrite (sf_code _ _ _ _ S _ _ AC) in B|cbn [code_of] in B; rewrite DB in B]; discriminate B]);
    (destruct (_ && _) eqn:G; [|discriminate]); [discriminate|].
  assert (C : exists i, current v = Some i).
  { unfold current. rewrite B. apply Bool.andb_true_iff in G as [G _]. apply Bool.andb_true_iff in G as [G _]. apply Nat.ltb_lt in G. unfold bc_used in G. destruct (nth_error (bc_inst c) (cs_pc (v_cs v))) eqn:N; [eauto|]. apply nth_error_None in N. lia. }
  destruct C as (i & C). destruct (wrap_dec v) as [W|W]; [|intros _; exists [], v; split; [constructor|exact W]].
  pose proof (safe_no_crash v i S A W (Q [] v (Runs_nil _ _) i C) C) as NC. pose proof (safe_step g code idx E EO IX v S) as G'. destruct (execute E v) as [[[]|e| |] u] eqn:X; try discriminate; [|destruct (NC eq_refl)].
  cbn [goes] in G'. intros H. destruct (IH _ u G' (arrays_sound E v [v] u EO (Runs_cons _ _ _ _ _ X (Runs_nil _ _)) (sf_values _ _ _ _ S) A (Forall_cons _ W (Forall_nil _))) (fun l x R => Q (v :: l) x (Runs_cons _ _ _ _ _ X R)) _ _ H) as (l & x & R & WX).
  exists (v :: l), x. split; [econstructor; [exact X|exact R]|exact WX].
Qed.
Lemma quiet_runs v l x : PrintSpec.quiet v -> runs E v l x -> telling x.
Proof. intros Q R. apply quiet_telling. revert Q. induction R as [v|v v1 l w X R IH]; [auto|]. intros Q. apply IH. exact (quiet_step v v1 tt Q X). Qed.
End NoCrash.

(* ---------- what is reported ---------- *)

Lemma loop_err E fuel : forall brk v, match run_loop E fuel brk v with
  | (Fail e, _, w) => exists r, v_err w = v_err v ++ [r] /\ er_err r = e | (Ok _, _, w) => v_err w = v_err v | _ => True end.
Proof.
  induction fuel as [|f IH]; intros brk v; cbn [run_loop]; (destruct (cur_bcode v) as [c|]; [|exact Logic.I]); (destruct (_ && _); [|reflexivity]); [exact Logic.I|].
  pose proof (execute_reports E v) as H. destruct (execute E v) as [[[]|e| |] u]; try exact Logic.I; cbn in H.
  - specialize (IH (tick brk) u). destruct (run_loop E f (tick brk) u) as [[[a|e| |] b] w]; try rewrite <- H; exact IH.
  - eexists. split; [exact H|reflexivity].
Qed.
Lemma loop_fail_stopped E fuel : forall brk v, match run_loop E fuel brk v with (Fail _, _, w) => v_stopped w = false | _ => True end.
Proof.
  induction fuel as [|f IH]; intros brk v; cbn [run_loop]; (destruct (cur_bcode v) as [c|]; [|exact Logic.I]); (destruct (_ && _) eqn:G; [|exact Logic.I]); [exact Logic.I|].
  apply Bool.andb_true_iff in G as [G _]. apply Bool.andb_true_iff in G as [_ G]. apply Bool.negb_true_iff in G.
  destruct (execute E v) as [[[]|e| |] u] eqn:X; try exact Logic.I; [apply IH|].
  destruct (current v) as [i|] eqn:C; [|rewrite (execute_none E v C) in X; discriminate X]. destruct (VmModel.is_stop i) eqn:ST.
  - destruct i; try discriminate ST. rewrite (execute_eq E v _ C) in X. discriminate X.
  - pose proof (execute_keeps v_stopped E v i C (fun _ _ => eq_refl) (exec_keeps_stopped E i ST)) as K. rewrite X in K. cbn [snd] in K. congruence.
Qed.
Lemma report_err b v : v_err (snd (run_report b v)) = v_err v.
Proof. unfold run_report, put, modify. destruct (interrupted b); [reflexivity|]. destruct (v_stopped v); [|reflexivity]. destruct (cs_code (v_cs v)); reflexivity. Qed.
Lemma stop_err b v : v_err (run_stop_state b v) = v_err v.
Proof. unfold run_stop_state. destruct (cs_code (v_cs v)) as [[]|]; try reflexivity. destruct (_ || _); reflexivity. Qed.
Lemma run_err E fuel brk v : match run E fuel brk v with
  | (Fail e, w) => exists r, v_err w = v_err v ++ [r] /\ er_err r = e | (Ok _, w) => v_err w = v_err v | _ => True end.
Proof.
  unfold run. destruct (cs_code (v_cs v)); [|exact Logic.I]. pose proof (loop_err E fuel brk (set_stopped false v)) as L.
  assert (F : forall b w, match fst (run_report b w) with Fail _ => False | _ => True end).
  { intros b w. unfold run_report, put, modify. destruct (interrupted b); [exact Logic.I|]. destruct (v_stopped w); [|exact Logic.I]. destruct (cs_code (v_cs w)); exact Logic.I. }
  destruct (run_loop E fuel brk (set_stopped false v)) as [[[a|e| |] b] w]; try exact Logic.I; pose proof (report_err b w) as R; specialize (F b w); destruct (run_report b w) as [[u|e'| |] x]; cbn [fst snd] in *; try exact Logic.I; try contradiction.
  - rewrite stop_err, R. exact L.
  - destruct L as (r & L1 & L2). exists r. split; [rewrite stop_err, R; exact L1|exact L2].
Qed.

(* ---------- the program of the session ---------- *)

Lemma solid_stmt g x : wstmt g x -> proper_targets x -> SafeSpec.short_on x -> solid x.
Proof.
  intros W PT SO. destruct x; try exact Logic.I; [|exact SO]. cbn [solid wstmt] in *. destruct W as ((_ & _ & W) & _). unfold proper_targets in PT. cbn [targets] in PT. inversion_clear PT. tauto.
Qed.

Section Top.
Variables (o : options) (E : env) (line rest : bytes) (s : sess) (src : source) (xss : list (list stmt)) (st : symtab).
Hypothesis IS : in_step o s.
Hypothesis ML : means line (MCommand C_RUN rest).
Hypothesis SS : c_source (v_stored (ss_vm s)) = Some src.
Hypothesis SO : statements_of o src xss st.
Hypothesis AP : acceptable_program xss st.
Hypothesis ON : Forall (Forall SafeSpec.short_on) xss.
Hypothesis EO : env_ok E.
Hypothesis DL : distinct_lines src.
Local Notation s0 := (set_vm (new_machine src (ss_vm s)) s).
Local Notation P := (numbered src xss).
Local Notation g := (sigs st).

Lemma begins_too : exists bc idx, compiling o src = PoOk (Some bc) None st /\ bcode_index bc src = Some idx /\
  forall fuel, interpret E fuel line s0 = ran s0 (run E fuel (next_break s) (first_vm src st (ss_vm s) bc idx)).
Proof.
  pose proof SO as (bc & _ & C & _). pose proof (new_good o False s src (in_step_good o s IS) SS) as G.
  assert (H : forall fuel, exists idx, bcode_index bc src = Some idx /\ interpret E fuel line s0 = ran s0 (run E fuel (next_break s) (first_vm src st (ss_vm s) bc idx))).
  { intros fuel. rewrite (interpret_means E fuel line _ s0 ML). cbn [act].
    destruct (run_command o False E fuel rest s0 G) as [A | src1 x st1 A C1 | src1 t A C1 Q | src1 t A C1 Q | src1 bc1 st1 u A C1 ST U]; [discriminate A| | | |];
      (assert (src1 = src) by (change (Some src = Some src1) in A; congruence)); subst src1; rewrite C in C1; try discriminate C1.
    injection C1 as <- <-. destruct U as [[[R|R] _]|(_ & idx & X & ->)]; [discriminate R|destruct (R eq_refl)|]. exists idx. split; [exact X|].
    assert (NB0 : next_break s0 = next_break s) by reflexivity. rewrite NB0. reflexivity. }
  destruct (H 0) as (idx & X & _). exists bc, idx. split; [exact C|]. split; [exact X|]. intros fuel. destruct (H fuel) as (idx' & X' & I'). rewrite X in X'. injection X' as <-. exact I'.
Qed.
Lemma program_solid : Forall (Forall solid) xss.
Proof.
  pose proof (program_wstmt o src xss st SO AP) as W. destruct AP as (_ & _ & PT). apply Forall_forall. intros xs I. rewrite Forall_forall in W, PT. specialize (W xs I). specialize (PT xs I). pose proof ON as O. rewrite Forall_forall in O. specialize (O xs I). rewrite Forall_forall in W, PT, O.
  apply Forall_forall. intros x J. exact (solid_stmt _ _ (W x J) (PT x J) (O x J)).
Qed.
Lemma program_tail : tail g (pcode 0 xss) 0 0 false.
Proof. exact (pcode_tail g xss (program_wstmt o src xss st SO AP) program_solid 0). Qed.

Section At.
Variables (bc : bcode) (idx : linemap).
Hypothesis CO : compiling o src = PoOk (Some bc) None st.
Hypothesis IX : bcode_index bc src = Some idx.
Local Notation u := (first_vm src st (ss_vm s) bc idx).
Local Notation code := (fun r => match r with CStored => Some bc | _ => None end).
Lemma at_here : at_code code CStored bc.
Proof. split; [discriminate|reflexivity]. Qed.
Lemma at_bcode : bc_inst bc = pcode 0 xss.
Proof. exact (first_bcode o src xss st SO bc CO). Qed.
Lemma at_lines x n i : Some idx = Some x -> lookup_line_mapping x n = Some i -> SafeRun.begins g code CStored (N.to_nat i).
Proof.
  intros XX L. injection XX as <-. pose proof SO as (bc' & st1 & C & PI & ST & B). apply (index_lookup _ _ _ _ _ _ _ PI at_bcode IX DL) in L as (k & (l & N & _) & ->). rewrite Nat2N.id.
  pose proof (program_length _ _ _ _ _ PI) as LE. rewrite map_length in LE. assert (K : k < length xss) by (rewrite LE; apply nth_error_Some; congruence).
  exists bc. split; [exact at_here|]. rewrite at_bcode. apply (tail_marker g (pcode 0 xss) 0 0 false (line_start xss k) k program_tail). pose proof (line_start_code xss k K) as X. rewrite <- (Nat.add_0_r (line_start xss k)), <- nth_error_skipn, X. reflexivity.
Qed.
Lemma at_safe : SafeRun.safe g code (Some idx) u.
Proof.
  pose proof (pr_opt _ _ _ _ (in_step_good o s IS)) as VO. pose proof (session_short o any_line s (in_step_any o s IS)) as IO.
  constructor.
  - exact (first_typed o src xss st SO AP (ss_vm s) bc idx CO).
  - exact (first_values o src st (ss_vm s) bc idx CO IO).
  - intros r b [_ R]. destruct r; try discriminate R. injection R as <-. reflexivity.
  - reflexivity.
  - unfold defs_good. change (v_st u) with st. eapply Forall_impl; [|exact (first_syms o src st bc CO)]. intros y (U & W & _). unfold def_good. unfold wfits in W. destruct U as [B|[V _]]; [rewrite B in W; destruct (s_val y); try contradiction; exact Logic.I|rewrite V; exact Logic.I].
  - constructor.
  - constructor.
  - left. exists CStored. split; [reflexivity|]. exists 0, 0. split; [split; cbn; lia|]. exists bc, false. split; [exact at_here|]. split; [|discriminate]. change (cs_pc (v_cs u)) with 0. cbn [skipn]. rewrite at_bcode. exact program_tail.
Qed.
Lemma at_arrays : arrays_ok u.
Proof.
  unfold arrays_ok. change (v_st u) with st. eapply Forall_impl; [|exact (first_syms o src st bc CO)]. intros y (U & W & _). unfold wfits in W. destruct U as [K|[V _]]; [rewrite K in W; destruct (s_val y); try contradiction; exact Logic.I|rewrite V; exact Logic.I].
Qed.
Lemma at_lined : lined src xss bc idx u.
Proof.
  split; [|split].
  - constructor; [reflexivity|constructor|constructor].
  - apply lands_here; [|reflexivity]. split; [reflexivity|]. exists 0. split; [lia|]. destruct xss; reflexivity.
  - unfold fine_defs. change (v_st u) with st. eapply Forall_impl; [|exact (first_syms o src st bc CO)]. intros y (U & W & _).
    unfold wfits in W. destruct U as [K|[V D]]; [rewrite K in W; destruct (s_val y); try contradiction; exact Logic.I|rewrite V; exact Logic.I].
Qed.
Lemma at_lined_runs l x : runs E u l x -> lined src xss bc idx x.
Proof.
  intros R. pose proof SO as (bc' & st1 & C & PI & ST & B).
  exact (lined_runs E (sigs st) _ _ _ src xss bc idx (program_wstmt o src xss st SO AP) PI at_bcode IX DL u l x R at_lined).
Qed.
Lemma lined_tells x : lined src xss bc idx x -> telling x.
Proof.
  intros (B & H & _) i C. pose proof SO as (bc' & st1 & _ & PI & _ & _). pose proof (program_length _ _ _ _ _ PI) as LE. rewrite map_length in LE. pose proof (program_wstmt o src xss st SO AP) as WS.
  assert (L : forall k, cs_code (v_cs x) = Some CStored -> k < length xss -> has_line x k).
  { intros k CS K. destruct (nth_error src k) as [l|] eqn:N; [|apply nth_error_None in N; lia]. exists CStored, src, l. split; [exact CS|]. split; [cbn [code_of]; rewrite (b_stored _ _ _ _ _ B); reflexivity|exact N]. }
  destruct H as [([[CS K]|(CS & j & J & P)] & _)|F].
  - pose proof (stored_current src xss bc idx at_bcode x i B CS C) as N. pose proof (within_unmarked _ _ _ _ _ PI _ _ _ K N) as UM. destruct K as (K & _).
    destruct i; cbn [tells]; try exact Logic.I; try (intros _; apply L; assumption). destruct (proj2 UM).
  - pose proof (stored_current src xss bc idx at_bcode x i B CS C) as N. rewrite P in N. destruct (Nat.eq_dec j (length xss)) as [Q|Q]; [rewrite Q, end_at in N; discriminate N|].
    rewrite marker_at in N by lia. injection N as <-. cbn [tells]. intros _. apply L; [exact CS|lia].
  - destruct (fn_current g src xss WS x i F C) as [Q| ->]; [|exact Logic.I]. destruct i; try exact Logic.I; discriminate Q.
Qed.
Lemma at_starts : starts src (new_machine src (ss_vm s)) u.
Proof. apply (starts_fresh o); [exact (pr_opt _ _ _ _ (in_step_good o s IS))|exact CO|exact IX]. Qed.
End At.

(* nothing undefined happens and no internal error is reported, except after a subscript of 4294967295 *)
Lemma run_safe fuel : (exists u l w, starts src (new_machine src (ss_vm s)) u /\ runs E u l w /\ wraps w) \/ run_went_well s (interpret E fuel line s).
Proof.
  destruct begins_too as (bc & idx & CO & IX & IN). pose proof (typed_like_new o E fuel line rest s src IS SS ML) as H. cbv zeta in H. rewrite IN in H.
  set (u := first_vm src st (ss_vm s) bc idx) in *.
  assert (L : (exists b w, run_loop E fuel (next_break s) u = (Crash, b, w)) \/ fst (run E fuel (next_break s) u) <> Crash).
  { assert (CU : cs_code (v_cs u) = Some CStored) by reflexivity. assert (SU : set_stopped false u = u) by (apply stopped_same; reflexivity).
    unfold run. rewrite CU, SU. pose proof (safe_loop g _ (Some idx) E EO (at_lines bc idx CO IX) fuel (next_break s) u (at_safe bc idx CO)) as SL.
    destruct (run_loop E fuel (next_break s) u) as [[[[]|e| |] b] w] eqn:RL; [right|right|left; exists b, w; reflexivity|right; discriminate].
    - unfold run_report, put, modify. destruct (interrupted b); [discriminate|]. destruct (v_stopped w); [|discriminate]. destruct (cs_code (v_cs w)) eqn:CW; [discriminate|]. destruct (sf_here _ _ _ _ SL) as [(r & CS & _)|(CS & _)]; congruence.
    - pose proof (loop_fail_stopped E fuel (next_break s) u) as LF. rewrite RL in LF. unfold run_report, put, modify. rewrite LF. destruct (interrupted b); discriminate. }
  destruct L as [(b & w & L)|NC].
  { left. destruct (loop_crash g _ (Some idx) E EO (at_lines bc idx CO IX) fuel _ u (at_safe bc idx CO) (at_arrays bc idx CO) (fun l x R => lined_tells bc idx CO x (at_lined_runs bc idx CO IX l x R)) b w L) as (l & x & R & W).
    exists u, l, x. split; [exact (at_starts bc idx CO IX)|]. split; [exact R|exact W]. }
  right. pose proof (run_err E fuel (next_break s) u) as RE.
  pose proof (safe_run g _ (Some idx) E EO (at_lines bc idx CO IX) fuel (next_break s) _ (at_safe bc idx CO)) as SR. fold u in SR.
  assert (EU : v_err u = []) by reflexivity. rewrite EU in RE. clear EU.
  destruct (run E fuel (next_break s) u) as [[[]|e| |] w]; cbn [fst snd] in RE, SR, NC; [| |destruct (NC eq_refl)|]; cbn [ran fst snd] in H; destruct (interpret E fuel line s) as [a t|t|t|t]; try contradiction H; cbn [run_went_well].
  - destruct H as (_ & _ & (y & E1 & E2) & _). exists y. split; [exact E2|]. cbn [ss_vm after_run set_vm] in E1. rewrite RE in E1. change (v_err (new_machine src (ss_vm s))) with (@nil errev) in E1. cbn [app] in E1. subst y. split; [cbn; lia|constructor].
  - destruct H as (_ & _ & (y & E1 & E2) & _). exists y. split; [exact E2|]. cbn [ss_vm after_run set_vm] in E1. destruct RE as (r & R1 & R2). rewrite R1 in E1. change (v_err (new_machine src (ss_vm s))) with (@nil errev) in E1. cbn [app] in E1. subst y. split; [cbn; lia|].
    constructor; [|constructor]. rewrite R2. exact (proper_internal e SR).
  - exact Logic.I.
Qed.

(* the stacks are empty between statements *)
Lemma run_stacks (QO : o_trace_basic o = false /\ o_trace_for o = false) (RR : rand_range E) : exists u, starts src (new_machine src (ss_vm s)) u /\
  forall n s', steps E P n (run_state st P (ss_vm s)) = Next s' ->
    overflows E u \/ exists l w, runs E u l w /\ at_statement xss (x_spot s') w /\ v_stack w = [] /\ v_sstack w = [].
Proof.
  destruct begins_too as (bc & idx & CO & IX & IN). set (u := first_vm src st (ss_vm s) bc idx) in *. exists u. split; [exact (at_starts bc idx CO IX)|]. intros n s' H.
  pose proof (pr_opt _ _ _ _ (in_step_good o s IS)) as VO. pose proof (session_short o any_line s (in_step_any o s IS)) as IO.
  pose proof (first_related o src xss st SO AP QO (ss_vm s) bc idx VO CO IX IO) as R. fold u in R.
  pose proof (steps_simulated E (sigs st) EO RR src xss DL (program_wstmt o src xss st SO AP) n u (run_state st P (ss_vm s)) R) as X. fold P in X. rewrite H in X. cbn [simulated] in X.
  destruct X as [X|(l & w & RW & (RD & ST & SK))]; [left; exact X|right]. exists l, w. split; [exact RW|]. unfold stacks in SK. injection SK as SK1 SK2. split; [|split; [exact SK1|exact SK2]].
  split; [exact (r_code _ _ _ _ _ RD)|]. destruct ST as [ST|(S1 & _ & S2)]; [left; rewrite ST; reflexivity|right; split; [exact S1|exact S2]].
Qed.
End Top.
