(* RUN runs the program as its statements say (C38): from executions of the
   machine to what typing RUN does. *)
From Coq Require Import Lia ZifyBool ZifyNat ZifyN SpecFloat.
From Verif Require Import Base BaseLemmas Num NumSpec DoubleProofs SourceModel LineMapModel ArraySpec BcodeModel SymbolModel SymbolSpec SymbolProofs
  LexModel ParseModel GrammarSpec ParseProofs StmtProofs CompileProofs VmModel VmLemmas VmSpec ControlProofs OpSpec VmTyping ValueSpec ForSpec ForProofs PrintSpec StoreSpec
  DataSpec FnSpec KindProofs TypeSpec CodeProofs LineSpec LineProofs EvalSpec EvalOps EvalProofs StepSpec StepProofs
  SessionModel MonitorModel MonSpec SessionSpec PromptProofs MonProofs RunProofs TypedProofs RunSpec ErrSpec ErrProofs BeginProofs ContProofs ShortProofs.
Local Open Scope nat_scope.
Local Notation num := Num.num.
Local Notation typed := VmTyping.typed.
Local Opaque init_builtins new_symbol_table parse_source.

(* ---------- the loop of run ---------- *)

Lemma execute_current E v w : execute E v = (Ok tt, w) -> exists bc, cur_bcode v = Some bc /\ cs_pc (v_cs v) < bc_used bc.
Proof.
  intros X. destruct (current v) as [i|] eqn:C; [|rewrite (execute_none E v C) in X; discriminate X].
  unfold current in C. destruct (cur_bcode v) as [bc|]; [|discriminate C]. exists bc. split; [reflexivity|]. unfold bc_used. apply nth_error_Some. congruence.
Qed.
Lemma failed_current E v e w : execute E v = (Fail e, w) -> exists bc, cur_bcode v = Some bc /\ cs_pc (v_cs v) < bc_used bc.
Proof.
  intros X. destruct (current v) as [i|] eqn:C; [|rewrite (execute_none E v C) in X; discriminate X].
  unfold current in C. destruct (cur_bcode v) as [bc|]; [|discriminate C]. exists bc. split; [reflexivity|]. unfold bc_used. apply nth_error_Some. congruence.
Qed.
Lemma loop_runs E v l w : runs E v l w -> Forall (fun u => v_stopped u = false) l -> forall f, run_loop E (length l + f) None v = run_loop E f None w.
Proof.
  intros R. induction R as [v|v v1 l w X R IH]; intros F f; [reflexivity|]. inversion F; subst.
  destruct (execute_current E v v1 X) as (bc & B & L). cbn [length plus run_loop]. rewrite B. apply Nat.ltb_lt in L. rewrite L, H1. cbn [negb andb interrupted]. rewrite X. cbn [tick].
  apply IH. assumption.
Qed.
Lemma loop_over E f w : (exists bc, cur_bcode w = Some bc) -> current w = None -> run_loop E f None w = (Ok tt, None, w).
Proof.
  intros (bc & B) C. unfold current in C. rewrite B in C. apply nth_error_None in C. destruct f; cbn [run_loop]; rewrite B; unfold bc_used;
    (replace (Nat.ltb (cs_pc (v_cs w)) (length (bc_inst bc))) with false by (symmetry; apply Nat.ltb_ge; exact C)); reflexivity.
Qed.
Lemma loop_stop E f w : current w = Some I_STOP -> v_stopped w = false -> run_loop E (S f) None w = (Ok tt, None, set_stopped true w).
Proof.
  intros C S. cbn [run_loop]. unfold current in C. destruct (cur_bcode w) as [bc|] eqn:B; [|discriminate C].
  assert (L : Nat.ltb (cs_pc (v_cs w)) (bc_used bc) = true) by (apply Nat.ltb_lt; unfold bc_used; apply nth_error_Some; congruence).
  rewrite L, S. cbn [negb andb interrupted tick].
  assert (X : execute E w = (Ok tt, set_stopped true w)) by (rewrite (execute_eq E w I_STOP) by (unfold current; rewrite B; exact C); reflexivity).
  rewrite X. destruct f; cbn [run_loop]; (change (cur_bcode (set_stopped true w)) with (cur_bcode w)); rewrite B;
    (change (v_stopped (set_stopped true w)) with true); cbn [negb]; rewrite Bool.andb_false_r; reflexivity.
Qed.
Lemma loop_fail E f u e w : execute E u = (Fail e, w) -> v_stopped u = false -> run_loop E (S f) None u = (Fail e, None, w).
Proof.
  intros X S. destruct (failed_current _ _ _ _ X) as (bc & B & L). cbn [run_loop]. rewrite B. apply Nat.ltb_lt in L. rewrite L, S. cbn [negb andb interrupted tick]. rewrite X. reflexivity.
Qed.
Lemma stopped_same v : v_stopped v = false -> set_stopped false v = v.
Proof. destruct v. cbn. intros ->. reflexivity. Qed.

(* ---------- run ---------- *)

(* run from u: what it has printed, reported and left to be read *)
Definition made (u w : vm) (out : list oev) (errs : list errev) (input : bytes) : Prop :=
  v_out w = v_out u ++ out /\ v_err w = v_err u ++ errs /\ v_in w = input.
Lemma stop_state_made b u w out errs input : made u w out errs input -> made u (run_stop_state b w) out errs input.
Proof. unfold run_stop_state. intros H. destruct (cs_code (v_cs w)) as [[| |]|]; try exact H. destruct (_ || _); exact H. Qed.
Lemma runs_made E u l w out : runs E u l w -> v_out w = v_out u ++ out -> made u w out [] (v_in w).
Proof. intros R O. split; [exact O|]. split; [|reflexivity]. rewrite app_nil_r. exact (runs_err _ _ _ _ R). Qed.

Section Run.
Variables (E : env) (u : vm) (l : list vm).
Hypothesis CU : cs_code (v_cs u) <> None.
Hypothesis SU : v_stopped u = false.
Lemma run_eq fuel : run E fuel None u =
  match run_loop E fuel None u with
  | (Crash, _, v) => (Crash, v)
  | (NoFuel, _, v) => (NoFuel, v)
  | (r, brk', v) =>
      match run_report brk' v with
      | (Ok _, v') => (r, run_stop_state brk' v')
      | (x, v') => (x, v')
      end
  end.
Proof. unfold run. rewrite (stopped_same u SU). destruct (cs_code (v_cs u)); [reflexivity|congruence]. Qed.
Lemma report_none w : v_stopped w = false -> run_report None w = (Ok tt, w).
Proof. intros S. unfold run_report. cbn [interrupted]. rewrite S. reflexivity. Qed.

Lemma run_over w out : runs E u l w -> v_stopped w = false -> (exists bc, cur_bcode w = Some bc) -> current w = None -> v_out w = v_out u ++ out ->
  forall fuel, length l <= fuel -> exists x, run E fuel None u = (Ok tt, x) /\ made u x out [] (v_in w).
Proof.
  intros R S B C O fuel LE. replace fuel with (length l + (fuel - length l)) by lia. rewrite run_eq, (loop_runs E u l w R (proj1 (runs_stopped _ _ _ _ R S))), (loop_over E _ w B C), (report_none w S).
  eexists. split; [reflexivity|]. apply stop_state_made. exact (runs_made _ _ _ _ _ R O).
Qed.
Lemma run_stop w out src : runs E u l w -> v_stopped w = false -> current w = Some I_STOP -> v_out w = v_out u ++ out ->
  cs_code (v_cs w) = Some CStored -> c_source (v_stored w) = Some src ->
  forall fuel, S (length l) <= fuel -> exists x, run E fuel None u = (Ok tt, x) /\
    made u x (out ++ map OB (print_source_line src (cs_line (v_cs w)) ++ [NL] ++ lit "Stopped" ++ [NL])) [] (v_in w).
Proof.
  intros R S C O CS SR fuel LE. replace fuel with (length l + Datatypes.S (fuel - Datatypes.S (length l))) by lia.
  rewrite run_eq, (loop_runs E u l w R (proj1 (runs_stopped _ _ _ _ R S))), (loop_stop E _ w C S).
  assert (X : run_report None (set_stopped true w) = put (print_source_line src (cs_line (v_cs w)) ++ [NL] ++ lit "Stopped" ++ [NL]) (set_stopped true w)).
  { unfold run_report. cbn [interrupted set_stopped v_stopped v_cs]. rewrite CS. cbn [code_of]. change (v_stored (set_stopped true w)) with (v_stored w). rewrite SR. reflexivity. }
  rewrite X. unfold put, modify. eexists. split; [reflexivity|]. apply stop_state_made. split.
  - change (v_out w ++ map OB (print_source_line src (cs_line (v_cs w)) ++ [NL] ++ lit "Stopped" ++ [NL]) = v_out u ++ out ++ map OB (print_source_line src (cs_line (v_cs w)) ++ [NL] ++ lit "Stopped" ++ [NL])).
    rewrite O. symmetry. apply app_assoc.
  - split; [|reflexivity]. rewrite app_nil_r. exact (runs_err _ _ _ _ R).
Qed.
Lemma run_fails x e w out : runs E u l x -> execute E x = (Fail e, w) -> v_stopped w = false -> v_out w = v_out u ++ out ->
  forall fuel, S (length l) <= fuel -> exists y, run E fuel None u = (Fail e, y) /\ made u y out [mkErr e (shown_line w)] (v_in w).
Proof.
  intros R X S O fuel LE. assert (SX : v_stopped x = false) by (rewrite <- (failed_stopped _ _ _ _ X); exact S).
  replace fuel with (length l + Datatypes.S (fuel - Datatypes.S (length l))) by lia.
  rewrite run_eq, (loop_runs E u l x R (proj1 (runs_stopped _ _ _ _ R SX))), (loop_fail E _ x e w X SX), (report_none w S).
  eexists. split; [reflexivity|]. apply stop_state_made. split; [exact O|]. split; [|reflexivity].
  pose proof (execute_reports E x) as H. rewrite X in H. rewrite (runs_err _ _ _ _ R) in H. exact H.
Qed.
Lemma run_reaches w out : runs E u l w -> v_stopped w = false -> (exists bc, cur_bcode w = Some bc) -> v_out w = v_out u ++ out ->
  exists r x, run E (length l) None u = (r, x) /\ (r = Ok tt \/ r = NoFuel) /\ made u x out [] (v_in w).
Proof.
  intros R S B O. replace (length l) with (length l + 0) by lia. rewrite run_eq, (loop_runs E u l w R (proj1 (runs_stopped _ _ _ _ R S))).
  destruct B as (bc & B). cbn [run_loop]. rewrite B. destruct (_ && _).
  - eexists _, _. split; [reflexivity|]. split; [right; reflexivity|]. exact (runs_made _ _ _ _ _ R O).
  - rewrite (report_none w S). eexists _, _. split; [reflexivity|]. split; [left; reflexivity|]. apply stop_state_made. exact (runs_made _ _ _ _ _ R O).
Qed.
End Run.

(* ---------- RUN ---------- *)

Section Top.
Variables (o : options) (E : env) (line rest : bytes) (s : sess) (src : source) (xss : list (list stmt)) (st : symtab).
Hypothesis IS : in_step o s.
Hypothesis ML : means line (MCommand C_RUN rest).
Hypothesis SS : c_source (v_stored (ss_vm s)) = Some src.
Hypothesis SO : statements_of o src xss st.
Hypothesis AP : acceptable_program xss st.
Hypothesis QO : o_trace_basic o = false /\ o_trace_for o = false.
Hypothesis EO : env_ok E.
Hypothesis RR : rand_range E.
Hypothesis DL : distinct_lines src.
Hypothesis NB : next_break s = None.
Local Notation s0 := (set_vm (new_machine src (ss_vm s)) s).
Local Notation P := (numbered src xss).

Lemma begins_as : exists bc idx, compiling o src = PoOk (Some bc) None st /\ bcode_index bc src = Some idx /\
  forall fuel, interpret E fuel line s0 = ran s0 (run E fuel None (first_vm src st (ss_vm s) bc idx)).
Proof.
  pose proof SO as (bc & _ & C & _). pose proof (new_good o False s src (in_step_good o s IS) SS) as G.
  assert (H : forall fuel, exists idx, bcode_index bc src = Some idx /\ interpret E fuel line s0 = ran s0 (run E fuel None (first_vm src st (ss_vm s) bc idx))).
  { intros fuel. rewrite (interpret_means E fuel line _ s0 ML). cbn [act].
    destruct (run_command o False E fuel rest s0 G) as [A | src1 x st1 A C1 | src1 t A C1 Q | src1 t A C1 Q | src1 bc1 st1 u A C1 ST U]; [discriminate A| | | |];
      (assert (src1 = src) by (change (Some src = Some src1) in A; congruence)); subst src1; rewrite C in C1; try discriminate C1.
    injection C1 as <- <-. destruct U as [[[R|R] _]|(_ & idx & X & ->)]; [discriminate R|destruct (R eq_refl)|]. exists idx. split; [exact X|].
    assert (NB0 : next_break s0 = None) by exact NB. rewrite NB0. reflexivity. }
  destruct (H 0) as (idx & X & _). exists bc, idx. split; [exact C|]. split; [exact X|]. intros fuel. destruct (H fuel) as (idx' & X' & I'). rewrite X in X'. injection X' as <-. exact I'.
Qed.
Lemma did_too t0 t out errs input : same_effects s0 t0 s t -> did s0 t0 out errs input -> did s t out errs input.
Proof.
  intros ((x & O1 & O2) & (y & E1 & E2) & I1 & _) [D1 D2 D4].
  assert (x = out) by (rewrite O1 in D1; exact (app_inv_head _ _ _ D1)). assert (y = errs) by (rewrite E1 in D2; exact (app_inv_head _ _ _ D2)). subst x y.
  constructor; [exact O2|exact E2|congruence].
Qed.
Lemma ok_too fuel t0 out errs input : interpret E fuel line s0 = XOk false t0 -> did s0 t0 out errs input ->
  exists t, interpret E fuel line s = XOk false t /\ did s t out errs input.
Proof.
  intros X D. pose proof (typed_like_new o E fuel line rest s src IS SS ML) as H. cbv zeta in H. rewrite X in H. destruct (interpret E fuel line s) as [a t| | |]; try (exfalso; exact H).
  destruct H as [<- H]. exists t. split; [reflexivity|]. eapply did_too; eassumption.
Qed.
Lemma fuel_too fuel t0 out errs input : interpret E fuel line s0 = XNoFuel t0 -> did s0 t0 out errs input ->
  exists t, interpret E fuel line s = XNoFuel t /\ did s t out errs input.
Proof.
  intros X D. pose proof (typed_like_new o E fuel line rest s src IS SS ML) as H. cbv zeta in H. rewrite X in H. destruct (interpret E fuel line s) as [a t| | |t]; try (exfalso; exact H).
  exists t. split; [reflexivity|]. eapply did_too; eassumption.
Qed.
Lemma made_did u x out errs input : v_out u = [] -> v_err u = [] -> made u x out errs input -> did s0 (after_run s0 x) out errs input.
Proof. intros O R (A & B & C). rewrite O in A. rewrite R in B. constructor; [exact A|exact B|exact C]. Qed.

Lemma run_as n : too_deep E line s \/ runs_as E line s src xss (steps E P n (run_state st P (ss_vm s))).
Proof.
  destruct begins_as as (bc & idx & C & IX & IN). set (u := first_vm src st (ss_vm s) bc idx) in *.
  pose proof (pr_opt _ _ _ _ (in_step_good o s IS)) as VO.
  pose proof (session_short o any_line s (in_step_any o s IS)) as IO.
  pose proof (first_related o src xss st SO AP QO (ss_vm s) bc idx VO C IX IO) as R. fold u in R.
  pose proof (program_wstmt o src xss st SO AP) as WS.
  pose proof (steps_simulated E (sigs st) EO RR src xss DL WS n u (run_state st P (ss_vm s)) R) as H. fold P in H.
  assert (CU : cs_code (v_cs u) <> None) by discriminate. assert (SU : v_stopped u = false) by reflexivity.
  assert (OU : v_out u = []) by reflexivity. assert (EU : v_err u = []) by reflexivity.
  assert (OV : overflows E u -> too_deep E line s).
  { intros (l & x & w & e & RX & XX & SW & FU). exists (Datatypes.S (length l)). intros fuel LE.
    rewrite SU in SW. destruct (run_fails E u l CU SU x e w (v_out w) RX XX SW ltac:(rewrite OU; reflexivity) fuel LE) as (y & Y & M).
    destruct (ok_too fuel (after_run s0 y) (v_out w) [mkErr e (shown_line w)] (v_in w)) as (t & T & D); [rewrite IN, Y; reflexivity|exact (made_did u _ _ _ _ OU EU M)|].
    exists t, (v_out w), e, (shown_line w), (v_in w). split; [exact T|]. split; [exact D|]. tauto. }
  assert (LD : forall w s', StepProofs.ready (sigs st) src xss w s' -> (exists b, cur_bcode w = Some b) /\ c_source (v_stored w) = Some src /\ v_out w = v_out u ++ x_output s').
  { intros w s' RW. split; [|split].
    - destruct (s_loaded _ _ _ _ (r_steady _ _ _ _ _ RW)) as (a & b & i & st1 & LO & _). exists b. unfold cur_bcode. rewrite (r_code _ _ _ _ _ RW). cbn [code_of]. rewrite LO. reflexivity.
    - destruct (s_loaded _ _ _ _ (r_steady _ _ _ _ _ RW)) as (a & b & i & st1 & LO & _). rewrite LO. reflexivity.
    - rewrite OU. exact (w_output _ _ _ (r_shows _ _ _ _ _ RW)). }
  unfold simulated in H. destruct (steps E P n (run_state st P (ss_vm s))) as [s'|s'|s'|e s'|]; cbn [runs_as]; [| | | |right; exact Logic.I];
    (destruct H as [H|H]; [left; exact (OV H)|right]).
  - destruct H as (l & w & RW & (RD & _)). destruct (LD w s' RD) as (B & _ & OW). pose proof (r_stopped _ _ _ _ _ RD) as SW.
    destruct (run_reaches E u l CU SU w (x_output s') RW SW B OW) as (r & x & X & RC & M). apply (made_did u _ _ _ _ OU EU) in M. rewrite (w_input _ _ _ (r_shows _ _ _ _ _ RD)) in M.
    exists (length l). destruct RC as [-> | ->].
    + destruct (ok_too (length l) (after_run s0 x) (x_output s') [] (x_input s')) as (t & T & D); [rewrite IN, X; reflexivity|exact M|]. exists t. split; [right; exact T|exact D].
    + destruct (fuel_too (length l) (after_run s0 x) (x_output s') [] (x_input s')) as (t & T & D); [rewrite IN, X; reflexivity|exact M|]. exists t. split; [left; exact T|exact D].
  - destruct H as (l & w & RW & (RD & _) & CW). destruct (LD w s' RD) as (B & _ & OW). pose proof (r_stopped _ _ _ _ _ RD) as SW.
    exists (length l). intros fuel LE. destruct (run_over E u l CU SU w (x_output s') RW SW B CW OW fuel LE) as (x & X & M).
    apply (made_did u _ _ _ _ OU EU) in M. rewrite (w_input _ _ _ (r_shows _ _ _ _ _ RD)) in M. apply (ok_too fuel (after_run s0 x)); [rewrite IN, X; reflexivity|exact M].
  - destruct H as (l & w & RW & RD & CW & LW). destruct (LD w s' RD) as (B & SR & OW). pose proof (r_stopped _ _ _ _ _ RD) as SW.
    exists (Datatypes.S (length l)). intros fuel LE. destruct (run_stop E u l CU SU w (x_output s') src RW SW CW OW (r_code _ _ _ _ _ RD) SR fuel LE) as (x & X & M).
    apply (made_did u _ _ _ _ OU EU) in M. rewrite (w_input _ _ _ (r_shows _ _ _ _ _ RD)), LW in M. apply (ok_too fuel (after_run s0 x)); [rewrite IN, X; reflexivity|exact M].
  - destruct H as (l & x & w & RX & XX & SW & SH & BL).
    assert (T : exists text, shown_line w = Some text /\ shown_for src xss (fst (x_spot s')) text).
    { destruct BL as [BL|(j & id & p & d & J & BL)]; eexists; (split; [exact BL|]); [left; reflexivity|right; exists j, id, p, d; split; [exact J|reflexivity]]. }
    destruct T as (text & T & F). exists text. split; [exact F|]. rewrite <- T. exists (Datatypes.S (length l)). intros fuel LE.
    destruct (run_fails E u l CU SU x e w (x_output s') RX XX SW ltac:(rewrite OU; exact (w_output _ _ _ SH)) fuel LE) as (y & Y & M).
    apply (made_did u _ _ _ _ OU EU) in M. rewrite (w_input _ _ _ SH) in M. apply (ok_too fuel (after_run s0 y)); [rewrite IN, Y; reflexivity|exact M].
Qed.
End Top.

(* a program that compiles has statements *)
Lemma statements_exist o src bc e st : compiling o src = PoOk (Some bc) e st -> exists xss, statements_of o src xss st.
Proof.
  intros C. pose proof (parse_source_ok src _ (o_anywhere o) fine_init) as H. unfold compiling in C. rewrite C in H.
  destruct H as (-> & xss & st1 & P & _ & -> & B & _). exists xss, bc, st1. split; [exact C|]. split; [exact P|]. split; [reflexivity|exact B].
Qed.
