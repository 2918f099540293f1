(* The lines that what is pending at the prompt refers to exist (C31). *)
From Coq Require Import Lia ZifyBool ZifyNat ZifyN.
From Verif Require Import Base BaseLemmas Num NumSpec SourceModel LineMapModel LineMapSpec LineMapProofs BcodeModel SymbolModel SymbolSpec
  VmModel VmLemmas VmSpec ControlProofs ValueSpec GrammarSpec TypeSpec StepSpec VmTyping KindProofs AlikeProofs
  LexModel ParseModel StmtProofs CodeProofs CompileProofs LineSpec LineProofs RunSpec SessionModel MonitorModel MonSpec MonProofs SessionSpec PlaceProofs PromptProofs RunProofs ContProofs TypedProofs SafeSpec SafePrompt SafeTraced SafeTyped.
Local Open Scope nat_scope.
Local Open Scope sess_scope.
Local Opaque init_builtins new_symbol_table parse_source.

Lemma stopcs_keeps E i : keeps v_stopcs (exec_instr E i).
Proof. destruct i; cbn [exec_instr]; repeat keeps_more. Qed.

Section Run.
Variables (sto imo : codeobj) (n : nat) (allowed : coderef -> Prop).
Hypothesis AS : allowed CStored.
Hypothesis AD : ~ allowed CDef.
Hypothesis LM : forall x m i, c_index sto = Some x -> lookup_line_mapping x m = Some i -> 0 < n.
Hypothesis SM : forall b p k, c_bcode sto = Some b -> nth_error (bc_inst b) p = Some (I_SOURCE_LINE k) -> k < n.
Hypothesis IM : allowed CImmediate -> forall b p k, c_bcode imo = Some b -> nth_error (bc_inst b) p = Some (I_SOURCE_LINE k) -> k = 0.
Local Notation held := (held sto imo n).
Local Notation lok := (lok n).
Definition hv (v : vm) : Prop := held v /\ lok (v_stopcs v).
Lemma hv_exec E i v : PlaceProofs.placed allowed v -> current v = Some i -> held v -> held (snd (exec_instr E i v)).
Proof.
  intros P C H. destruct (goes_to i) eqn:G; [|exact (held_exec sto imo n E i G v H)].
  destruct (match i with I_SOURCE_LINE _ => true | _ => false end) eqn:SL.
  - destruct i; try discriminate SL. apply held_line; [|exact H]. unfold SafeTraced.lok. cbn [cs_code cs_line]. destruct (cs_code (v_cs v)) as [r|] eqn:CS; [|exact Logic.I].
    unfold current, cur_bcode in C. rewrite CS in C. destruct (c_bcode (code_of v r)) as [b|] eqn:B; [|discriminate C]. destruct r; [| |exact Logic.I]; cbn [code_of] in B.
    + rewrite (hd_sto _ _ _ v H) in B. exact (SM b _ _ B C).
    + rewrite (hd_imm _ _ _ v H) in B. apply (IM ltac:(destruct (pl_cs _ _ P) as [(r & R & A)|[R _]]; congruence) b _ _ B C).
  - assert (J : AlikeProofs.jumps i = true) by (destruct i; try discriminate G; try discriminate SL; reflexivity).
    destruct (PlaceProofs.outside allowed v i P C J) as (r & CS & A).
    assert (PL : SafeTraced.placed sto imo n v) by (split; [exact H|destruct r; auto; destruct (AD A)]).
    apply (placed_exec sto imo n LM E i G); [|exact PL]. intros k ->. discriminate SL.
Qed.
Lemma hv_execute E v : PlaceProofs.placed allowed v -> hv v -> hv (snd (execute E v)).
Proof.
  intros P [H L]. destruct (current v) as [i|] eqn:C; [|rewrite (execute_none E v C); split; assumption].
  pose proof (execute_keeps v_stopcs E v i C (fun _ _ => eq_refl) (stopcs_keeps E i)) as K. split; [|rewrite K; exact L].
  pose proof (hv_exec E i v P C H) as Y. rewrite (execute_eq E v i C). destruct (exec_instr E i v) as [[[]|e| |] w1]; cbn [finish fst snd] in *; try exact Y. apply held_pc. exact Y.
Qed.
Lemma hv_run st0 E fuel brk : KindProofs.safe (fun v => (kinded st0 v /\ PlaceProofs.placed allowed v) /\ hv v) (run E fuel brk).
Proof.
  apply KindProofs.safe_run.
  - intros v [[T P] H]. pose proof (kd_execute st0 E v T) as A. pose proof (pl_execute allowed AS AD st0 E v T P) as B. pose proof (hv_execute E v P H) as D. unfold after in *. destruct (fst (execute E v)); auto.
  - intros b v [[T P] [H L]]. split; [split; [apply kd_keeps_set; [repeat keeps_more|exact T]|apply (placed_same allowed AD v); [reflexivity|exact P]]|]. split; [(apply (held_part _ _ _ v); [reflexivity|exact H])|exact L].
  - intros c v [[T P] [H L]] C. split; [split; [apply kd_keeps_set; [repeat keeps_more|exact T]|]|].
    + destruct P as [P CC]. constructor; [|exact CC]. destruct P as [P1 P2 P3 P4]. constructor; try assumption. cbn. destruct C as [[-> C]| ->]; [right; exact C|left; reflexivity].
    + split; [(apply (held_part _ _ _ v); [reflexivity|exact H])|]. cbn. destruct C as [[-> _]| ->]; [exact (hd_cs _ _ _ v H)|exact Logic.I].
  - intros o c v [[T P] [H L]]. split; [split; [apply kd_keeps_set; [repeat keeps_more|exact T]|apply (placed_same allowed AD v); [reflexivity|exact P]]|]. split; [(apply (held_part _ _ _ v); [reflexivity|exact H])|exact L].
Qed.
End Run.

(* ---------- at the prompt ---------- *)

Definition srclen (v : vm) : nat := Nat.max 1 (match c_source (v_stored v) with Some src => length src | None => 0 end).
Definition lines (n : nat) (v : vm) : Prop := Forall (lok n) (v_ret v) /\ Forall (fun f => lok n (f_cs f)) (v_for v) /\ lok n (fn_cs (v_fn v)) /\ lok n (v_stopcs v).
(* the code was compiled from as many lines as the source has *)
Definition tied (v : vm) (bc : bcode) : Prop := exists src src0 kw st st' idx, c_source (v_stored v) = Some src /\ length src0 = length src /\
  compiled kw src0 st bc st' /\ bcode_index bc src0 = Some idx /\ c_index (v_stored v) = Some idx.
Definition hl (v : vm) : Prop := forall bc, c_bcode (v_stored v) = Some bc -> tied v bc /\ lines (srclen v) v.
Definition tmatched (v : vm) : Prop := v_stored v = no_code \/ exists bc, c_bcode (v_stored v) = Some bc /\ tied v bc.
Lemma tied_same v w bc : v_stored w = v_stored v -> tied v bc -> tied w bc.
Proof. intros S. unfold tied. rewrite S. auto. Qed.
Lemma tmatched_facts v : tmatched v ->
  (forall x m i, c_index (v_stored v) = Some x -> lookup_line_mapping x m = Some i -> 0 < srclen v) /\
  (forall b p k, c_bcode (v_stored v) = Some b -> nth_error (bc_inst b) p = Some (I_SOURCE_LINE k) -> k < srclen v).
Proof.
  unfold srclen. intros M. split; [intros; lia|]. destruct M as [-> |(bc & B & src & src0 & kw & st & st' & idx & S & LE & CO & _)]; [discriminate|].
  intros b' p k Q N. rewrite B in Q. injection Q as <-. rewrite S. pose proof (marker_below _ _ _ _ (compiled_markers _ _ _ _ _ CO) N). lia.
Qed.
Lemma run_hl (allowed : coderef -> Prop) E fuel brk u r w : allowed CStored -> ~ allowed CDef -> live u -> PlaceProofs.placed allowed u -> tmatched u ->
  (allowed CImmediate -> forall b p k, c_bcode (v_imm u) = Some b -> nth_error (bc_inst b) p = Some (I_SOURCE_LINE k) -> k = 0) ->
  hl u -> (forall bc, c_bcode (v_stored u) = Some bc -> lok (srclen u) (v_cs u)) -> run E fuel brk u = (r, w) -> r <> Crash -> hl w.
Proof.
  intros AS AD [F K] P MA IM HL LC R NC bc B. pose proof (run_stays E fuel brk u) as ST. rewrite R in ST. cbn [snd] in ST. apply stays_split in ST. destruct ST as (S1 & _ & _).
  rewrite S1 in B. destruct (HL bc B) as (TD & L1 & L2 & L3 & L4). specialize (LC bc B). destruct (tmatched_facts u MA) as [LM SM].
  assert (H0 : hv (v_stored u) (v_imm u) (srclen u) u) by (split; [constructor; auto|exact L4]).
  pose proof (hv_run (v_stored u) (v_imm u) (srclen u) allowed AS AD LM SM IM (v_st u) E fuel brk u (conj (conj K P) H0)) as X. rewrite R in X. unfold after in X. cbn [fst snd] in X.
  assert (Y : hv (v_stored u) (v_imm u) (srclen u) w) by (destruct r; try apply X; destruct (NC eq_refl)). destruct Y as [[A1 A2 A3 A4 A5 A6] A7].
  split; [exact (tied_same u w bc S1 TD)|]. replace (srclen w) with (srclen u) by (unfold srclen; rewrite S1; reflexivity). split; [exact A4|]. split; [exact A5|]. split; assumption.
Qed.
Lemma hl_none v : c_bcode (v_stored v) = None -> hl v.
Proof. intros H bc B. congruence. Qed.
Lemma hl_reset w : (forall bc, c_bcode (v_stored w) = Some bc -> tied w bc) -> v_ret w = [] -> v_for w = [] -> cs_code (fn_cs (v_fn w)) = None -> cs_code (v_stopcs w) = None -> hl w.
Proof. intros T A B C D bc Q. split; [exact (T bc Q)|]. unfold lines, lok. rewrite A, B, C, D. split; [constructor|]. split; [constructor|]. split; exact Logic.I. Qed.

Section Kept.
Variable o : options.
Local Notation good := (good o False False).
Local Notation xsafe := (xsafe o False False).
Definition kept (s : sess) : Prop := good s /\ hl (ss_vm s).
Lemma ready_matched s : kept s -> ready (ss_vm s) -> tmatched (ss_vm s).
Proof.
  intros [G T] R. destruct (c_bcode (v_stored (ss_vm s))) as [bc|] eqn:B; [right; exists bc; split; [exact B|apply (T bc B)]|].
  destruct R as [R|R]; [|congruence]. left. pose proof (pr_stored _ _ _ _ G) as P. unfold stored_state in P. rewrite R in P. apply P.
Qed.
Definition zsafe {X} (m : SessionModel.X X) : Prop := forall s, kept s -> match m s with XOk _ s' => kept s' | _ => True end.
Lemma z_split {X} (m : SessionModel.X X) : xsafe m -> (forall s, kept s -> match m s with XOk _ s' => hl (ss_vm s') | _ => True end) -> zsafe m.
Proof. intros A B s K. specialize (A s (proj1 K)). specialize (B s K). destruct (m s); try exact Logic.I. split; assumption. Qed.
Lemma z_ret {X} (a : X) : zsafe (xret a).
Proof. intros s H. exact H. Qed.
Lemma z_bind {X Y} (m : SessionModel.X X) (k : X -> SessionModel.X Y) : zsafe m -> (forall a, zsafe (k a)) -> zsafe (xbind m k).
Proof. intros M K s H. unfold xbind. specialize (M s H). destruct (m s); try exact Logic.I. apply K, M. Qed.
Lemma z_get {Y} (k : vm -> SessionModel.X Y) : (forall v, zsafe (k v)) -> zsafe (xbind get_vm k).
Proof. intros K s H. apply K, H. Qed.
Lemma hl_seen v w : PromptProofs.seen_alike v w -> hl v -> hl w.
Proof. intros (_ & A & _ & _ & _ & B & C & D & F) H bc Q. rewrite A in Q. destruct (H bc Q) as [T L]. split; [exact (tied_same v w bc A T)|]. unfold lines, srclen in *. rewrite A, B, C, D, F. exact L. Qed.
Lemma z_seen (f : vm -> vm) : (forall v, PromptProofs.seen_alike v (f v)) -> zsafe (mod_vm f).
Proof. intros F. apply z_split; [apply xsafe_seen, F|]. intros s [_ H]. exact (hl_seen _ _ (F _) H). Qed.
Lemma z_say d : zsafe (say d).
Proof. intros s H. exact H. Qed.
Lemma z_out b : zsafe (out b).
Proof. apply z_seen. intros v. unfold PromptProofs.seen_alike. repeat (split; [reflexivity|]). reflexivity. Qed.
Lemma z_check_eol t : zsafe (check_eol t).
Proof. unfold check_eol. destruct (at_eol _); [apply z_ret|]. apply z_bind; [apply z_say|intros _; apply z_ret]. Qed.
Lemma z_list src a b p : forall n, zsafe (list_loop src a b p n).
Proof.
  induction src as [|l src IH]; intros n; cbn [list_loop]; [apply z_ret|]. destruct (b <? _)%N; [apply z_ret|]. destruct (a <=? _)%N; [|apply IH].
  apply z_bind; [apply z_out|]. intros _. apply z_bind; [|intros _; apply IH].
  destruct (_ && _); [|apply z_out]. unfold await_newline. apply z_seen. intros v. unfold PromptProofs.seen_alike. repeat (split; [reflexivity|]). reflexivity.
Qed.
Lemma z_delete n : zsafe (vm_delete_source_line n).
Proof.
  apply z_split; [apply xsafe_delete|]. intros s [_ T]. cbn [mod_vm vm_delete_source_line ss_vm set_vm].
  destruct (stored_source (ss_vm s)) as [src|]; [|exact T]. destruct (find_source_linenum src n); [|exact T]. apply hl_none. reflexivity.
Qed.
Lemma z_enter n t : zsafe (vm_enter_source_line n t).
Proof.
  apply z_split; [apply xsafe_enter|]. intros s [_ T]. unfold vm_enter_source_line. unfold xbind, get_vm. cbv zeta.
  destruct (enter_source_line _ n t) as [src'|e|]; try exact Logic.I. cbn [mod_vm ss_vm set_vm]. apply hl_none. reflexivity.
Qed.
Lemma z_load name : zsafe (vm_load_source name).
Proof.
  apply z_split; [apply xsafe_load|]. intros s [_ T]. unfold vm_load_source. destruct (ss_fs s name) as [content|]; [|exact T].
  destruct (load_source content) as [src|e|]; try exact Logic.I. apply hl_none. reflexivity.
Qed.
Lemma z_new : zsafe (vm_new_program ;;; vm_clear_names).
Proof.
  apply z_split; [apply xsafe_new|]. intros s [G T]. unfold vm_new_program, vm_clear_names, xbind, mod_vm. cbn [ss_vm set_vm].
  apply hl_none. unfold stored_source. destruct (c_source (v_stored (ss_vm s))); reflexivity.
Qed.
Lemma z_clear : zsafe vm_clear_values.
Proof. apply z_split; [apply xsafe_clear_values|]. intros s [_ T]. exact T. Qed.
Lemma z_ensure s : kept s -> match ensure_program_compiled s with XOk b s' => kept s' /\ (b = true -> ready (ss_vm s')) | _ => True end.
Proof.
  intros [G T]. pose proof (ensure_good o False False s G) as H.
  assert (Y : match ensure_program_compiled s with XOk _ s' => hl (ss_vm s') | _ => True end).
  { destruct (ensure_cases o False False s G) as [[R Q]|(src & S & Q)]; [rewrite Q; exact T|].
    destruct (parse_source src _ _) as [[bc|] e st'| | |] eqn:PS.
    - destruct Q as (-> & idx & BI & Q). rewrite Q. cbn [ss_vm set_vm]. pose proof (compile_outcome src _ (o_anywhere o) fine_init) as CO. rewrite PS in CO. destruct CO as [_ CO].
      apply hl_reset; try reflexivity. intros b' Z. change (Some bc = Some b') in Z. injection Z as <-.
      exists src, src, (o_anywhere o), (init_builtins new_symbol_table), st', idx. split; [reflexivity|]. split; [reflexivity|]. split; [exact CO|]. split; [exact BI|reflexivity].
    - destruct Q as (x & _ & Q). rewrite Q. cbn [ss_vm]. apply hl_none. cbn. rewrite S. reflexivity.
    - destruct Q as (x & Q & _). rewrite Q. exact Logic.I.
    - destruct Q as (x & Q & _). rewrite Q. exact Logic.I.
    - destruct Q. }
  destruct (ensure_program_compiled s); try exact Logic.I. destruct H as [A B]. split; [split; assumption|exact B].
Qed.
Lemma z_run_program E fuel : zsafe (run_program E fuel).
Proof.
  apply z_split; [apply xsafe_run_program|]. intros s K. unfold run_program. unfold xbind at 1, get_vm at 1. destruct (stored_source (ss_vm s)) as [src|]; [|apply K].
  unfold xbind at 1. pose proof (z_ensure s K) as H. destruct (ensure_program_compiled s) as [[|] s1| | |]; try exact Logic.I; [|apply H].
  destruct H as [[G1 T1] R1]. specialize (R1 eq_refl). unfold xbind, mod_vm, with_run. cbn [ss_vm set_vm ss_brk].
  destruct (ready_live _ _ _ _ G1 R1) as [L J]. pose proof (ready_matched s1 (conj G1 T1) R1) as MA.
  match goal with |- context [run E fuel ?b ?x] => destruct (run E fuel b x) as [r w] eqn:X end.
  assert (Y : r <> Crash -> hl w).
  { intros NC. refine (run_hl (eq CStored) E fuel _ _ r w eq_refl _ _ _ _ _ _ _ X NC).
    - discriminate.
    - apply live_cs, live_reset, L.
    - apply placed_start; [apply pending_idle_cs, idle_pending, idle_reset|exists CStored; auto].
    - exact MA.
    - discriminate.
    - apply hl_reset; try reflexivity. intros bc Z. exact (proj1 (T1 bc Z)).
    - intros bc B. unfold lok, srclen. cbn [cs_code cs_line v_cs set_cs set_stopped]. lia. }
  destruct r; try exact Logic.I; apply Y; discriminate.
Qed.
Lemma z_continue E fuel : zsafe (continue_program E fuel).
Proof.
  apply z_split; [apply xsafe_continue|]. intros s [G T]. unfold continue_program, with_run. unfold vm_continue. unfold bind at 1, get at 1.
  destruct (cs_code (v_stopcs (ss_vm s))) as [r0|] eqn:S; [|exact T].
  assert (R0 : r0 = CStored) by (destruct (proj2 (proj2 (proj2 (pr_refs _ _ _ _ G)))) as [X|X]; congruence). subst r0.
  cbn [code_of]. destruct (c_bcode (v_stored (ss_vm s))) as [bc|] eqn:B; [|exact T].
  assert (R : ready (ss_vm s)) by (right; congruence). destruct (ready_live _ _ _ _ G R) as [L J]. pose proof (ready_matched s (conj G T) R) as MA.
  destruct (nth_error (bc_inst bc) (cs_pc (v_stopcs (ss_vm s)))) as [i|]; [|exact Logic.I]. cbn [some_or_crash]. unfold bind at 1, ret at 1. unfold bind at 1, modify at 1.
  unfold bind at 1. match goal with |- context [run E fuel ?b ?x] => destruct (run E fuel b x) as [r w] eqn:X end.
  assert (Y : r <> Crash -> hl w).
  { intros NC. refine (run_hl (eq CStored) E fuel _ _ r w eq_refl _ _ _ _ _ _ _ X NC).
    - discriminate.
    - apply live_cs, L.
    - apply placed_start; [apply pending_idle_cs, J|exists CStored; auto].
    - exact MA.
    - discriminate.
    - exact T.
    - intros b' _. destruct (T bc B) as (_ & _ & _ & _ & L4). unfold lok in L4. rewrite S in L4. exact L4. }
  destruct r; cbn; try exact Logic.I; apply Y; discriminate.
Qed.
Lemma z_immediate E fuel line : zsafe (run_immediate E fuel line).
Proof.
  apply z_split; [apply xsafe_immediate|]. intros s K. unfold run_immediate. unfold xbind at 1, mod_vm at 1.
  assert (K0 : kept (set_vm (set_imm no_code (ss_vm s)) s)) by (split; [apply prompt_imm, K|exact (proj2 K)]).
  unfold xbind at 1. pose proof (z_ensure _ K0) as H. destruct (ensure_program_compiled _) as [[|] s1| | |]; try exact Logic.I; [|apply H].
  destruct H as [[G1 T1] R1]. specialize (R1 eq_refl). cbv zeta. unfold xbind at 1. pose proof (compile_cases o False False (wrap_source_text line) false s1 G1 R1) as H.
  destruct (compile _ _ s1) as [[b|] s2| | |]; try exact Logic.I.
  2:{ destruct H as (st & e & _ & V & _). change (hl (ss_vm s2)). rewrite V. exact T1. }
  destruct H as (st & e & PS & V & G2 & R2). destruct (bcode_index b (wrap_source_text line)) as [idx|]; [|exact Logic.I].
  assert (T2 : hl (ss_vm s2)) by (rewrite V; exact T1). pose proof (ready_matched s2 (conj G2 T2) R2) as MA.
  destruct (ready_live _ _ _ _ G1 R1) as [[F1 _] _]. destruct (parsed_ok _ _ _ _ _ _ F1 PS) as (_ & D & _).
  pose proof (compile_outcome (wrap_source_text line) _ false F1) as CO. rewrite PS in CO. destruct CO as [_ CO].
  destruct (ready_live _ _ _ _ G2 R2) as [L2 J2]. unfold xbind at 1, mod_vm at 1. unfold xbind at 1, with_run at 1. cbn [ss_vm set_vm ss_brk].
  match goal with |- context [run E fuel ?bk ?x] => destruct (run E fuel bk x) as [r w] eqn:X; set (u := x) in X end.
  assert (Y : r <> Crash -> hl w).
  { intros NC. refine (run_hl either E fuel _ u r w (or_introl eq_refl) _ _ _ _ _ _ _ X NC).
    - intros [Z|Z]; discriminate Z.
    - apply live_cs, live_data, live_imm; [exact L2|]. intros bc Z. cbn in Z. injection Z as <-. exact D.
    - apply placed_start; [|exists CImmediate; split; [reflexivity|right; reflexivity]]. apply pending_idle_cs, pending_data, pending_imm, J2.
    - exact MA.
    - intros _ b' p k Z N. change (Some b = Some b') in Z. injection Z as <-. pose proof (marker_below _ _ _ _ (compiled_markers _ _ _ _ _ CO) N) as Q. cbn in Q. lia.
    - exact T2.
    - intros bc _. reflexivity. }
  assert (Z : r <> Crash -> forall s', ss_vm s' = w -> match (let* v := get_vm in match immediate_state v with
                | None => xcrash | Some true => mod_vm reset_control_state | Some false => xret tt end) s' with XOk _ s'' => hl (ss_vm s'') | _ => True end).
  { intros NC s' V'. unfold xbind, get_vm. rewrite V'. destruct (immediate_state w) as [[|]|] eqn:IS; [| |exact Logic.I].
    - unfold mod_vm. cbn [ss_vm set_vm]. rewrite V'. apply hl_reset; try reflexivity. intros bc Q. exact (proj1 (Y NC bc Q)).
    - unfold xret. rewrite V'. exact (Y NC). }
  destruct r; try exact Logic.I; apply Z; try discriminate; reflexivity.
Qed.
Lemma renum_lines_length src : forall m new old inc prev, length (fst (fst (renum_lines src m new old inc prev))) = length src.
Proof.
  induction src as [|l r IH]; intros m new old inc prev; cbn [renum_lines]; [reflexivity|]. cbv zeta. destruct (old <=? ln_num l)%N.
  - destruct (new <? prev)%N; [reflexivity|]. match goal with |- context [renum_lines r ?a ?b ?c ?d ?e] => specialize (IH a b c d e); destruct (renum_lines r a b c d e) as [[r' m'] e'] end. cbn in *. congruence.
  - match goal with |- context [renum_lines r ?a ?b ?c ?d ?e] => specialize (IH a b c d e); destruct (renum_lines r a b c d e) as [[r' m'] e'] end. cbn in *. congruence.
Qed.
Lemma renum_texts_length kw m src : match renum_texts kw m src with RsOk r | RsBail r => length r = length src | _ => True end.
Proof.
  induction src as [|l r IH]; cbn [renum_texts]; [reflexivity|]. destruct (renum_line kw m (ln_text l)); try exact Logic.I; [|reflexivity].
  destruct (renum_texts kw m r); try exact Logic.I; cbn; congruence.
Qed.
Lemma z_renumber a b d : zsafe (renumber a b d).
Proof.
  apply z_split; [apply xsafe_renumber; auto|]. intros s [G T]. unfold renumber. unfold xbind at 1, get_vm at 1. destruct (stored_source (ss_vm s)) as [src|] eqn:S; [|exact T].
  assert (X : forall src', length src' = length src -> hl (set_source src' (ss_vm s))).
  { intros src' LE bc B. destruct (T bc B) as [(sr & src0 & kw & st & st' & idx & Q & L0 & CO & BI & IX) L]. unfold stored_source in S. rewrite S in Q. injection Q as <-. split.
    - exists src', src0, kw, st, st', idx. split; [reflexivity|]. split; [congruence|]. auto.
    - change (lines (Nat.max 1 (length src')) (ss_vm s)). unfold srclen in L. rewrite S in L. rewrite LE. exact L. }
  pose proof (renum_lines_length src (new_line_map (N.of_nat (length src))) a b d 0%N) as L1.
  destruct (renum_lines _ _ _ _ _ _) as [[src1 m] [x|]]; [exact (X src1 L1)|]. cbn [fst] in L1.
  match goal with |- context [renum_texts ?k ?m ?q] => pose proof (renum_texts_length k m q) as L2; destruct (renum_texts k m q) as [s2|s2| |] end;
    [apply (X s2); congruence | apply (X s2); congruence | exact Logic.I | exact Logic.I].
Qed.
Lemma z_command E fuel c s : zsafe (command E fuel c s).
Proof.
  assert (CK : forall p (m : SessionModel.X unit), zsafe m -> zsafe (let* ok := check_eol p in (if ok then m else xret tt) ;;; xret false)).
  { intros p m H. apply z_bind; [apply z_check_eol|]. intros ok. apply z_bind; [destruct ok; [exact H|apply z_ret]|intros _; apply z_ret]. }
  assert (NM : forall (m : bytes -> SessionModel.X bool), (forall n, zsafe (m n)) -> zsafe (match demarcate_string s with
      | Some (name, p) => let* ok := check_eol p in (if ok then m name ;;; xret tt else say DFileName) ;;; xret false
      | None => say DFileName ;;; xret false end)).
  { intros m H. destruct (demarcate_string s) as [[name p]|].
    - apply z_bind; [apply z_check_eol|]. intros ok. apply z_bind; [|intros _; apply z_ret].
      destruct ok; [|apply z_say]. apply z_bind; [apply H|intros _; apply z_ret].
    - apply z_bind; [apply z_say|intros _; apply z_ret]. }
  destruct c; cbn [command].
  - apply z_check_eol.
  - apply z_bind; [|intros _; apply z_ret]. unfold vm_compile. apply z_bind; [|intros _; apply z_ret].
    intros x G. pose proof (z_ensure x G) as H. destruct (ensure_program_compiled x); try exact Logic.I. apply H.
  - apply z_bind; [apply z_continue|]. intros ok. apply z_bind; [destruct ok; [apply z_ret|apply z_say]|intros _; apply z_ret].
  - apply z_bind; [apply z_out|intros _; apply z_ret].
  - destruct (get_list_numbers s) as [[a b] p]. destruct (get_page_flag p) as [pg p1]. apply CK.
    unfold list_program. apply z_get. intros v. destruct (stored_source v); [apply z_list|apply z_ret].
  - apply (NM vm_load_source). apply z_load.
  - apply CK, z_new.
  - destruct (get_renum_numbers s) as [[[a b] d] p]. apply CK, z_renumber.
  - apply z_bind; [apply z_clear|]. intros _. apply z_bind; [apply z_run_program|intros _; apply z_ret].
  - apply (NM vm_save_source). intros n x G. unfold vm_save_source. destruct (stored_source (ss_vm x)); exact G.
Qed.
Lemma z_act E fuel m : zsafe (act E fuel m).
Proof.
  destruct m as [n [t|]|s| |c s|s]; cbn [act].
  - apply z_bind; [apply z_enter|intros _; apply z_ret].
  - apply z_bind; [apply z_delete|intros _; apply z_ret].
  - intros x G. exact G.
  - apply z_ret.
  - apply z_command.
  - apply z_bind; [apply z_immediate|intros _; apply z_ret].
Qed.
Lemma session_kept s : session o any_line s -> kept s.
Proof.
  intros H. induction H as [stdin fs brk | seed stdin fs brk | E fuel line s s' H IH OK I | s s' H IH W].
  - split; [apply start_good|]. apply hl_none. reflexivity.
  - split; [apply randomized_good|]. apply hl_none. reflexivity.
  - destruct (means_exists line) as (m & M). rewrite (interpret_means E fuel line m s M) in I.
    pose proof (z_act E fuel m s IH) as X. rewrite I in X. exact X.
  - destruct W. destruct IH as [G T]. split; [unfold PromptProofs.good in *; cbn [ss_vm] in *; eapply prompt_seen; [|exact G]|cbn [ss_vm] in *; eapply hl_seen; [|exact T]]; unfold PromptProofs.seen_alike; repeat (split; [reflexivity|]); reflexivity.
Qed.
(* a program without lines has nothing pending *)
Lemma none_pending v bc : c_bcode (v_stored v) = Some bc -> bc_inst bc = [] -> pending_in (eq CStored) v -> v_ret v = [] /\ v_for v = [] /\ cs_code (fn_cs (v_fn v)) = None.
Proof.
  intros S B [R F N P].
  assert (X : forall h c, (forall pc, ~ h [] pc) -> ~ place_in v (eq CStored) h c).
  { intros h c H (r & _ & <- & Q). unfold code_at in Q. cbn [code_of] in Q. rewrite S, B in Q. exact (H _ Q). }
  split; [|split].
  - destruct (v_ret v) as [|c l]; [reflexivity|]. inversion R; subst. exfalso. eapply X; [|eassumption].
    intros pc (q & [((n & H) & _) | (k & H & _)]); destruct q as [|[|q]]; discriminate H.
  - destruct (v_for v) as [|c l]; [reflexivity|]. inversion F; subst. exfalso. eapply X; [|eassumption].
    intros pc H. destruct pc as [|[|pc]]; discriminate H.
  - destruct (cs_code (fn_cs (v_fn v))) eqn:Q; [|reflexivity]. exfalso. eapply X; [|apply N; rewrite ?Q; discriminate].
    intros pc (id & n & [H|H]); destruct pc as [|[|pc]]; discriminate H.
Qed.
Lemma kept_lines s : kept s -> lines_exist (ss_vm s).
Proof.
  intros [G T].
  assert (NP : v_ret (ss_vm s) = [] /\ v_for (ss_vm s) = [] /\ cs_code (fn_cs (v_fn (ss_vm s))) = None -> lines_exist (ss_vm s)).
  { intros (A & B & C). right. rewrite A, B. split; [constructor|]. split; [constructor|]. left. exact C. }
  destruct (c_bcode (v_stored (ss_vm s))) as [bc|] eqn:B.
  - assert (R : ready (ss_vm s)) by (right; congruence). destruct (ready_live _ _ _ _ G R) as [_ J].
    destruct (T bc B) as [(src & src0 & kw & st & st' & idx & Z & LE & CO & BI & _) (L1 & L2 & L3 & _)].
    destruct src as [|l src].
    { apply NP. apply (none_pending _ bc B); [|exact J]. destruct src0; [|discriminate LE]. destruct CO as [_ (xss & st1 & P & _ & BB & _)].
      pose proof (program_length _ _ _ _ _ P) as LX. cbn in LX. destruct xss; [|discriminate LX]. exact BB. }
    unfold srclen in *. rewrite Z in L1, L2, L3.
    assert (Y : forall h c, place_in (ss_vm s) (eq CStored) h c -> lok (Nat.max 1 (length (l :: src))) c -> line_exists (ss_vm s) c).
    { intros h c (r & C & <- & _) L. right. split; [exact C|]. exists (l :: src). split; [exact Z|]. unfold lok in L. rewrite C in L. cbn [length] in *. lia. }
    destruct J as [J1 J2 J3 _]. right. split; [|split].
    + rewrite Forall_forall in *. intros c I. exact (Y _ c (J1 c I) (L1 c I)).
    + rewrite Forall_forall in *. intros f I. exact (Y _ _ (J2 f I) (L2 f I)).
    + destruct (cs_code (fn_cs (v_fn (ss_vm s)))) eqn:Q; [|left; exact Q]. exact (Y _ _ (J3 ltac:(rewrite ?Q; discriminate)) L3).
  - destruct (c_source (v_stored (ss_vm s))) as [src|] eqn:Q; [left; split; congruence|].
    pose proof (pr_stored _ _ _ _ G) as P. unfold stored_state in P. rewrite Q in P. destruct P as (Z & L & J). exact (NP (no_pending _ Z J)).
Qed.
Lemma session_lines s : session o any_line s -> lines_exist (ss_vm s).
Proof. intros S. exact (kept_lines s (session_kept s S)). Qed.
Lemma traceable_all E text xss s u : session o any_line s -> env_ok E -> line_starts s text xss u -> traceable E u.
Proof.
  intros SE EO (t & b & ix & st & st1 & EC & PS & PI & ST & B & BI & UU) SF IX l x R.
  assert (K0 : kept (set_vm (set_imm no_code (ss_vm s)) s)) by (split; [apply prompt_imm, (session_kept s SE)|exact (proj2 (session_kept s SE))]).
  pose proof (z_ensure _ K0) as H. rewrite EC in H. destruct H as [KT RT]. specialize (RT eq_refl). pose proof (ready_matched t KT RT) as MA.
  assert (FR : lined_up (ss_vm t)) by (destruct (kept_lines t KT) as [[S1 S2]|FR]; [destruct RT as [RT|RT]; congruence|exact FR]).
  assert (VS : v_stored u = v_stored (ss_vm t)) by (rewrite UU; reflexivity).
  assert (VI : v_imm u = mkCode (Some (wrap_source_text text)) (Some b) (Some ix)) by (rewrite UU; reflexivity).
  assert (VC : v_cs u = mkCs (Some CImmediate) 0 0) by (rewrite UU; reflexivity).
  assert (FU : lined_up u) by (rewrite UU; exact FR). clear UU. destruct FU as (F1 & F2 & F3).
  assert (IM : forall b' p k, c_bcode (v_imm u) = Some b' -> nth_error (bc_inst b') p = Some (I_SOURCE_LINE k) -> k = 0).
  { intros b' p k X N. rewrite VI in X. injection X as <-. rewrite B in N.
    pose proof (program_length _ _ _ _ _ PI) as LE. cbn in LE. pose proof (pcode_markers _ (program_plain _ _ _ _ _ PI) 0) as PM. rewrite LE in PM. pose proof (marker_below _ _ _ _ PM N). lia. }
  set (src := match c_source (v_stored u) with Some a => a | None => [] end).
  assert (Y : (forall x m i, c_index (v_stored u) = Some x -> lookup_line_mapping x m = Some i -> 0 < length src) /\
    (forall b' p k, c_bcode (v_stored u) = Some b' -> nth_error (bc_inst b') p = Some (I_SOURCE_LINE k) -> k < length src) /\
    (forall b', c_bcode (v_stored u) = Some b' -> c_source (v_stored u) = Some src /\ length src <= length src)).
  { subst src. rewrite VS. destruct MA as [-> |(bc & BC & sr & src0 & kw & st0 & st' & idx & Z & LE & CO & BX & IXX)]; [cbn [c_index c_bcode c_source no_code]; repeat split; discriminate|].
    rewrite Z. split; [|split].
    - intros y m i Q L. rewrite IXX in Q. injection Q as <-. rewrite <- LE. exact (index_some _ _ _ _ _ _ _ _ CO BX L).
    - intros b' p k Q N. rewrite BC in Q. injection Q as <-. rewrite <- LE. exact (marker_below _ _ _ _ (compiled_markers _ _ _ _ _ CO) N).
    - intros b' _. auto. }
  destruct Y as (Y1 & Y2 & Y3).
  apply (held_tells (v_stored u) (v_imm u) (length src) Y1 _ _ _ E EO IX Y2 IM src (wrap_source_text text) Y3) with (v := trim false u) (l := l); [|exact R|exact SF|].
  - rewrite VI. split; [reflexivity|cbn; lia].
  - constructor; try reflexivity.
    + change (v_cs (trim false u)) with (v_cs u). rewrite VC. reflexivity.
    + change (v_ret (trim false u)) with (v_ret u). apply (Forall_impl _ (fun c H => exists_lok u c src H eq_refl) F1).
    + change (v_for (trim false u)) with (v_for u). apply (Forall_impl _ (fun f H => exists_lok u (f_cs f) src H eq_refl) F2).
    + change (v_fn (trim false u)) with (v_fn u). exact (exists_lok u _ src F3 eq_refl).
Qed.
Lemma line_traced_all E line text xss s u : orderly o s -> env_ok E -> means line (MStatements text) -> program_fit o s ->
  line_starts s text xss u -> SafeSpec.fit xss (v_st u) -> forall fuel, (exists l w, runs E u l w /\ wraps w) \/ run_went_well s (interpret E fuel line s).
Proof. intros OR EO ML PF LS FT fuel. exact (line_well o E line text xss s u OR (traceable_all E text xss s u (orderly_session o s OR) EO LS) EO ML PF LS FT fuel). Qed.
End Kept.
