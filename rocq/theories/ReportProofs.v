(* The reports of run-time errors (C43). *)
From Coq Require Import Lia.
From Verif Require Import Base BaseLemmas Num SourceModel LineMapModel BcodeModel SymbolModel ParseModel GrammarSpec LineSpec VmModel VmLemmas VmSpec ErrSpec ErrProofs
  OpSpec VmTyping ValueSpec EvalSpec StepSpec SessionModel MonitorModel MonSpec MonProofs SessionSpec KindProofs PromptProofs RunProofs TypedProofs RunSpec CodeProofs LineProofs BlameProofs SafeSpec BeginProofs ExecProofs SafeTop ReportSpec WhereProofs.
Local Open Scope nat_scope.
Local Opaque init_builtins new_symbol_table parse_source.

(* ---------- what is typed reports one error at most ---------- *)

Definition silent {A} (m : X A) : Prop := forall s, match m s with XOk _ t => v_err (ss_vm t) = v_err (ss_vm s) | _ => True end.
Definition once {A} (m : X A) : Prop := forall s, match m s with XOk _ t => exists l, v_err (ss_vm t) = v_err (ss_vm s) ++ l /\ length l <= 1 | _ => True end.

Lemma silent_once {A} (m : X A) : silent m -> once m.
Proof. intros H s. specialize (H s). destruct (m s); try exact Logic.I. exists []. rewrite app_nil_r. split; [exact H|cbn; lia]. Qed.
Lemma silent_ret {A} (a : A) : silent (xret a).
Proof. intros s. reflexivity. Qed.
Lemma silent_bind {A B} (m : X A) (k : A -> X B) : silent m -> (forall a, silent (k a)) -> silent (xbind m k).
Proof. intros H K s. unfold xbind. specialize (H s). destruct (m s) as [a t| | |]; try exact Logic.I. specialize (K a t). destruct (k a t); try exact Logic.I. congruence. Qed.
Lemma once_before {A B} (m : X A) (k : A -> X B) : once m -> (forall a, silent (k a)) -> once (xbind m k).
Proof.
  intros H K s. unfold xbind. specialize (H s). destruct (m s) as [a t| | |]; try exact Logic.I. specialize (K a t). destruct (k a t); try exact Logic.I.
  destruct H as (l & L & H). exists l. split; [congruence|exact H].
Qed.
Lemma once_after {A B} (m : X A) (k : A -> X B) : silent m -> (forall a, once (k a)) -> once (xbind m k).
Proof.
  intros H K s. unfold xbind. specialize (H s). destruct (m s) as [a t| | |]; try exact Logic.I. specialize (K a t). destruct (k a t); try exact Logic.I.
  destruct K as (l & L & K). exists l. split; [congruence|exact K].
Qed.
Lemma silent_mod f : (forall v, v_err (f v) = v_err v) -> silent (mod_vm f).
Proof. intros H s. exact (H _). Qed.
Lemma silent_say d : silent (say d).
Proof. intros s. reflexivity. Qed.
Lemma silent_get : silent get_vm.
Proof. intros s. reflexivity. Qed.
Lemma silent_exit {A} : silent (@xexit A).
Proof. intros s. exact Logic.I. Qed.
Lemma silent_crash {A} : silent (@xcrash A).
Proof. intros s. exact Logic.I. Qed.
Lemma silent_fuel {A} : silent (fun s => @XNoFuel A s).
Proof. intros s. exact Logic.I. Qed.
Lemma silent_out b : silent (out b).
Proof. apply silent_mod. reflexivity. Qed.
Lemma silent_eol b : silent (check_eol b).
Proof. unfold check_eol. destruct (at_eol _); [apply silent_ret|]. apply silent_bind; [apply silent_say|]. intros _. apply silent_ret. Qed.
Lemma silent_compile src kw : silent (compile src kw).
Proof. intros s. unfold compile. destruct (parse_source _ _ _) as [bc [e|] st| | |]; try exact Logic.I; reflexivity. Qed.
Lemma silent_names : silent vm_clear_names.
Proof. apply silent_mod. reflexivity. Qed.
Ltac silence := repeat first
  [ apply silent_ret | apply silent_say | apply silent_get | apply silent_exit | apply silent_crash | apply silent_fuel | apply silent_out | apply silent_eol | apply silent_compile
  | apply silent_names | (apply silent_mod; intros; reflexivity) | (apply silent_bind; [|intros])
  | match goal with |- silent (match ?x with _ => _ end) => destruct x end ].
Lemma silent_ensure : silent ensure_program_compiled.
Proof. unfold ensure_program_compiled. silence. Qed.
Lemma silent_changed src : silent (mod_vm (fun v => stored_program_changed (set_source src v))).
Proof. apply silent_mod. reflexivity. Qed.
Lemma silent_list src : forall a b p c, silent (list_loop src a b p c).
Proof.
  induction src as [|l r IH]; intros a b p c; cbn [list_loop]; [apply silent_ret|]. destruct (_ <? _)%N; [apply silent_ret|]. destruct (_ <=? _)%N; [|apply IH].
  apply silent_bind; [apply silent_out|]. intros _. cbv zeta. apply silent_bind; [|intros _; apply IH]. destruct (_ && _ && _); [apply silent_mod; reflexivity|apply silent_out].
Qed.
Lemma silent_renumber new old inc : silent (renumber new old inc).
Proof.
  unfold renumber. apply silent_bind; [apply silent_get|]. intros v. destruct (stored_source v) as [src|]; [|apply silent_ret].
  destruct (renum_lines _ _ _ _ _ _) as [[src1 m] [d|]]; [silence|]. destruct (renum_texts _ _ _); silence.
Qed.
Lemma silent_load name : silent (vm_load_source name).
Proof. intros s. unfold vm_load_source. destruct (ss_fs s name); [|reflexivity]. destruct (load_source _); try exact Logic.I. reflexivity. Qed.
Lemma silent_save name : silent (vm_save_source name).
Proof. intros s. unfold vm_save_source. destruct (stored_source _); reflexivity. Qed.
Lemma silent_delete n : silent (vm_delete_source_line n).
Proof. apply silent_mod. intros v. destruct (stored_source v) as [src|]; [destruct (find_source_linenum src n)|]; reflexivity. Qed.
Lemma silent_new : silent vm_new_program.
Proof. apply silent_mod. intros v. destruct (stored_source v); reflexivity. Qed.

Lemma once_run E fuel : once (with_run (run E fuel) tt).
Proof.
  intros s. unfold with_run. set (b := match ss_brk s with b :: _ => b | [] => None end). pose proof (run_err E fuel b (ss_vm s)) as H. destruct (run E fuel b (ss_vm s)) as [[a|e| |] v]; try exact Logic.I.
  - exists []. rewrite app_nil_r. split; [exact H|cbn; lia].
  - destruct H as (r & H & _). exists [r]. split; [exact H|cbn; lia].
Qed.
Lemma once_continue E fuel : once (continue_program E fuel).
Proof.
  intros s. unfold continue_program, with_run. set (b := match ss_brk s with b :: _ => b | [] => None end). unfold vm_continue, bind, get.
  destruct (cs_code (v_stopcs (ss_vm s))) as [r|]; [|exists []; rewrite app_nil_r; split; [reflexivity|cbn; lia]].
  destruct (c_bcode (code_of (ss_vm s) r)) as [bc|]; [|exists []; rewrite app_nil_r; split; [reflexivity|cbn; lia]].
  destruct (nth_error (bc_inst bc) (cs_pc (v_stopcs (ss_vm s)))) as [i|]; [|exact Logic.I]. cbn [some_or_crash ret modify].
  match goal with |- context [run E fuel b ?u] => pose proof (run_err E fuel b u) as H; destruct (run E fuel b u) as [[a|e| |] v] end; try exact Logic.I.
  - exists []. rewrite app_nil_r. split; [exact H|cbn; lia].
  - destruct H as (x & H & _). exists [x]. split; [exact H|cbn; lia].
Qed.
Lemma once_program E fuel : once (run_program E fuel).
Proof.
  unfold run_program. apply once_after; [apply silent_get|]. intros v. destruct (stored_source v); [|apply silent_once, silent_ret].
  apply once_after; [apply silent_ensure|]. intros [|]; [|apply silent_once, silent_ret]. apply once_after; [apply silent_mod; reflexivity|]. intros _. apply once_run.
Qed.
Lemma once_immediate E fuel text : once (run_immediate E fuel text).
Proof.
  unfold run_immediate. apply once_after; [apply silent_mod; reflexivity|]. intros _. apply once_after; [apply silent_ensure|]. intros [|]; [|apply silent_once, silent_ret].
  cbv zeta. apply once_after; [apply silent_compile|]. intros [b|]; [|apply silent_once, silent_ret]. destruct (bcode_index _ _); [|apply silent_once, silent_exit].
  apply once_after; [apply silent_mod; reflexivity|]. intros _. apply once_before; [apply once_run|]. intros _. apply silent_bind; [apply silent_get|]. intros v.
  destruct (immediate_state v) as [[|]|]; silence.
Qed.
Lemma silent_act E fuel m : ~ runs_something m -> silent (act E fuel m).
Proof.
  intros H. destruct m as [n [t|]|x| |c x|x]; cbn [act].
  - unfold vm_enter_source_line. silence.
  - apply silent_bind; [apply silent_delete|]. silence.
  - intros s. reflexivity.
  - apply silent_ret.
  - destruct c; cbn [command]; try (exfalso; apply H; exists x; tauto).
    all: repeat first [ apply silent_load | apply silent_save | apply silent_new | apply silent_ensure | apply silent_renumber | silence ].
    all: try (unfold vm_compile, list_program; repeat first [apply silent_ensure|apply silent_list|silence]).
  - exfalso. apply H. exists x. tauto.
Qed.
Lemma once_act E fuel m : once (act E fuel m).
Proof.
  assert (D : runs_something m \/ ~ runs_something m).
  { destruct m as [n t|x| |c x|x]; try (right; intros (r & [H|[H|H]]); discriminate H); [|left; exists x; tauto].
    destruct c; try (right; intros (r & [H|[H|H]]); discriminate H); left; exists x; tauto. }
  destruct D as [(rest & [-> | [-> | ->]])|D]; [| | |apply silent_once, silent_act, D]; cbn [act command].
  - apply once_after; [apply silent_mod; reflexivity|]. intros _. apply once_before; [apply once_program|]. intros _. apply silent_ret.
  - apply once_before; [apply once_continue|]. intros a. apply silent_bind; [destruct a; silence|]. intros _. apply silent_ret.
  - apply once_before; [apply once_immediate|]. intros _. apply silent_ret.
Qed.
Lemma means_once E fuel line s m : means line m ->
  match interpret E fuel line s with
  | XOk _ t => exists l, v_err (ss_vm t) = v_err (ss_vm s) ++ l /\ length l <= 1 /\ (l <> [] -> runs_something m)
  | _ => True
  end.
Proof.
  intros M. rewrite (interpret_means E fuel line m s M). pose proof (once_act E fuel m s) as H. pose proof (fun N => silent_act E fuel m N s) as K.
  destruct (act E fuel m s) as [a t| | |]; try exact Logic.I. destruct H as (l & L & H). exists l. split; [exact L|]. split; [exact H|]. intros N.
  assert (D : runs_something m \/ ~ runs_something m).
  { destruct m as [n t'|x| |c x|x]; try (right; intros (r & [X|[X|X]]); discriminate X); [|left; exists x; tauto].
    destruct c; try (right; intros (r & [X|[X|X]]); discriminate X); left; exists x; tauto. }
  destruct D as [D|D]; [exact D|]. exfalso. specialize (K D). cbn in K. rewrite L in K. apply N. apply (app_inv_head (v_err (ss_vm s))). rewrite app_nil_r. exact K.
Qed.

(* ---------- RUN ---------- *)

Lemma run_reports o E line rest s src xss st :
  in_step o s -> means line (MCommand C_RUN rest) -> c_source (v_stored (ss_vm s)) = Some src -> statements_of o src xss st -> acceptable_program xss st ->
  o_trace_basic o = false /\ o_trace_for o = false -> env_ok E -> rand_range E -> distinct_lines src -> next_break s = None ->
  forall n e s', steps E (numbered src xss) n (run_state st (numbered src xss) (ss_vm s)) = Erred e s' ->
  too_deep E line s \/ exists text, shown_for src xss (fst (x_spot s')) text /\
    exists m, forall fuel, m <= fuel -> exists t, interpret E fuel line s = XOk false t /\ v_err (ss_vm t) = v_err (ss_vm s) ++ [mkErr e (Some text)].
Proof.
  intros IS ML SS SO AP QO EO RR DL NB n e s' H. destruct (run_as o E line rest s src xss st IS ML SS SO AP QO EO RR DL NB n) as [D|R]; [left; exact D|right].
  rewrite H in R. cbn [runs_as] in R. destruct R as (text & F & m & R). exists text. split; [exact F|]. exists m. intros fuel LE. destruct (R fuel LE) as (t & T & D).
  exists t. split; [exact T|exact (d_err _ _ _ _ _ D)].
Qed.
Lemma shown_exactly src xss k text : no_functions xss -> shown_for src xss k text -> text = print_source_line src k.
Proof. intros N [H|(j & id & p & e & J & _)]; [exact H|destruct (N _ _ _ _ J)]. Qed.

(* ---------- the line ---------- *)

Lemma run_place o E line rest s src xss st :
  in_step o s -> means line (MCommand C_RUN rest) -> c_source (v_stored (ss_vm s)) = Some src -> statements_of o src xss st -> acceptable_program xss st -> distinct_lines src ->
  exists u, starts src (new_machine src (ss_vm s)) u /\
    forall l x e w, runs E u l x -> execute E x = (Fail e, w) -> internal e = false ->
      exists k, in_line xss k x /\ v_err w = v_err x ++ [mkErr e (Some (print_source_line src k))].
Proof.
  intros IS ML SS SO AP DL. destruct (begins_too o E line rest s src xss st IS ML SS SO) as (bc & idx & CO & IX & _). set (u := first_vm src st (ss_vm s) bc idx). exists u.
  split; [exact (at_starts o s src st IS bc idx CO IX)|]. intros l x e w R X I. pose proof (first_bcode o src xss st SO bc CO) as BC. pose proof SO as (bc' & st1 & C & PI & ST & B).
  assert (L : lined src xss bc idx u).
  { split; [|split].
    - constructor; [reflexivity|constructor|constructor].
    - apply lands_here; [|reflexivity]. split; [reflexivity|]. exists 0. split; [lia|]. destruct xss; reflexivity.
    - unfold fine_defs. change (v_st u) with st. eapply Forall_impl; [|exact (first_syms o src st bc CO)]. intros y (U & W & _).
      unfold wfits in W. destruct U as [K|[V D]]; [rewrite K in W; destruct (s_val y); try contradiction; exact Logic.I|rewrite V; exact Logic.I]. }
  apply (lined_runs E (sigs st) _ _ _ src xss bc idx (program_wstmt o src xss st SO AP) PI BC IX DL u l x R) in L.
  apply (lined_error E src xss bc idx BC x e w L X). destruct e; try reflexivity; discriminate I.
Qed.
