(* The line INPUT read last is never longer than a string may be (used in C38). *)
From Coq Require Import Lia ZifyBool ZifyNat ZifyN.
From Verif Require Import Base BaseLemmas Num SourceModel LineMapModel BcodeModel SymbolModel ParseModel VmModel VmLemmas VmSpec ControlProofs ValueSpec ValueProofs
  SessionModel MonitorModel SessionSpec.
Local Open Scope nat_scope.
Local Open Scope sess_scope.
Local Opaque init_builtins new_symbol_table parse_source.

Definition short (v : vm) : Prop := string_ok (v_input v).
Lemma short_keeps {A} (m : M A) : keeps v_input m -> inv short m.
Proof. intros K v H. unfold short in *. rewrite (K v). exact H. Qed.
Lemma short_exec E i : inv short (exec_instr E i).
Proof.
  destruct i; try solve [apply short_keeps; cbn [exec_instr]; repeat keeps_more].
  - cbn [exec_instr]. apply inv_bind; [apply short_keeps; repeat keeps_more|]. intros _. unfold adv. apply inv_bind; [|intros _; intros v H; exact H].
    intros v H. unfold modify. cbn [snd]. unfold fgets. destruct (v_in v) as [|c r]; [exact H|]. pose proof (fgets_loop_length (128 - 1) (c :: r)) as L.
    destruct (fgets_loop _ _) as [buf rest]. cbn [fst] in L. unfold short. cbn [set_input v_input]. pose proof (cstr_length buf). unfold string_ok. lia.
  - cbn [exec_instr]. intros v H. unfold bind at 1, get at 1. cbv zeta. revert v H. 
    assert (X : forall t, string_ok t -> inv short (bind (modify (fun w => set_input t (v_inp w) (v_input_pc w) (v_in w) w)) (fun _ => adv (set_string id params t)))).
    { intros t T. apply inv_bind; [intros v H; exact T|]. intros _. apply short_keeps. repeat keeps_more. }
    intros v H. apply X; [|exact H]. unfold short, string_ok in *. pose proof (span_length (fun c => negb (ceq c NL)) (v_input v)). lia.
Qed.
Lemma short_execute E : inv short (execute E).
Proof.
  intros v H. destruct (current v) as [i|] eqn:C; [|rewrite (execute_none E v C); exact H].
  rewrite (execute_eq E v i C). pose proof (short_exec E i v H) as X. destruct (exec_instr E i v) as [[[|]|e| |] w]; exact X.
Qed.
Lemma short_run E fuel brk : inv short (run E fuel brk).
Proof. apply run_inv; [apply short_execute| | |]; intros; assumption. Qed.

Definition xshort {A} (m : X A) : Prop :=
  forall s, short (ss_vm s) -> match m s with XOk _ t | XExit t | XCrash t | XNoFuel t => short (ss_vm t) end.
Lemma xs_ret {A} (a : A) : xshort (xret a).
Proof. intros s H. exact H. Qed.
Lemma xs_bind {A B} (m : X A) (k : A -> X B) : xshort m -> (forall a, xshort (k a)) -> xshort (xbind m k).
Proof. intros HM HK s H. unfold xbind. pose proof (HM s H) as X. destruct (m s) as [a t|t|t|t]; try exact X. exact (HK a t X). Qed.
Lemma xs_get : xshort get_vm.
Proof. intros s H. exact H. Qed.
Lemma xs_mod f : (forall v, v_input (f v) = v_input v) -> xshort (mod_vm f).
Proof. intros F s H. unfold mod_vm. cbn [ss_vm set_vm]. unfold short in *. rewrite F. exact H. Qed.
Lemma xs_say d : xshort (say d).
Proof. intros s H. exact H. Qed.
Lemma xs_exit {A} : xshort (@xexit A).
Proof. intros s H. exact H. Qed.
Lemma xs_crash {A} : xshort (@xcrash A).
Proof. intros s H. exact H. Qed.
Lemma xs_fuel {A} : xshort (fun s => @XNoFuel A s).
Proof. intros s H. exact H. Qed.
Lemma xs_out b : xshort (out b).
Proof. apply xs_mod. reflexivity. Qed.
Lemma xs_run {A} (m : option nat -> M A) d : (forall b, inv short (m b)) -> xshort (with_run m d).
Proof.
  intros HM s H. unfold with_run. pose proof (HM (match ss_brk s with b :: _ => b | [] => None end) (ss_vm s) H) as X.
  destruct (m _ (ss_vm s)) as [[a|e| |] v]; exact X.
Qed.
Lemma xs_compile src kw : xshort (compile src kw).
Proof. intros s H. unfold compile. destruct (parse_source _ _ _) as [bc [e|] st| | |]; exact H. Qed.
Ltac xs_step := first
  [ apply xs_ret | apply xs_get | apply xs_say | apply xs_exit | apply xs_crash | apply xs_fuel | apply xs_out | apply xs_compile
  | apply xs_mod; intros ?; repeat match goal with |- context [match ?x with _ => _ end] => destruct x end; reflexivity
  | apply xs_bind; [|intros ?]
  | match goal with |- xshort (match ?x with _ => _ end) => destruct x end ].
Lemma xs_ensure : xshort ensure_program_compiled.
Proof. unfold ensure_program_compiled, vm_clear_names. repeat xs_step. Qed.
Lemma xs_list src : forall a b p c, xshort (list_loop src a b p c).
Proof. induction src as [|l r IH]; intros a b p c; cbn [list_loop]; unfold await_newline; repeat first [apply IH|xs_step]. Qed.
Lemma xs_command E fuel c r : xshort (command E fuel c r).
Proof.
  destruct c; unfold command, vm_compile, continue_program, vm_new_program, vm_clear_names, vm_clear_values, list_program, renumber, run_program, check_eol; repeat first [apply xs_ensure|apply xs_list|xs_step].
  - apply xs_run. intros b. unfold vm_continue. apply inv_bind; [intros v H; exact H|]. intros v0. destruct (cs_code (v_stopcs v0)) as [r0|]; [|intros v H; exact H].
    destruct (c_bcode _) as [bc|]; [|intros v H; exact H]. cbv zeta. apply inv_bind; [destruct (nth_error _ _); intros v H; exact H|]. intros i.
    apply inv_bind; [intros v H; exact H|]. intros _. apply inv_bind; [apply short_run|]. intros _ v H. exact H.
  - intros s H. unfold vm_load_source. destruct (ss_fs s _); [|exact H]. destruct (load_source _); exact H.
  - apply xs_run. intros brk. apply short_run.
  - intros s H. unfold vm_save_source. destruct (stored_source _); exact H.
Qed.
Lemma xs_interpret E fuel line : xshort (interpret E fuel line).
Proof.
  unfold interpret, program_line, oscli, immediate, vm_delete_source_line, vm_enter_source_line, run_immediate.
  repeat first [apply xs_command|apply xs_ensure|xs_step|intros s H; exact H].
  all: apply xs_run; intros brk; apply short_run.
Qed.
Lemma session_short o ok s : session o ok s -> string_ok (v_input (ss_vm s)).
Proof.
  intros H. change (short (ss_vm s)). induction H as [stdin fs brk | seed stdin fs brk | E fuel line s s' H IH OK I | s s' H IH W].
  - unfold short, string_ok. cbn. lia.
  - unfold short, string_ok. cbn. lia.
  - pose proof (xs_interpret E fuel line s IH) as X. rewrite I in X. exact X.
  - destruct W. exact IH.
Qed.
