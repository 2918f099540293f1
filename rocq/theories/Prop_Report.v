(* A run-time error is reported once, with the line of the program in which it
   is met (C43). *)
From Coq Require Import Lia ZifyBool ZifyNat ZifyN SpecFloat.
From Verif Require Import Base BaseLemmas Num NumSpec SourceModel LineMapModel BcodeModel SymbolModel SymbolSpec LexModel ParseModel
  GrammarSpec LineSpec VmModel VmSpec OpSpec VmTyping ValueSpec EvalSpec StepSpec SessionModel MonitorModel MonSpec MonProofs SessionSpec TypedProofs RunSpec SafeSpec ReportSpec ReportProofs Examples Prop_Session Prop_Step.
Local Open Scope nat_scope.
Local Open Scope list_scope.

(* Where the statements of the program say that RUN ends with an error, one
   error is reported, that one, with the number and the text of the line of the
   statement, or those of the DEF in whose function the error is met. *)
Theorem C43_line : forall o E line rest s src xss st,
  in_step o s -> means line (MCommand C_RUN rest) -> c_source (v_stored (ss_vm s)) = Some src -> statements_of o src xss st -> acceptable_program xss st ->
  o_trace_basic o = false /\ o_trace_for o = false -> env_ok E -> rand_range E -> distinct_lines src -> next_break s = None ->
  forall n e s', steps E (numbered src xss) n (run_state st (numbered src xss) (ss_vm s)) = Erred e s' ->
  too_deep E line s \/ exists text, shown_for src xss (fst (x_spot s')) text /\
    exists m, forall fuel, m <= fuel -> exists t, interpret E fuel line s = XOk false t /\ v_err (ss_vm t) = v_err (ss_vm s) ++ [mkErr e (Some text)].
Proof. exact run_reports. Qed.
Print Assumptions C43_line.

(* In a program without DEF it is always the line of the statement. *)
Theorem C43_exactly : forall src xss k text, no_functions xss -> shown_for src xss k text -> text = print_source_line src k.
Proof. exact shown_exactly. Qed.
Print Assumptions C43_exactly.

(* Whatever is typed and whatever the state of the session, one error at most
   is reported, and none unless something was to be run. *)
Theorem C43_once : forall E fuel line s m, means line m ->
  match interpret E fuel line s with
  | XOk _ t => exists l, v_err (ss_vm t) = v_err (ss_vm s) ++ l /\ length l <= 1 /\ (l <> [] -> runs_something m)
  | _ => True
  end.
Proof. exact means_once. Qed.
Print Assumptions C43_once.

(* In every execution that begins as RUN begins, an error is reported with the
   line in which execution is: that of the statement, or that of the DEF while
   its function is being computed. *)
Theorem C43_place : forall o E line rest s src xss st,
  in_step o s -> means line (MCommand C_RUN rest) -> c_source (v_stored (ss_vm s)) = Some src -> statements_of o src xss st -> acceptable_program xss st -> distinct_lines src ->
  exists u, starts src (new_machine src (ss_vm s)) u /\
    forall l x e w, runs E u l x -> execute E x = (Fail e, w) -> internal e = false ->
      exists k, in_line xss k x /\ v_err w = v_err x ++ [mkErr e (Some (print_source_line src k))].
Proof. exact run_place. Qed.
Print Assumptions C43_place.

(* ---------- not vacuous ---------- *)

Definition ex_extra : list bytes := [lit "10 FOR I=1 TO 3"; lit "20 NEXT"; lit "30 NEXT"].
Definition ex_extra_src : source := [mkLine 10 (lit "FOR I=1 TO 3"); mkLine 20 (lit "NEXT"); mkLine 30 (lit "NEXT")].
Definition ex_extra_stmts : list (list stmt) := [[SFor ex_id (ENum fone) (ENum ex_three) None]; [SNext []]; [SNext []]].
Lemma ex_extra_is : statements_of ex_opt ex_extra_src ex_extra_stmts (sym_make_unknown_array ex_table1).
Proof.
  assert (X : compiling ex_opt ex_extra_src = PoOk (Some (mkBcode (pcode 0 ex_extra_stmts) false)) None (sym_make_unknown_array ex_table1)) by (vm_compute; reflexivity).
  eexists _, ex_table1. split; [exact X|]. split; [|split; reflexivity].
  econstructor; [apply ex_line1|]. econstructor; [apply ex_line3|]. econstructor; [apply ex_line3|]. constructor.
Qed.
Definition ex_extra_at : sess := ex_typed ex_extra [].
Definition ex_extra_run : state := run_state (sym_make_unknown_array ex_table1) (numbered ex_extra_src ex_extra_stmts) (ss_vm ex_extra_at).
Example C43_ex : in_step ex_opt ex_extra_at /\ c_source (v_stored (ss_vm ex_extra_at)) = Some ex_extra_src /\
  acceptable_program ex_extra_stmts (sym_make_unknown_array ex_table1) /\ distinct_lines ex_extra_src /\ next_break ex_extra_at = None /\ no_functions ex_extra_stmts /\
  exists t, steps ex_env (numbered ex_extra_src ex_extra_stmts) 15 ex_extra_run = Erred (RE_next_without_for None) t /\ fst (x_spot t) = 2.
Proof.
  split; [left; apply ex_session; [repeat (constructor; [apply not_renum; vm_compute; reflexivity|]); constructor|vm_compute; reflexivity]|].
  split; [vm_compute; reflexivity|]. split; [split; [vm_compute; discriminate|]; split; repeat constructor|]. split.
  - apply (session_increasing ex_opt ex_extra_at); [|vm_compute; reflexivity]. apply ex_session; [repeat (constructor; [apply not_renum; vm_compute; reflexivity|]); constructor|vm_compute; reflexivity].
  - split; [reflexivity|]. split.
    + intros j id p e H. unfold line_stmts, ex_extra_stmts in H. destruct j as [|[|[|[|j]]]]; cbn [nth In] in H; repeat (destruct H as [H|H]; [discriminate H|]); exact H.
    + eexists. split; [vm_compute; reflexivity|reflexivity].
Qed.
Definition reported (typed : list bytes) (line : bytes) : option (list errev) :=
  match interpret ex_env 300 line (ex_typed typed []) with XOk false t => Some (v_err (ss_vm t)) | _ => None end.
Example C43_ex_line : reported ex_extra (lit "RUN") = Some [mkErr (RE_next_without_for None) (Some (lit "30 NEXT"))].
Proof. vm_compute. reflexivity. Qed.
(* the error of a function is that of the line of its DEF *)
Example C43_ex_function : reported [lit "10 DEF FNA(X)=LOG(X)"; lit "20 PRINT FNA(4)+FNA(-4)"] (lit "RUN") = Some [mkErr RE_log (Some (lit "10 DEF FNA(X)=LOG(X)"))].
Proof. vm_compute. reflexivity. Qed.
(* so is an error in INPUT, after an answer that had to be given again *)
Example C43_ex_input :
  match typed ex_env 200 [lit "10 DIM A(3)"; lit "20 PRINT 1"; lit "30 INPUT A(9)"; lit "RUN"] (new_session ex_opt (lit "X" ++ [NL] ++ lit "5" ++ [NL]) no_files []) with
  | Some t => v_err (ss_vm t) = [mkErr (RE_subscript (lit "A")) (Some (lit "30 INPUT A(9)"))] /\ v_in (ss_vm t) = []
  | None => False
  end.
Proof. vm_compute. split; reflexivity. Qed.
(* the machine in which the error is met *)
Fixpoint ex_until (n : nat) (v : vm) : option (rterr * vm) :=
  match n with
  | O => None
  | S n => match execute ex_env v with (Ok _, w) => ex_until n w | (Fail e, _) => Some (e, v) | _ => None end
  end.
Lemma ex_until_runs : forall n v e x, ex_until n v = Some (e, x) -> exists l w, runs ex_env v l x /\ execute ex_env x = (Fail e, w).
Proof.
  induction n as [|n IH]; intros v e x H; [discriminate H|]. cbn [ex_until] in H. destruct (execute ex_env v) as [[[]|e'| |] w] eqn:X; try discriminate H.
  - destruct (IH w e x H) as (l & w' & R & F). exists (v :: l), w'. split; [econstructor; [exact X|exact R]|exact F].
  - injection H as -> ->. exists [], w. split; [constructor|exact X].
Qed.
Definition ex_begun (typed : list bytes) : option vm :=
  match ensure_program_compiled (ex_typed typed []) with XOk true t => Some (set_stopped false (set_cs (mkCs (Some CStored) 0 0) (reset_control_state (ss_vm t)))) | _ => None end.
Example C43_ex_place :
  exists u l x w, ex_begun ex_extra = Some u /\ runs ex_env u l x /\ execute ex_env x = (Fail (RE_next_without_for None), w) /\ internal (RE_next_without_for None) = false /\ in_line ex_extra_stmts 2 x.
Proof.
  - destruct (ex_begun ex_extra) as [u|] eqn:U; [|vm_compute in U; discriminate U]. exists u.
    assert (H : option_map (fun p => (fst p, v_cs (snd p))) (ex_until 100 u) = Some (RE_next_without_for None, mkCs (Some CStored) 2 8)).
    { assert (Y : option_map (fun p => (fst p, v_cs (snd p))) match ex_begun ex_extra with Some u => ex_until 100 u | None => None end = Some (RE_next_without_for None, mkCs (Some CStored) 2 8)) by (vm_compute; reflexivity).
      rewrite U in Y. exact Y. }
    destruct (ex_until 100 u) as [[e x]|] eqn:X; [|discriminate H]. injection H as He Hx. cbn [fst snd] in He, Hx. subst e. destruct (ex_until_runs _ _ _ _ X) as (l & w & R & F).
    exists l, x, w. split; [reflexivity|]. split; [exact R|]. split; [exact F|]. split; [reflexivity|]. apply IL_statement; rewrite Hx; [reflexivity|]. unfold in_code. cbn. lia.
Qed.
